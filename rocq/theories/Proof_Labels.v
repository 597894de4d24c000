From Coq Require Import String Ascii DecimalString DecimalZ DecimalFacts.
From Verif Require Import Model_Strings Spec_Music Spec_Text Proof_Base Proof_Codec Proof_Strings.
From Coq Require Import List.
Import ListNotations.
Ltac Zify.zify_post_hook ::= Z.div_mod_to_equations.
Open Scope Z_scope.

(* --- decimal text ---------------------------------------------------------- *)
Lemma z_to_str_decimal z : is_decimal_of (z_to_str z) z.
Proof.
  unfold is_decimal_of, z_to_str, L. rewrite string_of_list_ascii_of_string.
  exists (Z.to_int z). split; [|apply DecimalZ.of_to].
  apply NilZero.isi. 
  - destruct z as [|p|p]; simpl; [discriminate| |].
    + intros E. apply (f_equal Z.of_int) in E. 
      change (Z.of_int (Z.to_int (Z.pos p)) = 0) in E. rewrite DecimalZ.of_to in E. discriminate.
    + discriminate.
  - destruct z as [|p|p]; simpl; [discriminate|discriminate|].
    intros E. apply (f_equal Z.of_int) in E.
    change (Z.of_int (Z.to_int (Z.neg p)) = 0) in E. rewrite DecimalZ.of_to in E. discriminate.
Qed.

Lemma is_decimal_inj s a b : is_decimal_of s a -> is_decimal_of s b -> a = b.
Proof. intros (d & E & <-) (d' & E' & <-). congruence. Qed.

Lemma z_to_str_inj a b : z_to_str a = z_to_str b -> a = b.
Proof.
  intros E. apply (is_decimal_inj (z_to_str a)); [apply z_to_str_decimal|].
  rewrite E. apply z_to_str_decimal.
Qed.

(* the characters used *)
Definition num_char (c : ascii) : Prop := char_is_digit c = true \/ c = "-"%char.

Lemma string_of_uint_chars u :
  Forall (fun c => char_is_digit c = true) (list_ascii_of_string (NilEmpty.string_of_uint u)).
Proof. induction u; simpl; constructor; auto. Qed.

Lemma nilzero_uint_chars u :
  Forall (fun c => char_is_digit c = true) (list_ascii_of_string (NilZero.string_of_uint u)).
Proof.
  destruct u; try apply (string_of_uint_chars _); simpl; repeat constructor.
Qed.

Lemma z_to_str_chars z : Forall num_char (z_to_str z).
Proof.
  unfold z_to_str, L. destruct (Z.to_int z) as [u|u]; simpl.
  - eapply Forall_impl; [|apply nilzero_uint_chars]. intros c H; left; exact H.
  - constructor; [right; reflexivity|].
    eapply Forall_impl; [|apply nilzero_uint_chars]. intros c H; left; exact H.
Qed.

Lemma z_to_str_nonempty z : z_to_str z <> [].
Proof.
  intros E. assert (H := z_to_str_decimal z). rewrite E in H.
  destruct H as (d & H & _). discriminate.
Qed.

Lemma num_char_not_letter c v : num_char c -> letter_fifths c <> Some v.
Proof.
  intros [H| ->]; [|discriminate]. intros E. apply letter_cases in E. simpl in E.
  repeat (destruct E as [E|E]; [injection E as <- <-; discriminate H|]). contradiction.
Qed.

Lemma num_char_not_colon c : num_char c -> c <> ":"%char.
Proof. intros [H| ->] E; [subst; discriminate|discriminate]. Qed.

(* --- splitting at the first separator --------------------------------------- *)
Lemma first_sep_inj (sep : ascii) a b x y :
  ~ In sep a -> ~ In sep b -> a ++ sep :: x = b ++ sep :: y -> a = b /\ x = y.
Proof.
  revert b; induction a as [|c a IH]; intros [|d b] Ha Hb E; simpl in *.
  - injection E as ->; auto.
  - injection E as <- _. tauto.
  - injection E as <- _. tauto.
  - injection E as <- E. destruct (IH b) as [-> ->]; tauto.
Qed.

Lemma type_text_eq t : get_chord_string t = list_ascii_of_string (type_text t).
Proof. destruct t; reflexivity. Qed.

Lemma type_text_no_comma t : ~ In ","%char (get_chord_string t).
Proof. destruct t; simpl; intuition discriminate. Qed.

Lemma get_chord_string_inj t u : get_chord_string t = get_chord_string u -> t = u.
Proof. destruct t, u; intros H; try reflexivity; discriminate H. Qed.

Lemma chord_label_inj a b t u i j :
  ~ In ":"%char a -> ~ In ":"%char b ->
  chord_label a t i = chord_label b u j -> a = b /\ t = u /\ i = j.
Proof.
  intros Ha Hb E. unfold chord_label in E.
  change (L":" ++ ?x) with (":"%char :: x) in E.
  apply first_sep_inj in E as [-> E]; [|assumption|assumption].
  split; [reflexivity|].
  destruct i as [i|], j as [j|].
  - change (L", inv:" ++ ?x) with (","%char :: (L" inv:" ++ x)) in E.
    apply first_sep_inj in E as [Et E]; try apply type_text_no_comma.
    apply get_chord_string_inj in Et. apply app_inv_head in E. apply z_to_str_inj in E.
    subst; auto.
  - exfalso. rewrite app_nil_r in E. apply (type_text_no_comma u). rewrite <- E.
    apply in_app_iff; right; left; reflexivity.
  - exfalso. rewrite app_nil_r in E. apply (type_text_no_comma t). rewrite E.
    apply in_app_iff; right; left; reflexivity.
  - rewrite !app_nil_r in E. apply get_chord_string_inj in E. subst; auto.
Qed.

(* --- mapM over a total function ---------------------------------------------- *)
Lemma mapM_total {A B} (f : A -> res B) (g : A -> B) l :
  (forall a, In a l -> f a = Ok (g a)) -> mapM f l = Ok (map g l).
Proof.
  induction l as [|a l IH]; intros H; simpl; [reflexivity|].
  rewrite H by (left; reflexivity). simpl. rewrite IH by (intros; apply H; right; assumption).
  reflexivity.
Qed.

Definition ok_or {A} (d : A) (r : res A) : A := match r with Ok a => a | Raise _ => d end.

Lemma get_pitch_string_total p pt : exists s, get_pitch_string p pt = Ok s.
Proof.
  destruct pt.
  - destruct (tpc_roundtrip p) as (s & E & _); eauto.
  - destruct (midi_roundtrip p) as (s & E & _); eauto.
Qed.

Lemma get_pitch_string_colon p pt s : get_pitch_string p pt = Ok s -> ~ In ":"%char s.
Proof.
  destruct pt; intros E.
  - destruct (tpc_string_spells p) as (c & v & sh & fl & E' & Hc & _).
    rewrite E in E'. injection E' as ->. intros H. destruct H as [H|H].
    + subst c. discriminate.
    + apply in_app_iff in H as [H|H]; apply repeat_spec in H; discriminate.
  - unfold get_pitch_string in E. change (NUM_PITCHES MIDI) with 12 in E.
    assert (H : 0 <= p mod 12 < 12) by lia. generalize dependent (p mod 12). intros q E Hq.
    apply twelve in Hq.
    repeat (destruct Hq as [->|Hq]; [injection E as <-; simpl; intuition discriminate|]).
    subst; injection E as <-; simpl; intuition discriminate.
Qed.

(* the text of a root or tonic *)
Definition root_text_fun (pt : pitch_type) (relative : bool) (relative_to : option Z) (root : Z)
  : pystr :=
  if relative then ok_or [] (relative_root_string pt relative_to root)
  else ok_or [] (get_pitch_string root pt).

Lemma relative_root_string_total pt rto root :
  relative_root_string pt rto root = Ok (root_text_fun pt true rto root).
Proof.
  unfold root_text_fun, relative_root_string. destruct rto as [k|]; [|reflexivity].
  destruct pt; unfold transpose_pitch; cbn [bind].
  - destruct (_ || _); cbn [bind]; [reflexivity|].
    destruct (get_pitch_string_total (root + k) TPC) as [s E]. rewrite E. reflexivity.
  - destruct (get_pitch_string_total ((root + k) mod NUM_PITCHES MIDI) MIDI) as [s E].
    rewrite E. reflexivity.
Qed.

Lemma root_text_ok pt rel rto root :
  (rel = false -> 0 <= root < pitch_count pt) ->
  root_text_spec pt rel rto root (root_text_fun pt rel rto root)
  /\ ~ In ":"%char (root_text_fun pt rel rto root).
Proof.
  assert (Knum : forall z, ~ In ":"%char (z_to_str z)).
  { intros z H. pose proof (z_to_str_chars z) as F. rewrite Forall_forall in F.
    apply F in H. apply num_char_not_colon in H. congruence. }
  intros Hr. unfold root_text_fun, root_text_spec. destruct rel.
  - unfold relative_root_string. destruct rto as [k|].
    2: { cbn [ok_or]. split; [apply z_to_str_decimal|apply Knum]. }
    destruct pt; unfold transpose_pitch; cbn [bind].
    + change (NUM_PITCHES TPC) with 35.
      destruct ((root + k <? 0) || (35 <=? root + k)) eqn:E.
      * destruct ((0 <=? root + k) && (root + k <? 35)) eqn:E2; [lia|]. cbn [bind ok_or].
        split; [apply z_to_str_decimal|apply Knum].
      * destruct ((0 <=? root + k) && (root + k <? 35)) eqn:E2; [|lia]. cbn [bind].
        destruct (tpc_roundtrip (root + k)) as (s & Es & Ep). rewrite Es. cbn [ok_or].
        rewrite E2 in Ep. split; [exact Ep|eapply get_pitch_string_colon; eauto].
    + destruct (midi_roundtrip ((root + k) mod NUM_PITCHES MIDI)) as (s & Es & Ep). rewrite Es.
      cbn [ok_or]. split; [rewrite Ep; f_equal; change (NUM_PITCHES MIDI) with 12; lia
                          |eapply get_pitch_string_colon; eauto].
  - specialize (Hr eq_refl). destruct pt; cbn [pitch_count] in Hr.
    + destruct (tpc_roundtrip root) as (s & Es & Ep). rewrite Es. cbn [ok_or].
      destruct ((0 <=? root) && (root <? 35)) eqn:E2; [|lia].
      split; [exact Ep|eapply get_pitch_string_colon; eauto].
    + destruct (midi_roundtrip root) as (s & Es & Ep). rewrite Es. cbn [ok_or].
      split; [rewrite Ep; f_equal; lia|eapply get_pitch_string_colon; eauto].
Qed.

(* an accepted pitch string starts with a letter, so it is not a number *)
Lemma pitch_not_number s p z : get_pitch_from_string s TPC = Ok p -> is_decimal_of s z ->
  (exists r, s = z_to_str r) -> False.
Proof.
  intros Hp _ [r ->]. apply tpc_accepted_is_spelling in Hp as (c & v & sh & fl & Hc & E & _).
  pose proof (z_to_str_chars r) as F. rewrite E in F. inversion F; subst.
  eapply num_char_not_letter; eauto.
Qed.

Lemma int_of_uint_none c s : char_is_digit c = false ->
  NilEmpty.uint_of_string (String c s) = None.
Proof.
  intros H. unfold NilEmpty.uint_of_string; fold NilEmpty.uint_of_string.
  destruct c as [b0 b1 b2 b3 b4 b5 b6 b7].
  destruct b0, b1, b2, b3, b4, b5, b6, b7; try discriminate H; destruct (NilEmpty.uint_of_string s); reflexivity.
Qed.

Lemma decimal_not_pitch s p z : get_pitch_from_string s TPC = Ok p -> is_decimal_of s z -> False.
Proof.
  intros Hp (d & E & _). apply tpc_accepted_is_spelling in Hp as (c & v & sh & fl & Hc & -> & _).
  assert (N : char_is_digit c = false /\ c <> "-"%char).
  { apply letter_cases in Hc. simpl In in Hc.
    repeat (destruct Hc as [Hc|Hc]; [injection Hc as <- <-; split; [reflexivity|discriminate]|]).
    contradiction. }
  destruct N as [N1 N2]. unfold spelling in E. cbn [string_of_list_ascii] in E.
  unfold NilZero.int_of_string in E.
  rewrite (proj2 (Ascii.eqb_neq _ _) N2) in E.
  unfold NilZero.uint_of_string in E. rewrite int_of_uint_none in E by exact N1. discriminate.
Qed.

Definition root_domain (pt : pitch_type) (rel : bool) (root : Z) : Prop :=
  (rel = false \/ pt = MIDI) -> 0 <= root < pitch_count pt.

Lemma root_text_inj pt rel rto a b s :
  root_domain pt rel a -> root_domain pt rel b ->
  root_text_spec pt rel rto a s -> root_text_spec pt rel rto b s -> a = b.
Proof.
  unfold root_text_spec, root_domain. intros Da Db Ha Hb. destruct rel; [|congruence].
  destruct rto as [k|]; [|eapply is_decimal_inj; eauto].
  destruct pt.
  - destruct (_ && _) eqn:Ea in Ha; destruct (_ && _) eqn:Eb in Hb.
    + rewrite Ha in Hb. apply Ok_inj in Hb. lia.
    + exfalso; eapply decimal_not_pitch; eauto.
    + exfalso; eapply decimal_not_pitch; eauto.
    + eapply is_decimal_inj; eauto.
  - rewrite Ha in Hb. apply Ok_inj in Hb.
    specialize (Da (or_intror eq_refl)). specialize (Db (or_intror eq_refl)). cbn [pitch_count] in *.
    lia.
Qed.

Lemma decode_roots_domain pt rel pad r : In r (decode_roots pt rel pad) -> root_domain pt rel r.
Proof.
  unfold root_domain. destruct pt, rel, pad; cbn [decode_roots]; intros H D;
    apply in_zrange in H;
    unfold NUM_PITCHES, MIN_RELATIVE_TPC, MAX_RELATIVE_TPC, RELATIVE_TPC_EXTRA in H;
    cbn [pitch_count]; destruct D; try discriminate; lia.
Qed.

Lemma root_strings_eq pt rel pad rto :
  root_strings pt rel pad rto
  = Ok (map (root_text_fun pt rel rto) (decode_roots pt rel pad)).
Proof.
  unfold root_strings. destruct rel.
  - apply mapM_total. intros r _. apply relative_root_string_total.
  - apply mapM_total. intros r _. unfold root_text_fun.
    destruct (get_pitch_string_total r pt) as [s ->]. reflexivity.
Qed.

Lemma map_flat_map {A B C} (g : B -> C) (f : A -> list B) l :
  map g (flat_map f l) = flat_map (fun x => map g (f x)) l.
Proof. induction l; simpl; [reflexivity|]. rewrite map_app, IHl. reflexivity. Qed.

Lemma flat_map_map {A B C} (g : A -> B) (f : B -> list C) l :
  flat_map f (map g l) = flat_map (fun x => f (g x)) l.
Proof. induction l; simpl; [reflexivity|]. rewrite IHl. reflexivity. Qed.

Definition chord_label_of pt (ui rel : bool) rto (e : Z * chord_type * Z) : pystr :=
  let '(root, t, inv) := e in
  chord_label (root_text_fun pt rel rto root) t (if ui then Some inv else None).

Lemma chord_labels_eq pt ui rel rto pad red :
  get_chord_label_list pt ui rel rto pad red
  = Ok (map (chord_label_of pt ui rel rto) (chord_list pt ui rel pad red)).
Proof.
  unfold get_chord_label_list. rewrite root_strings_eq. cbn [bind]. f_equal.
  unfold chord_list. rewrite map_flat_map. apply flat_map_ext. intros t.
  rewrite map_flat_map, flat_map_map. apply flat_map_ext. intros r.
  rewrite map_map. destruct ui; cbn [map]; [|reflexivity].
  rewrite map_map. reflexivity.
Qed.

Lemma chord_list_nodup pt ui rel pad red : NoDup (chord_list pt ui rel pad red).
Proof.
  apply NoDup_nth_error. intros i j Hi E.
  set (l := chord_list pt ui rel pad red) in *.
  destruct (nth_error l i) as [[[root t] inv]|] eqn:Ei.
  2: { apply nth_error_None in Ei. lia. }
  symmetry in E.
  assert (Hj : (j < length l)%nat) by (apply nth_error_Some; congruence).
  assert (K : forall k, (k < length l)%nat -> nth_error l k = Some (root, t, inv) ->
     forall u, red u = t ->
     get_chord_one_hot_index u (root - root_offset pt rel pad) pt inv ui rel pad red = Ok (Z.of_nat k)).
  { intros k Hk Ek u Hu.
    destruct (decode_encode (Z.of_nat k) pt ui rel pad red) as (r' & t' & i' & E1 & _ & E2).
    { rewrite <- chord_list_length. fold l. unfold zlen. lia. }
    unfold get_chord_from_one_hot_index in E1. fold l in E1.
    rewrite (py_nth_pos l (Z.of_nat k) (root, t, inv)) in E1; [|lia|rewrite Nat2Z.id; exact Ek].
    injection E1 as <- <- <-. apply E2, Hu. }
  assert (Hu : exists u, red u = t).
  { apply nth_error_In in Ei. unfold l, chord_list in Ei. apply in_flat_map in Ei as (t' & Ht & Hin).
    apply in_flat_map in Hin as (r' & _ & Hin). apply in_map_iff in Hin as (i' & Heq & _).
    injection Heq as _ <- _. apply in_reduced_types, Ht. }
  destruct Hu as [u Hu].
  pose proof (K i Hi Ei u Hu) as K1. pose proof (K j Hj E u Hu) as K2.
  rewrite K1 in K2. apply Ok_inj in K2. lia.
Qed.

Lemma chord_list_entry pt ui rel pad red root t inv :
  In (root, t, inv) (chord_list pt ui rel pad red) ->
  In root (decode_roots pt rel pad) /\ (ui = false -> inv = 0).
Proof.
  intros H. unfold chord_list in H. apply in_flat_map in H as (t' & Ht & Hin).
  apply in_flat_map in Hin as (r' & Hr & Hin). apply in_map_iff in Hin as (i' & Heq & Hi).
  injection Heq as <- <- <-. split; [exact Hr|]. intros ->. destruct Hi as [<-|[]]; reflexivity.
Qed.

Lemma NoDup_map_inj {A B} (f : A -> B) l :
  (forall a b, In a l -> In b l -> f a = f b -> a = b) -> NoDup l -> NoDup (map f l).
Proof.
  induction l as [|a l IH]; intros Hinj Hnd; simpl; [constructor|].
  inversion Hnd as [|? ? Hx Hl]; subst. constructor.
  - intros H. apply in_map_iff in H as (b & E & Hb). apply Hx.
    rewrite <- (Hinj b a); [exact Hb|right; exact Hb|left; reflexivity|exact E].
  - apply IH; [|exact Hl]. intros; apply Hinj; auto; right; assumption.
Qed.

Theorem chord_labels_aligned pt ui rel rto pad red :
  exists labels,
    get_chord_label_list pt ui rel rto pad red = Ok labels
    /\ zlen labels = get_chord_vector_length pt true rel ui pad red
    /\ NoDup labels
    /\ forall i root t inv,
         0 <= i ->
         get_chord_from_one_hot_index i pt ui rel pad red = Ok (root, t, inv) ->
         exists root_text inv_text,
           nth_error labels (Z.to_nat i) =
             Some (root_text ++ ":"%char :: list_ascii_of_string (type_text t) ++
                   if ui then list_ascii_of_string ", inv:" ++ inv_text else [])
           /\ root_text_spec pt rel rto root root_text
           /\ is_decimal_of inv_text inv.
Proof.
  eexists. split; [apply chord_labels_eq|]. split; [|split].
  - rewrite zlen_map. apply chord_list_length.
  - apply NoDup_map_inj; [|apply chord_list_nodup].
    intros [[r1 t1] i1] [[r2 t2] i2] H1 H2 E.
    apply chord_list_entry in H1 as [H1 I1]. apply chord_list_entry in H2 as [H2 I2].
    apply decode_roots_domain in H1. apply decode_roots_domain in H2.
    assert (D1 : rel = false -> 0 <= r1 < pitch_count pt) by (intros; apply H1; auto).
    assert (D2 : rel = false -> 0 <= r2 < pitch_count pt) by (intros; apply H2; auto).
    destruct (root_text_ok pt rel rto r1 D1) as [S1 C1].
    destruct (root_text_ok pt rel rto r2 D2) as [S2 C2].
    unfold chord_label_of in E. apply chord_label_inj in E as (Er & -> & Ei); [|assumption|assumption].
    rewrite Er in S1. assert (r1 = r2) as -> by exact (root_text_inj pt rel rto r1 r2 _ H1 H2 S1 S2).
    destruct ui; [injection Ei as ->; reflexivity|]. rewrite I1, I2; reflexivity.
  - intros i root t inv Hi E. unfold get_chord_from_one_hot_index in E.
    destruct (py_nth_ok_inv _ _ _ E) as [[_ En]|[? _]]; [|lia].
    exists (root_text_fun pt rel rto root), (z_to_str inv).
    split; [|split].
    + rewrite nth_error_map, En. cbn [option_map]. unfold chord_label_of, chord_label.
      rewrite type_text_eq. destruct ui; reflexivity.
    + apply root_text_ok. intros ->.
      apply nth_error_In, chord_list_entry in En as [En _].
      apply decode_roots_domain in En. apply En. auto.
    + apply z_to_str_decimal.
Qed.

(* --- key labels --------------------------------------------------------------- *)

Lemma char_lower_letter c v : letter_fifths c = Some v -> letter_fifths (char_lower c) = Some v.
Proof.
  intros H; apply letter_cases in H; simpl In in H.
  repeat (destruct H as [H|H]; [injection H as <- <-; reflexivity|]); contradiction.
Qed.

Lemma str_lower_repeat c n : char_lower c = c -> str_lower (repeat c n) = repeat c n.
Proof. intros H. unfold str_lower. rewrite map_repeat || idtac. induction n; simpl; congruence. Qed.

Lemma str_lower_spelling c sh fl :
  str_lower (spelling c sh fl) = spelling (char_lower c) sh fl.
Proof.
  unfold spelling. unfold str_lower at 1. cbn [map]. rewrite map_app. f_equal. f_equal;
  apply str_lower_repeat; reflexivity.
Qed.

Lemma lower_num_char c : num_char c -> char_lower c = c.
Proof.
  intros [H| ->]; [|reflexivity]. destruct c as [b0 b1 b2 b3 b4 b5 b6 b7].
  destruct b0, b1, b2, b3, b4, b5, b6, b7; try discriminate H; reflexivity.
Qed.

Lemma str_lower_num s : Forall num_char s -> str_lower s = s.
Proof. induction 1; simpl; [reflexivity|]. rewrite IHForall, lower_num_char by assumption. reflexivity. Qed.


(* lower-casing a tonic text keeps what it says *)
Lemma root_text_lower pt rel rto root :
  (rel = false -> 0 <= root < pitch_count pt) ->
  root_text_spec pt rel rto root (str_lower (root_text_fun pt rel rto root))
  /\ ~ In ":"%char (str_lower (root_text_fun pt rel rto root)).
Proof.
  intros Hr. destruct (root_text_ok pt rel rto root Hr) as [S C].
  assert (Kc : forall s, ~ In ":"%char s -> ~ In ":"%char (str_lower s)).
  { intros s H Hin. unfold str_lower in Hin. apply in_map_iff in Hin as (c & E & Hc).
    apply H. assert (c = ":"%char) as <-; [|exact Hc].
    destruct c as [b0 b1 b2 b3 b4 b5 b6 b7].
    destruct b0, b1, b2, b3, b4, b5, b6, b7; vm_compute in E; try discriminate E; reflexivity. }
  split; [|apply Kc, C].
  assert (Kd : str_lower (z_to_str root) = z_to_str root) by (apply str_lower_num, z_to_str_chars).
  assert (Kt : forall p, get_pitch_from_string (ok_or [] (get_pitch_string p TPC)) TPC = Ok p ->
     get_pitch_from_string (str_lower (ok_or [] (get_pitch_string p TPC))) TPC = Ok p).
  { intros p. destruct (tpc_string_spells p) as (c & v & sh & fl & E & Hc & Ep & _).
    rewrite E. cbn [ok_or]. rewrite str_lower_spelling.
    rewrite (tpc_spelling _ _ _ _ Hc), (tpc_spelling _ _ _ _ (char_lower_letter _ _ Hc)). auto. }
  assert (Km : forall p, get_pitch_from_string (str_lower (ok_or [] (get_pitch_string p MIDI))) MIDI = Ok (p mod 12)).
  { intros p. unfold get_pitch_string. change (NUM_PITCHES MIDI) with 12.
    assert (H : 0 <= p mod 12 < 12) by lia. generalize dependent (p mod 12). intros q Hq.
    apply twelve in Hq. repeat (destruct Hq as [->|Hq]; [reflexivity|]). subst; reflexivity. }
  unfold root_text_spec, root_text_fun in *. destruct rel.
  - unfold relative_root_string in *. destruct rto as [k|].
    2: { cbn [ok_or] in *. rewrite Kd. exact S. }
    destruct pt; unfold transpose_pitch in *; cbn [bind] in *.
    + change (NUM_PITCHES TPC) with 35 in *.
      destruct ((root + k <? 0) || (35 <=? root + k)) eqn:E; cbn [bind] in *.
      * cbn [ok_or] in *. rewrite Kd. exact S.
      * destruct ((0 <=? root + k) && (root + k <? 35)) eqn:E2; [|lia].
        destruct (get_pitch_string_total (root + k) TPC) as [s Es].
        specialize (Kt (root + k)). rewrite Es in *. cbn [ok_or] in *. apply Kt, S.
    + specialize (Km ((root + k) mod NUM_PITCHES MIDI)).
      destruct (get_pitch_string_total ((root + k) mod NUM_PITCHES MIDI) MIDI) as [s Es].
      rewrite Es in *. cbn [ok_or] in *. rewrite Km. f_equal. change (NUM_PITCHES MIDI) with 12. lia.
  - specialize (Hr eq_refl). destruct pt; cbn [pitch_count] in Hr.
    + apply Kt, S.
    + rewrite Km. f_equal. lia.
Qed.

Definition key_label_of pt rel rto (e : Z * key_mode) : pystr :=
  key_label (snd e) (root_text_fun pt rel rto (fst e)).

Lemma key_labels_eq pt rel rto :
  get_key_label_list pt rel rto = Ok (map (key_label_of pt rel rto) (key_list pt rel)).
Proof.
  unfold get_key_label_list, tonic_strings.
  assert (E : (if rel then mapM (relative_root_string pt rto) (key_tonics pt true)
     else mapM (fun i => get_pitch_string i pt) (zrange 0 (NUM_PITCHES pt)))
     = Ok (map (root_text_fun pt rel rto) (key_tonics pt rel))).
  { destruct rel.
    - apply mapM_total. intros r _. apply relative_root_string_total.
    - apply mapM_total. intros r _. unfold root_text_fun.
      destruct (get_pitch_string_total r pt) as [s ->]. reflexivity. }
  rewrite E. cbn [bind]. f_equal. unfold key_list. rewrite map_flat_map. apply flat_map_ext.
  intros m. rewrite !map_map. reflexivity.
Qed.

Lemma key_list_nodup pt rel : NoDup (key_list pt rel).
Proof.
  unfold key_list, all_modes. cbn [flat_map]. rewrite app_nil_r.
  assert (N : NoDup (key_tonics pt rel)) by (destruct pt, rel; apply nodup_zrange).
  apply NoDup_app_remove_l with (l := []) || idtac.
  assert (K : forall (a b : list (Z * key_mode)), NoDup a -> NoDup b ->
    (forall x, In x a -> ~ In x b) -> NoDup (a ++ b)).
  { induction a as [|x a IH]; intros b Ha Hb D; [exact Hb|].
    inversion Ha as [|? ? Hx Hl]; subst. simpl. constructor.
    - rewrite in_app_iff. intros [H|H]; [auto|]. apply (D x (or_introl eq_refl) H).
    - apply IH; auto. intros y Hy. apply D; right; exact Hy. }
  apply K.
  - apply NoDup_map_inj; [|exact N]. intros a b _ _ E; congruence.
  - apply NoDup_map_inj; [|exact N]. intros a b _ _ E; congruence.
  - intros [t m] H1 H2. apply in_map_iff in H1 as (? & E1 & _). apply in_map_iff in H2 as (? & E2 & _).
    congruence.
Qed.

Lemma key_list_domain pt rel t m : In (t, m) (key_list pt rel) -> root_domain pt rel t.
Proof.
  unfold key_list. intros H. apply in_flat_map in H as (m' & _ & H).
  apply in_map_iff in H as (t' & E & H). injection E as <- <-.
  unfold root_domain. destruct pt, rel; cbn [key_tonics] in H; apply in_zrange in H;
    unfold NUM_PITCHES, MIN_KEY_CHANGE_INTERVAL_TPC, MAX_KEY_CHANGE_INTERVAL_TPC in H;
    cbn [pitch_count]; intros [D|D]; try discriminate; lia.
Qed.

Theorem key_labels_aligned pt rel rto :
  exists labels,
    get_key_label_list pt rel rto = Ok labels
    /\ zlen labels = (if rel then get_key_change_vector_length pt true else 2 * pitch_count pt)
    /\ NoDup labels
    /\ forall i tonic m,
         0 <= i ->
         get_key_from_one_hot_index i pt rel = Ok (tonic, m) ->
         exists tonic_text,
           nth_error labels (Z.to_nat i) =
             Some (tonic_text ++ list_ascii_of_string
                     (match m with MAJOR => ":KeyMode.MAJOR" | MINOR => ":KeyMode.MINOR" end))
           /\ root_text_spec pt rel rto tonic tonic_text.
Proof.
  eexists. split; [apply key_labels_eq|]. split; [|split].
  - rewrite zlen_map. destruct pt, rel; reflexivity.
  - apply NoDup_map_inj; [|apply key_list_nodup].
    intros [t1 m1] [t2 m2] H1 H2 E. apply key_list_domain in H1. apply key_list_domain in H2.
    assert (D1 : rel = false -> 0 <= t1 < pitch_count pt) by (intros; apply H1; auto).
    assert (D2 : rel = false -> 0 <= t2 < pitch_count pt) by (intros; apply H2; auto).
    unfold key_label_of in E. cbn [fst snd] in E.
    destruct (root_text_ok pt rel rto t1 D1) as [S1 C1].
    destruct (root_text_ok pt rel rto t2 D2) as [S2 C2].
    destruct (root_text_lower pt rel rto t1 D1) as [S1' C1'].
    destruct (root_text_lower pt rel rto t2 D2) as [S2' C2'].
    unfold key_label in E. change (L":" ++ ?x) with (":"%char :: x) in E.
    apply first_sep_inj in E as [Et Em]; [|destruct m1; assumption|destruct m2; assumption].
    assert (m1 = m2) as -> by (destruct m1, m2; reflexivity || discriminate Em).
    assert (t1 = t2) as ->; [|reflexivity].
    destruct m2.
    + rewrite Et in S1. exact (root_text_inj pt rel rto t1 t2 _ H1 H2 S1 S2).
    + rewrite Et in S1'. exact (root_text_inj pt rel rto t1 t2 _ H1 H2 S1' S2').
  - intros i tonic m Hi E. unfold get_key_from_one_hot_index in E.
    destruct (py_nth_ok_inv _ _ _ E) as [[_ En]|[? _]]; [|lia].
    assert (D : rel = false -> 0 <= tonic < pitch_count pt).
    { intros ->. apply nth_error_In, key_list_domain in En. apply En; auto. }
    exists (match m with MINOR => str_lower (root_text_fun pt rel rto tonic)
            | MAJOR => root_text_fun pt rel rto tonic end).
    split.
    + rewrite nth_error_map, En. cbn [option_map]. unfold key_label_of, key_label. cbn [fst snd].
      destruct m; reflexivity.
    + destruct m; [apply root_text_ok, D|apply root_text_lower, D].
Qed.
