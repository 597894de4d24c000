(* Lemmas for C109: where the parts of a text end. *)
From Coq Require Import QArith String Ascii.
From Verif Require Import PyBase Model_Types Model_Harmony Model_Strings Model_Output Model_Dict Model_Repr
  Spec_Music Spec_Dict Spec_Repr Proof_Base Proof_Strings Proof_Labels Proof_Dict.
From Coq Require Import List Lia Qcanon.
Import ListNotations.
Close Scope Qc_scope.
Close Scope Q_scope.
Open Scope Z_scope.

(* the first character of r, if any, is not in P *)
Definition outside (P : ascii -> Prop) (r : pystr) : Prop := match r with [] => True | c :: _ => ~ P c end.
Lemma cut (P : ascii -> Prop) : forall a b r s : pystr, Forall P a -> Forall P b -> outside P r -> outside P s ->
  a ++ r = b ++ s -> a = b /\ r = s.
Proof.
  induction a as [|x a IH]; intros [|y b] r s A B R T E; cbn in E.
  - auto.
  - subst r. inversion B; subst. cbn in R. contradiction.
  - subst s. inversion A; subst. cbn in T. contradiction.
  - inversion A; inversion B; subst. injection E as -> E. destruct (IH b r s) as [-> ->]; auto.
Qed.

(* ---- numbers ---- *)
Lemma z_cut a b r s : outside num_char r -> outside num_char s -> z_to_str a ++ r = z_to_str b ++ s -> a = b /\ r = s.
Proof.
  intros R T E. apply (cut num_char) in E; auto using z_to_str_chars. destruct E as [E ->]. split; [|reflexivity]. now apply z_to_str_inj.
Qed.
Lemma z_first z : exists c r, z_to_str z = c :: r /\ num_char c.
Proof.
  pose proof (z_to_str_chars z) as F. destruct (z_to_str z) as [|c r] eqn:E; [now apply z_to_str_nonempty in E|].
  exists c, r. split; [reflexivity|]. now inversion F.
Qed.
Ltac no_num := let X := fresh in intros [X|X]; discriminate X.

(* ---- fractions ---- *)
Lemma red_int z : Qred (inject_Z z) = inject_Z z.
Proof. apply Qred_identity. cbn. apply Z.gcd_1_r. Qed.
Lemma red_same q r : (q == r)%Q -> num_of q = num_of r /\ den_of q = den_of r.
Proof. intros E. unfold num_of, den_of. rewrite (Qred_complete _ _ E). auto. Qed.
Lemma same_red q r : num_of q = num_of r -> den_of q = den_of r -> (q == r)%Q.
Proof.
  unfold num_of, den_of. intros N D. injection D as D. rewrite <- (Qred_correct q), <- (Qred_correct r).
  destruct (Qred q), (Qred r). cbn in *. subst. reflexivity.
Qed.
Lemma frac_text_int z : str_val (VFrac (inject_Z z)) = z_to_str z.
Proof. cbn [str_val]. unfold den_of, num_of. rewrite red_int. reflexivity. Qed.

(* equal values have equal texts *)
Lemma same_text v w : same_value v w -> str_val v = str_val w.
Proof.
  intros [->|[(q & r & Nv & Nw & E)|(m & q & r & -> & -> & E)]]; [reflexivity| |].
  - assert (X : forall u q, number u = Some q -> str_val u = str_val (VFrac q)).
    { intros u p. destruct u; cbn [number]; intros X; try discriminate X; injection X as <-; [symmetry; apply frac_text_int|reflexivity]. }
    rewrite (X v q Nv), (X w r Nw). cbn [str_val]. destruct (red_same q r E) as [-> ->]. reflexivity.
  - cbn [str_val]. destruct (red_same q r E) as [-> ->]. reflexivity.
Qed.

(* a position ends where it ends *)
Lemma pos_cut m q n p r s : str_val (VPos m q) ++ r = str_val (VPos n p) ++ s -> same_value (VPos m q) (VPos n p) /\ r = s.
Proof.
  cbn [str_val]. rewrite <- !app_assoc. intros E. apply app_inv_head in E.
  apply z_cut in E; [|cbn; no_num|cbn; no_num]. destruct E as [-> E]. apply app_inv_head in E.
  apply z_cut in E; [|cbn; no_num|cbn; no_num]. destruct E as [E1 E]. apply app_inv_head in E.
  apply z_cut in E; [|cbn; no_num|cbn; no_num]. destruct E as [E2 E]. apply app_inv_head in E.
  split; [|exact E]. right. right. exists n, q, p. split; [reflexivity|]. split; [reflexivity|]. now apply same_red.
Qed.

(* ---- values other than texts ---- *)
Definition inner (c : ascii) : Prop := c <> ","%char /\ c <> ")"%char.
Lemma num_inner c : num_char c -> inner c.
Proof. intros H. split; intros ->; destruct H as [H|H]; discriminate H. Qed.
Lemma z_inner z : Forall inner (z_to_str z).
Proof. eapply Forall_impl; [|apply z_to_str_chars]. apply num_inner. Qed.
Definition inner_b (c : ascii) : bool := negb (Ascii.eqb c ",") && negb (Ascii.eqb c ")").
Lemma inner_all s : forallb inner_b s = true -> Forall inner s.
Proof.
  induction s as [|c s IH]; cbn; intros H; [constructor|]. apply andb_prop in H. destruct H as [H1 H2]. constructor; [|auto].
  unfold inner_b in H1. apply andb_prop in H1. destruct H1 as [A B].
  split; intros ->; [discriminate A|discriminate B].
Qed.
Lemma frac_inner q : Forall inner (str_val (VFrac q)).
Proof.
  cbn [str_val]. destruct (den_of q =? 1); [apply z_inner|]. apply Forall_app. split; [apply z_inner|].
  apply Forall_app. split; [apply inner_all; reflexivity|apply z_inner].
Qed.
Lemma plain_inner v : (forall s, v <> VText s) -> (forall m q, v <> VPos m q) -> Forall inner (str_val v).
Proof.
  intros Ht Hp. destruct v.
  - apply inner_all. reflexivity.
  - apply z_inner.
  - apply frac_inner.
  - now destruct (Hp measure beat).
  - destruct m; apply inner_all; reflexivity.
  - destruct t; apply inner_all; reflexivity.
  - destruct p; apply inner_all; reflexivity.
  - now destruct (Ht s).
Qed.

(* The texts of values that are no texts and no positions *)
Lemma frac_first q : exists c r, str_val (VFrac q) = c :: r /\ num_char c.
Proof.
  cbn [str_val]. destruct (z_first (num_of q)) as (c & r & E & N). destruct (den_of q =? 1); [eauto|]. rewrite E. cbn. eauto.
Qed.
Lemma frac_inj q r : str_val (VFrac q) = str_val (VFrac r) -> (q == r)%Q.
Proof.
  cbn [str_val]. destruct (den_of q =? 1) eqn:D, (den_of r =? 1) eqn:D'; intros E.
  - apply z_to_str_inj in E. apply Z.eqb_eq in D. apply Z.eqb_eq in D'. apply same_red; congruence.
  - rewrite <- (app_nil_r (z_to_str (num_of q))) in E. apply z_cut in E; [|exact I|cbn; no_num]. destruct E as [_ E]. discriminate E.
  - rewrite <- (app_nil_r (z_to_str (num_of r))) in E. apply z_cut in E; [|cbn; no_num|exact I]. destruct E as [_ E]. discriminate E.
  - apply z_cut in E; [|cbn; no_num|cbn; no_num]. destruct E as [E1 E]. apply app_inv_head in E. apply z_to_str_inj in E.
    now apply same_red.
Qed.
Lemma number_text v q : number v = Some q -> str_val v = str_val (VFrac q).
Proof. destruct v; cbn [number]; intros X; try discriminate X; injection X as <-; [symmetry; apply frac_text_int|reflexivity]. Qed.
Lemma plain_inj v w : (forall s, v <> VText s) -> (forall s, w <> VText s) -> (forall m q, v <> VPos m q) -> (forall m q, w <> VPos m q) ->
  str_val v = str_val w -> same_value v w.
Proof.
  intros Tv Tw Pv Pw E.
  assert (Num : forall v q, number v = Some q -> exists c r, str_val v = c :: r /\ num_char c).
  { intros u q N. rewrite (number_text u q N). apply frac_first. }
  assert (Sym : forall v, number v = None -> (forall s, v <> VText s) -> (forall m q, v <> VPos m q) -> exists c r, str_val v = c :: r /\ ~ num_char c).
  { intros u N T P. destruct u; try discriminate N; try (now destruct (T s)); try (now destruct (P measure beat)).
    - eexists _, _. split; [reflexivity|no_num].
    - destruct m; eexists _, _; (split; [reflexivity|no_num]).
    - destruct t; eexists _, _; (split; [reflexivity|no_num]).
    - destruct p; eexists _, _; (split; [reflexivity|no_num]). }
  destruct (number v) as [q|] eqn:Nv, (number w) as [r|] eqn:Nw.
  - right. left. exists q, r. split; [exact Nv|]. split; [exact Nw|]. apply frac_inj. rewrite <- (number_text v q Nv), <- (number_text w r Nw). exact E.
  - destruct (Num v q Nv) as (c & s & E1 & H1). destruct (Sym w Nw Tw Pw) as (d & t & E2 & H2). rewrite E1, E2 in E. injection E as -> _. contradiction.
  - destruct (Sym v Nv Tv Pv) as (c & s & E1 & H1). destruct (Num w r Nw) as (d & t & E2 & H2). rewrite E1, E2 in E. injection E as -> _. contradiction.
  - left. destruct v; try discriminate Nv; try (now destruct (Tv s)); try (now destruct (Pv measure beat));
    destruct w; try discriminate Nw; try (now destruct (Tw s)); try (now destruct (Pw measure beat));
    repeat match goal with x : key_mode |- _ => destruct x | x : pitch_type |- _ => destruct x | x : chord_type |- _ => destruct x end;
    (reflexivity || discriminate E).
Qed.

Lemma is_pos v : {m & {q | v = VPos m q}} + {forall m q, v <> VPos m q}.
Proof. destruct v; try (right; intros; discriminate). left. now exists measure, beat. Qed.
Lemma pos_first m q r : exists t, str_val (VPos m q) ++ r = "("%char :: t.
Proof. eexists. reflexivity. Qed.
Lemma plain_first v r : (forall s, v <> VText s) -> (forall m q, v <> VPos m q) -> exists c t, str_val v ++ r = c :: t /\ c <> "("%char.
Proof.
  intros T P. destruct v; try (now destruct (T s)); try (now destruct (P measure beat)).
  - eexists _, _. split; [reflexivity|discriminate].
  - cbn [str_val]. destruct (z_first z) as (c & t & E & N). rewrite E. eexists _, _. split; [reflexivity|]. intros ->. destruct N as [N|N]; discriminate N.
  - destruct (frac_first q) as (c & t & E & N). rewrite E. eexists _, _. split; [reflexivity|]. intros ->. destruct N as [N|N]; discriminate N.
  - destruct m; eexists _, _; (split; [reflexivity|discriminate]).
  - destruct t; eexists _, _; (split; [reflexivity|discriminate]).
  - destruct p; eexists _, _; (split; [reflexivity|discriminate]).
Qed.

(* a value that is no text ends before a comma or a bracket *)
Lemma value_cut v w r s : (forall t, v <> VText t) -> (forall t, w <> VText t) -> outside inner r -> outside inner s ->
  str_val v ++ r = str_val w ++ s -> same_value v w /\ r = s.
Proof.
  intros Tv Tw R T E. destruct (is_pos v) as [(m & q & ->)|Pv], (is_pos w) as [(n & p & ->)|Pw].
  - now apply pos_cut in E.
  - destruct (pos_first m q r) as (t & E1). destruct (plain_first w s Tw Pw) as (c & u & E2 & N). rewrite E1, E2 in E. injection E as <- _. now destruct N.
  - destruct (pos_first n p s) as (t & E1). destruct (plain_first v r Tv Pv) as (c & u & E2 & N). rewrite E1, E2 in E. injection E as -> _. now destruct N.
  - apply (cut inner) in E; auto using plain_inner. destruct E as [E ->]. split; [|reflexivity]. now apply plain_inj.
Qed.
Lemma value_inj v w : (forall t, v <> VText t) -> (forall t, w <> VText t) -> str_val v = str_val w -> same_value v w.
Proof.
  intros Tv Tw E. apply (value_cut v w (L")") (L")")); auto.
  - cbn. intros [_ X]. now apply X.
  - cbn. intros [_ X]. now apply X.
  - now rewrite E.
Qed.

(* ---- __repr__ ---- *)
Definition field_text (kv : pystr * pyval) : pystr := fst kv ++ L"=" ++ str_val (snd kv).
Lemma repr_is c o : wf c o -> obj_repr o = Ok (class_name c ++ L"(" ++ str_join (L", ") (map field_text (o_attrs o)) ++ L")").
Proof.
  intros W. pose proof W as (Ec & K & _). unfold obj_repr. rewrite Ec.
  assert (X : mapM (fun f => let! v := getattr o f in Ok (f ++ L"=" ++ str_val v)) (params c) = Ok (map field_text (o_attrs o))).
  { rewrite <- K. assert (A : forall d, (forall f v, In (f, v) d -> str_lookup f (o_attrs o) = Some v) ->
      mapM (fun f => let! v := getattr o f in Ok (f ++ L"=" ++ str_val v)) (map fst d) = Ok (map field_text d)).
    { induction d as [|[f v] d IH]; intros H; [reflexivity|]. cbn [map mapM fst]. unfold getattr at 1. rewrite (H f v) by now left. cbn [bind].
      rewrite IH by (intros; apply H; now right). reflexivity. }
    apply A. intros f v I. apply lookup_nodup; [rewrite K; apply params_nodup|exact I]. }
  rewrite X. reflexivity.
Qed.
(* Two lists of fields with the same names and texts hold the same values. *)
Definition apart (f : pystr) (v : pyval) : Prop :=
  if str_eqb f (L"suspension") then v = VNone \/ exists s, v = VText s /\ s <> L"None" else forall s, v <> VText s.
Lemma apart_inj f v w : apart f v -> apart f w -> str_val v = str_val w -> same_value v w.
Proof.
  unfold apart. destruct (str_eqb f (L"suspension")).
  - intros [->|(s & -> & N)] [->|(t & -> & M)] E; cbn [str_val] in E.
    + now left.
    + now destruct M.
    + now destruct N.
    + subst. now left.
  - apply value_inj.
Qed.
Lemma fields_inj : forall d e : dict, map fst d = map fst e ->
  (forall f v, In (f, v) d -> apart f v) -> (forall f v, In (f, v) e -> apart f v) ->
  (forall a b, map fst d = a ++ b -> b <> [] -> ~ In (L"suspension") a) ->
  str_join (L", ") (map field_text d) ++ L")" = str_join (L", ") (map field_text e) ++ L")" ->
  Forall2 (fun x y => fst x = fst y /\ same_value (snd x) (snd y)) d e.
Proof.
  induction d as [|[f v] d IH]; intros [|[g w] e] K A B Last E; cbn in K; try discriminate K; [constructor|].
  injection K as <- K. destruct d as [|x d], e as [|y e]; try discriminate K.
  - cbn [map str_join] in E. apply app_inv_tail in E. unfold field_text in E. cbn [fst snd] in E. do 2 apply app_inv_head in E.
    constructor; [|constructor]. split; [reflexivity|]. cbn [snd].
    apply (apart_inj f); [apply A; now left|apply B; now left|exact E].
  - change (str_join (L", ") (map field_text ((f, v) :: x :: d))) with (field_text (f, v) ++ L", " ++ str_join (L", ") (map field_text (x :: d))) in E.
    change (str_join (L", ") (map field_text ((f, w) :: y :: e))) with (field_text (f, w) ++ L", " ++ str_join (L", ") (map field_text (y :: e))) in E.
    assert (Nf : str_eqb f (L"suspension") = false).
    { destruct (str_eqb f (L"suspension")) eqn:Ef; [|reflexivity]. apply str_eqb_eq in Ef. exfalso.
      apply (Last [f] (map fst (x :: d))); [reflexivity|discriminate|now left]. }
    assert (Av := A f v (or_introl eq_refl)). assert (Bw := B f w (or_introl eq_refl)). unfold apart in Av, Bw. rewrite Nf in Av, Bw.
    unfold field_text at 1 3 in E. cbn [fst snd] in E. rewrite <- !app_assoc in E. do 2 apply app_inv_head in E.
    apply value_cut in E; auto.
    + destruct E as [E1 E]. apply app_inv_head in E. constructor; [split; [reflexivity|exact E1]|].
      apply IH; [exact K|intros; apply A; now right|intros; apply B; now right| |exact E].
      intros a b Eab Nb Ia. apply (Last (f :: a) b); [cbn [map fst app] in *; now rewrite Eab|exact Nb|now right].
    + cbn. intros [X _]. now apply X.
    + cbn. intros [X _]. now apply X.
Qed.

(* ---- __str__ ---- *)
(* the characters of the name of a pitch *)
Definition name_char (c : ascii) : Prop := In c (L"ABCDEFGb#/").
Lemma name_no_num c : name_char c -> ~ num_char c.
Proof. intros H X. unfold name_char in H. cbn in H. repeat (destruct H as [<-|H]; [destruct X as [X|X]; discriminate X|]). destruct H. Qed.
Lemma name_chars p pt s : get_pitch_string p pt = Ok s -> Forall name_char s.
Proof.
  intros E. destruct pt.
  - unfold get_pitch_string in E. set (fuel := Z.to_nat (Z.abs p + 14)) in E. apply bind_ok in E. destruct E as ([p1 a1] & _ & E).
    apply bind_ok in E. destruct E as ([p2 a2] & _ & E). apply bind_ok in E. destruct E as (l & El & E). apply Ok_inj in E. subst s.
    apply Forall_app. split.
    + unfold PITCH_TO_STRING_TPC in El.
      repeat match type of El with context [match ?x with _ => _ end] => destruct x; try discriminate El end;
      apply Ok_inj in El; subst l; (constructor; [unfold name_char; cbn; tauto|constructor]).
    + destruct (a2 <? 0); apply Forall_forall; intros c I; apply repeat_spec in I; subst c; unfold name_char; cbn; tauto.
  - unfold get_pitch_string in E. change (NUM_PITCHES MIDI) with 12 in E.
    assert (H : 0 <= p mod 12 < 12) by (apply Z.mod_pos_bound; lia). generalize dependent (p mod 12). intros q E Hq.
    apply twelve in Hq.
    assert (X : forall t, s = t -> forallb (fun c => existsb (Ascii.eqb c) (L"ABCDEFGb#/")) t = true -> Forall name_char s).
    { intros t -> Ft. rewrite forallb_forall in Ft. apply Forall_forall. intros c I. specialize (Ft c I). apply existsb_exists in Ft.
      destruct Ft as (d & Id & Ed). apply Ascii.eqb_eq in Ed. now subst d. }
    repeat (destruct Hq as [->|Hq]; [apply Ok_inj in E; eapply X; [symmetry; exact E|reflexivity]|]).
    subst q. apply Ok_inj in E. eapply X; [symmetry; exact E|reflexivity].
Qed.
(* the names of pitches tell them apart *)
Definition same_z (pt : pitch_type) (x y : Z) : Prop := match pt with TPC => x = y | MIDI => x mod 12 = y mod 12 end.
Lemma count_app (c : ascii) a b : count_occ ascii_dec (a ++ b) c = (count_occ ascii_dec a c + count_occ ascii_dec b c)%nat.
Proof. apply count_occ_app. Qed.
Lemma count_rep (c d : ascii) n : count_occ ascii_dec (repeat d n) c = if ascii_dec d c then n else 0%nat.
Proof. induction n as [|n IH]; cbn [repeat count_occ]; [now destruct (ascii_dec d c)|]. rewrite IH. destruct (ascii_dec d c); reflexivity. Qed.
Lemma name_same pt x y s t : get_pitch_string x pt = Ok s -> get_pitch_string y pt = Ok t -> (s = t <-> same_z pt x y).
Proof.
  intros Ex Ey. destruct pt; cbn [same_z].
  - split; [|intros ->; congruence]. intros ->.
    destruct (tpc_string_spells x) as (c & v & sh & fl & E & Hc & Ep & _). destruct (tpc_string_spells y) as (c' & v' & sh' & fl' & E' & Hc' & Ep' & _).
    rewrite Ex in E. rewrite Ey in E'. apply Ok_inj in E. apply Ok_inj in E'. rewrite E in E'. unfold spelling in E'. injection E' as -> E'.
    rewrite Hc in Hc'. injection Hc' as <-.
    assert (A := f_equal (fun l => count_occ ascii_dec l "#"%char) E'). assert (B := f_equal (fun l => count_occ ascii_dec l "b"%char) E').
    cbv beta in A, B. rewrite !count_app, !count_rep in A, B.
    destruct (ascii_dec "#" "#"); [|congruence]. destruct (ascii_dec "b" "b"); [|congruence].
    destruct (ascii_dec "b" "#"); [discriminate|]. destruct (ascii_dec "#" "b"); [discriminate|]. lia.
  - split.
    + intros ->. destruct (midi_roundtrip x) as (u & E & F). destruct (midi_roundtrip y) as (u' & E' & F').
      rewrite Ex in E. rewrite Ey in E'. apply Ok_inj in E. apply Ok_inj in E'. subst u u'. rewrite F in F'. now apply Ok_inj in F'.
    + intros E. unfold get_pitch_string in Ex, Ey. change (NUM_PITCHES MIDI) with 12 in *. rewrite E in Ex. congruence.
Qed.
Lemma name_cut pt x y s t r u : get_pitch_string x pt = Ok s -> get_pitch_string y pt = Ok t -> outside name_char r -> outside name_char u ->
  s ++ r = t ++ u -> same_z pt x y /\ r = u.
Proof.
  intros Ex Ey R U E. apply (cut name_char) in E; eauto using name_chars. destruct E as [E ->]. split; [|reflexivity].
  now apply (name_same pt x y s t Ex Ey).
Qed.
(* the words for the inversions *)
Definition no_space (c : ascii) : Prop := c <> " "%char.
Lemma no_space_num z : Forall no_space (z_to_str z).
Proof. eapply Forall_impl; [|apply z_to_str_chars]. intros c H ->. destruct H as [H|H]; discriminate H. Qed.
Lemma type_no_space t : Forall no_space (get_chord_string t).
Proof. destruct t; cbn; repeat constructor; intros X; discriminate X. Qed.
Lemma type_inj t u : get_chord_string t = get_chord_string u -> t = u.
Proof. destruct t, u; intros E; (reflexivity || discriminate E). Qed.
Definition first_word (z : Z) : pystr :=
  if z =? 0 then L"root" else if z =? 1 then L"1st" else if z =? 2 then L"2nd" else if z =? 3 then L"3rd" else z_to_str z ++ L"th".
Definition second_word (z : Z) : pystr := if z =? 0 then L"position" else L"inversion".
Lemma inversion_words z : inversion_text (VInt z) = first_word z ++ L" " ++ second_word z.
Proof.
  unfold inversion_text, first_word, second_word. cbn [val_eqb]. destruct (z =? 0); [reflexivity|].
  destruct (z =? 1); [reflexivity|]. destruct (z =? 2); [reflexivity|]. destruct (z =? 3); [reflexivity|]. cbn [str_val]. rewrite <- app_assoc. reflexivity.
Qed.
Lemma word_no_space z : Forall no_space (first_word z).
Proof.
  unfold first_word. assert (X : forall s, forallb (fun c => negb (Ascii.eqb c " ")) s = true -> Forall no_space s).
  { intros s H. rewrite forallb_forall in H. apply Forall_forall. intros c I. specialize (H c I). intros ->. discriminate H. }
  destruct (z =? 0); [apply X; reflexivity|]. destruct (z =? 1); [apply X; reflexivity|]. destruct (z =? 2); [apply X; reflexivity|].
  destruct (z =? 3); [apply X; reflexivity|]. apply Forall_app. split; [apply no_space_num|apply X; reflexivity].
Qed.
Lemma word_inj x y : first_word x = first_word y -> x = y.
Proof.
  assert (Th : forall z w, z_to_str z ++ L"th" = w -> exists n, w = z_to_str n ++ L"th") by (intros z w <-; eauto).
  assert (No : forall z, z_to_str z ++ L"th" <> L"root" /\ z_to_str z ++ L"th" <> L"1st" /\ z_to_str z ++ L"th" <> L"2nd" /\ z_to_str z ++ L"th" <> L"3rd").
  { intros z. repeat split; intros E; apply (f_equal (@rev ascii)) in E; rewrite rev_app_distr in E; discriminate E. }
  unfold first_word.
  destruct (x =? 0) eqn:X0; destruct (y =? 0) eqn:Y0; [apply Z.eqb_eq in X0; apply Z.eqb_eq in Y0; lia| | |].
  1: destruct (y =? 1); [discriminate|]; destruct (y =? 2); [discriminate|]; destruct (y =? 3); [discriminate|]; intros E; symmetry in E; now apply No in E.
  1: destruct (x =? 1); [discriminate|]; destruct (x =? 2); [discriminate|]; destruct (x =? 3); [discriminate|]; intros E; now apply No in E.
  destruct (x =? 1) eqn:X1; destruct (y =? 1) eqn:Y1; [apply Z.eqb_eq in X1; apply Z.eqb_eq in Y1; lia| | |].
  1: destruct (y =? 2); [discriminate|]; destruct (y =? 3); [discriminate|]; intros E; symmetry in E; now apply No in E.
  1: destruct (x =? 2); [discriminate|]; destruct (x =? 3); [discriminate|]; intros E; now apply No in E.
  destruct (x =? 2) eqn:X2; destruct (y =? 2) eqn:Y2; [apply Z.eqb_eq in X2; apply Z.eqb_eq in Y2; lia| | |].
  1: destruct (y =? 3); [discriminate|]; intros E; symmetry in E; now apply No in E.
  1: destruct (x =? 3); [discriminate|]; intros E; now apply No in E.
  destruct (x =? 3) eqn:X3; destruct (y =? 3) eqn:Y3; [apply Z.eqb_eq in X3; apply Z.eqb_eq in Y3; lia| | |].
  1: intros E; symmetry in E; now apply No in E.
  1: intros E; now apply No in E.
  intros E. apply app_inv_tail in E. now apply z_to_str_inj.
Qed.
