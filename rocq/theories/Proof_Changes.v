(* Proofs about Model_Changes.v (pitch alterations). *)
From Coq Require Import String Ascii Lia ZArith.
From Verif Require Import Model_Changes Spec_Music Spec_Changes Proof_Base Proof_Strings Proof_Labels Proof_Transpose.
From Coq Require Import List.
Import ListNotations.
Open Scope Z_scope.

Definition letter_at (k : Z) : ascii :=
  match k with
  | 0 => "F" | 1 => "C" | 2 => "G" | 3 => "D" | 4 => "A" | 5 => "E" | _ => "B"
  end%char.

Lemma first_letter p : exists rest, get_pitch_string p TPC = Ok (letter_at ((p - 14) mod 7) :: rest).
Proof.
  unfold get_pitch_string. set (fuel := Z.to_nat (Z.abs p + 14)).
  destruct (raise_pitch_spec fuel p 0) as (k1 & Hk1 & E1 & A1 & B1); [unfold fuel; lia|].
  rewrite E1. cbn [bind].
  destruct (lower_pitch_spec fuel (p + 7 * k1) (0 - k1)) as (k2 & Hk2 & E2 & A2 & B2);
    [unfold fuel; lia|].
  rewrite E2. cbn [bind]. clearbody fuel. clear E1 E2.
  set (q := p + 7 * k1 - 7 * k2).
  assert (Hq : 14 <= q <= 20) by (unfold q; lia).
  assert (Em : (p - 14) mod 7 = q - 14).
  { replace (p - 14) with (q - 14 + (k2 - k1) * 7) by (unfold q; lia).
    rewrite Z.mod_add by lia. apply Z.mod_small. lia. }
  rewrite Em. clearbody q. clear Em.
  assert (H7 : q = 14 \/ q = 15 \/ q = 16 \/ q = 17 \/ q = 18 \/ q = 19 \/ q = 20) by lia.
  destruct H7 as [->|[->|[->|[->|[->|[->| ->]]]]]];
    eexists; cbn [PITCH_TO_STRING_TPC TPC_C Z.sub bind app]; reflexivity.
Qed.

Lemma letter_at_inj a b : 0 <= a < 7 -> 0 <= b < 7 ->
  Ascii.eqb (letter_at a) (letter_at b) = (a =? b).
Proof.
  intros Ha Hb.
  assert (Ea : a = 0 \/ a = 1 \/ a = 2 \/ a = 3 \/ a = 4 \/ a = 5 \/ a = 6) by lia.
  assert (Eb : b = 0 \/ b = 1 \/ b = 2 \/ b = 3 \/ b = 4 \/ b = 5 \/ b = 6) by lia.
  destruct Ea as [->|[->|[->|[->|[->|[->| ->]]]]]], Eb as [->|[->|[->|[->|[->|[->| ->]]]]]]; reflexivity.
Qed.

Lemma letters_same p q :
  Ascii.eqb (letter_at ((p - 14) mod 7)) (letter_at ((q - 14) mod 7)) = true <-> same_letter p q.
Proof.
  rewrite letter_at_inj by (apply Z.mod_pos_bound; lia). unfold same_letter.
  rewrite Z.eqb_eq. lia.
Qed.

Lemma seven d : 1 <= d <= 7 -> d = 1 \/ d = 2 \/ d = 3 \/ d = 4 \/ d = 5 \/ d = 6 \/ d = 7.
Proof. lia. Qed.

Lemma degree_text d : 1 <= d <= 7 -> z_to_str d = [digit d].
Proof. intros H. apply seven in H. destruct H as [->|[->|[->|[->|[->|[->| ->]]]]]]; reflexivity. Qed.

Lemma degree_number d : 1 <= d <= 7 -> dict_get SCALE_DEGREE_TO_NUMBER [digit d] = Ok d.
Proof. intros H. apply seven in H. destruct H as [->|[->|[->|[->|[->|[->| ->]]]]]]; reflexivity. Qed.

Lemma degree_interval m d : 1 <= d <= 7 -> py_nth (SCALE_INTERVALS m TPC) d = Ok (degree_fifths m d).
Proof. intros H. apply seven in H. destruct m, H as [->|[->|[->|[->|[->|[->| ->]]]]]]; reflexivity. Qed.

Definition acc_text (a : Z) : pystr :=
  if a <? 0 then repeat "b"%char (Z.to_nat (- a)) else repeat "#"%char (Z.to_nat a).

Lemma digit_is_digit n : 0 <= n <= 9 -> char_is_digit (digit n) = true.
Proof.
  intros H. unfold char_is_digit, digit. rewrite nat_ascii_embedding by lia. lia.
Qed.
Lemma digit_value n : 0 <= n <= 9 -> Z.of_nat (nat_of_ascii (digit n)) = 48 + n.
Proof. intros H. unfold digit. rewrite nat_ascii_embedding by lia. lia. Qed.

(* accidentals in front of a text that starts with a digit *)
Lemma acc_adjust a d r : 0 <= d <= 9 ->
  get_accidental_adjustment (acc_text a ++ digit d :: r) true = Ok (a, digit d :: r).
Proof.
  intros Hd.
  assert (Hs : forall c, char_is_digit c = false -> digit d <> c).
  { intros c Hc E. pose proof (digit_is_digit d Hd). congruence. }
  assert (Hss : sharp_stop (digit d :: r)).
  { exists (digit d), r. split; [reflexivity|apply Hs; reflexivity]. }
  assert (Hfs : flat_stop (digit d :: r)).
  { right. exists (digit d), r. split; [reflexivity|apply Hs; reflexivity]. }
  unfold acc_text. destruct (a <? 0) eqn:E.
  - rewrite (front_adjust_ok _ (Z.to_nat (- a)) 0 (digit d :: r)).
    + f_equal. f_equal. lia.
    + split; [reflexivity|]. split; [exact Hss|intros _; exact Hfs].
  - rewrite (front_adjust_ok _ 0 (Z.to_nat a) (digit d :: r)).
    + f_equal. f_equal. lia.
    + split; [reflexivity|]. split; [exact Hss|intros _; exact Hfs].
Qed.

Lemma acc_text_len a : zlen (acc_text a) = Z.abs a.
Proof. unfold acc_text, zlen. destruct (a <? 0) eqn:E; rewrite repeat_length; lia. Qed.

Lemma interval_of_text m a d : 1 <= d <= 7 ->
  get_interval_from_scale_degree (acc_text a ++ z_to_str d) true m TPC = Ok (degree_fifths m d + a * 7).
Proof.
  intros Hd. unfold get_interval_from_scale_degree. rewrite degree_text by exact Hd.
  rewrite acc_adjust by lia. cbn [bind]. rewrite degree_number by exact Hd. cbn [bind].
  rewrite degree_interval by exact Hd. reflexivity.
Qed.
Lemma interval_of_degree m d : 1 <= d <= 7 ->
  get_interval_from_scale_degree (z_to_str d) true m TPC = Ok (degree_fifths m d).
Proof.
  intros Hd. change (z_to_str d) with (acc_text 0 ++ z_to_str d).
  rewrite interval_of_text by exact Hd. f_equal. lia.
Qed.

(* the degree of the root's letter *)
Lemma degrees_cover m q : exists d, 1 <= d <= 7 /\ (degree_fifths m d - q) mod 7 = 0.
Proof.
  assert (H : q mod 7 = 0 \/ q mod 7 = 1 \/ q mod 7 = 2 \/ q mod 7 = 3 \/ q mod 7 = 4 \/ q mod 7 = 5 \/ q mod 7 = 6)
    by (pose proof (Z.mod_pos_bound q 7 ltac:(lia)); lia).
  destruct m.
  - destruct H as [H|[H|[H|[H|[H|[H|H]]]]]];
      [exists 1|exists 5|exists 2|exists 6|exists 3|exists 7|exists 4]; split; [lia| |lia| |lia| |lia| |lia| |lia| |lia|];
      cbn [degree_fifths]; lia.
  - destruct H as [H|[H|[H|[H|[H|[H|H]]]]]];
      [exists 1|exists 5|exists 2|exists 6|exists 3|exists 7|exists 4]; split; [lia| |lia| |lia| |lia| |lia| |lia| |lia|];
      cbn [degree_fifths]; lia.
Qed.

Lemma root_degree_spec root tonic m ds d0 :
  Forall (fun d => 1 <= d <= 7) ds ->
  (exists d, In d ds /\ same_letter (degree_fifths m d + tonic) root) ->
  exists d, root_degree (letter_at ((root - 14) mod 7)) tonic m ds d0 = Ok d
    /\ In d ds /\ same_letter (degree_fifths m d + tonic) root.
Proof.
  revert d0; induction ds as [|d ds IH]; intros d0 HF (x & Hx & Hl); [destruct Hx|].
  apply Forall_cons_iff in HF as [Hd HF]. cbn [root_degree].
  rewrite interval_of_degree by exact Hd. cbn [bind].
  destruct (first_letter (degree_fifths m d + tonic)) as (rest & Er). rewrite Er. cbn [bind].
  cbn [py_nth]. unfold py_nth.
  replace (0 <? 0) with false by reflexivity.
  replace ((0 <? 0) || (zlen (letter_at ((degree_fifths m d + tonic - 14) mod 7) :: rest) <=? 0)) with false
    by (rewrite zlen_cons; pose proof (zlen_nonneg rest); lia).
  cbn [Z.to_nat nth_error bind].
  destruct (Ascii.eqb _ _) eqn:E.
  - exists d. split; [reflexivity|]. split; [left; reflexivity|]. apply letters_same. exact E.
  - destruct Hx as [<-|Hx].
    + apply letters_same in Hl. congruence.
    + destruct (IH d HF) as (y & Ey & Hy & Hy'); [eauto|]. exists y. split; [exact Ey|]. split; [right; exact Hy|exact Hy'].
Qed.

Lemma py_nth_head {A} (x : A) l : py_nth (x :: l) 0 = Ok x.
Proof. apply py_nth_pos; [lia|reflexivity]. Qed.

Lemma root_degree_total root tonic m :
  exists d, root_degree (letter_at ((root - 14) mod 7)) tonic m (zrange 1 8) 0 = Ok d
    /\ 1 <= d <= 7 /\ same_letter (tonic + degree_fifths m d) root.
Proof.
  destruct (degrees_cover m (root - tonic)) as (d & Hd & Hm).
  destruct (root_degree_spec root tonic m (zrange 1 8) 0) as (x & Ex & Hx & Hl).
  - apply Forall_forall. intros y Hy. apply in_zrange in Hy. lia.
  - exists d. split; [apply in_zrange; lia|]. unfold same_letter.
    replace (degree_fifths m d + tonic - root) with (degree_fifths m d - (root - tonic)) by lia. exact Hm.
  - exists x. split; [exact Ex|]. apply in_zrange in Hx. split; [lia|].
    replace (tonic + degree_fifths m x) with (degree_fifths m x + tonic) by lia. exact Hl.
Qed.

(* --- texts of alterations -------------------------------------------------- *)
Definition mark_text (k : mark) : pystr :=
  match k with Above => L"^" | Below => L"v" | NoMark => [] end.
Lemma change_text_eq c : change_text c = mark_text (c_mark c) ++ acc_text (c_acc c) ++ number_text (c_num c).
Proof. reflexivity. Qed.

Lemma acc_no_digit a : Forall (fun d => char_is_digit d = false) (acc_text a).
Proof.
  unfold acc_text. destruct (a <? 0); apply Forall_forall; intros x Hx; apply repeat_spec in Hx; subst x; reflexivity.
Qed.

Lemma first_digit_app pre c post k : Forall (fun d => char_is_digit d = false) pre ->
  char_is_digit c = true -> first_digit (pre ++ c :: post) k = Ok (k + zlen pre, c).
Proof.
  intros HF Hc. revert k; induction HF as [|x pre Hx HF IH]; intros k; cbn [app first_digit].
  - rewrite Hc. apply Ok_pair; [unfold zlen; cbn; lia|reflexivity].
  - rewrite Hx, IH. apply Ok_pair; [rewrite zlen_cons; lia|reflexivity].
Qed.

Lemma py_slice_front {A} (a b : list A) : py_slice (a ++ b) 0 (zlen a) = a.
Proof.
  rewrite py_slice_spec by (unfold zlen; lia).
  cbn [Z.to_nat skipn]. unfold zlen. rewrite Z.sub_0_r, Nat2Z.id.
  rewrite firstn_app, Nat.sub_diag, firstn_all. cbn. apply app_nil_r.
Qed.
Lemma py_slice_back {A} (a b : list A) : py_slice (a ++ b) (zlen a) (zlen (a ++ b)) = b.
Proof.
  rewrite py_slice_spec by (unfold zlen; lia).
  unfold zlen. rewrite Nat2Z.id, skipn_app, skipn_all, Nat.sub_diag. cbn [skipn app].
  rewrite app_length. replace (Z.to_nat _) with (length b) by lia. apply firstn_all.
Qed.

Lemma number_digits n : 2 <= n <= 19 -> exists d r, number_text n = digit d :: r /\ 0 <= d <= 9
  /\ ((d <> 1 /\ r = []) \/ (d = 1 /\ exists e, r = [digit e] /\ 0 <= e <= 9)).
Proof.
  intros H. unfold number_text. destruct (n <? 10) eqn:E.
  - exists n, []. split; [reflexivity|]. split; [lia|]. left. split; [intros ->; lia|reflexivity].
  - exists 1, [digit (n - 10)]. split; [reflexivity|]. split; [lia|]. right. split; [reflexivity|].
    exists (n - 10). split; [reflexivity|lia].
Qed.

Lemma digit_one d : 0 <= d <= 9 -> Ascii.eqb (digit d) "1" = (d =? 1).
Proof.
  intros H. destruct (Ascii.eqb _ _) eqn:E.
  - apply Ascii.eqb_eq in E. pose proof (digit_value d H) as V. rewrite E in V. change (Z.of_nat (nat_of_ascii "1")) with 49 in V. symmetry. apply Z.eqb_eq. lia.
  - destruct (d =? 1) eqn:E1; [|reflexivity]. assert (d = 1) by lia. subst d. discriminate.
Qed.

Lemma first_change_length c rest : 2 <= c_num c <= 19 ->
  get_first_change_length (change_text c ++ rest) = Ok (zlen (change_text c)).
Proof.
  intros H. destruct (number_digits (c_num c) H) as (d & r & En & Hd & Hr).
  assert (Hp : Forall (fun d => char_is_digit d = false) (mark_text (c_mark c) ++ acc_text (c_acc c))).
  { apply Forall_app. split; [|apply acc_no_digit]. destruct (c_mark c); cbn; repeat constructor. }
  assert (Et : change_text c = (mark_text (c_mark c) ++ acc_text (c_acc c)) ++ digit d :: r).
  { rewrite change_text_eq, En, app_assoc. reflexivity. }
  rewrite Et. set (pre := mark_text (c_mark c) ++ acc_text (c_acc c)) in *.
  rewrite <- app_assoc. cbn [app]. unfold get_first_change_length.
  destruct (pre ++ digit d :: r ++ rest) eqn:E; [destruct pre; discriminate|]. rewrite <- E. clear E.
  rewrite first_digit_app; [|exact Hp|apply digit_is_digit; exact Hd]. cbn [bind].
  f_equal. rewrite digit_one by exact Hd. unfold zlen. rewrite app_length. cbn [length].
  destruct Hr as [[Hr ->]|[-> (e & -> & _)]]; cbn [length].
  - destruct (d =? 1) eqn:E1; lia.
  - cbn. lia.
Qed.

Lemma change_text_len c : 2 <= c_num c <= 19 -> 0 < zlen (change_text c).
Proof.
  intros H. destruct (number_digits (c_num c) H) as (d & r & En & _).
  rewrite change_text_eq, En. unfold zlen. rewrite !app_length. cbn [length]. lia.
Qed.

Lemma split_texts fuel cs : Forall (fun c => 2 <= c_num c <= 19) cs ->
  (length (concat (map change_text cs)) <= fuel)%nat ->
  split_changes_loop fuel (concat (map change_text cs)) = Ok (map change_text cs).
Proof.
  revert cs; induction fuel as [|fuel IH]; intros cs HF Hl.
  - destruct HF as [|c cs Hc HF]; [reflexivity|].
    pose proof (change_text_len c Hc) as H. cbn [map concat] in Hl. rewrite app_length in Hl. unfold zlen in H. lia.
  - destruct HF as [|c cs Hc HF]; [reflexivity|]. cbn [map concat split_changes_loop].
    rewrite first_change_length by exact Hc. cbn [bind].
    pose proof (change_text_len c Hc) as H. replace (zlen (change_text c) =? 0) with false by lia.
    rewrite py_slice_back, py_slice_front, IH; [reflexivity|exact HF|].
    cbn [map concat] in Hl. rewrite app_length in Hl. unfold zlen in H. lia.
Qed.

(* --- the added pitch -------------------------------------------------------- *)
Lemma number_value n : 2 <= n <= 19 -> py_int (number_text n) = Ok n.
Proof.
  intros H. unfold number_text. destruct (n <? 10) eqn:E; unfold py_int; cbn [forallb].
  - rewrite digit_is_digit by lia. cbn [andb fold_left]. rewrite digit_value by lia. f_equal. lia.
  - rewrite (digit_is_digit (n - 10)) by lia. cbn [andb fold_left].
    rewrite (digit_value (n - 10)) by lia.
    replace (char_is_digit "1"%char) with true by reflexivity. cbn [andb].
    replace (Z.of_nat (nat_of_ascii "1")) with 49 by reflexivity. f_equal. lia.
Qed.

Lemma strip_marks_stop s c r : s = c :: r -> existsb (Ascii.eqb c) ["v"; "^"; "+"]%char = false ->
  strip_marks s = Ok s.
Proof. intros -> H. cbn [strip_marks]. rewrite H. reflexivity. Qed.

Lemma body_start a n : 2 <= n <= 19 -> exists c r, acc_text a ++ number_text n = c :: r
  /\ existsb (Ascii.eqb c) ["v"; "^"; "+"]%char = false.
Proof.
  intros H. destruct (number_digits n H) as (d & r & En & Hd & _). rewrite En.
  unfold acc_text. destruct (a <? 0) eqn:E.
  - destruct (Z.to_nat (- a)) eqn:En'; [lia|]. cbn [repeat app]. eexists _, _. split; reflexivity.
  - destruct (Z.to_nat a) eqn:En'; cbn [repeat app]; eexists _, _; (split; [reflexivity|]); [|reflexivity].
    pose proof (digit_is_digit d Hd) as Hx. cbn [existsb].
    rewrite !(proj2 (Ascii.eqb_neq _ _)); [reflexivity| | |]; intros X; rewrite X in Hx; discriminate.
Qed.

Lemma strip_marks_text c : 2 <= c_num c <= 19 ->
  strip_marks (change_text c) = Ok (acc_text (c_acc c) ++ number_text (c_num c)).
Proof.
  intros H. rewrite change_text_eq.
  destruct (body_start (c_acc c) (c_num c) H) as (x & r & E & Hx).
  pose proof (strip_marks_stop _ x r E Hx) as R.
  destruct (c_mark c); cbn [mark_text L list_ascii_of_string app]; [| |exact R].
  - cbn [strip_marks]. exact R.
  - cbn [strip_marks]. exact R.
Qed.

Lemma scale_step m d n : 1 <= d <= 7 -> same_letter (degree_fifths m ((n + d - 2) mod 7 + 1)) (degree_fifths m d + 2 * (n - 1)).
Proof.
  intros Hd. unfold same_letter.
  assert (H : forall x, 1 <= x <= 7 -> exists k, degree_fifths m x = 2 * (x - 1) + 7 * k).
  { intros x Hx. apply seven in Hx. destruct m, Hx as [->|[->|[->|[->|[->|[->| ->]]]]]]; cbn [degree_fifths];
      first [exists 0; lia|exists (-1); lia|exists (-2); lia]. }
  pose proof (Z.mod_pos_bound (n + d - 2) 7 ltac:(lia)) as B.
  destruct (H d Hd) as (k1 & E1). destruct (H ((n + d - 2) mod 7 + 1) ltac:(lia)) as (k2 & E2).
  rewrite E1, E2. lia.
Qed.

Lemma added_spec root tonic m d c : 2 <= c_num c <= 19 -> 1 <= d <= 7 ->
  same_letter (tonic + degree_fifths m d) root ->
  exists p, added_pitch d tonic m (change_text c)
            = Ok ((if 8 <=? c_num c then L"+" else []) ++ z_to_str p)
    /\ altered_note root tonic m c p.
Proof.
  intros Hn Hd Hl. unfold added_pitch. rewrite strip_marks_text by exact Hn. cbn [bind].
  destruct (number_digits (c_num c) Hn) as (x & r & En & Hx & _). rewrite En.
  rewrite acc_adjust by exact Hx. cbn [bind]. rewrite <- En, number_value by exact Hn. cbn [bind].
  rewrite <- (acc_text_len (c_acc c)), py_slice_front.
  pose proof (Z.mod_pos_bound (c_num c + d - 2) 7 ltac:(lia)) as B.
  rewrite interval_of_text by lia. cbn [bind].
  set (q := tonic + degree_fifths m ((c_num c + d - 2) mod 7 + 1)).
  exists (q + 7 * c_acc c). split; [do 3 f_equal; unfold q; lia|].
  exists q. split; [|split; [|reflexivity]].
  - exists ((c_num c + d - 2) mod 7 + 1). split; [lia|reflexivity].
  - pose proof (scale_step m d (c_num c) Hd) as S1. unfold same_letter in *. unfold q.
    set (u := degree_fifths m ((c_num c + d - 2) mod 7 + 1)) in *. set (v := degree_fifths m d) in *.
    clearbody u v. clear - S1 Hl. lia.
Qed.

(* --- the chord tones in ascending order --------------------------------------- *)
Definition tones (root : Z) (t : chord_type) : list Z := map (fun f => root + f) (chord_fifths t).
Definition fits (root : Z) (t : chord_type) : bool :=
  forallb (fun p => (0 <=? p) && (p <? 35)) (tones root t).
Definition all_types : list chord_type :=
  [Maj; Min; Dim; Aug; Maj_Maj7; Maj_Min7; Min_Maj7; Min_Min7; Dim7; Half_Dim7; Aug_Min7; Aug_Maj7].
Definition zlist_eqb (a b : list Z) : bool := if list_eq_dec Z.eq_dec a b then true else false.

Lemma ascending_check :
  forallb (fun m => forallb (fun t => forallb (fun root =>
    implb (fits root t) (match ascending_chord_vector root t m with
                         | Ok l => zlist_eqb l (tones root t) | Raise _ => false end))
    (zrange 0 35)) all_types) [MAJOR; MINOR] = true.
Proof. vm_compute. reflexivity. Qed.

Lemma ascending_spec root t m : fits root t = true ->
  ascending_chord_vector root t m = Ok (tones root t).
Proof.
  intros H. pose proof ascending_check as C. rewrite forallb_forall in C.
  specialize (C m). rewrite forallb_forall in C. specialize (C ltac:(destruct m; cbn; auto) t).
  rewrite forallb_forall in C. specialize (C ltac:(destruct t; cbn; tauto) root).
  assert (Hr : In root (zrange 0 35)).
  { apply in_zrange. unfold fits in H. rewrite forallb_forall in H. specialize (H root).
    assert (In root (tones root t)) as Hin.
    { unfold tones. apply in_map_iff. exists 0. split; [lia|]. destruct t; cbn; auto. }
    specialize (H Hin). lia. }
  specialize (C Hr). rewrite H in C. cbn [implb] in C.
  destruct (ascending_chord_vector root t m) as [l|e]; [|discriminate].
  unfold zlist_eqb in C. destruct (list_eq_dec _ _ _); [subst; reflexivity|discriminate].
Qed.

(* --- the removed pitch ---------------------------------------------------------- *)
Lemma py_nth_last_app {A} (s : list A) x : py_nth (s ++ [x]) (-1) = Ok x.
Proof.
  unfold py_nth. cbn [Z.ltb Z.compare]. rewrite zlen_app. pose proof (zlen_nonneg s).
  replace (zlen [x]) with 1 by reflexivity.
  replace ((-1 + (zlen s + 1) <? 0) || (zlen s + 1 <=? -1 + (zlen s + 1))) with false by lia.
  replace (Z.to_nat (-1 + (zlen s + 1))) with (length s) by (unfold zlen in *; lia).
  rewrite nth_error_app2, Nat.sub_diag by lia. reflexivity.
Qed.

Lemma even_text n : even_tone n -> number_text n = [digit n].
Proof. intros [->|[->| ->]]; reflexivity. Qed.

Lemma last_of_text c : even_tone (c_num c) -> py_nth (change_text c) (-1) = Ok (digit (c_num c)).
Proof.
  intros H. rewrite change_text_eq, (even_text _ H), app_assoc. apply py_nth_last_app.
Qed.
Lemma even_digit n : even_tone n -> py_int [digit n] = Ok n.
Proof. intros [->|[->| ->]]; reflexivity. Qed.

Lemma in_246_number n : 2 <= n <= 19 -> in_246 (number_text n) = existsb (Z.eqb n) [2; 4; 6].
Proof.
  intros H.
  assert (C : forallb (fun n => Bool.eqb (in_246 (number_text n)) (existsb (Z.eqb n) [2; 4; 6])) (zrange 2 20) = true)
    by (vm_compute; reflexivity).
  rewrite forallb_forall in C. specialize (C n). apply Bool.eqb_prop, C. apply in_zrange. lia.
Qed.

Lemma letter_check : forallb (fun t => forallb (fun n => forallb (fun up : bool =>
    let i := if up then n / 2 else n / 2 - 1 in
    if i <? positions t then
      match py_nth (chord_fifths t) i with
      | Ok f => (f - (2 * (n - 1) + if up then 2 else -2)) mod 7 =? 0
      | Raise _ => false
      end
    else (positions t =? 3) && (n =? 6) && up) [true; false]) [2; 4; 6]) all_types = true.
Proof. vm_compute. reflexivity. Qed.

Lemma py_nth_map {A B} (f : A -> B) l i x : py_nth l i = Ok x -> py_nth (map f l) i = Ok (f x).
Proof.
  unfold py_nth. rewrite zlen_map. destruct (_ || _); [discriminate|]. rewrite nth_error_map.
  destruct (nth_error l _); cbn; [|discriminate]. intros E. apply Ok_inj in E. subst. reflexivity.
Qed.

Lemma tone_at root t n up : even_tone n ->
  (if up && (n =? 6) && (positions t =? 3)
   then py_nth (tones root t) (if up then n / 2 else n / 2 - 1) = Raise IndexError
   else exists p, py_nth (tones root t) (if up then n / 2 else n / 2 - 1) = Ok p
     /\ exists f, In f (chord_fifths t) /\ p = root + f
        /\ same_letter p (root + 2 * (n - 1) + if up then 2 else -2)).
Proof.
  intros Hn. pose proof letter_check as C. rewrite forallb_forall in C.
  specialize (C t ltac:(destruct t; cbn; tauto)). rewrite forallb_forall in C.
  specialize (C n ltac:(destruct Hn as [->|[->| ->]]; cbn; tauto)). rewrite forallb_forall in C.
  specialize (C up ltac:(destruct up; cbn; tauto)). cbv zeta in C.
  assert (Hp : zlen (chord_fifths t) = positions t) by (destruct t; reflexivity).
  assert (Hp3 : positions t = 3 \/ positions t = 4) by (destruct t; auto).
  set (i := if up then n / 2 else n / 2 - 1) in *.
  assert (Hi : 0 <= i) by (unfold i; destruct Hn as [->|[->| ->]], up; cbn; lia).
  destruct (i <? positions t) eqn:Ei.
  - replace (up && (n =? 6) && (positions t =? 3)) with false.
    2: { unfold i in Ei. destruct Hn as [->|[->| ->]], up, Hp3 as [E|E]; rewrite E in *; cbn in Ei |- *; congruence. }
    destruct (py_nth (chord_fifths t) i) as [f|e] eqn:Ef; [|discriminate].
    exists (root + f). split; [apply (py_nth_map (fun f => root + f)); exact Ef|].
    exists f. split; [|split; [reflexivity|]].
    + apply py_nth_ok_inv in Ef. destruct Ef as [(_ & Ef)|(_ & Ef)]; apply nth_error_In in Ef; exact Ef.
    + unfold same_letter. replace (root + f - _) with (f - (2 * (n - 1) + (if up then 2 else -2))) by lia. lia.
  - replace (up && (n =? 6) && (positions t =? 3)) with true.
    2: { destruct up, (n =? 6), (positions t =? 3); cbn in C |- *; congruence. }
    unfold py_nth. replace (zlen (tones root t)) with (positions t) by (unfold tones; rewrite zlen_map; lia).
    replace (i <? 0) with false by lia. replace ((i <? 0) || (positions t <=? i)) with true by lia. reflexivity.
Qed.

Lemma text_first c : 2 <= c_num c <= 19 -> exists r, change_text c =
  match c_mark c with
  | Above => "^"%char
  | Below => "v"%char
  | NoMark => if c_acc c <? 0 then "b"%char else if 0 <? c_acc c then "#"%char
              else hd "0"%char (number_text (c_num c))
  end :: r.
Proof.
  intros H. rewrite change_text_eq. destruct (c_mark c); cbn [mark_text L list_ascii_of_string app];
    [eexists; reflexivity|eexists; reflexivity|].
  unfold acc_text. destruct (c_acc c <? 0) eqn:E.
  - destruct (Z.to_nat (- c_acc c)) eqn:En; [lia|]. cbn [repeat app]. eexists; reflexivity.
  - destruct (0 <? c_acc c) eqn:E2.
    + destruct (Z.to_nat (c_acc c)) eqn:En; [lia|]. cbn [repeat app]. eexists; reflexivity.
    + replace (Z.to_nat (c_acc c)) with 0%nat by lia. cbn [repeat app].
      destruct (number_digits _ H) as (d & r & -> & _). eexists; reflexivity.
Qed.

Lemma marked_adjust x s : Ascii.eqb x "b" = false -> Ascii.eqb x "#" = false ->
  get_accidental_adjustment (x :: s) true = Ok (0, x :: s).
Proof.
  intros H1 H2. unfold get_accidental_adjustment. cbn [strip_flats strip_sharps].
  rewrite H1. cbn [andb bind strip_sharps]. rewrite H2. reflexivity.
Qed.

Lemma sharp_six_text c : 2 <= c_num c <= 19 -> (str_eqb (change_text c) (L"#6") = true <-> sharp_six c).
Proof.
  intros H. rewrite str_eqb_eq. split.
  - intros E. unfold sharp_six. rewrite change_text_eq in E.
    destruct (number_digits _ H) as (d & r & En & Hd & Hr). rewrite En in E.
    destruct (c_mark c); cbn [mark_text L list_ascii_of_string app] in E; try discriminate.
    pose proof (acc_adjust (c_acc c) d r Hd) as A. rewrite E in A.
    assert (A0 : get_accidental_adjustment (L"#6") true = Ok (1, L"6")) by reflexivity.
    change ["#"%char; "6"%char] with (L"#6") in A. rewrite A0 in A. apply Ok_inj in A. apply pair_equal_spec in A as [A1 A2]. split; [reflexivity|]. split; [congruence|].
    assert (En' : number_text (c_num c) = L"6") by (rewrite En; symmetry; exact A2).
    pose proof (number_value _ H) as V. rewrite En' in V.
    assert (V0 : py_int (L"6") = Ok 6) by reflexivity. rewrite V0 in V. apply Ok_inj in V. congruence.
  - intros (E1 & E2 & E3). rewrite change_text_eq, E1, E2, E3. reflexivity.
Qed.

Lemma removed_spec root t c : change_ok c ->
  match replaces c with
  | None => removed_pitch (tones root t) (change_text c) = Ok [[]]
  | Some up =>
      if up && (c_num c =? 6) && (positions t =? 3)
      then removed_pitch (tones root t) (change_text c)
           = (if str_eqb (change_text c) (L"#6") then Ok [[]] else Raise IndexError)
      else exists p, neighbour root t c up p
           /\ removed_pitch (tones root t) (change_text c) = Ok [z_to_str p]
  end.
Proof.
  intros [Hn Hm].
  destruct (text_first c Hn) as (r & Er).
  assert (Hl : zlen (tones root t) = positions t) by (unfold tones; rewrite zlen_map; destruct t; reflexivity).
  unfold removed_pitch. rewrite Hl.
  replace (py_nth (change_text c) 0) with (py_nth (match c_mark c with Above => "^"%char | Below => "v"%char | NoMark => if c_acc c <? 0 then "b"%char else if 0 <? c_acc c then "#"%char else hd "0"%char (number_text (c_num c)) end :: r) 0) by (rewrite <- Er; reflexivity). rewrite py_nth_head. cbn [bind].
  assert (Hup : forall up, even_tone (c_num c) ->
    if up && (c_num c =? 6) && (positions t =? 3)
    then (let! p := py_nth (tones root t) (if up : bool then c_num c / 2 else c_num c / 2 - 1) in
            Ok ([] ++ [z_to_str p])) = Raise IndexError
    else exists p, neighbour root t c up p
      /\ (let! p := py_nth (tones root t) (if up then c_num c / 2 else c_num c / 2 - 1) in
            Ok ([] ++ [z_to_str p])) = Ok [z_to_str p]).
  { intros up He. pose proof (tone_at root t (c_num c) up He) as T.
    destruct (up && (c_num c =? 6) && (positions t =? 3)).
    - rewrite T. reflexivity.
    - destruct T as (p & Ep & Hp). exists p. split; [exact Hp|]. rewrite Ep. reflexivity. }
  destruct (c_mark c) eqn:Ek.
  - (* Above *)
    unfold replaces. rewrite Ek. replace (get_accidental_adjustment (change_text c) true) with (Ok (0, change_text c)) by (rewrite Er; symmetry; apply marked_adjust; reflexivity). cbn [bind].
    cbn [Ascii.eqb Bool.eqb orb].
    replace (str_eqb (change_text c) (L"#6")) with false.
    2: { symmetry. apply Bool.not_true_is_false. intros E. apply sharp_six_text in E; [|exact Hn].
         destruct E as (E & _). congruence. }
    cbn [andb]. specialize (Hup true Hm). cbn [andb] in Hup |- *.
    destruct ((c_num c =? 6) && (positions t =? 3)) eqn:E6.
    + rewrite last_of_text by exact Hm. cbn [bind]. rewrite even_digit by exact Hm. cbn [bind]. exact Hup.
    + destruct Hup as (p & H1 & H2). exists p. split; [exact H1|].
      rewrite last_of_text by exact Hm. cbn [bind]. rewrite even_digit by exact Hm. cbn [bind]. exact H2.
  - (* Below *)
    unfold replaces. rewrite Ek. replace (get_accidental_adjustment (change_text c) true) with (Ok (0, change_text c)) by (rewrite Er; symmetry; apply marked_adjust; reflexivity). cbn [bind].
    cbn [Ascii.eqb Bool.eqb orb andb negb].
    rewrite Bool.andb_false_r. cbn [orb].
    specialize (Hup false Hm). cbn [andb] in Hup |- *.
    destruct Hup as (p & H1 & H2). exists p. split; [exact H1|].
    rewrite last_of_text by exact Hm. cbn [bind]. rewrite even_digit by exact Hm. cbn [bind]. exact H2.
  - (* NoMark *)
    destruct (number_digits (c_num c) Hn) as (d & r' & En & Hd & _).
    assert (EA : get_accidental_adjustment (change_text c) true = Ok (c_acc c, number_text (c_num c))).
    { rewrite change_text_eq, Ek. cbn [mark_text app]. rewrite En. apply acc_adjust. exact Hd. }
    rewrite EA. cbn [bind]. rewrite in_246_number by exact Hn.
    set (first := if c_acc c <? 0 then "b"%char else if 0 <? c_acc c then "#"%char
              else hd "0"%char (number_text (c_num c))) in *.
    assert (Hx : forall x, char_is_digit x = false -> Ascii.eqb (digit d) x = false).
    { intros x Hx. apply Ascii.eqb_neq. intros X. pose proof (digit_is_digit d Hd). congruence. }
    assert (F1 : Ascii.eqb first "^" = false).
    { unfold first. rewrite En. destruct (c_acc c <? 0), (0 <? c_acc c); try reflexivity. apply Hx. reflexivity. }
    assert (F2 : Ascii.eqb first "v" = false).
    { unfold first. rewrite En. destruct (c_acc c <? 0), (0 <? c_acc c); try reflexivity. apply Hx. reflexivity. }
    assert (F3 : Ascii.eqb first "+" = false).
    { unfold first. rewrite En. destruct (c_acc c <? 0), (0 <? c_acc c); try reflexivity. apply Hx. reflexivity. }
    assert (F4 : Ascii.eqb first "#" = (0 <? c_acc c)).
    { unfold first. rewrite En. destruct (c_acc c <? 0) eqn:E1, (0 <? c_acc c) eqn:E2; try reflexivity; try lia.
      apply Hx. reflexivity. }
    rewrite F1, F2, F3, F4. cbn [orb]. clear F1 F2 F3 F4 Hx. clearbody first.
    unfold replaces. rewrite Ek.
    destruct (existsb (Z.eqb (c_num c)) [2; 4; 6]) eqn:E246; cbn [andb].
    2: { reflexivity. }
    assert (He : even_tone (c_num c)).
    { cbn [existsb] in E246. unfold even_tone. lia. }
    rewrite last_of_text by exact He. cbn [bind]. rewrite even_digit by exact He. cbn [bind].
    specialize (Hup (0 <? c_acc c) He).
    destruct (0 <? c_acc c) eqn:Ea; cbn [andb negb] in Hup |- *.
    + destruct ((c_num c =? 6) && (positions t =? 3)) eqn:E6.
      * apply andb_true_iff in E6 as [E6 E3]. rewrite E3. rewrite Bool.andb_true_r.
        destruct (str_eqb (change_text c) (L"#6")); [reflexivity|exact Hup].
      * destruct Hup as (p & H1 & H2). exists p. split; [exact H1|].
        replace (str_eqb (change_text c) (L"#6") && (positions t =? 3)) with false; [exact H2|].
        symmetry. apply Bool.not_true_is_false. intros E. apply andb_true_iff in E as [E E'].
        apply sharp_six_text in E; [|exact Hn]. destruct E as (_ & _ & E). rewrite E, E' in E6. discriminate.
    + destruct Hup as (p & H1 & H2). exists p. split; [exact H1|exact H2].
Qed.

(* --- dictionaries -------------------------------------------------------------------- *)
Lemma dict_set_lookup {V} (d : list (pystr * V)) k v x :
  str_lookup x (dict_set d k v) = if str_eqb x k then Some v else str_lookup x d.
Proof.
  induction d as [|[k' v'] d IH]; cbn [dict_set str_lookup]; [reflexivity|].
  destruct (str_eqb k k') eqn:E; cbn [str_lookup].
  - apply str_eqb_eq in E. subst k'. destruct (str_eqb x k); reflexivity.
  - rewrite IH. destruct (str_eqb x k') eqn:E2; [|reflexivity].
    destruct (str_eqb x k) eqn:E3; [|reflexivity].
    apply str_eqb_eq in E2, E3. subst. rewrite str_eqb_refl in E. discriminate.
Qed.
Lemma dict_fold_lookup {V} (l d : list (pystr * V)) x :
  str_lookup x (fold_left (fun d x => dict_set d (fst x) (snd x)) l d)
  = match last_value x l with Some v => Some v | None => str_lookup x d end.
Proof.
  revert d; induction l as [|[k v] l IH]; intros d; cbn [fold_left last_value fst snd]; [reflexivity|].
  rewrite IH, dict_set_lookup. destruct (last_value x l); [reflexivity|].
  destruct (list_eq_dec ascii_dec x k) as [->|H]; [rewrite str_eqb_refl; reflexivity|].
  rewrite str_eqb_neq by exact H. reflexivity.
Qed.
Lemma dict_set_keys {V} (d : list (pystr * V)) k v :
  NoDup (map fst d) -> NoDup (map fst (dict_set d k v)) /\ incl (map fst (dict_set d k v)) (k :: map fst d).
Proof.
  induction d as [|[k' v'] d IH]; cbn [dict_set map fst]; intros H.
  - split; [repeat constructor; intros []|apply incl_refl].
  - apply NoDup_cons_iff in H as [H1 H2]. destruct (IH H2) as [I1 I2].
    destruct (str_eqb k k') eqn:E; cbn [map fst].
    + split; [constructor; assumption|]. apply incl_tl, incl_refl.
    + split.
      * constructor; [|exact I1]. intros X. apply I2 in X. destruct X as [<-|X]; [|contradiction].
        rewrite str_eqb_refl in E. discriminate.
      * intros y [<-|Hy]; [right; left; reflexivity|]. apply I2 in Hy. destruct Hy as [<-|Hy]; [left; reflexivity|right; right; exact Hy].
Qed.
Lemma dict_of_pairs_spec {V} (l : list (pystr * V)) :
  NoDup (map fst (dict_of_pairs l)) /\ forall x, str_lookup x (dict_of_pairs l) = last_value x l.
Proof.
  split.
  - unfold dict_of_pairs. assert (G : forall l d, NoDup (map fst d) -> NoDup (map fst (fold_left (fun (d : list (pystr * V)) x => dict_set d (fst x) (snd x)) l d))).
    { clear l. induction l as [|x l IH]; intros d H; cbn [fold_left]; [exact H|]. apply IH. apply dict_set_keys. exact H. }
    apply G. constructor.
  - intros x. unfold dict_of_pairs. rewrite dict_fold_lookup. destruct (last_value x l); reflexivity.
Qed.
