(* Proofs about Model_Runs. *)
From Coq Require Import QArith String Ascii DecimalString DecimalZ.
From Verif Require Import Model_Runs Spec_Runs Spec_Prior Proof_Base Proof_Strings Proof_Prior.
From Coq Require Import List Lia.
Import ListNotations.
Close Scope Q_scope.
Open Scope Z_scope.

(* ---- characters -------------------------------------------------------------------- *)
Ltac all_chars c := destruct c as [[] [] [] [] [] [] [] []].

Lemma is_space_blank c : is_space c = true <-> blank c.
Proof.
  unfold blank. assert (E : is_space c = existsb (Z.eqb (Z.of_nat (nat_of_ascii c))) [9; 10; 11; 12; 13; 28; 29; 30; 31; 32; 133; 160]).
  { all_chars c; vm_compute; reflexivity. }
  rewrite E, existsb_exists. split.
  - intros (x & I & Q). apply Z.eqb_eq in Q. now rewrite Q.
  - intros I. exists (Z.of_nat (nat_of_ascii c)). split; [exact I|apply Z.eqb_refl].
Qed.
Lemma not_blank c : is_space c = false <-> ~ blank c.
Proof. rewrite <- is_space_blank. destruct (is_space c); intuition congruence. Qed.

Lemma digit_char_facts d : 0 <= d <= 9 ->
  char_is_digit (digit_char d) = true /\ char_code (digit_char d) - 48 = d /\ is_space (digit_char d) = false.
Proof.
  intros H. assert (C : d = 0 \/ d = 1 \/ d = 2 \/ d = 3 \/ d = 4 \/ d = 5 \/ d = 6 \/ d = 7 \/ d = 8 \/ d = 9) by lia.
  destruct C as [->|[->|[->|[->|[->|[->|[->|[->|[->| ->]]]]]]]]]; vm_compute; auto.
Qed.
Lemma digit_char_inv c : char_is_digit c = true -> exists d, 0 <= d <= 9 /\ c = digit_char d.
Proof.
  intros H. exists (char_code c - 48). unfold char_is_digit in H. unfold char_code, digit_char.
  apply andb_true_iff in H as [H1 H2]. apply Z.leb_le in H1, H2. split; [lia|].
  replace (48 + Z.to_nat (Z.of_nat (nat_of_ascii c) - 48))%nat with (nat_of_ascii c) by lia.
  symmetry. apply ascii_nat_embedding.
Qed.

Local Opaque digit_char.

(* ---- strip ------------------------------------------------------------------------- *)
Lemma lstrip_spec s : exists w, s = w ++ lstrip s /\ Forall blank w /\ forall c r, lstrip s = c :: r -> ~ blank c.
Proof.
  induction s as [|c s IH]; cbn [lstrip].
  - exists []. repeat split; [constructor|discriminate].
  - destruct (is_space c) eqn:E.
    + destruct IH as (w & E1 & F & N). exists (c :: w). split; [cbn; now rewrite <- E1|]. split; [|exact N].
      constructor; [now apply is_space_blank|exact F].
    + exists []. split; [reflexivity|]. split; [constructor|]. intros c' r [= <- <-]. now apply not_blank.
Qed.
Lemma lstrip_blank w t : Forall blank w -> lstrip (w ++ t) = lstrip t.
Proof.
  induction 1 as [|c w H _ IH]; [reflexivity|]. cbn [app lstrip]. apply is_space_blank in H. now rewrite H.
Qed.
Lemma lstrip_keep c t : ~ blank c -> lstrip (c :: t) = c :: t.
Proof. intros H. cbn [lstrip]. apply not_blank in H. now rewrite H. Qed.

Lemma strip_trimmed s : trimmed s (strip s).
Proof.
  unfold strip. destruct (lstrip_spec s) as (w1 & E1 & F1 & N1).
  destruct (lstrip_spec (rev (lstrip s))) as (w2 & E2 & F2 & N2).
  set (t := lstrip (rev (lstrip s))) in *.
  assert (E3 : lstrip s = rev t ++ rev w2).
  { rewrite <- (rev_involutive (lstrip s)), E2, rev_app_distr. reflexivity. }
  exists w1, (rev w2). split; [now rewrite E1 at 1; rewrite E3|]. split; [exact F1|].
  split; [now apply Forall_rev|]. split.
  - intros c r E. rewrite E in E3. cbn [app] in E3. exact (N1 _ _ E3).
  - intros r c E. apply (f_equal (@rev _)) in E. rewrite rev_involutive, rev_app_distr in E. exact (N2 _ _ E).
Qed.
Lemma trimmed_strip s t : trimmed s t -> strip s = t.
Proof.
  intros (w1 & w2 & -> & F1 & F2 & N1 & N2). unfold strip. rewrite lstrip_blank by exact F1.
  destruct t as [|c t].
  - cbn [app]. rewrite <- (app_nil_r w2), lstrip_blank by exact F2. reflexivity.
  - cbn [app]. rewrite lstrip_keep by exact (N1 _ _ eq_refl).
    change (c :: t ++ w2) with ((c :: t) ++ w2). rewrite rev_app_distr, lstrip_blank by now apply Forall_rev.
    destruct (@exists_last _ (c :: t) ltac:(discriminate)) as (r & x & E). rewrite E, rev_app_distr. cbn [rev app].
    rewrite lstrip_keep by exact (N2 _ _ E). cbn [rev]. now rewrite rev_involutive.
Qed.
Lemma trimmed_iff s t : trimmed s t <-> strip s = t.
Proof. split; [apply trimmed_strip|intros <-; apply strip_trimmed]. Qed.

(* ---- int --------------------------------------------------------------------------- *)
Lemma numeral_digits s ds : numeral s ds -> forall acc b,
  int_digits s acc b = Ok (fold_left (fun a d => 10 * a + d) ds acc).
Proof.
  induction 1 as [d H|d s ds H N IH|d s ds H N IH]; intros acc b; destruct (digit_char_facts d H) as (E1 & E2 & _);
    cbn [int_digits fold_left]; rewrite E1, E2.
  - reflexivity.
  - apply IH.
  - replace (char_is_digit "_") with false by reflexivity. cbn. apply IH.
Qed.
Lemma digits_numeral s : forall acc z,
  (int_digits s acc false = Ok z -> exists ds, numeral s ds /\ z = fold_left (fun a d => 10 * a + d) ds acc) /\
  (int_digits s acc true = Ok z -> s = [] /\ z = acc \/
    exists ds, (numeral s ds \/ exists s', s = "_"%char :: s' /\ numeral s' ds) /\ z = fold_left (fun a d => 10 * a + d) ds acc).
Proof.
  induction s as [|c s IH]; intros acc z; cbn [int_digits].
  - split; [discriminate|]. intros E. apply Ok_inj in E. now left.
  - destruct (char_is_digit c) eqn:D.
    + destruct (digit_char_inv c D) as (d & Hd & ->). destruct (digit_char_facts d Hd) as (_ & E2 & _). rewrite E2.
      assert (K : int_digits s (10 * acc + d) true = Ok z ->
                exists ds, numeral (digit_char d :: s) ds /\ z = fold_left (fun a d => 10 * a + d) ds acc).
      { intros H. apply IH in H. destruct H as [[-> ->]|(ds & [N|(s' & -> & N)] & ->)].
        - exists [d]. split; [now constructor|reflexivity].
        - exists (d :: ds). split; [now constructor|reflexivity].
        - exists (d :: ds). split; [now constructor|reflexivity]. }
      split; [exact K|]. intros H. right. destruct (K H) as (ds & N & E). exists ds. split; [now left|exact E].
    + rewrite andb_false_r. split; [discriminate|]. rewrite andb_true_r.
      destruct (Ascii.eqb c "_") eqn:U; [|discriminate]. apply Ascii.eqb_eq in U. subst c. intros H. apply IH in H.
      destruct H as (ds & N & ->). right. exists ds. split; [|reflexivity]. right. now exists s.
Qed.
Lemma int_digits_iff s z : int_digits s 0 false = Ok z <-> exists ds, numeral s ds /\ z = decimal_value ds.
Proof.
  split; [apply digits_numeral|]. intros (ds & N & ->). now apply numeral_digits.
Qed.
Lemma numeral_ends s ds : numeral s ds ->
  (exists d r, 0 <= d <= 9 /\ s = digit_char d :: r) /\ (exists r d, 0 <= d <= 9 /\ s = r ++ [digit_char d]).
Proof.
  induction 1 as [d H|d s ds H N [_ (r & e & He & ->)]|d s ds H N [_ (r & e & He & ->)]].
  - split; [now exists d, []|now exists [], d].
  - split; [now exists d, (r ++ [digit_char e])|now exists (digit_char d :: r), e].
  - split; [now exists d, ("_"%char :: r ++ [digit_char e])|now exists (digit_char d :: "_"%char :: r), e].
Qed.

Lemma py_int_iff s z : py_int s = Ok z <-> says_int s z.
Proof.
  unfold py_int, says_int. split.
  - destruct (strip s) as [|c r] eqn:E; [discriminate|].
    destruct (strip_trimmed s) as (w1 & w2 & Es & F1 & F2 & _ & _). rewrite E in Es.
    destruct (Ascii.eqb c "-") eqn:C1.
    + apply Ascii.eqb_eq in C1. subst c. intros H. apply bind_ok in H as (n & H & E'). apply Ok_inj in E'. subst z.
      apply int_digits_iff in H as (ds & N & ->). exists w1, (L"-"), r, ds, w2.
      repeat split; try assumption. right. split; reflexivity.
    + destruct (Ascii.eqb c "+") eqn:C2.
      * apply Ascii.eqb_eq in C2. subst c. intros H. apply int_digits_iff in H as (ds & N & ->).
        exists w1, (L"+"), r, ds, w2. repeat split; try assumption. left. split; [now right|reflexivity].
      * intros H. apply int_digits_iff in H as (ds & N & ->).
        exists w1, [], (c :: r), ds, w2. repeat split; try assumption. left. split; [now left|reflexivity].
  - intros (w1 & sign & t & ds & w2 & -> & F1 & F2 & N & H).
    destruct (numeral_ends _ _ N) as [(d & r & Hd & Et) (r' & e & He & Et')].
    assert (T : strip (w1 ++ sign ++ t ++ w2) = sign ++ t).
    { apply trimmed_strip. exists w1, w2. rewrite <- (app_assoc sign). repeat split; try assumption.
      - intros c q E. destruct H as [[[->| ->] _]|[-> _]]; cbn in E.
        + rewrite Et in E. injection E as <- _. apply not_blank. now apply digit_char_facts.
        + injection E as <- _. now apply not_blank.
        + injection E as <- _. now apply not_blank.
      - intros q c E. rewrite Et', app_assoc in E. apply app_inj_tail in E as [_ <-]. apply not_blank.
        now apply digit_char_facts. }
    rewrite T. destruct H as [[[->| ->] ->]|[-> ->]].
    + cbn [app]. rewrite Et at 1. destruct (digit_char_facts d Hd) as (D & _ & _).
      destruct (Ascii.eqb (digit_char d) "-") eqn:C1.
      { apply Ascii.eqb_eq in C1. rewrite C1 in D. discriminate. }
      destruct (Ascii.eqb (digit_char d) "+") eqn:C2.
      { apply Ascii.eqb_eq in C2. rewrite C2 in D. discriminate. }
      rewrite <- Et. apply int_digits_iff. exists ds. split; [exact N|reflexivity].
    + apply int_digits_iff. exists ds. split; [exact N|reflexivity].
    + cbn. rewrite (proj2 (int_digits_iff t (decimal_value ds))) by (exists ds; split; [exact N|reflexivity]). reflexivity.
Qed.

(* ---- ranges ------------------------------------------------------------------------ *)
Lemma numeral_no_comma s ds : numeral s ds -> ~ In ","%char s.
Proof.
  induction 1 as [d H|d s ds H N IH|d s ds H N IH]; intros I; cbn in I.
  - destruct I as [E|[]]. destruct (digit_char_facts d H) as (D & _). rewrite E in D. discriminate.
  - destruct I as [E|I]; [|tauto]. destruct (digit_char_facts d H) as (D & _). rewrite E in D. discriminate.
  - destruct I as [E|[E|I]]; [|discriminate|tauto]. destruct (digit_char_facts d H) as (D & _). rewrite E in D. discriminate.
Qed.
Lemma says_int_no_comma s z : says_int s z -> ~ In ","%char s.
Proof.
  intros (w1 & sign & t & ds & w2 & -> & F1 & F2 & N & H) I.
  assert (B : forall w, Forall blank w -> ~ In ","%char w).
  { intros w F I'. rewrite Forall_forall in F. apply F in I'. revert I'. apply not_blank. reflexivity. }
  rewrite !in_app_iff in I. destruct I as [I|[I|[I|I]]].
  - exact (B _ F1 I).
  - destruct H as [[[->| ->] _]|[-> _]]; cbn in I; [tauto| |]; destruct I as [E|[]]; discriminate.
  - exact (numeral_no_comma _ _ N I).
  - exact (B _ F2 I).
Qed.
Lemma split_on_parts s : with_commas (split_on "," s) = s /\ split_on "," s <> [].
Proof.
  induction s as [|c s [IH N]]; cbn [split_on]; [split; [reflexivity|discriminate]|].
  destruct (Ascii.eqb c ",") eqn:E.
  - apply Ascii.eqb_eq in E. subst c. split; [|discriminate]. destruct (split_on "," s) as [|w ws]; [now elim N|].
    change (with_commas ([] :: w :: ws)) with (L"," ++ with_commas (w :: ws)). now rewrite IH.
  - destruct (split_on "," s) as [|w ws]; [now elim N|]. split; [|discriminate].
    destruct ws as [|w' ws]; cbn in IH |- *; now rewrite IH.
Qed.
Lemma split_on_commas parts : parts <> [] -> Forall (fun p => ~ In ","%char p) parts ->
  split_on "," (with_commas parts) = parts.
Proof.
  induction parts as [|p parts IH]; intros N F; [now elim N|]. inversion F; subst.
  destruct parts as [|q parts].
  - cbn [with_commas]. now apply split_on_nosep.
  - change (with_commas (p :: q :: parts)) with (p ++ ","%char :: with_commas (q :: parts)).
    rewrite split_on_app by assumption. f_equal. apply IH; [discriminate|assumption].
Qed.
Lemma slice_inner {A} (s : list A) : py_slice s 1 (-1) = removelast (tl s).
Proof.
  unfold py_slice. destruct s as [|c s]; [reflexivity|]. cbn [tl]. unfold py_bound, zlen.
  replace (Z.to_nat (Z.max 0 (Z.min (Z.of_nat (length (c :: s))) (if 1 <? 0 then 1 + Z.of_nat (length (c :: s)) else 1)))) with 1%nat
    by (cbn [length]; destruct (1 <? 0) eqn:E; lia).
  cbn [skipn]. rewrite removelast_firstn_len. f_equal. change (-1 <? 0) with true. cbn [length].
  change (1 <? 0) with false. cbv iota. lia.
Qed.
Lemma mapM_iff {A B} (f : A -> res B) (P : A -> B -> Prop) l r :
  (forall a b, f a = Ok b <-> P a b) -> mapM f l = Ok r <-> Forall2 P l r.
Proof.
  intros H. revert r. induction l as [|a l IH]; intros r; cbn [mapM].
  - split; [intros E; apply Ok_inj in E; subst; constructor|inversion 1; reflexivity].
  - split.
    + intros E. apply bind_ok in E as (b & E1 & E). apply bind_ok in E as (bs & E2 & E). apply Ok_inj in E. subst r.
      constructor; [now apply H|now apply IH].
    + inversion 1; subst. rewrite (proj2 (H a y)) by assumption. cbn [bind]. rewrite (proj2 (IH l')) by assumption. reflexivity.
Qed.
Lemma parse_range_iff s r : parse_range s = Ok r <-> denotes s r.
Proof.
  unfold parse_range, denotes. rewrite slice_inner, (mapM_iff _ _ _ _ py_int_iff). split.
  - intros F. destruct (split_on_parts (removelast (tl s))) as [E N].
    split; [intros ->; inversion F; congruence|].
    destruct s as [|c s]; [exfalso|].
    { cbn in F. inversion F as [|? ? ? ? H _]; subst. apply py_int_iff in H. discriminate. }
    cbn [tl] in *. destruct s as [|c' s]; [exfalso|].
    { cbn in F. inversion F as [|? ? ? ? H _]; subst. apply py_int_iff in H. discriminate. }
    exists c, (last (c' :: s) c'), (split_on "," (removelast (c' :: s))). split; [|exact F].
    rewrite E. f_equal. now apply app_removelast_last.
  - intros (Nr & c & d & parts & -> & F). cbn [tl]. rewrite removelast_last.
    rewrite split_on_commas; [exact F| |].
    + intros ->. inversion F. congruence.
    + clear Nr. induction F as [|p z ps zs H F IH]; constructor; [|exact IH]. exact (says_int_no_comma _ _ H).
Qed.
Lemma denotes_unique s r r' : denotes s r -> denotes s r' -> r = r'.
Proof. rewrite <- !parse_range_iff. congruence. Qed.

(* ---- decimal texts ------------------------------------------------------------------ *)
Fixpoint uint_value (u : Decimal.uint) (acc : Z) : Z :=
  match u with
  | Decimal.Nil => acc
  | Decimal.D0 l => uint_value l (10 * acc + 0)
  | Decimal.D1 l => uint_value l (10 * acc + 1)
  | Decimal.D2 l => uint_value l (10 * acc + 2)
  | Decimal.D3 l => uint_value l (10 * acc + 3)
  | Decimal.D4 l => uint_value l (10 * acc + 4)
  | Decimal.D5 l => uint_value l (10 * acc + 5)
  | Decimal.D6 l => uint_value l (10 * acc + 6)
  | Decimal.D7 l => uint_value l (10 * acc + 7)
  | Decimal.D8 l => uint_value l (10 * acc + 8)
  | Decimal.D9 l => uint_value l (10 * acc + 9)
  end.
Lemma uint_value_pos u : forall p, uint_value u (Z.pos p) = Z.pos (Pos.of_uint_acc u p).
Proof.
  induction u; intros p; cbn [uint_value Pos.of_uint_acc]; [reflexivity|..]; rewrite <- IHu; f_equal; lia.
Qed.
Lemma uint_value_0 u : uint_value u 0 = Z.of_uint u.
Proof.
  unfold Z.of_uint. induction u; cbn [uint_value Pos.of_uint]; [reflexivity|exact IHu|..];
    apply uint_value_pos.
Qed.
Lemma uint_chars u : forall acc b, u <> Decimal.Nil \/ b = true ->
  int_digits (list_ascii_of_string (DecimalString.NilEmpty.string_of_uint u)) acc b = Ok (uint_value u acc).
Proof.
  induction u; intros acc b H; [destruct H as [H| ->]; [now elim H|reflexivity]|..];
    (cbn; apply IHu; now right).
Qed.
Lemma nilzero_chars u : int_digits (list_ascii_of_string (DecimalString.NilZero.string_of_uint u)) 0 false = Ok (Z.of_uint u).
Proof.
  rewrite <- uint_value_0. destruct u; [reflexivity|..]; apply uint_chars; left; discriminate.
Qed.
Lemma z_to_str_says z : says_int (z_to_str z) z.
Proof.
  unfold z_to_str, L. pose proof (DecimalZ.of_to z) as E. destruct (Z.to_int z) as [u|u]; cbn in E.
  - pose proof (nilzero_chars u) as H. rewrite E in H. apply int_digits_iff in H as (ds & N & ->).
    exists [], [], (list_ascii_of_string (DecimalString.NilZero.string_of_uint u)), ds, []. cbn [app].
    rewrite app_nil_r. split; [reflexivity|]. split; [constructor|]. split; [constructor|]. split; [exact N|]. left. split; [now left|reflexivity].
  - pose proof (nilzero_chars u) as H. apply int_digits_iff in H as (ds & N & H').
    exists [], (L"-"), (list_ascii_of_string (DecimalString.NilZero.string_of_uint u)), ds, [].
    rewrite app_nil_r. split; [reflexivity|]. split; [constructor|]. split; [constructor|]. split; [exact N|]. right.
    split; [reflexivity|]. rewrite <- E. now rewrite <- H'.
Qed.
Lemma range_text_denotes a b : denotes (range_text a b) [a; b].
Proof.
  split; [discriminate|]. exists "("%char, ")"%char, [z_to_str a; L" " ++ z_to_str b]. split.
  - unfold range_text. cbn [with_commas]. rewrite <- !app_assoc. reflexivity.
  - constructor; [apply z_to_str_says|]. constructor; [|constructor].
    destruct (z_to_str_says b) as (w1 & sign & t & ds & w2 & E & F1 & F2 & N & H).
    exists (L" " ++ w1), sign, t, ds, w2. rewrite E. split; [reflexivity|]. split; [|now repeat split].
    constructor; [|exact F1]. apply is_space_blank. reflexivity.
Qed.

(* ---- sets -------------------------------------------------------------------------- *)
Lemma elem_eqb_iff x y : hashable x -> elem_eqb x y = true <-> same_elem x y.
Proof.
  intros Hx. unfold same_elem. destruct x as [|a|p|s|l|d]; try contradiction; destruct y as [|b|q|t|l'|d'];
    cbn [elem_eqb number_of]; split; intros H; try discriminate; auto;
    try (destruct H as [H|(p' & q' & H1 & H2 & E)]; try discriminate; fail).
  - apply Bool.eqb_prop in H. subst. now left.
  - destruct H as [H|(p' & q' & H1 & H2 & E)]; [injection H as ->; apply Bool.eqb_reflx|].
    destruct a, b; try reflexivity; injection H1 as <-; injection H2 as <-; discriminate.
  - apply Qeq_bool_iff in H. right. exists (if a then 1 else 0)%Q, q. split; [now destruct a|]. split; [reflexivity|]. now symmetry.
  - destruct H as [H|(p' & q' & H1 & H2 & E)]; [discriminate|]. injection H2 as ->. apply Qeq_bool_iff.
    destruct a; injection H1 as <-; now symmetry.
  - apply Qeq_bool_iff in H. right. exists p, (if b then 1 else 0)%Q. split; [reflexivity|]. split; [now destruct b|exact H].
  - destruct H as [H|(p' & q' & H1 & H2 & E)]; [discriminate|]. injection H1 as ->. apply Qeq_bool_iff.
    destruct b; injection H2 as <-; exact E.
  - apply Qeq_bool_iff in H. right. now exists p, q.
  - apply Qeq_bool_iff. destruct H as [H|(p' & q' & H1 & H2 & E)]; [injection H as ->; reflexivity|].
    injection H1 as ->. now injection H2 as ->.
  - apply str_eqb_eq in H. subst. now left.
  - destruct H as [H|(p' & q' & H1 & H2 & E)]; [injection H as ->; apply str_eqb_refl|discriminate].
Qed.
Lemma same_elem_refl x : same_elem x x.
Proof. now left. Qed.
Lemma same_elem_sym x y : same_elem x y -> same_elem y x.
Proof. intros [->|(p & q & H1 & H2 & E)]; [now left|right; exists q, p; repeat split; try assumption; now symmetry]. Qed.

Definition distinct_elems (l : list json) : Prop :=
  forall i j x y, nth_error l i = Some x -> nth_error l j = Some y -> same_elem x y -> i = j.
Lemma set_add_ok s x s' : set_add s x = Ok s' -> hashable x /\ s' = (if existsb (elem_eqb x) s then s else s ++ [x]).
Proof. destruct x; cbn [set_add]; try discriminate; intros E; apply Ok_inj in E; now split. Qed.
Lemma set_add_total s x : hashable x -> exists s', set_add s x = Ok s'.
Proof. destruct x; cbn [set_add hashable]; try tauto; eauto. Qed.
Lemma add_distinct s x : hashable x -> distinct_elems s -> existsb (elem_eqb x) s = false -> distinct_elems (s ++ [x]).
Proof.
  intros Hx D E.
  assert (N : forall i y, nth_error s i = Some y -> ~ same_elem x y).
  { intros i y Hi H. apply elem_eqb_iff in H; [|exact Hx].
    assert (existsb (elem_eqb x) s = true) by (apply existsb_exists; exists y; split; [eapply nth_error_In; eauto|exact H]). congruence. }
  intros i j a b Hi Hj H.
  destruct (Nat.lt_ge_cases i (length s)) as [Li|Li]; destruct (Nat.lt_ge_cases j (length s)) as [Lj|Lj].
  - rewrite nth_error_app1 in Hi, Hj by assumption. exact (D _ _ _ _ Hi Hj H).
  - rewrite nth_error_app1 in Hi by assumption. rewrite nth_error_app2 in Hj by assumption.
    destruct (j - length s)%nat as [|k]; cbn in Hj; [|destruct k; discriminate]. injection Hj as <-.
    elim (N _ _ Hi). now apply same_elem_sym.
  - rewrite nth_error_app2 in Hi by assumption. rewrite nth_error_app1 in Hj by assumption.
    destruct (i - length s)%nat as [|k]; cbn in Hi; [|destruct k; discriminate]. injection Hi as <-.
    now elim (N _ _ Hj).
  - rewrite nth_error_app2 in Hi, Hj by assumption.
    destruct (i - length s)%nat as [|k] eqn:Ei; cbn in Hi; [|destruct k; discriminate].
    destruct (j - length s)%nat as [|k] eqn:Ej; cbn in Hj; [|destruct k; discriminate]. lia.
Qed.
Lemma set_fold els : forall s s', foldM set_add els s = Ok s' -> distinct_elems s ->
  Forall hashable els /\ distinct_elems s' /\ (forall y, In y s -> In y s') /\
  (forall x, In x els -> exists y, In y s' /\ same_elem x y) /\ (forall y, In y s' -> In y s \/ In y els).
Proof.
  induction els as [|x els IH]; intros s s' H D; cbn [foldM] in H.
  - apply Ok_inj in H. subst s'. split; [constructor|]. split; [exact D|]. split; [auto|]. split; [intros x []|]. auto.
  - apply bind_ok in H as (s1 & H1 & H). apply set_add_ok in H1 as [Hx E1].
    assert (D1 : distinct_elems s1).
    { subst s1. destruct (existsb (elem_eqb x) s) eqn:E; [exact D|now apply add_distinct]. }
    destruct (IH _ _ H D1) as (F & D' & K & C & B).
    assert (I1 : forall y, In y s -> In y s1).
    { subst s1. destruct (existsb (elem_eqb x) s); [auto|]. intros y I. apply in_app_iff. now left. }
    assert (X1 : exists y, In y s1 /\ same_elem x y).
    { subst s1. destruct (existsb (elem_eqb x) s) eqn:E.
      - apply existsb_exists in E as (y & I & Q). apply elem_eqb_iff in Q; [|exact Hx]. now exists y.
      - exists x. split; [apply in_app_iff; right; now left|apply same_elem_refl]. }
    split; [now constructor|]. split; [exact D'|]. split; [auto|]. split.
    + intros z [<-|I]; [|now apply C]. destruct X1 as (y & I & Q). exists y. auto.
    + intros y I. apply B in I. destruct I as [I|I]; [|right; now right].
      subst s1. destruct (existsb (elem_eqb x) s); [now left|]. apply in_app_iff in I. destruct I as [I|[<-|[]]]; [now left|right; now left].
Qed.
Lemma set_fold_total els : Forall hashable els -> forall s, exists s', foldM set_add els s = Ok s'.
Proof.
  induction 1 as [|x els H F IH]; intros s; cbn [foldM]; [eauto|].
  destruct (set_add_total s x H) as (s1 & E). rewrite E. cbn [bind]. apply IH.
Qed.
Lemma json_iter_iff j l : json_iter j = Ok l <-> elements j l.
Proof.
  destruct j; cbn [json_iter elements]; split; intros H; try discriminate; try contradiction;
    try (apply Ok_inj in H; now subst); now rewrite H.
Qed.
Lemma py_set_ok j l : py_set j = Ok l -> exists els, elements j els /\ Forall hashable els /\ is_set_of els l.
Proof.
  intros H. unfold py_set in H. apply bind_ok in H as (els & H1 & H). exists els.
  apply json_iter_iff in H1. split; [exact H1|].
  apply set_fold in H; [|intros i j0 x y Hi; destruct i; discriminate].
  destruct H as (F & D & _ & C & B). split; [exact F|]. split; [exact C|]. split; [|exact D].
  intros y I. destruct (B y I) as [[]|I']. exact I'.
Qed.
Lemma py_set_total j els : elements j els -> Forall hashable els -> exists l, py_set j = Ok l.
Proof.
  intros H F. apply json_iter_iff in H. unfold py_set. rewrite H. cbn [bind]. now apply set_fold_total.
Qed.

(* ---- dictionaries of ranges --------------------------------------------------------- *)
Lemma tuple_eqb_eq a b : tuple_eqb a b = true <-> a = b.
Proof.
  revert b. induction a as [|x a IH]; intros [|y b]; cbn [tuple_eqb]; split; intros H; try discriminate; auto.
  - apply andb_true_iff in H as [H1 H2]. apply Z.eqb_eq in H1. apply IH in H2. now subst.
  - injection H as -> ->. rewrite Z.eqb_refl. now apply IH.
Qed.
Lemma put_range_in d k v : NoDup (map fst d) ->
  NoDup (map fst (put_range d k v)) /\
  forall k' v', In (k', v') (put_range d k v) <-> (k' = k /\ v' = v) \/ (k' <> k /\ In (k', v') d).
Proof.
  induction d as [|[k1 v1] d IH]; intros N; cbn [put_range].
  - split; [repeat constructor; auto|]. intros k' v'. cbn. split.
    + intros [E|[]]. injection E as <- <-. now left.
    + intros [[-> ->]|[_ []]]. now left.
  - cbn [map fst] in N. inversion N as [|? ? N1 N2]; subst. destruct (IH N2) as [I1 I2].
    destruct (tuple_eqb k1 k) eqn:E.
    + apply tuple_eqb_eq in E. subst k1. split; [exact N|]. intros k' v'. cbn [In]. split.
      * intros [Q|I]; [injection Q as <- <-; now left|]. right. split; [|now right].
        intros ->. apply N1. apply in_map_iff. now exists (k, v').
      * intros [[-> ->]|[D [Q|I]]]; [now left|injection Q as <- _; now elim D|now right].
    + assert (D : k1 <> k) by (intros ->; rewrite (proj2 (tuple_eqb_eq k k) eq_refl) in E; discriminate).
      split.
      * cbn [map fst]. constructor; [|exact I1]. intros I. apply in_map_iff in I as ((k' & v') & Q & I). cbn in Q. subst k'.
        apply I2 in I. destruct I as [[-> _]|[_ I]]; [now elim D|]. apply N1. apply in_map_iff. now exists (k1, v').
      * intros k' v'. cbn [In]. rewrite I2. split.
        -- intros [Q|[H|H]]; [injection Q as <- <-; right; split; [exact D|now left]|now left|]. right. split; [tauto|right; tauto].
        -- intros [H|[D' [Q|I]]]; auto.
Qed.
Lemma labelled_snoc fields t v r w :
  labelled (fields ++ [(t, v)]) r w <-> denotes t r /\ w = v \/ ~ denotes t r /\ labelled fields r w.
Proof.
  split.
  - intros (a & t' & b & E & D & N). destruct (@exists_last _ ((t', w) :: b) ltac:(discriminate)) as (b' & x & Eb).
    rewrite Eb, app_assoc in E. apply app_inj_tail in E as [E <-].
    destruct b' as [|y b'].
    + cbn in Eb. injection Eb as -> <- Eb. left. now split.
    + injection Eb as <- Eb. right. split.
      * apply (N t v). rewrite Eb. apply in_app_iff. right. now left.
      * exists a, t', b'. split; [now rewrite E|]. split; [exact D|]. intros t2 v2 I. apply (N t2 v2). rewrite Eb. apply in_app_iff. now left.
  - intros [[D ->]|[N (a & t' & b & -> & D & M)]].
    + exists fields, t, []. split; [reflexivity|]. split; [exact D|]. intros ? ? [].
    + exists a, t', (b ++ [(t, v)]). split; [now rewrite <- app_assoc|]. split; [exact D|].
      intros t2 v2 I. apply in_app_iff in I as [I|[Q|[]]]; [exact (M _ _ I)|]. now injection Q as <- <-.
Qed.
Lemma foldM_snoc {A B} (f : A -> B -> res A) l x a :
  foldM f (l ++ [x]) a = (let! b := foldM f l a in f b x).
Proof.
  revert a. induction l as [|y l IH]; intros a; cbn [app foldM bind].
  - destruct (f a x); reflexivity.
  - destruct (f a y) as [b|e]; cbn [bind]; [apply IH|reflexivity].
Qed.
Lemma ranges_fold fields : forall d, foldM range_item fields [] = Ok d ->
  NoDup (map fst d) /\ (forall t v, In (t, v) fields -> exists r, denotes t r) /\
  (forall r v, In (r, v) d <-> labelled fields r v).
Proof.
  induction fields as [|[t v] fields IH] using rev_ind; intros d H.
  - apply Ok_inj in H. subst d. split; [constructor|]. split; [intros ? ? []|]. intros r v. split; [intros []|].
    intros (a & t & b & E & _). destruct a; discriminate.
  - rewrite foldM_snoc in H. apply bind_ok in H as (d1 & H1 & H). destruct (IH _ H1) as (N & A & B).
    unfold range_item in H. cbn [fst snd] in H. apply bind_ok in H as (r & P & H). apply Ok_inj in H. subst d.
    apply parse_range_iff in P. destruct (put_range_in d1 r v N) as [N' I]. split; [exact N'|]. split.
    + intros t' v' I'. apply in_app_iff in I' as [I'|[Q|[]]]; [exact (A _ _ I')|]. injection Q as <- <-. now exists r.
    + intros r' w. rewrite I, labelled_snoc, B. split.
      * intros [[-> ->]|[D L]]; [left; now split|]. right. split; [|exact L]. intros P'. apply D. exact (denotes_unique _ _ _ P' P).
      * intros [[P' ->]|[P' L]]; [left; split; [exact (denotes_unique _ _ _ P' P)|reflexivity]|].
        right. split; [|exact L]. now intros ->.
Qed.
Lemma ranges_total fields : (forall t v, In (t, v) fields -> exists r, denotes t r) ->
  forall d0, exists d, foldM range_item fields d0 = Ok d.
Proof.
  induction fields as [|[t v] fields IH]; intros H d0; cbn [foldM]; [eauto|].
  destruct (H t v (or_introl eq_refl)) as (r & P). apply parse_range_iff in P. unfold range_item at 1. cbn [fst snd].
  rewrite P. cbn [bind]. apply IH. intros t' v' I. exact (H t' v' (or_intror I)).
Qed.

(* ---- fields ------------------------------------------------------------------------ *)
Lemma lookup_field raw n (j : json) : str_lookup n raw = Some j <-> field raw n j.
Proof.
  induction raw as [|[k v] raw IH]; cbn [str_lookup].
  - split; [discriminate|]. intros (a & b & E & _). destruct a; discriminate.
  - destruct (str_eqb n k) eqn:E.
    + apply str_eqb_eq in E. subst k. split.
      * intros [= ->]. exists [], raw. split; [reflexivity|]. intros j' [].
      * intros (a & b & Q & N). destruct a as [|x a]; [injection Q as -> ->; reflexivity|].
        injection Q as <- ->. elim (N v). now left.
    + rewrite IH. split.
      * intros (a & b & -> & N). exists ((k, v) :: a), b. split; [reflexivity|]. intros j' [Q|I]; [|exact (N _ I)].
        injection Q as -> _. rewrite str_eqb_refl in E. discriminate.
      * intros (a & b & Q & N). destruct a as [|x a].
        { injection Q as -> -> _. rewrite str_eqb_refl in E. discriminate. }
        injection Q as <- ->. exists a, b. split; [reflexivity|]. intros j' I. apply (N j'). now right.
Qed.

Section Fields.
  Variable raw : list (pystr * json).
  Variable step : list (pystr * force) -> pystr -> res (list (pystr * force)).
  Variable get : json -> res force.
  Hypothesis step_is : forall d n, step d n =
    match str_lookup n raw with Some j => let! x := get j in Ok (d ++ [(n, x)]) | None => Ok d end.

  Lemma fields_fold names : forall d0 d, foldM step names d0 = Ok d ->
    forall n x, In (n, x) d <-> In (n, x) d0 \/ (In n names /\ exists j, str_lookup n raw = Some j /\ get j = Ok x).
  Proof.
    induction names as [|m names IH]; intros d0 d H n x; cbn [foldM] in H.
    - apply Ok_inj in H. subst. cbn. tauto.
    - apply bind_ok in H as (d1 & H1 & H). rewrite (IH _ _ H n x). rewrite step_is in H1.
      destruct (str_lookup m raw) as [j|] eqn:E.
      + apply bind_ok in H1 as (y & G & H1). apply Ok_inj in H1. subst d1. rewrite in_app_iff. cbn [In]. split.
        * intros [[I|[Q|[]]]|[I K]]; auto. injection Q as <- <-. right. split; [now left|]. now exists j.
        * intros [I|[[<-|I] K]]; auto. left. right. left. destruct K as (j' & K1 & K2). rewrite E in K1. injection K1 as <-.
          rewrite G in K2. apply Ok_inj in K2. now subst.
      + apply Ok_inj in H1. subst d1. cbn [In]. split; [intros [I|[I K]]; auto|]. intros [I|[[<-|I] K]]; auto.
        destruct K as (j' & K1 & _). congruence.
  Qed.
  Lemma fields_nodup names : forall d0 d, foldM step names d0 = Ok d ->
    NoDup names -> NoDup (map fst d0) -> (forall n, In n names -> ~ In n (map fst d0)) -> NoDup (map fst d).
  Proof.
    induction names as [|m names IH]; intros d0 d H N N0 D; cbn [foldM] in H.
    - apply Ok_inj in H. now subst.
    - apply bind_ok in H as (d1 & H1 & H). inversion N as [|? ? Nm Nn]; subst. apply (IH _ _ H Nn).
      + rewrite step_is in H1. destruct (str_lookup m raw) as [j|]; [|apply Ok_inj in H1; now subst].
        apply bind_ok in H1 as (y & G & H1). apply Ok_inj in H1. subst d1. rewrite map_app. cbn [map fst].
        apply NoDup_rev in N0. rewrite <- (rev_involutive (map fst d0 ++ [m])). apply NoDup_rev. rewrite rev_app_distr. cbn [rev app].
        constructor; [|exact N0]. rewrite <- in_rev. apply D. now left.
      + intros n I. rewrite step_is in H1. destruct (str_lookup m raw) as [j|].
        * apply bind_ok in H1 as (y & G & H1). apply Ok_inj in H1. subst d1. rewrite map_app, in_app_iff. cbn.
          intros [I'|[<-|[]]]; [exact (D n (or_intror I) I')|contradiction].
        * apply Ok_inj in H1. subst d1. apply D. now right.
  Qed.
  Lemma fields_ok names : forall d0,
    is_ok (foldM step names d0) = true <-> (forall n j, In n names -> str_lookup n raw = Some j -> is_ok (get j) = true).
  Proof.
    induction names as [|m names IH]; intros d0; cbn [foldM].
    - split; [intros _ n j []|reflexivity].
    - rewrite step_is. destruct (str_lookup m raw) as [j|] eqn:E.
      + destruct (get j) as [x|e] eqn:G; cbn [bind].
        * rewrite IH. split; [|intros H n j' I; apply H; now right].
          intros H n j' [<-|I] E'; [|exact (H n j' I E')]. rewrite E in E'. injection E' as <-. now rewrite G.
        * split; [discriminate|]. intros H. specialize (H m j (or_introl eq_refl) E). rewrite G in H. discriminate.
      + cbn [bind]. rewrite IH. split; [|intros H n j' I; apply H; now right].
        intros H n j' [<-|I] E'; [congruence|exact (H n j' I E')].
  Qed.
End Fields.

Definition get_set (j : json) : res force := let! l := py_set j in Ok (FSet l).
Definition get_dict (j : json) : res force := let! l := load_ranges j in Ok (FDict l).
Lemma set_field_is raw d n : set_field raw d n =
  match str_lookup n raw with Some j => let! x := get_set j in Ok (d ++ [(n, x)]) | None => Ok d end.
Proof. unfold set_field, get_set. destruct (str_lookup n raw); [|reflexivity]. destruct (py_set j); reflexivity. Qed.
Lemma dict_field_is raw d n : dict_field raw d n =
  match str_lookup n raw with Some j => let! x := get_dict j in Ok (d ++ [(n, x)]) | None => Ok d end.
Proof. unfold dict_field, get_dict. destruct (str_lookup n raw); [|reflexivity]. destruct (load_ranges j); reflexivity. Qed.

Lemma names_disjoint n : In n change_names -> ~ In n label_names.
Proof.
  intros H I. cbn in H, I. destruct I as [<-|[<-|[]]]; destruct H as [H|[H|[H|[H|[]]]]]; discriminate.
Qed.
Lemma change_names_nodup : NoDup change_names.
Proof. repeat constructor; cbn; intuition discriminate. Qed.
Lemma label_names_nodup : NoDup label_names.
Proof. repeat constructor; cbn; intuition discriminate. Qed.

Lemma nested_in raw d : load_nested (JDict raw) = Ok d -> NoDup (map fst d) /\
  forall n x, In (n, x) d <->
    exists j, field raw n j /\ (In n change_names /\ get_set j = Ok x \/ In n label_names /\ get_dict j = Ok x).
Proof.
  cbn [load_nested]. intros H. apply bind_ok in H as (d1 & H1 & H2).
  pose proof (fields_fold raw _ _ (set_field_is raw) _ _ _ H1) as A.
  pose proof (fields_fold raw _ _ (dict_field_is raw) _ _ _ H2) as B.
  pose proof (fields_nodup raw _ _ (set_field_is raw) _ _ _ H1 change_names_nodup ltac:(constructor) ltac:(intros ? _ [])) as N1.
  split.
  - apply (fields_nodup raw _ _ (dict_field_is raw) _ _ _ H2 label_names_nodup N1).
    intros n I J. apply in_map_iff in J as ((n' & x) & Q & J). cbn in Q. subst n'. apply A in J.
    destruct J as [[]|[J _]]. exact (names_disjoint n J I).
  - intros n x. rewrite B, A. split.
    + intros [[[]|[I (j & E & G)]]|[I (j & E & G)]]; exists j; (split; [now apply lookup_field|]); [left|right]; now split.
    + intros (j & F & K). apply lookup_field in F. destruct K as [[I G]|[I G]].
      * left. right. split; [exact I|]. now exists j.
      * right. split; [exact I|]. now exists j.
Qed.
Lemma get_set_ok j x : get_set j = Ok x -> exists els l, x = FSet l /\ elements j els /\ Forall hashable els /\ is_set_of els l.
Proof.
  unfold get_set. intros H. apply bind_ok in H as (l & H & E). apply Ok_inj in E. subst x.
  apply py_set_ok in H as (els & H1 & H2 & H3). now exists els, l.
Qed.
Lemma get_dict_ok j x : get_dict j = Ok x -> exists fields l, x = FDict l /\ j = JDict fields /\ NoDup (map fst l) /\
  (forall t v, In (t, v) fields -> exists r, denotes t r) /\ forall r v, In (r, v) l <-> labelled fields r v.
Proof.
  unfold get_dict. intros H. apply bind_ok in H as (l & H & E). apply Ok_inj in E. subst x.
  destruct j; try discriminate. cbn [load_ranges] in H. apply ranges_fold in H as (N & A & B). now exists d, l.
Qed.
Lemma get_set_total j : is_ok (get_set j) = true <-> exists els, elements j els /\ Forall hashable els.
Proof.
  split.
  - destruct (get_set j) as [x|] eqn:E; [|discriminate]. intros _. apply get_set_ok in E as (els & l & _ & H1 & H2 & _). eauto.
  - intros (els & H & F). destruct (py_set_total j els H F) as (l & E). unfold get_set. now rewrite E.
Qed.
Lemma get_dict_total j : is_ok (get_dict j) = true <->
  exists fields, j = JDict fields /\ forall t v, In (t, v) fields -> exists r, denotes t r.
Proof.
  split.
  - destruct (get_dict j) as [x|] eqn:E; [|discriminate]. intros _. apply get_dict_ok in E as (fs & l & _ & H1 & _ & H2 & _). eauto.
  - intros (fs & -> & H). destruct (ranges_total fs H []) as (d & E). unfold get_dict, load_ranges. now rewrite E.
Qed.
Lemma nested_ok raw : is_ok (load_nested (JDict raw)) = true <->
  forall n j, field raw n j ->
    (In n change_names -> exists els, elements j els /\ Forall hashable els) /\
    (In n label_names -> exists fields, j = JDict fields /\ forall t v, In (t, v) fields -> exists r, denotes t r).
Proof.
  cbn [load_nested]. split.
  - intros H n j F. apply lookup_field in F.
    destruct (foldM (set_field raw) SET_NAMES []) as [d|] eqn:E; [|discriminate]. cbn [bind] in H.
    assert (E' : is_ok (foldM (set_field raw) SET_NAMES []) = true) by now rewrite E.
    split; intros I.
    + apply get_set_total. exact (proj1 (fields_ok raw _ _ (set_field_is raw) _ _) E' n j I F).
    + apply get_dict_total. exact (proj1 (fields_ok raw _ _ (dict_field_is raw) _ _) H n j I F).
  - intros H. assert (E' : is_ok (foldM (set_field raw) SET_NAMES []) = true).
    { apply (fields_ok raw _ _ (set_field_is raw)). intros n j I F. apply get_set_total. apply lookup_field in F. exact (proj1 (H n j F) I). }
    destruct (foldM (set_field raw) SET_NAMES []) as [d|] eqn:E; [|discriminate]. cbn [bind].
    apply (fields_ok raw _ _ (dict_field_is raw)). intros n j I F. apply get_dict_total. apply lookup_field in F. exact (proj2 (H n j F) I).
Qed.

(* ---- the file ---------------------------------------------------------------------- *)
Definition recognised (n : pystr) : Prop := In n change_names \/ In n label_names.
Lemma recognised_iff n : recognised n <-> In n (SET_NAMES ++ DICT_NAMES).
Proof. rewrite in_app_iff. reflexivity. Qed.
Lemma has_any_object raw names : exists b, has_any (JDict raw) names = Ok b /\
  (b = true <-> exists n j, In n names /\ field raw n j).
Proof.
  induction names as [|m names (b & E & H)]; cbn [has_any].
  - exists false. split; [reflexivity|]. split; [discriminate|]. intros (n & j & [] & _).
  - cbn [json_has bind]. destruct (str_lookup m raw) as [j|] eqn:F.
    + exists true. split; [reflexivity|]. split; [|reflexivity]. intros _. exists m, j. split; [now left|]. now apply lookup_field.
    + exists b. split; [exact E|]. rewrite H. split.
      * intros (n & j & I & K). exists n, j. split; [now right|exact K].
      * intros (n & j & [<-|I] & K); [apply lookup_field in K; congruence|]. now exists n, j.
Qed.

(* ---- splitting --------------------------------------------------------------------- *)
Definition first_cut (sep line a b : pystr) : Prop :=
  line = a ++ sep ++ b /\ forall a' b', line = a' ++ sep ++ b' -> (List.length a <= List.length a')%nat.
Lemma split_skip sep u : forall s cur, split_go sep (u ++ s) (List.length u) cur = split_go sep s 0 cur.
Proof.
  induction u as [|c u IH]; intros s cur; [reflexivity|]. cbn [app List.length split_go]. apply IH.
Qed.
Lemma split_none sep s : ~ contains_text s sep -> forall cur, split_go sep s 0 cur = [rev cur ++ s].
Proof.
  induction s as [|c s IH]; intros N cur; cbn [split_go]; [now rewrite app_nil_r|].
  destruct (starts_with sep (c :: s)) eqn:E.
  - apply starts_with_iff in E as (b & E). elim N. now exists [], b.
  - rewrite IH.
    + cbn [rev]. now rewrite <- app_assoc.
    + intros (a & b & ->). apply N. now exists (c :: a), b.
Qed.
Lemma split_first sep a : sep <> [] -> forall s b, first_cut sep s a b -> forall cur,
  split_go sep s 0 cur = (rev cur ++ a) :: split_go sep b 0 [].
Proof.
  intros Hsep. induction a as [|c a IH]; intros s b [-> F] cur.
  - destruct sep as [|x sep]; [now elim Hsep|]. cbn [app split_go].
    assert (E : starts_with (x :: sep) (x :: sep ++ b) = true) by (apply starts_with_iff; now exists b).
    rewrite E, app_nil_r. cbn [List.length]. rewrite Nat.sub_succ, Nat.sub_0_r. f_equal. apply split_skip.
  - cbn [app split_go]. destruct (starts_with sep (c :: a ++ sep ++ b)) eqn:E.
    + apply starts_with_iff in E as (b' & E). specialize (F [] b'). cbn [app List.length] in F. specialize (F E). lia.
    + rewrite (IH (a ++ sep ++ b) b).
      * cbn [rev]. now rewrite <- app_assoc.
      * split; [reflexivity|]. intros a' b' E'. specialize (F (c :: a') b'). cbn [app List.length] in F. rewrite E' in F.
        specialize (F eq_refl). lia.
Qed.
Lemma first_exists sep s : contains_text s sep -> exists a b, first_cut sep s a b.
Proof.
  induction s as [|c s IH]; intros (a & b & E).
  - exists a, b. split; [exact E|]. intros a' b' E'. destruct a; cbn; [lia|discriminate].
  - destruct (starts_with sep (c :: s)) eqn:W.
    + apply starts_with_iff in W as (b' & W). exists [], b'. split; [exact W|]. cbn. lia.
    + destruct a as [|c' a].
      { cbn [app] in E. rewrite (proj2 (starts_with_iff sep (c :: s))) in W by now exists b. discriminate. }
      injection E as -> E. destruct (IH (ex_intro _ a (ex_intro _ b E))) as (a1 & b1 & E1 & F1).
      exists (c' :: a1), b1. split; [cbn; now rewrite <- E1|]. intros a' b' E'. destruct a' as [|x a'].
      * cbn [app] in E'. rewrite (proj2 (starts_with_iff sep (c' :: s))) in W by now exists b'. discriminate.
      * injection E' as <- E'. cbn [List.length]. specialize (F1 a' b' E'). lia.
Qed.
Lemma first_unique sep s a b a' b' : first_cut sep s a b -> first_cut sep s a' b' -> a = a' /\ b = b'.
Proof.
  intros [E F] [E' F']. pose proof (F _ _ E') as H1. pose proof (F' _ _ E) as H2.
  assert (Q : List.length a = List.length a') by lia. rewrite E in E'.
  assert (a = a').
  { apply (f_equal (firstn (List.length a))) in E'. rewrite firstn_app, firstn_all, Nat.sub_diag, app_nil_r in E'.
    rewrite Q in E'. rewrite firstn_app, firstn_all, Nat.sub_diag, app_nil_r in E'. exact E'. }
  subst a'. split; [reflexivity|]. apply app_inv_head in E'. now apply app_inv_head in E'.
Qed.
Lemma split_pair sep s k v : sep <> [] ->
  split_go sep s 0 [] = [k; v] <-> first_cut sep s k v /\ ~ contains_text v sep.
Proof.
  intros Hsep. split.
  - intros E. destruct (substring_of sep s) eqn:S1.
    + apply substring_iff in S1. destruct (first_exists _ _ S1) as (a & b & F).
      rewrite (split_first _ _ Hsep _ _ F) in E. cbn [rev app] in E. injection E as <- E.
      destruct (substring_of sep b) eqn:S2.
      * apply substring_iff in S2. destruct (first_exists _ _ S2) as (a2 & b2 & F2).
        rewrite (split_first _ _ Hsep _ _ F2) in E. injection E as _ E. destruct b2; cbn in E; [discriminate|].
        destruct (starts_with sep (a0 :: b2)); [discriminate|].
        exfalso. clear -E. revert E. generalize [a0]. induction b2 as [|x b2 IH]; intros l E; cbn in E; [discriminate|].
        destruct (starts_with sep (x :: b2)); [discriminate|]. exact (IH _ E).
      * assert (N : ~ contains_text b sep) by (intros C; apply substring_iff in C; congruence).
        rewrite split_none in E by exact N. injection E as <-. now split.
    + assert (N : ~ contains_text s sep) by (intros C; apply substring_iff in C; congruence).
      rewrite split_none in E by exact N. discriminate.
  - intros [F N]. rewrite (split_first _ _ Hsep _ _ F), split_none by exact N. reflexivity.
Qed.

(* ---- averages ---------------------------------------------------------------------- *)
Lemma line_says_cut sep line key v : line_says sep line key v <->
  exists a, first_cut sep line a v /\ ~ contains_text v sep /\ strip a = key /\ contains_text key (L"accuracy").
Proof.
  unfold line_says, first_cut. split.
  - intros (a & E & F & N & T & C). exists a. repeat split; try assumption. now apply trimmed_strip.
  - intros (a & [E F] & N & T & C). exists a. repeat split; try assumption. now apply trimmed_iff.
Qed.
Lemma line_says_fun sep line k v k' v' : line_says sep line k v -> line_says sep line k' v' -> k = k' /\ v = v'.
Proof.
  rewrite !line_says_cut. intros (a & F & _ & <- & _) (a' & F' & _ & <- & _).
  destruct (first_unique _ _ _ _ _ _ F F') as [-> ->]. now split.
Qed.

Section Averages.
  Variable float_of : pystr -> option Q.
  Variable sep : pystr.
  Hypothesis Hsep : sep <> [].

  Lemma line_cases d line :
    (exists key v, line_says sep line key v /\
       average_line float_of sep d line = match float_of v with Some q => Ok (append_to d key q) | None => Raise ValueError end) \/
    ((forall key v, ~ line_says sep line key v) /\ average_line float_of sep d line = Ok d).
  Proof.
    unfold average_line. destruct (substring_of sep line) eqn:S1; cbn [negb].
    2:{ right. split; [|reflexivity]. intros key v H. apply line_says_cut in H as (a & [E _] & _).
        assert (substring_of sep line = true) by (apply substring_iff; now exists a, v). congruence. }
    assert (E : str_split sep line = Ok (split_go sep line 0 [])) by (destruct sep; [now elim Hsep|reflexivity]).
    rewrite E. cbn [bind].
    destruct (split_go sep line 0 []) as [|k [|v [|w l]]] eqn:Sp.
    1,2,4: (right; split; [|reflexivity]; intros key u H; apply line_says_cut in H as (a & F & N & _);
            pose proof (proj2 (split_pair sep line a u Hsep) (conj F N)) as X; rewrite Sp in X; discriminate).
    apply split_pair in Sp as [F N]; [|exact Hsep].
    destruct (substring_of (L"accuracy") (strip k)) eqn:S2.
    - left. exists (strip k), v. split; [|reflexivity]. apply line_says_cut. exists k. apply substring_iff in S2. split; [exact F|]. split; [exact N|]. split; [reflexivity|exact S2].
    - right. split; [|reflexivity]. intros key u H. apply line_says_cut in H as (a & F' & _ & <- & C).
      destruct (first_unique _ _ _ _ _ _ F F') as [-> _]. apply substring_iff in C. congruence.
  Qed.

  Definition values (d : list (pystr * list Q)) (k : pystr) : list Q :=
    match str_lookup k d with Some l => l | None => [] end.
  Lemma append_values d k v k' : values (append_to d k v) k' = values d k' ++ (if str_eqb k' k then [v] else []).
  Proof.
    unfold values. induction d as [|[k1 l] d IH]; cbn [append_to str_lookup].
    - destruct (str_eqb k' k); reflexivity.
    - destruct (str_eqb k1 k) eqn:E; cbn [str_lookup].
      + apply str_eqb_eq in E. subst k1. destruct (str_eqb k' k); [reflexivity|]. now rewrite app_nil_r.
      + destruct (str_eqb k' k1) eqn:E1; [|exact IH]. apply str_eqb_eq in E1. subst k1. rewrite E. now rewrite app_nil_r.
  Qed.
  Definition nonempty_entries (d : list (pystr * list Q)) : Prop := forall k, str_lookup k d <> Some [].
  Lemma append_nonempty d k v : nonempty_entries d -> nonempty_entries (append_to d k v).
  Proof.
    intros H k'. specialize (H k'). revert H. induction d as [|[k1 l1] d IH]; intros H; cbn [append_to str_lookup] in *.
    - destruct (str_eqb k' k); discriminate.
    - destruct (str_eqb k1 k) eqn:E2; cbn [str_lookup]; destruct (str_eqb k' k1) eqn:E1.
      + intros X. apply Some_inj in X. apply app_eq_nil in X as [_ X]. discriminate.
      + exact H.
      + exact H.
      + now apply IH.
  Qed.

  Lemma average_fold lines : forall d0 d, foldM (average_line float_of sep) lines d0 = Ok d ->
    (nonempty_entries d0 -> nonempty_entries d) /\
    forall k, exists qs, readings float_of sep k lines qs /\ values d k = values d0 k ++ qs.
  Proof.
    induction lines as [|line lines IH]; intros d0 d H; cbn [foldM] in H.
    - apply Ok_inj in H. subst d. split; [auto|]. intros k. exists []. split; [constructor|now rewrite app_nil_r].
    - apply bind_ok in H as (d1 & H1 & H). destruct (IH _ _ H) as [N K].
      destruct (line_cases d0 line) as [(key & v & S1 & E)|[S1 E]]; rewrite E in H1.
      + destruct (float_of v) as [q|] eqn:Fl; [|discriminate]. apply Ok_inj in H1. subst d1. split.
        * intros X. apply N. now apply append_nonempty.
        * intros k. destruct (K k) as (qs & R & V). rewrite append_values, <- app_assoc in V.
          destruct (str_eqb k key) eqn:Ek.
          -- apply str_eqb_eq in Ek. subst key. exists (q :: qs). split; [|exact V]. now apply Read_it with v.
          -- exists qs. split; [|exact V]. apply Read_other; [|exact R]. intros u S2.
             destruct (line_says_fun _ _ _ _ _ _ S1 S2) as [-> _]. rewrite str_eqb_refl in Ek. discriminate.
      + apply Ok_inj in H1. subst d1. split; [exact N|]. intros k. destruct (K k) as (qs & R & V). exists qs.
        split; [|exact V]. apply Read_other; [|exact R]. intros v. apply S1.
  Qed.
  Lemma readings_fun k lines qs : readings float_of sep k lines qs -> forall qs', readings float_of sep k lines qs' -> qs = qs'.
  Proof.
    induction 1 as [|line v q lines qs S1 F R IH|line lines qs N R IH]; intros qs' R'; inversion R'; subst; auto.
    - match goal with H : line_says sep line k ?w |- _ => destruct (line_says_fun _ _ _ _ _ _ S1 H) as [_ <-] end.
      f_equal; [congruence|auto].
    - match goal with H : forall v, ~ _ |- _ => elim (H v); exact S1 end.
    - match goal with H : line_says sep line k ?w |- _ => elim (N w); exact H end.
  Qed.
  Lemma lookup_map {A B} (f : A -> B) k d :
    str_lookup k (map (fun kl => (fst kl, f (snd kl))) d) = option_map f (str_lookup k d).
  Proof.
    induction d as [|[k1 l] d IH]; [reflexivity|]. cbn [map str_lookup fst snd]. destruct (str_eqb k k1); [reflexivity|exact IH].
  Qed.
  Lemma average_ok lines d : average_results float_of lines sep = Ok d ->
    (forall k, exists qs, readings float_of sep k lines qs) /\
    forall k qs, readings float_of sep k lines qs ->
      str_lookup k d = match qs with [] => None | _ => Some (np_mean qs) end.
  Proof.
    intros H. unfold average_results in H. apply bind_ok in H as (d1 & H1 & H). apply Ok_inj in H. subst d.
    destruct (average_fold _ _ _ H1) as [N K]. split.
    - intros k. destruct (K k) as (qs & R & _). now exists qs.
    - intros k qs R. destruct (K k) as (qs' & R' & V). rewrite (readings_fun _ _ _ R' _ R) in V. cbn [values str_lookup app] in V.
      rewrite (lookup_map np_mean). unfold values in V. specialize (N ltac:(intros ?; discriminate) k).
      destruct (str_lookup k d1) as [l|]; cbn [option_map].
      + subst l. destruct qs; [now elim N|reflexivity].
      + now subst qs.
  Qed.
  Lemma average_total lines : is_ok (average_results float_of lines sep) = true <->
    forall line k v, In line lines -> line_says sep line k v -> float_of v <> None.
  Proof.
    unfold average_results. assert (K : forall d0, is_ok (foldM (average_line float_of sep) lines d0) = true <->
      forall line k v, In line lines -> line_says sep line k v -> float_of v <> None).
    { induction lines as [|line lines' IH]; intros d0; cbn [foldM]; [split; [intros _ ? ? ? []|reflexivity]|].
      destruct (line_cases d0 line) as [(key & v & S1 & E)|[S1 E]]; rewrite E.
      - destruct (float_of v) as [q|] eqn:F; cbn [bind].
        + rewrite IH. split; [|intros H l k u I; apply H; now right].
          intros H l k u [<-|I] S2; [|exact (H l k u I S2)]. destruct (line_says_fun _ _ _ _ _ _ S1 S2) as [_ <-]. congruence.
        + split; [discriminate|]. intros H. elim (H line key v (or_introl eq_refl) S1 F).
      - cbn [bind]. rewrite IH. split; [|intros H l k u I; apply H; now right].
        intros H l k u [<-|I] S2; [now elim (S1 k u)|exact (H l k u I S2)]. }
    rewrite <- (K []). destruct (foldM (average_line float_of sep) lines []); reflexivity.
  Qed.
End Averages.
Lemma np_sum_sum l : np_sum l = sum_of l.
Proof. induction l as [|x l IH]; [reflexivity|]. cbn [np_sum sum_of fold_right]. now rewrite IH. Qed.
Lemma np_mean_average l : np_mean l = average l.
Proof. unfold np_mean, average. now rewrite np_sum_sum. Qed.

(* ---- the lines of the script ------------------------------------------------------- *)
Lemma name_facts n : In n accuracy_names -> ~ In "="%char n /\ strip (L"INFO:root:" ++ n) = L"INFO:root:" ++ n
  /\ contains_text (L"INFO:root:" ++ n) (L"accuracy").
Proof.
  intros H. assert (K : (negb (existsb (Ascii.eqb "=") n) && str_eqb (strip (L"INFO:root:" ++ n)) (L"INFO:root:" ++ n) &&
     substring_of (L"accuracy") (L"INFO:root:" ++ n)) = true).
  { cbn [accuracy_names In] in H. repeat (destruct H as [<-|H]; [reflexivity|]). destruct H. }
  apply andb_true_iff in K as [K K3]. apply andb_true_iff in K as [K1 K2]. split; [|split].
  - intros I. apply negb_true_iff in K1. assert (existsb (Ascii.eqb "=") n = true) by (apply existsb_exists; exists "="%char; split; [exact I|reflexivity]).
    congruence.
  - now apply str_eqb_eq.
  - now apply substring_iff.
Qed.
Lemma first_by_equals a b : ~ In "="%char a -> first_cut (L" = ") (a ++ L" = " ++ b) a b.
Proof.
  intros N. split; [reflexivity|]. intros a' b' E. destruct (Nat.le_gt_cases (List.length a) (List.length a')) as [H|H]; [exact H|exfalso].
  assert (X : nth_error (a ++ L" = " ++ b) (S (List.length a')) = Some "="%char).
  { rewrite E. rewrite nth_error_app2 by lia. replace (S (List.length a') - List.length a')%nat with 1%nat by lia. reflexivity. }
  destruct (Nat.eq_dec (S (List.length a')) (List.length a)) as [Q|Q].
  - rewrite nth_error_app2 in X by lia. rewrite Q, Nat.sub_diag in X. discriminate.
  - rewrite nth_error_app1 in X by lia. apply N. eapply nth_error_In, X.
Qed.
Lemma log_line_says n t : In n accuracy_names -> ~ In "="%char t ->
  line_says (L" = ") (log_line n t) (L"INFO:root:" ++ n) (t ++ [newline]).
Proof.
  intros Hn Ht. destruct (name_facts n Hn) as (N & S & C). apply line_says_cut. exists (L"INFO:root:" ++ n).
  unfold log_line. split; [|split; [|now split]].
  - rewrite (app_assoc (L"INFO:root:")). apply first_by_equals. rewrite in_app_iff. intros [I|I]; [|contradiction].
    cbn in I. repeat (destruct I as [I|I]; [discriminate|]). exact I.
  - intros (a & b & E). assert (I : In "="%char (t ++ [newline])) by (rewrite E, !in_app_iff; right; left; right; now left).
    apply in_app_iff in I as [I|[I|[]]]; [contradiction|discriminate].
Qed.
