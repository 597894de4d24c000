(* Lemmas about the choice of checkpoints. *)
From Coq Require Import String Ascii.
From Verif Require Import Model_Checkpoints Spec_Checkpoints Proof_Base Proof_Strings Proof_Output.
From Coq Require Import List Lia.
Import ListNotations.
Open Scope Z_scope.

(* ---- replace ------------------------------------------------------------------------------ *)
Lemma is_prefix_iff p s : is_prefix p s = true <-> exists r, s = p ++ r.
Proof.
  revert s. induction p as [|a p IH]; intros s; cbn [is_prefix].
  - split; [intros _; now exists s|reflexivity].
  - destruct s as [|b s]; [split; [discriminate|intros (r & H); discriminate H]|]. rewrite andb_true_iff, Ascii.eqb_eq, IH. split.
    + intros (-> & r & ->). now exists r.
    + intros (r & H). injection H as -> ->. split; [reflexivity|now exists r].
Qed.
Lemma replace_skip old new s k : replace_go old new s k = replace_go old new (skipn k s) 0.
Proof.
  revert k. induction s as [|c s IH]; intros k; [destruct k; reflexivity|]. destruct k as [|k]; [reflexivity|]. cbn [replace_go skipn]. apply IH.
Qed.
Lemma replace_match old new r : old <> [] -> replace_go old new (old ++ r) 0 = new ++ replace_go old new r 0.
Proof.
  intros N. destruct old as [|c old]; [now elim N|]. cbn [app replace_go].
  rewrite (proj2 (is_prefix_iff (c :: old) (c :: old ++ r))) by now exists r. f_equal. cbn [List.length Nat.pred].
  rewrite replace_skip. f_equal. rewrite skipn_app, skipn_all, Nat.sub_diag. reflexivity.
Qed.
Lemma replace_none old new s : (forall a b, s <> a ++ old ++ b) -> replace_go old new s 0 = s.
Proof.
  induction s as [|c s IH]; intros H; [reflexivity|]. cbn [replace_go].
  destruct (is_prefix old (c :: s)) eqn:E.
  - apply is_prefix_iff in E. destruct E as (r & E). now elim (H [] r).
  - f_equal. apply IH. intros a b ->. now apply (H (c :: a) b).
Qed.
(* nothing to replace in a, nor across its end *)
Lemma replace_app old new a s : (forall a1 a2, a = a1 ++ a2 -> a2 <> [] -> is_prefix old (a2 ++ s) = false) ->
  replace_go old new (a ++ s) 0 = a ++ replace_go old new s 0.
Proof.
  induction a as [|c a IH]; intros H; [reflexivity|]. cbn [app replace_go].
  assert (E := H [] (c :: a) eq_refl). cbn [app] in E. rewrite E by discriminate. f_equal. apply IH. intros a1 a2 -> N. apply (H (c :: a1) a2); [reflexivity|exact N].
Qed.

(* ---- order --------------------------------------------------------------------------------- *)
Lemma nat_ascii_inj x y : nat_of_ascii x = nat_of_ascii y -> x = y.
Proof. intros H. rewrite <- (ascii_nat_embedding x), <- (ascii_nat_embedding y). now rewrite H. Qed.
Lemma str_leb_iff a b : str_leb a b = true <-> before a b.
Proof.
  revert b. induction a as [|x a IH]; intros b; cbn [str_leb].
  - split; [intros _; left; now exists b|reflexivity].
  - destruct b as [|y b].
    + split; [discriminate|]. intros [(r & H)|(p & u & a' & v & b' & _ & H & _)]; [discriminate H|destruct p; discriminate H].
    + destruct (Nat.ltb_spec (nat_of_ascii x) (nat_of_ascii y)) as [L1|L1].
      { split; [|reflexivity]. intros _. right. exists [], x, a, y, b. repeat split. exact L1. }
      destruct (Nat.ltb_spec (nat_of_ascii y) (nat_of_ascii x)) as [L2|L2].
      { split; [discriminate|]. intros [(r & H)|(p & u & a' & v & b' & Ha & Hb & H)].
        - injection H as -> _. lia.
        - destruct p as [|z p]; injection Ha as -> _; injection Hb as -> _; lia. }
      assert (x = y) by (apply nat_ascii_inj; lia). subst y. rewrite IH. split.
      * intros [(r & ->)|(p & u & a' & v & b' & -> & -> & H)]; [left; now exists r|]. right. exists (x :: p), u, a', v, b'. repeat split. exact H.
      * intros [(r & H)|(p & u & a' & v & b' & Ha & Hb & H)]; [injection H as ->; left; now exists r|].
        destruct p as [|z p]; injection Ha as Hu Ha; injection Hb as Hv Hb; [exfalso; subst; lia|]. right. exists p, u, a', v, b'. repeat split; assumption.
Qed.
Lemma str_leb_refl a : str_leb a a = true.
Proof. induction a as [|x a IH]; [reflexivity|]. cbn [str_leb]. rewrite Nat.ltb_irrefl. exact IH. Qed.
Lemma str_leb_total a b : str_leb a b = true \/ str_leb b a = true.
Proof.
  revert b. induction a as [|x a IH]; intros [|y b]; cbn [str_leb]; auto.
  destruct (Nat.ltb_spec (nat_of_ascii x) (nat_of_ascii y)) as [L1|L1]; [now left|].
  destruct (Nat.ltb_spec (nat_of_ascii y) (nat_of_ascii x)) as [L2|L2]; [now right|]. apply IH.
Qed.
Lemma str_leb_trans a b c : str_leb a b = true -> str_leb b c = true -> str_leb a c = true.
Proof.
  revert b c. induction a as [|x a IH]; intros [|y b] [|z c]; cbn [str_leb]; try reflexivity; try discriminate.
  destruct (Nat.ltb_spec (nat_of_ascii x) (nat_of_ascii y)), (Nat.ltb_spec (nat_of_ascii y) (nat_of_ascii x)),
    (Nat.ltb_spec (nat_of_ascii y) (nat_of_ascii z)), (Nat.ltb_spec (nat_of_ascii z) (nat_of_ascii y)),
    (Nat.ltb_spec (nat_of_ascii x) (nat_of_ascii z)), (Nat.ltb_spec (nat_of_ascii z) (nat_of_ascii x)); try lia; try reflexivity; try discriminate.
  apply IH.
Qed.
Lemma insert_in w l v : In v (str_insert w l) <-> v = w \/ In v l.
Proof.
  induction l as [|u l IH]; cbn [str_insert]; [cbn; intuition|]. destruct (str_leb w u); cbn [In]; [intuition|]. rewrite IH. intuition.
Qed.
Lemma sorted_in l v : In v (str_sorted l) <-> In v l.
Proof. induction l as [|u l IH]; [reflexivity|]. cbn [str_sorted fold_right]. rewrite insert_in. fold (str_sorted l). rewrite IH. cbn. intuition. Qed.
Lemma insert_ne w l : str_insert w l <> [].
Proof. destruct l; cbn [str_insert]; [discriminate|]. destruct (str_leb _ _); discriminate. Qed.
(* the last of a sorted list is above all of its elements *)
Definition top (l : list pystr) : Prop := forall v, In v l -> str_leb v (last l []) = true.
Fixpoint asc (l : list pystr) : Prop :=
  match l with [] => True | v :: r => (forall u, In u r -> str_leb v u = true) /\ asc r end.
Lemma insert_asc w l : asc l -> asc (str_insert w l).
Proof.
  induction l as [|v l IH]; intros A; cbn [str_insert]; [split; [intros u []|exact I]|]. destruct A as (A & B).
  destruct (str_leb w v) eqn:E.
  - split; [|split; assumption]. intros u [<-|H]; [exact E|]. apply str_leb_trans with v; [exact E|now apply A].
  - split; [|now apply IH]. intros u H. apply insert_in in H. destruct H as [->|H]; [|now apply A]. destruct (str_leb_total w v) as [K|K]; [congruence|exact K].
Qed.
Lemma asc_top l : asc l -> top l.
Proof.
  induction l as [|v l IH]; intros A u H; [destruct H|]. destruct A as (A & B). destruct l as [|w l].
  - destruct H as [->|[]]. apply str_leb_refl.
  - change (last (v :: w :: l) []) with (last (w :: l) []). destruct H as [->|H]; [|now apply IH].
    apply A. clear. revert w. induction l as [|x l IH]; intros w; [now left|]. right. change (last (w :: x :: l) []) with (last (x :: l) []). apply IH.
Qed.
Lemma sorted_asc l : asc (str_sorted l).
Proof. induction l as [|v l IH]; [exact I|]. cbn [str_sorted fold_right]. apply insert_asc, IH. Qed.
Lemma last_in (l : list pystr) : l <> [] -> In (last l []) l.
Proof.
  destruct l as [|w l]; [intros N; now elim N|]. intros _. revert w. induction l as [|x l IH]; intros w; [now left|].
  right. change (last (w :: x :: l) []) with (last (x :: l) []). apply IH.
Qed.
Lemma choose_greatest glob p c : choose_checkpoint glob p = Some c -> greatest (glob p) c.
Proof.
  unfold choose_checkpoint. assert (A := asc_top _ (sorted_asc (glob p))). intros H.
  assert (E : c = last (str_sorted (glob p)) [] /\ str_sorted (glob p) <> []).
  { destruct (str_sorted (glob p)) as [|a [|b l]]; [discriminate H|apply Some_inj in H; split; [now subst|discriminate]|apply Some_inj in H; split; [now subst|discriminate]]. }
  destruct E as (-> & N). split; [apply sorted_in, last_in, N|]. intros c' Hc. apply str_leb_iff, A, sorted_in, Hc.
Qed.
Lemma choose_none glob p : choose_checkpoint glob p = None <-> glob p = [].
Proof.
  unfold choose_checkpoint. split.
  - destruct (str_sorted (glob p)) as [|a [|b l]] eqn:E; intros H; [|discriminate H|discriminate H].
    destruct (glob p) as [|x l]; [reflexivity|]. cbn in E. now apply insert_ne in E.
  - intros ->. reflexivity.
Qed.

(* ---- numbers ----------------------------------------------------------------------------------- *)
Definition dval (c : ascii) : Z := Z.of_nat (nat_of_ascii c) - 48.
Lemma digit_range c : char_is_digit c = true -> 0 <= dval c <= 9.
Proof. unfold char_is_digit, dval. rewrite andb_true_iff, !Z.leb_le. lia. Qed.
Lemma value_acc s n : fold_left (fun n c => 10 * n + (Z.of_nat (nat_of_ascii c) - 48)) s n = n * 10 ^ Z.of_nat (List.length s) + digits_value s.
Proof.
  unfold digits_value. revert n. induction s as [|c s IH]; intros n; cbn [fold_left List.length]; [cbn; lia|].
  rewrite IH, (IH (10 * 0 + _)). rewrite Nat2Z.inj_succ, Z.pow_succ_r by lia. ring.
Qed.
Lemma value_cons c s : digits_value (c :: s) = dval c * 10 ^ Z.of_nat (List.length s) + digits_value s.
Proof. unfold digits_value at 1. cbn [fold_left]. rewrite value_acc. unfold dval. ring. Qed.
Lemma value_bound s : digits s -> 0 <= digits_value s < 10 ^ Z.of_nat (List.length s).
Proof.
  induction 1 as [|c s C _ IH]; [cbn; lia|]. rewrite value_cons. apply digit_range in C. cbn [List.length]. rewrite Nat2Z.inj_succ, Z.pow_succ_r by lia. nia.
Qed.
Lemma order_value pre post a b : digits a -> digits b -> List.length a = List.length b ->
  str_leb (pre ++ a ++ post) (pre ++ b ++ post) = true -> digits_value a <= digits_value b.
Proof.
  intros Da Db E. induction pre as [|c pre IH]; cbn [app str_leb]; [|rewrite Nat.ltb_irrefl; exact IH].
  revert b Db E. induction Da as [|x a X Da IH]; intros b Db E H; [destruct b; [lia|discriminate E]|].
  destruct b as [|y b]; [discriminate E|]. inversion Db as [|? ? Y Db']; subst. injection E as E. cbn [app str_leb] in H.
  assert (Ba := value_bound _ Da). assert (Bb := value_bound _ Db'). rewrite !value_cons, <- E.
  destruct (Nat.ltb_spec (nat_of_ascii x) (nat_of_ascii y)) as [L1|L1].
  - assert (dval x + 1 <= dval y) by (unfold dval; lia). rewrite E in *. nia.
  - destruct (Nat.ltb_spec (nat_of_ascii y) (nat_of_ascii x)) as [L2|L2]; [discriminate H|].
    assert (dval x = dval y) by (unfold dval; lia). specialize (IH b Db' E H). rewrite H0. lia.
Qed.
