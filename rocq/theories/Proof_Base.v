From Verif Require Import PyBase.
From Coq Require Import FinFun.
Ltac Zify.zify_post_hook ::= Z.div_mod_to_equations.
Open Scope Z_scope.

Lemma zlen_nonneg {A} (l : list A) : 0 <= zlen l.
Proof. unfold zlen; lia. Qed.

Lemma zlen_app {A} (l r : list A) : zlen (l ++ r) = zlen l + zlen r.
Proof. unfold zlen; rewrite app_length; lia. Qed.

Lemma zlen_cons {A} (x : A) l : zlen (x :: l) = 1 + zlen l.
Proof. unfold zlen; simpl length; lia. Qed.

Lemma zlen_nil {A} : zlen (@nil A) = 0.
Proof. reflexivity. Qed.

Lemma zlen_map {A B} (f : A -> B) l : zlen (map f l) = zlen l.
Proof. unfold zlen; rewrite map_length; reflexivity. Qed.

Lemma zlen_repeat {A} (x : A) n : zlen (repeat x n) = Z.of_nat n.
Proof. unfold zlen; rewrite repeat_length; reflexivity. Qed.

Lemma zrange_length lo hi : length (zrange lo hi) = Z.to_nat (hi - lo).
Proof. unfold zrange; rewrite map_length, seq_length; reflexivity. Qed.

Lemma zlen_zrange lo hi : lo <= hi -> zlen (zrange lo hi) = hi - lo.
Proof. unfold zlen; rewrite zrange_length; lia. Qed.

Lemma nth_error_zrange lo hi (k : nat) :
  (Z.of_nat k < hi - lo) -> nth_error (zrange lo hi) k = Some (lo + Z.of_nat k).
Proof.
  intros H; unfold zrange.
  rewrite nth_error_map.
  rewrite (nth_error_nth' _ 0%nat) by (rewrite seq_length; lia).
  rewrite seq_nth by lia. simpl. reflexivity.
Qed.

Lemma in_zrange lo hi x : In x (zrange lo hi) <-> lo <= x < hi.
Proof.
  unfold zrange; rewrite in_map_iff; split.
  - intros [k [E Hk]]; apply in_seq in Hk; lia.
  - intros H; exists (Z.to_nat (x - lo)); split; [lia|apply in_seq; lia].
Qed.

Lemma nodup_zrange lo hi : NoDup (zrange lo hi).
Proof.
  unfold zrange; apply Injective_map_NoDup; [|apply seq_NoDup].
  intros a b; lia.
Qed.

Lemma zsum_app l r : zsum (l ++ r) = zsum l + zsum r.
Proof. induction l; simpl; lia. Qed.

Lemma zsum_map_mul {A} (f : A -> Z) c l : zsum (map (fun x => c * f x) l) = c * zsum (map f l).
Proof. induction l; simpl; lia. Qed.

Lemma zsum_map_ext {A} (f g : A -> Z) l :
  (forall x, In x l -> f x = g x) -> zsum (map f l) = zsum (map g l).
Proof. induction l; simpl; intros H; [reflexivity|rewrite H, IHl; auto]. Qed.

Lemma zsum_map_const {A} (c : Z) (l : list A) : zsum (map (fun _ => c) l) = c * zlen l.
Proof.
  induction l as [|a l IH]; [unfold zlen; simpl; lia|].
  rewrite zlen_cons; cbn [map zsum]; rewrite IH; lia.
Qed.

Lemma zsum_nonneg l : (forall x, In x l -> 0 <= x) -> 0 <= zsum l.
Proof.
  induction l as [|a l IH]; simpl; intros H; [lia|].
  pose proof (H a (or_introl eq_refl)). assert (0 <= zsum l) by (apply IH; auto). lia.
Qed.

(* py_nth *)
Lemma py_nth_pos {A} (l : list A) i a :
  0 <= i -> nth_error l (Z.to_nat i) = Some a -> py_nth l i = Ok a.
Proof.
  intros Hi E; unfold py_nth.
  assert (Z.to_nat i < length l)%nat by (apply nth_error_Some; congruence).
  unfold zlen in *.
  destruct (i <? 0) eqn:E1; [lia|].
  destruct ((i <? 0) || (Z.of_nat (length l) <=? i)) eqn:E2; [lia|].
  rewrite E; reflexivity.
Qed.

Lemma py_nth_ok_inv {A} (l : list A) i a :
  py_nth l i = Ok a ->
  (0 <= i < zlen l /\ nth_error l (Z.to_nat i) = Some a)
  \/ (- zlen l <= i < 0 /\ nth_error l (Z.to_nat (i + zlen l)) = Some a).
Proof.
  unfold py_nth. intros H.
  destruct (i <? 0) eqn:E1.
  - right. destruct ((i + zlen l <? 0) || (zlen l <=? i + zlen l)) eqn:E2; [discriminate|].
    split; [lia|]. destruct (nth_error _ _); congruence.
  - left. destruct ((i <? 0) || (zlen l <=? i)) eqn:E2; [discriminate|].
    split; [lia|]. destruct (nth_error _ _); congruence.
Qed.

Lemma py_nth_in_range {A} (l : list A) i :
  0 <= i < zlen l -> exists a, py_nth l i = Ok a /\ nth_error l (Z.to_nat i) = Some a.
Proof.
  intros H. destruct (nth_error l (Z.to_nat i)) eqn:E.
  - exists a; split; [apply py_nth_pos; [lia|exact E]|reflexivity].
  - apply nth_error_None in E. unfold zlen in H; lia.
Qed.

Lemma py_nth_out {A} (l : list A) i :
  i < - zlen l \/ zlen l <= i -> py_nth l i = Raise IndexError.
Proof.
  intros H; unfold py_nth; pose proof (zlen_nonneg l).
  destruct (i <? 0) eqn:E1.
  - destruct ((i + zlen l <? 0) || (zlen l <=? i + zlen l)) eqn:E2; [reflexivity|lia].
  - destruct ((i <? 0) || (zlen l <=? i)) eqn:E2; [reflexivity|lia].
Qed.

(* blocks in a flat_map *)
Lemma nth_error_flat_map {A B} (f : A -> list B) (l : list A) (k m : nat) (a : A) :
  nth_error l k = Some a -> (m < length (f a))%nat ->
  nth_error (flat_map f l) (list_sum (map (fun x => length (f x)) (firstn k l)) + m)
  = nth_error (f a) m.
Proof.
  revert k; induction l as [|x l IH]; intros k Hk Hm.
  - destruct k; discriminate.
  - destruct k as [|k]; simpl in *.
    + injection Hk as ->. rewrite nth_error_app1 by exact Hm. reflexivity.
    + rewrite nth_error_app2 by lia.
      rewrite <- (IH k Hk Hm). f_equal; lia.
Qed.

Lemma flat_map_length_sum {A B} (f : A -> list B) l :
  length (flat_map f l) = list_sum (map (fun x => length (f x)) l).
Proof. induction l; simpl; [reflexivity|rewrite app_length, IHl; reflexivity]. Qed.

(* inverse: any position in a flat_map lies in a block *)
Lemma flat_map_locate {A B} (f : A -> list B) (l : list A) (i : nat) :
  (i < length (flat_map f l))%nat ->
  exists k a m, nth_error l k = Some a /\ (m < length (f a))%nat /\
    i = (list_sum (map (fun x => length (f x)) (firstn k l)) + m)%nat.
Proof.
  revert i; induction l as [|x l IH]; simpl; intros i Hi; [lia|].
  rewrite app_length in Hi.
  destruct (lt_dec i (length (f x))) as [H|H].
  - exists 0%nat, x, i; simpl; auto.
  - destruct (IH (i - length (f x))%nat) as (k & a & m & E1 & E2 & E3); [lia|].
    exists (S k), a, m; simpl. repeat split; auto; lia.
Qed.

Lemma list_sum_const {A} (c : nat) (l : list A) :
  list_sum (map (fun _ => c) l) = (length l * c)%nat.
Proof. induction l; simpl; lia. Qed.

Lemma of_nat_list_sum l : Z.of_nat (list_sum l) = zsum (map Z.of_nat l).
Proof. induction l; simpl; lia. Qed.

(* upd_nat *)
Lemma upd_nat_length {A} (l : list A) i v : length (upd_nat l i v) = length l.
Proof. revert i; induction l; destruct i; simpl; auto. Qed.

Lemma nth_error_upd_nat {A} (l : list A) i j v :
  nth_error (upd_nat l i v) j =
  if (i =? j)%nat && (i <? length l)%nat then Some v else nth_error l j.
Proof.
  revert i j; induction l as [|x l IH]; intros i j.
  - destruct i; simpl; rewrite andb_false_r; reflexivity.
  - destruct i, j; simpl; auto. rewrite IH. reflexivity.
Qed.

Lemma nth_upd_nat {A} (l : list A) i j v d :
  (i < length l)%nat ->
  nth j (upd_nat l i v) d = if (i =? j)%nat then v else nth j l d.
Proof.
  revert i j; induction l as [|x l IH]; simpl; intros i j H; [lia|].
  destruct i, j; simpl; auto. apply IH; lia.
Qed.

Lemma py_upd_pos {A} (l : list A) i v :
  0 <= i < zlen l -> py_upd l i v = Ok (upd_nat l (Z.to_nat i) v).
Proof.
  intros H; unfold py_upd. destruct (i <? 0) eqn:E; [lia|].
  destruct ((i <? 0) || (zlen l <=? i)) eqn:E2; [lia|reflexivity].
Qed.

(* slices *)
Lemma py_slice_full_prefix {A} (l : list A) b :
  0 <= b -> py_slice l 0 b = firstn (Z.to_nat b) l.
Proof.
  intros H; unfold py_slice, py_bound; pose proof (zlen_nonneg l).
  destruct (0 <? 0) eqn:E0; [lia|]. destruct (b <? 0) eqn:E1; [lia|].
  replace (Z.max 0 (Z.min (zlen l) 0)) with 0 by lia. simpl skipn.
  destruct (Z.le_ge_cases b (zlen l)).
  - f_equal; lia.
  - replace (Z.max 0 (Z.min (zlen l) b) - 0) with (zlen l) by lia.
    unfold zlen in *. rewrite firstn_all2 by lia. rewrite firstn_all2 by lia. reflexivity.
Qed.

Lemma py_slice_spec {A} (l : list A) a b :
  0 <= a -> 0 <= b -> py_slice l a b = firstn (Z.to_nat (b - a)) (skipn (Z.to_nat a) l).
Proof.
  intros Ha Hb; unfold py_slice, py_bound; pose proof (zlen_nonneg l).
  destruct (a <? 0) eqn:E0; [lia|]. destruct (b <? 0) eqn:E1; [lia|].
  unfold zlen in *.
  destruct (Z.le_ge_cases a (Z.of_nat (length l))) as [H1|H1].
  - replace (Z.max 0 (Z.min (Z.of_nat (length l)) a)) with a by lia.
    destruct (Z.le_ge_cases b (Z.of_nat (length l))) as [H2|H2].
    + f_equal; lia.
    + rewrite !firstn_all2; [reflexivity| |]; rewrite skipn_length; lia.
  - replace (Z.max 0 (Z.min (Z.of_nat (length l)) a)) with (Z.of_nat (length l)) by lia.
    rewrite (skipn_all2 l) by lia. rewrite (skipn_all2 l) by lia.
    rewrite !firstn_nil; reflexivity.
Qed.

Lemma mapM_ok {A B} (f : A -> res B) l bs :
  mapM f l = Ok bs -> Forall2 (fun a b => f a = Ok b) l bs.
Proof.
  revert bs; induction l as [|a l IH]; simpl; intros bs H.
  - injection H as <-; constructor.
  - destruct (f a) eqn:E; [|discriminate]. simpl in H.
    destruct (mapM f l) eqn:E2; [|discriminate]. simpl in H. injection H as <-.
    constructor; auto.
Qed.

Lemma bind_ok {A B} (x : res A) (f : A -> res B) b :
  bind x f = Ok b -> exists a, x = Ok a /\ f a = Ok b.
Proof. destruct x; simpl; intros H; [exists a; auto|discriminate]. Qed.

Lemma Ok_inj {A} (x y : A) : Ok x = Ok y -> x = y.
Proof. congruence. Qed.

Lemma Ok_pair {A B} (a c : A) (b d : B) : a = c -> b = d -> Ok (a, b) = Ok (c, d).
Proof. congruence. Qed.

Lemma Forall2_in_l {A B} (R : A -> B -> Prop) l l' : Forall2 R l l' -> forall a, In a l -> exists b, In b l' /\ R a b.
Proof.
  induction 1 as [|x y l l' H _ IH]; intros a Ha; [contradiction|]. destruct Ha as [<-|Ha].
  - exists y. split; [left; reflexivity|exact H].
  - destruct (IH a Ha) as (b & Hb & Hr). exists b. split; [right; exact Hb|exact Hr].
Qed.
Lemma Forall2_in_r {A B} (R : A -> B -> Prop) l l' : Forall2 R l l' -> forall b, In b l' -> exists a, In a l /\ R a b.
Proof.
  induction 1 as [|x y l l' H _ IH]; intros b Hb; [contradiction|]. destruct Hb as [<-|Hb].
  - exists x. split; [left; reflexivity|exact H].
  - destruct (IH b Hb) as (a & Ha & Hr). exists a. split; [right; exact Ha|exact Hr].
Qed.

Lemma Forall2_len {A B} (R : A -> B -> Prop) l l' : Forall2 R l l' -> length l = length l'.
Proof. induction 1; cbn; congruence. Qed.

Lemma Some_inj {A} (a b : A) : Some a = Some b -> a = b.
Proof. intros H. now injection H. Qed.
