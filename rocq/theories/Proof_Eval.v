(* Evaluation: lemmas. *)
From Coq Require Import QArith Lqa.
From Verif Require Import Model_Strings Model_Rhythm Model_Piece Model_Eval Spec_Search Spec_Piece Spec_Eval
  Proof_Base Proof_Paths Proof_Infer Proof_Piece Proof_Window Proof_Keys.
From Coq Require Import List Lia.
Import ListNotations.
Close Scope Q_scope.
Open Scope Z_scope.

(* ---- arrays of labels ---- *)
Definition covers (x : Z * (nat * nat)) (i : nat) : Prop := (fst (snd x) <= i < snd (snd x))%nat.
Lemma fill_all_length l : forall arr, length (fill_all arr l) = length arr.
Proof.
  induction l as [|[v [a b]] l IH]; intros arr; [reflexivity|]. cbn [fill_all fold_left].
  change (length (fill_all (fill_slice arr (Z.of_nat a) (Z.of_nat b) v) l) = length arr).
  rewrite IH. apply fill_length.
Qed.
Lemma fill_all_miss i : forall l arr, (forall x, In x l -> ~ covers x i) ->
  nth_error (fill_all arr l) i = nth_error arr i.
Proof.
  induction l as [|[v [a b]] l IH]; intros arr H; [reflexivity|].
  change (nth_error (fill_all (fill_slice arr (Z.of_nat a) (Z.of_nat b) v) l) i = nth_error arr i).
  rewrite IH by (intros x I; apply H; now right). rewrite nth_error_fill by lia.
  assert (N := H _ (or_introl eq_refl)). unfold covers in N. cbn in N.
  replace ((Z.of_nat a <=? Z.of_nat i) && (Z.of_nat i <? Z.of_nat b) && (i <? length arr)%nat) with false by lia.
  reflexivity.
Qed.
Lemma fill_all_hit i l1 x l2 : forall arr, (i < length arr)%nat -> covers x i ->
  (forall y, In y l2 -> ~ covers y i) -> nth_error (fill_all arr (l1 ++ x :: l2)) i = Some (fst x).
Proof.
  intros arr Hi Hx H2. unfold fill_all. rewrite fold_left_app. cbn [fold_left].
  fold (fill_all arr l1). set (arr1 := fill_all arr l1). destruct x as [v [a b]]. unfold covers in Hx. cbn in Hx.
  change (nth_error (fill_all (fill_slice arr1 (Z.of_nat a) (Z.of_nat b) v) l2) i = Some v).
  rewrite fill_all_miss by exact H2. rewrite nth_error_fill by lia.
  assert (L : length arr1 = length arr) by apply fill_all_length. rewrite L.
  replace ((Z.of_nat a <=? Z.of_nat i) && (Z.of_nat i <? Z.of_nat b) && (i <? length arr)%nat) with true by lia.
  reflexivity.
Qed.

Lemma Forall2_nth {A B} (R : A -> B -> Prop) : forall l1 l2 k x, Forall2 R l1 l2 -> nth_error l1 k = Some x ->
  exists y, nth_error l2 k = Some y /\ R x y.
Proof.
  induction l1 as [|a l1 IH]; intros l2 k x F H; [destruct k; discriminate H|].
  inversion F as [|? b ? l2' Fa F' E1 E2]; subst. clear F. rename F' into F. destruct k as [|k]; cbn in *.
  - apply Some_inj in H. subst. eauto.
  - eapply IH; eassumption.
Qed.
Lemma Forall2_nth_r {A B} (R : A -> B -> Prop) : forall l1 l2 k y, Forall2 R l1 l2 -> nth_error l2 k = Some y ->
  exists x, nth_error l1 k = Some x /\ R x y.
Proof.
  induction l1 as [|a l1 IH]; intros l2 k y F H; [inversion F; subst; destruct k; discriminate H|].
  inversion F as [|? b ? l2' Fa F' E1 E2]; subst. clear F. rename F' into F. destruct k as [|k]; cbn in *.
  - apply Some_inj in H. subst. eauto.
  - eapply IH; eassumption.
Qed.
Lemma nth_combine_some {A B} : forall (l1 : list A) (l2 : list B) k x y,
  nth_error (combine l1 l2) k = Some (x, y) <-> nth_error l1 k = Some x /\ nth_error l2 k = Some y.
Proof.
  induction l1 as [|a l1 IH]; intros [|b l2] [|k] x y; cbn; try (split; [discriminate|intros [H1 H2]; discriminate]).
  - split; [intros H; injection H as -> ->; auto|intros [H1 H2]; congruence].
  - apply IH.
Qed.

(* ---- the state ---- *)
Lemma estimated_nth n labels changes arr i e :
  estimated_labels n labels changes = Ok arr -> segmentation labels changes n ->
  labelled labels changes i (Some e) -> nth_error arr i = Some e.
Proof.
  intros E (L & Z0 & Ln & Inc) (k & a & b & Hk & Ha & Hb & Hi). unfold estimated_labels in E.
  apply bind_ok in E. destruct E as (l & M & E). apply Ok_inj in E. subst arr.
  apply mapM_ok in M.
  assert (Hk' : nth_error (combine labels (combine (removelast changes) (tl changes))) k = Some (Some e, (a, b))).
  { apply nth_combine_some. split; [exact Hk|]. apply nth_combine_some. split.
    - rewrite removelast_firstn_len. rewrite nth_error_firstn_lt; [exact Ha|].
      assert (k < length labels)%nat by (apply nth_error_Some; congruence). lia.
    - destruct changes; [destruct k; discriminate Ha|]. exact Hb. }
  destruct (Forall2_nth _ _ _ _ _ M Hk') as (y & Hy & Ey). cbn in Ey. apply Ok_inj in Ey. subst y.
  destruct (nth_error_split _ _ Hy) as (l1 & l2 & -> & Lk).
  assert (Mono : forall j c1 c2, nth_error changes j = Some c1 -> forall m, nth_error changes (j + m) = Some c2 -> (c1 <= c2)%nat).
  { intros j c1 c2 H1 m. revert c2. induction m as [|m IHm]; intros c2 H2.
    - rewrite Nat.add_0_r in H2. rewrite H1 in H2. apply Some_inj in H2. lia.
    - destruct (nth_error changes (j + m)) as [c|] eqn:Ec.
      + specialize (IHm c eq_refl). rewrite Nat.add_succ_r in H2. specialize (Inc _ _ _ Ec H2). lia.
      + apply nth_error_None in Ec. assert (nth_error changes (j + S m) <> None) by congruence.
        apply nth_error_Some in H. lia. }
  assert (Hn : (i < n)%nat).
  { assert (b <= n)%nat; [|lia]. 
    assert (k < length labels)%nat by (apply nth_error_Some; congruence).
    apply (Mono (S k) b n Hb (length labels - S k)%nat). replace (S k + (length labels - S k))%nat with (length labels) by lia. exact Ln. }
  rewrite (fill_all_hit i l1 (e, (a, b)) l2); [reflexivity|now rewrite repeat_length|exact Hi|].
  intros y I C. apply In_nth_error in I. destruct I as (m & Hm).
  destruct (Forall2_nth_r _ _ _ (k + S m)%nat y M) as (x & Hx & Ex).
  { rewrite nth_error_app2 by lia. rewrite Lk. replace (k + S m - k)%nat with (S m) by lia. exact Hm. }
  destruct x as [o [a' b']]. apply nth_combine_some in Hx. destruct Hx as [_ Hx].
  apply nth_combine_some in Hx. destruct Hx as [Hx _].
  cbn in Ex. destruct o as [v|]; [|discriminate Ex]. apply Ok_inj in Ex. subst y. unfold covers in C. cbn in C.
  rewrite removelast_firstn_len in Hx.
  assert (Hx' : nth_error changes (k + S m) = Some a').
  { rewrite <- Hx. symmetry. apply nth_error_firstn_lt.
    assert (k + S m < length (firstn (Init.Nat.pred (length changes)) changes))%nat by (apply nth_error_Some; congruence).
    rewrite firstn_length in H. lia. }
  replace (k + S m)%nat with (S k + m)%nat in Hx' by lia.
  specialize (Mono _ _ _ Hb _ Hx'). lia.
Qed.

(* ---- the piece ---- *)
Lemma nat_mono : forall l : list nat, non_decreasing (map Z.of_nat l) -> forall j m a b,
  nth_error l j = Some a -> nth_error l (j + m) = Some b -> (a <= b)%nat.
Proof.
  intros l H j m a b Ha Hb. apply Nat2Z.inj_le.
  apply (non_decreasing_nth _ H j (j + m)); [lia| |]; rewrite nth_error_map; [rewrite Ha|rewrite Hb]; reflexivity.
Qed.
Lemma true_nth {A} (index : A -> res Z) n (things : list A) changes arr i x :
  true_labels index n things changes = Ok arr -> length changes = length things ->
  non_decreasing (map Z.of_nat changes) -> (i < n)%nat ->
  last_up_to (combine changes things) i x ->
  exists v, index x = Ok v /\ nth_error arr i = Some v.
Proof.
  intros E L Mono Hi (l1 & c & l2 & Ec & Hc & Hl). unfold true_labels in E.
  apply bind_ok in E. destruct E as (l & M & E). apply mapM_ok in M.
  apply bind_ok in E. destruct E as (last & Hlast & E).
  apply bind_ok in E. destruct E as (v & Hv & E).
  apply bind_ok in E. destruct E as (a & Ha & E). apply Ok_inj in E. subst arr.
  assert (N : nth_error (combine changes things) (length l1) = Some (c, x)).
  { rewrite Ec, nth_error_app2, Nat.sub_diag by lia. reflexivity. }
  apply nth_combine_some in N. destruct N as [Nc Nx].
  assert (Lt : length things = (length l1 + S (length l2))%nat).
  { pose proof (f_equal (@length _) Ec) as X. rewrite combine_length, app_length in X. cbn in X. lia. }
  set (k := length l1) in *.
  assert (Llast : nth_error things (length things - 1) = Some last).
  { unfold py_nth, zlen in Hlast. cbn [Z.ltb Z.compare] in Hlast.
    destruct ((-1 + Z.of_nat (length things) <? 0) || (Z.of_nat (length things) <=? -1 + Z.of_nat (length things))) eqn:Q;
      [discriminate Hlast|].
    replace (Z.to_nat (-1 + Z.of_nat (length things))) with (length things - 1)%nat in Hlast by lia.
    destruct (nth_error things (length things - 1)); [|discriminate Hlast]. now apply Ok_inj in Hlast; subst. }
  assert (La : nth_error changes (length things - 1) = Some a).
  { unfold py_nth, zlen in Ha. cbn [Z.ltb Z.compare] in Ha. rewrite L in Ha.
    destruct ((-1 + Z.of_nat (length things) <? 0) || (Z.of_nat (length things) <=? -1 + Z.of_nat (length things))) eqn:Q;
      [discriminate Ha|].
    replace (Z.to_nat (-1 + Z.of_nat (length things))) with (length things - 1)%nat in Ha by lia.
    destruct (nth_error changes (length things - 1)); [|discriminate Ha]. now apply Ok_inj in Ha; subst. }
  rewrite nth_error_fill by lia. rewrite fill_all_length, repeat_length.
  destruct l2 as [|[c2 y2] l2].
  - replace (length things - 1)%nat with k in * by (cbn in Lt; lia).
    rewrite Nx in Llast. apply Some_inj in Llast. subst last. rewrite Nc in La. apply Some_inj in La. subst a.
    exists v. split; [exact Hv|].
    replace ((Z.of_nat c <=? Z.of_nat i) && (Z.of_nat i <? Z.of_nat n) && (i <? n)%nat) with true by lia. reflexivity.
  - assert (N2 : nth_error (combine changes things) (S k) = Some (c2, y2)).
    { rewrite Ec, nth_error_app2 by (unfold k; lia). replace (S k - length l1)%nat with 1%nat by (unfold k; lia). reflexivity. }
    apply nth_combine_some in N2. destruct N2 as [Nc2 _].
    assert (Hc2 := Hl _ (or_introl eq_refl)). cbn in Hc2.
    assert (Ha2 : (c2 <= a)%nat).
    { apply (nat_mono changes Mono (S k) (length things - 1 - S k)%nat); [exact Nc2|].
      replace (S k + (length things - 1 - S k))%nat with (length things - 1)%nat by (cbn in Lt; lia). exact La. }
    replace ((Z.of_nat a <=? Z.of_nat i) && (Z.of_nat i <? Z.of_nat n) && (i <? n)%nat) with false by lia.
    assert (Hk : nth_error (combine things (combine changes (tl changes))) k = Some (x, (c, c2))).
    { apply nth_combine_some. split; [exact Nx|]. apply nth_combine_some. split; [exact Nc|].
      destruct changes; [destruct k; discriminate Nc|]. exact Nc2. }
    destruct (Forall2_nth _ _ _ _ _ M Hk) as (y & Hy & Ey). cbn in Ey.
    apply bind_ok in Ey. destruct Ey as (w & Hw & Ey). apply Ok_inj in Ey. subst y.
    exists w. split; [exact Hw|].
    destruct (nth_error_split _ _ Hy) as (m1 & m2 & -> & Lk).
    rewrite (fill_all_hit i m1 (w, (c, c2)) m2); [reflexivity|now rewrite repeat_length|unfold covers; cbn; lia|].
    intros y I C. apply In_nth_error in I. destruct I as (m & Hm).
    destruct (Forall2_nth_r _ _ _ (k + S m)%nat y M) as (z & Hz & Ez).
    { rewrite nth_error_app2 by lia. rewrite Lk. replace (k + S m - k)%nat with (S m) by lia. exact Hm. }
    destruct z as [o [a' b']]. apply nth_combine_some in Hz. destruct Hz as [_ Hz].
    apply nth_combine_some in Hz. destruct Hz as [Hz _].
    apply bind_ok in Ez. destruct Ez as (u & _ & Ez). apply Ok_inj in Ez. subst y. unfold covers in C. cbn in C.
    assert ((c2 <= a')%nat); [|lia].
    apply (nat_mono changes Mono (S k) m); [exact Nc2|]. replace (S k + m)%nat with (k + S m)%nat by lia. exact Hz.
Qed.
Lemma true_length {A} (index : A -> res Z) n (things : list A) changes arr :
  true_labels index n things changes = Ok arr -> length arr = n.
Proof.
  intros E. unfold true_labels in E. apply bind_ok in E. destruct E as (l & M & E).
  apply bind_ok in E. destruct E as (last & Hlast & E).
  apply bind_ok in E. destruct E as (v & Hv & E).
  apply bind_ok in E. destruct E as (a & Ha & E). apply Ok_inj in E. subst arr.
  now rewrite fill_length, fill_all_length, repeat_length.
Qed.
Lemma estimated_length n labels changes arr : estimated_labels n labels changes = Ok arr -> length arr = n.
Proof.
  intros E. unfold estimated_labels in E. apply bind_ok in E. destruct E as (l & M & E). apply Ok_inj in E. subst arr.
  now rewrite fill_all_length, repeat_length.
Qed.

(* ---- averages ---- *)
Fixpoint scores (durs : list Q) (ss : list Q) : Q :=
  match durs, ss with d :: ds, s :: r => (s * d + scores ds r)%Q | _, _ => 0%Q end.
Lemma weighted_ok {A} (f : A -> res Q) : forall durs labels acc r,
  weighted f (combine durs labels) acc = Ok r -> length durs = length labels ->
  exists ss, length ss = length durs /\ (r == acc + scores durs ss)%Q /\
    forall i d x, nth_error durs i = Some d -> ~ (d == 0)%Q -> nth_error labels i = Some x ->
      exists s, f x = Ok s /\ nth_error ss i = Some s.
Proof.
  induction durs as [|d durs IH]; intros labels acc r H L.
  - cbn in H. apply Ok_inj in H. subst r. exists []. split; [reflexivity|]. split; [cbn; ring|]. intros [|i] d x E; discriminate E.
  - destruct labels as [|x labels]; [discriminate L|]. cbn in H. destruct (Qeq_bool d 0%Q) eqn:D.
    + destruct (IH labels acc r H) as (ss & Ls & E & P); [cbn in L; lia|]. exists (0%Q :: ss).
      split; [cbn; lia|]. split; [cbn; rewrite E; ring|]. intros [|i] d' x' Hd N Hx; cbn in *.
      * apply Some_inj in Hd. subst d'. apply Qeq_bool_iff in D. contradiction.
      * eapply P; eassumption.
    + apply bind_ok in H. destruct H as (s & Hs & H).
      destruct (IH labels (acc + s * d)%Q r H) as (ss & Ls & E & P); [cbn in L; lia|]. exists (s :: ss).
      split; [cbn; lia|]. split; [cbn; rewrite E; ring|]. intros [|i] d' x' Hd N Hx; cbn in *.
      * apply Some_inj in Hx. subst x'. eauto.
      * eapply P; eassumption.
Qed.
(* a larger similarity gives a larger average *)
Lemma weighted_le {A B} (f : A -> res Q) (g : B -> res Q) (h : A -> B) :
  (forall x s, f x = Ok s -> exists s', g (h x) = Ok s' /\ (s <= s')%Q) ->
  forall durs labels acc acc' r, Forall (fun d => 0 <= d)%Q durs -> length durs = length labels -> (acc <= acc')%Q ->
  weighted f (combine durs labels) acc = Ok r ->
  exists r', weighted g (combine durs (map h labels)) acc' = Ok r' /\ (r <= r')%Q.
Proof.
  intros H. induction durs as [|d durs IH]; intros labels acc acc' r F L Le E.
  - cbn in *. apply Ok_inj in E. subst r. eauto.
  - destruct labels as [|x labels]; [discriminate L|]. inversion F as [|? ? Fd F' E1]; subst. cbn in *.
    destruct (Qeq_bool d 0%Q); [apply (IH labels acc acc' r F'); [lia|exact Le|exact E]|].
    apply bind_ok in E. destruct E as (s & Hs & E). destruct (H _ _ Hs) as (s' & Hs' & Ls). rewrite Hs'. cbn [bind].
    refine (IH labels (acc + s * d)%Q (acc' + s' * d)%Q r F' _ _ E); [lia|].
    apply Qplus_le_compat; [exact Le|]. now apply Qmult_le_compat_r.
Qed.
Lemma flags_of : forall durs ss,
  (forall i d s, nth_error durs i = Some d -> nth_error ss i = Some s -> (d == 0 \/ s == 0 \/ s == 1)%Q) ->
  (scores durs ss == marked_time durs (map (fun s => Qeq_bool s 1) ss))%Q.
Proof.
  induction durs as [|d durs IH]; intros [|s ss] H; try reflexivity. cbn.
  rewrite IH by (intros i d' s' Hd Hs; apply (H (S i) d' s' Hd Hs)).
  destruct (Qeq_bool s 1) eqn:E.
  - apply Qeq_bool_iff in E. rewrite E. ring.
  - destruct (H O d s eq_refl eq_refl) as [X|[X|X]]; [rewrite X; ring|rewrite X; ring|].
    apply Qeq_bool_iff in X. congruence.
Qed.
Lemma average_flags {A} (f : A -> res Q) (P : A -> Prop) durs labels acc :
  (forall x s, f x = Ok s -> (s == 1 /\ P x) \/ (s == 0 /\ ~ P x))%Q ->
  average f durs labels = Ok acc -> length durs = length labels ->
  exists flags, length flags = length durs /\ ~ (total durs == 0)%Q /\
    (acc * total durs == marked_time durs flags)%Q /\
    forall i d x, nth_error durs i = Some d -> ~ (d == 0)%Q -> nth_error labels i = Some x ->
      exists b, nth_error flags i = Some b /\ (b = true <-> P x) /\ exists s, f x = Ok s.
Proof.
  intros Hf E L. unfold average in E. apply bind_ok in E. destruct E as (r & W & E). change (qsum durs) with (total durs) in E.
  destruct (Qeq_bool (total durs) 0) eqn:T; [discriminate E|]. apply Ok_inj in E. subst acc.
  destruct (weighted_ok f durs labels 0%Q r W L) as (ss & Ls & Er & Hs).
  exists (map (fun s => Qeq_bool s 1) ss). split; [now rewrite map_length|].
  assert (T' : ~ (total durs == 0)%Q) by (intros X; apply Qeq_bool_iff in X; congruence). split; [exact T'|]. split.
  - rewrite <- flags_of.
    + unfold Qdiv. rewrite <- Qmult_assoc, (Qmult_comm (/ _)), Qmult_inv_r, Qmult_1_r by exact T'.
      rewrite Er. ring.
    + intros i d s Hd Hi. destruct (Qeq_dec d 0) as [D|D]; [now left|right].
      destruct (nth_error labels i) as [x|] eqn:Hx.
      * destruct (Hs i d x Hd D Hx) as (s' & Fs & Hi'). rewrite Hi in Hi'. apply Some_inj in Hi'. subst s'.
        destruct (Hf _ _ Fs) as [[X _]|[X _]]; [now right|now left].
      * apply nth_error_None in Hx. assert (nth_error durs i <> None) by congruence. apply nth_error_Some in H. lia.
  - intros i d x Hd D Hx. destruct (Hs i d x Hd D Hx) as (s & Fs & Hi). exists (Qeq_bool s 1).
    rewrite nth_error_map, Hi. split; [reflexivity|]. split; [|eauto].
    destruct (Hf _ _ Fs) as [[X Y]|[X Y]]; split; intros Z; [exact Y|now apply Qeq_bool_iff| |contradiction].
    apply Qeq_bool_iff in Z. rewrite Z in X. discriminate X.
Qed.
Lemma total_nonneg : forall durs, Forall (fun d => 0 <= d)%Q durs -> (0 <= total durs)%Q.
Proof.
  induction 1 as [|d durs H F IH]; cbn; [apply Qle_refl|]. fold (total durs). change 0%Q with (0 + 0)%Q. now apply Qplus_le_compat.
Qed.
Lemma marked_bounds : forall durs flags, Forall (fun d => 0 <= d)%Q durs ->
  (0 <= marked_time durs flags /\ marked_time durs flags <= total durs)%Q.
Proof.
  induction durs as [|d durs IH]; intros [|b flags] F; cbn; try (split; apply Qle_refl).
  - split; [apply Qle_refl|]. apply (total_nonneg (d :: durs) F).
  - inversion F as [|? ? Fd F' E]; subst. destruct (IH flags F') as [A B]. fold (total durs).
    destruct b; split; lra.
Qed.
Lemma marked_all : forall durs flags, Forall (fun d => 0 <= d)%Q durs -> length flags = length durs ->
  (marked_time durs flags == total durs)%Q <->
  forall i d b, nth_error durs i = Some d -> ~ (d == 0)%Q -> nth_error flags i = Some b -> b = true.
Proof.
  induction durs as [|d durs IH]; intros [|b flags] F L; try discriminate L.
  - cbn. split; [intros _ [|i] d b H; discriminate H|reflexivity].
  - inversion F as [|? ? Fd F' E]; subst. destruct (marked_bounds durs flags F') as [A B].
    specialize (IH flags F'). cbn in L. assert (L' : length flags = length durs) by lia. specialize (IH L'). cbn. fold (total durs). split.
    + intros H. assert (H1 : (marked_time durs flags == total durs)%Q) by (destruct b; cbn in H; lra).
      intros [|i] d' b' Hd D Hb; cbn in *; [|now apply (proj1 IH H1 i d' b')].
      apply Some_inj in Hd, Hb. subst d' b'. destruct b; [reflexivity|]. exfalso. apply D. cbn in H. lra.
    + intros H. rewrite (proj2 IH) by (intros i d' b' Hd D Hb; apply (H (S i) d' b' Hd D Hb)).
      destruct b; [reflexivity|]. destruct (Qeq_dec d 0) as [D|D]; [rewrite D; reflexivity|].
      discriminate (H O d false eq_refl D eq_refl).
Qed.
(* averages of a similarity of 0 or 1 are proportions *)
Lemma average_bounds {A} (f : A -> res Q) (P : A -> Prop) durs labels acc :
  (forall x s, f x = Ok s -> (s == 1 /\ P x) \/ (s == 0 /\ ~ P x))%Q ->
  average f durs labels = Ok acc -> length durs = length labels -> Forall (fun d => 0 <= d)%Q durs ->
  (0 <= acc /\ acc <= 1)%Q.
Proof.
  intros Hf E L F. destruct (average_flags f P durs labels acc Hf E L) as (flags & Lf & T & M & _).
  destruct (marked_bounds durs flags F) as [A0 A1]. pose proof (total_nonneg durs F) as T0.
  assert (Tp : (0 < total durs)%Q) by (apply Qle_lteq in T0; destruct T0 as [T0|T0]; [exact T0|symmetry in T0; contradiction]).
  split.
  - apply (Qmult_le_r _ _ (total durs) Tp). rewrite M. lra.
  - apply (Qmult_le_r _ _ (total durs) Tp). rewrite M. lra.
Qed.
Lemma average_one {A} (f : A -> res Q) (P : A -> Prop) durs labels acc :
  (forall x s, f x = Ok s -> (s == 1 /\ P x) \/ (s == 0 /\ ~ P x))%Q ->
  average f durs labels = Ok acc -> length durs = length labels -> Forall (fun d => 0 <= d)%Q durs ->
  (acc == 1)%Q <-> forall i d x, nth_error durs i = Some d -> ~ (d == 0)%Q -> nth_error labels i = Some x -> P x.
Proof.
  intros Hf E L F. destruct (average_flags f P durs labels acc Hf E L) as (flags & Lf & T & M & X).
  rewrite <- (Qmult_inj_r acc 1 (total durs) T), M, Qmult_1_l, (marked_all durs flags F Lf). split.
  - intros H i d x Hd D Hx. destruct (X i d x Hd D Hx) as (b & Hb & Pb & _). apply Pb. eapply H; eassumption.
  - intros H i d b Hd D Hb.
    destruct (nth_error labels i) as [x|] eqn:Hx.
    + destruct (X i d x Hd D Hx) as (b' & Hb' & Pb & _). rewrite Hb in Hb'. apply Some_inj in Hb'. subst b'.
      apply Pb. eapply H; eassumption.
    + apply nth_error_None in Hx. assert (nth_error durs i <> None) by congruence. apply nth_error_Some in H0. lia.
Qed.
Lemma average_le {A B} (f : A -> res Q) (g : B -> res Q) (h : A -> B) durs labels acc :
  (forall x s, f x = Ok s -> exists s', g (h x) = Ok s' /\ (s <= s')%Q) ->
  Forall (fun d => 0 <= d)%Q durs -> length durs = length labels -> average f durs labels = Ok acc ->
  exists acc', average g durs (map h labels) = Ok acc' /\ (acc <= acc')%Q.
Proof.
  intros H F L E. unfold average in *. apply bind_ok in E. destruct E as (r & W & E).
  destruct (weighted_le f g h H durs labels 0 0 r F L (Qle_refl 0) W) as (r' & W' & Le). rewrite W'. cbn [bind].
  change (qsum durs) with (total durs) in *.
  destruct (Qeq_bool (total durs) 0) eqn:T; [discriminate E|]. apply Ok_inj in E. subst acc.
  exists (r' / total durs)%Q. split; [reflexivity|]. unfold Qdiv. apply Qmult_le_compat_r; [exact Le|].
  apply Qinv_le_0_compat. now apply total_nonneg.
Qed.

(* ---- similarities ---- *)
Definition chord_match (pt : pitch_type) (ui : bool) (red : reduction) (x : Z * Z) : Prop :=
  exists r1 t1 i1 r2 t2 i2,
    get_chord_from_one_hot_index (snd x) pt true false false NO_REDUCTION = Ok (r1, t1, i1) /\
    get_chord_from_one_hot_index (fst x) pt true false false NO_REDUCTION = Ok (r2, t2, i2) /\
    r1 = r2 /\ red t1 = red t2 /\ (ui = true -> i1 = i2).
Lemma ct_eqb_iff a b : ct_eqb a b = true <-> a = b.
Proof. destruct a, b; cbn; split; congruence. Qed.
Lemma chord_similarity_value pt ui red x s : chord_similarity pt ui red (fst x) (snd x) = Ok s ->
  ((s == 1 /\ chord_match pt ui red x) \/ (s == 0 /\ ~ chord_match pt ui red x))%Q.
Proof.
  unfold chord_similarity, chord_match. intros E. apply bind_ok in E. destruct E as ([[r1 t1] i1] & G & E).
  apply bind_ok in E. destruct E as ([[r2 t2] i2] & H & E). apply Ok_inj in E. subst s. unfold get_chord_distance.
  destruct ((r1 =? r2) && ct_eqb (red t1) (red t2) && ((if ui then i1 else 0) =? (if ui then i2 else 0))) eqn:B.
  - left. split; [reflexivity|]. do 6 eexists. split; [exact G|]. split; [exact H|].
    apply andb_true_iff in B. destruct B as [B B3]. apply andb_true_iff in B. destruct B as [B1 B2].
    apply ct_eqb_iff in B2. split; [lia|]. split; [exact B2|]. intros ->. lia.
  - right. split; [reflexivity|]. intros (r1' & t1' & i1' & r2' & t2' & i2' & G' & H' & M1 & M2 & M3).
    rewrite G in G'. rewrite H in H'. apply Ok_inj in G', H'.
    assert (r1 = r1' /\ t1 = t1' /\ i1 = i1') as (-> & -> & ->) by (repeat split; congruence).
    assert (r2 = r2' /\ t2 = t2' /\ i2 = i2') as (-> & -> & ->) by (repeat split; congruence).
    apply ct_eqb_iff in M2. rewrite M2, M1, Z.eqb_refl in B. cbn in B.
    destruct ui; [rewrite M3 in B by reflexivity|]; rewrite ?Z.eqb_refl in B; discriminate B.
Qed.
Definition key_match (pt : pitch_type) (tonic_only : bool) (x : Z * Z) : Prop :=
  exists g e, get_key_from_one_hot_index (snd x) pt false = Ok g /\ get_key_from_one_hot_index (fst x) pt false = Ok e /\
    fst g = fst e /\ (tonic_only = false -> snd g = snd e).
Lemma km_eqb_iff a b : km_eqb a b = true <-> a = b.
Proof. destruct a, b; cbn; split; congruence. Qed.
Lemma key_similarity_value pt to x s : key_similarity pt to (fst x) (snd x) = Ok s ->
  ((s == 1 /\ key_match pt to x) \/ (s == 0 /\ ~ key_match pt to x))%Q.
Proof.
  unfold key_similarity, key_match. intros E. apply bind_ok in E. destruct E as (g & G & E).
  apply bind_ok in E. destruct E as (e & H & E). apply Ok_inj in E. subst s. unfold get_key_distance.
  assert (D : forall g' e', get_key_from_one_hot_index (snd x) pt false = Ok g' ->
    get_key_from_one_hot_index (fst x) pt false = Ok e' -> g' = g /\ e' = e).
  { intros g' e' G' H'. rewrite G in G'. rewrite H in H'. apply Ok_inj in G', H'. auto. }
  destruct to.
  - destruct (fst g =? fst e) eqn:B.
    + left. split; [reflexivity|]. exists g, e. split; [exact G|]. split; [exact H|]. split; [lia|discriminate].
    + right. split; [reflexivity|]. intros (g' & e' & G' & H' & M & _). destruct (D _ _ G' H') as [-> ->]. lia.
  - destruct ((fst g =? fst e) && km_eqb (snd g) (snd e)) eqn:B.
    + left. split; [reflexivity|]. exists g, e. split; [exact G|]. split; [exact H|].
      apply andb_true_iff in B. destruct B as [B1 B2]. apply km_eqb_iff in B2. split; [lia|auto].
    + right. split; [reflexivity|]. intros (g' & e' & G' & H' & M & N). destruct (D _ _ G' H') as [-> ->].
      rewrite N in B by reflexivity. rewrite (proj2 (km_eqb_iff _ _) eq_refl), M, Z.eqb_refl in B. discriminate B.
Qed.
