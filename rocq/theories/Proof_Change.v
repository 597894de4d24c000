(* Lemmas for C83. *)
From Coq Require Import QArith Lqa.
From Verif Require Import PyBase Model_Types Model_Harmony Model_Rhythm Model_Piece Model_Change
  Spec_Music Spec_Rhythm Spec_Piece Proof_Base Proof_Rhythm Proof_Window Proof_Eval Proof_Annot.
From Coq Require Import List.
Import ListNotations.
Close Scope Q_scope.
Open Scope Z_scope.

Lemma Forall2_len {A B} (R : A -> B -> Prop) l l' : Forall2 R l l' -> List.length l = List.length l'.
Proof. induction 1; cbn; congruence. Qed.

Lemma cache_length onsets last ms durs : get_duration_cache onsets last ms = Ok durs ->
  List.length durs = List.length onsets.
Proof.
  unfold get_duration_cache. intros E. apply mapM_ok in E. apply Forall2_len in E.
  rewrite combine_length, app_length in E. destruct onsets as [|o os]; cbn [List.tl List.length] in E |- *; lia.
Qed.

Lemma cache_nth onsets last ms durs i a b d : get_duration_cache onsets last ms = Ok durs ->
  nth_error onsets i = Some a -> nth_error onsets (S i) = Some b -> nth_error durs i = Some d ->
  get_range_length a b ms = Ok d.
Proof.
  unfold get_duration_cache. intros E Ha Hb Hd. apply mapM_ok in E.
  destruct (Forall2_nth_r _ _ _ _ _ E Hd) as ([x y] & Hxy & El). cbn [fst snd] in El.
  apply nth_combine_some in Hxy. destruct Hxy as [Hx Hy]. rewrite Ha in Hx. apply Some_inj in Hx. subst x.
  destruct onsets as [|o os]; [destruct i; discriminate Ha|]. cbn in Hb, Hy.
  rewrite nth_error_app1 in Hy by (apply nth_error_Some; congruence). rewrite Hb in Hy. apply Some_inj in Hy. now subst y.
Qed.

(* ---- assignments to the targets ---- *)
Definition index_of (len i : Z) : Z := if i <? 0 then i + len else i.

Lemma py_upd_inv {A} (l l' : list A) i v : py_upd l i v = Ok l' ->
  0 <= index_of (zlen l) i < zlen l /\ l' = upd_nat l (Z.to_nat (index_of (zlen l) i)) v.
Proof.
  unfold py_upd, index_of. destruct (i <? 0) eqn:E; cbn zeta.
  - destruct ((i + zlen l <? 0) || (zlen l <=? i + zlen l)) eqn:E2; [discriminate|]. intros H. apply Ok_inj in H. subst. split; [lia|reflexivity].
  - destruct ((i <? 0) || (zlen l <=? i)) eqn:E2; [discriminate|]. intros H. apply Ok_inj in H. subst. split; [lia|reflexivity].
Qed.

Lemma fold_raise {A B} (f : A -> B -> res A) l e :
  fold_left (fun acc i => let! t := acc in f t i) l (Raise e) = Raise e.
Proof. induction l as [|x l IH]; [reflexivity|exact IH]. Qed.

Lemma set_fold l : forall t t', fold_left (fun acc i => let! t := acc in py_upd t i 1) l (Ok t) = Ok t' ->
  List.length t' = List.length t /\
  forall j x, nth_error t j = Some x ->
    nth_error t' j = Some (if existsb (fun i => index_of (zlen t) i =? Z.of_nat j) l then 1 else x).
Proof.
  induction l as [|i l IH]; intros t t' H.
  - cbn in H. apply Ok_inj in H. subst t'. split; [reflexivity|]. intros j x Hj. exact Hj.
  - cbn [fold_left bind] in H. destruct (py_upd t i 1) as [t1|e] eqn:E; [|now rewrite fold_raise in H].
    apply py_upd_inv in E. destruct E as [R E]. destruct (IH t1 t' H) as [Len N].
    assert (L1 : List.length t1 = List.length t) by (subst t1; apply upd_nat_length).
    split; [congruence|]. intros j x Hj. cbn [existsb].
    assert (Z1 : zlen t1 = zlen t) by (unfold zlen; congruence). rewrite Z1 in N.
    rewrite (N j (if index_of (zlen t) i =? Z.of_nat j then 1 else x)).
    + destruct (index_of (zlen t) i =? Z.of_nat j); [|reflexivity]. cbn [orb].
      now destruct (existsb _ l).
    + subst t1. rewrite nth_error_upd_nat.
      destruct (index_of (zlen t) i =? Z.of_nat j) eqn:Ej.
      * replace (Z.to_nat (index_of (zlen t) i) =? j)%nat with true by (symmetry; apply Nat.eqb_eq; lia).
        replace (Z.to_nat (index_of (zlen t) i) <? List.length t)%nat with true by (symmetry; apply Nat.ltb_lt; unfold zlen in *; lia).
        reflexivity.
      * replace (Z.to_nat (index_of (zlen t) i) =? j)%nat with false by (symmetry; apply Nat.eqb_neq; lia). exact Hj.
Qed.

Lemma set_ones_some l t t' : set_ones t (Some l) = Ok t' -> l <> [] /\
  List.length t' = List.length t /\
  forall j x, nth_error t j = Some x ->
    nth_error t' j = Some (if existsb (fun i => index_of (zlen t) i =? Z.of_nat j) l then 1 else x).
Proof.
  destruct l as [|i l]; [discriminate|]. intros H. split; [discriminate|]. now apply set_fold.
Qed.

Lemma removelast_nth {A} : forall (l : list A) i, (S i < List.length l)%nat -> nth_error (removelast l) i = nth_error l i.
Proof.
  induction l as [|a l IH]; intros i H; [cbn in H; lia|]. destruct l as [|b l]; [cbn in H; lia|].
  change (removelast (a :: b :: l)) with (a :: removelast (b :: l)). destruct i as [|i]; [reflexivity|].
  cbn [nth_error]. apply IH. cbn in *. lia.
Qed.
Lemma removelast_len {A} : forall (l : list A), l <> [] -> S (List.length (removelast l)) = List.length l.
Proof.
  induction l as [|a l IH]; intros H; [congruence|]. destruct l as [|b l]; [reflexivity|].
  change (removelast (a :: b :: l)) with (a :: removelast (b :: l)). cbn [List.length]. rewrite IH by discriminate. reflexivity.
Qed.
Lemma roll_length {A} (l : list A) : List.length (roll l) = List.length l.
Proof. destruct l as [|a l]; [reflexivity|]. unfold roll. cbn [List.length]. now rewrite removelast_len. Qed.
Lemma roll_nth {A} (l : list A) i : (S i < List.length l)%nat -> nth_error (roll l) (S i) = nth_error l i.
Proof. destruct l as [|a l]; [cbn; lia|]. intros H. unfold roll. cbn [nth_error]. now apply removelast_nth. Qed.

Lemma mask_set_inv t m v t' : mask_set t m v = Ok t' ->
  List.length t' = List.length t /\
  forall j x b, nth_error t j = Some x -> nth_error m j = Some b -> nth_error t' j = Some (if b then v else x).
Proof.
  unfold mask_set. destruct (Nat.eqb _ _) eqn:E; [|discriminate]. apply Nat.eqb_eq in E.
  intros H. apply Ok_inj in H. subst t'. split; [rewrite map_length, combine_length; lia|].
  intros j x b Hx Hb. rewrite nth_error_map.
  assert (C : nth_error (combine t m) j = Some (x, b)) by (apply nth_combine_some; auto). rewrite C. reflexivity.
Qed.

(* ---- the rows ---- *)
Lemma vstack_ok rows m : vstack rows = Ok m -> m = rows /\ rows <> [].
Proof.
  destruct rows as [|r rs]; [discriminate|]. cbn [vstack]. destruct (forallb _ rs); [|discriminate].
  intros H. apply Ok_inj in H. subst. split; [reflexivity|discriminate].
Qed.

Lemma inputs_inv p rows : change_inputs p = Ok rows -> exists durs,
  cp_durations p = Ok durs /\ List.length durs = List.length (cp_notes p) /\
  List.length rows = List.length (cp_notes p) /\ cp_notes p <> [] /\
  forall i n d v, nth_error (cp_notes p) i = Some n -> nth_error durs i = Some d -> nth_error rows i = Some v ->
    plain_vector n (match i with O => None | S j => nth_error durs j end) d = Ok v.
Proof.
  unfold change_inputs. intros H. apply bind_ok in H. destruct H as (durs & D & H).
  apply bind_ok in H. destruct H as (rows' & R & H). apply vstack_ok in H. destruct H as [-> Ne].
  assert (L : List.length durs = List.length (cp_notes p)).
  { unfold cp_durations in D. apply bind_ok in D. destruct D as (last & _ & D). rewrite (cache_length _ _ _ _ D). apply map_length. }
  apply mapM_ok in R. pose proof (Forall2_len _ _ _ R) as Lr.
  rewrite !combine_length in Lr. cbn [List.length] in Lr. rewrite map_length in Lr.
  exists durs. split; [exact D|]. split; [exact L|]. split; [lia|]. split.
  - intros E. rewrite E in Lr. cbn in Lr. destruct rows'; [congruence|discriminate].
  - intros i n d v Hn Hd Hv. destruct (Forall2_nth_r _ _ _ _ _ R Hv) as ([[n' f] d'] & Hx & E).
    apply nth_combine_some in Hx. destruct Hx as [Hx Hd']. apply nth_combine_some in Hx. destruct Hx as [Hn' Hf].
    rewrite Hn in Hn'. apply Some_inj in Hn'. subst n'. rewrite Hd in Hd'. apply Some_inj in Hd'. subst d'.
    rewrite <- E. f_equal. destruct i as [|i]; cbn [nth_error] in Hf; [now apply Some_inj in Hf|].
    rewrite nth_error_map in Hf. destruct (nth_error durs i) as [q|]; [|discriminate Hf]. now apply Some_inj in Hf.
Qed.

Lemma targets_inv p n t : change_targets p n = Ok t -> cp_notes p <> [] -> n = List.length (cp_notes p) ->
  List.length t = n /\ nth_error t 0 = Some (-100) /\
  forall i a b x, nth_error (cp_notes p) i = Some a -> nth_error (cp_notes p) (S i) = Some b -> nth_error t (S i) = Some x ->
    exists d, get_range_length (no_on a) (no_on b) (cp_measures p) = Ok d /\
      ((d == 0)%Q -> x = -100) /\
      (~ (d == 0)%Q -> x = match cp_changes p with
                           | None => 1
                           | Some l => if existsb (fun c => index_of (Z.of_nat n) c =? Z.of_nat (S i)) l then 1 else 0
                           end).
Proof.
  unfold change_targets. intros H Ne En. apply bind_ok in H. destruct H as (t1 & E1 & H).
  apply bind_ok in H. destruct H as (t2 & E2 & H). apply bind_ok in H. destruct H as (durs & D & H).
  assert (S1 : List.length t1 = n /\ forall j x, nth_error t1 j = Some x ->
     x = match cp_changes p with None => 1 | Some l => if existsb (fun c => index_of (Z.of_nat n) c =? Z.of_nat j) l then 1 else 0 end).
  { destruct (cp_changes p) as [l|].
    - apply set_ones_some in E1. destruct E1 as (_ & L & N). rewrite repeat_length in L. split; [exact L|].
      intros j x Hj. assert (Lj : (j < n)%nat) by (rewrite <- L; apply nth_error_Some; congruence).
      assert (R : nth_error (repeat 0 n) j = Some 0) by (apply nth_error_repeat; exact Lj).
      apply N in R. rewrite Hj in R. apply Some_inj in R. unfold zlen in R. rewrite repeat_length in R. exact R.
    - cbn in E1. apply Ok_inj in E1. subst t1. rewrite map_length, repeat_length. split; [reflexivity|].
      intros j x Hj. rewrite nth_error_map in Hj. destruct (nth_error (repeat 0 n) j); [|discriminate]. now apply Some_inj in Hj. }
  destruct S1 as [L1 N1]. apply py_upd_inv in E2. destruct E2 as [R2 E2]. unfold index_of in E2, R2. cbn in E2.
  assert (Dl : List.length durs = List.length (cp_notes p)).
  { unfold cp_durations in D. apply bind_ok in D. destruct D as (last & _ & D). rewrite (cache_length _ _ _ _ D). apply map_length. }
  assert (Ln : (0 < n)%nat) by (subst n; destruct (cp_notes p); [congruence|cbn; lia]).
  apply mask_set_inv in H. destruct H as [L3 N3].
  assert (L2 : List.length t2 = n) by (subst t2; rewrite upd_nat_length; exact L1).
  split; [congruence|]. split.
  - destruct (nth_error (roll (map (fun d => Qeq_bool d 0) durs)) 0) as [b|] eqn:Eb.
    + rewrite (N3 0%nat NOT_MEASURED b); [now destruct b| |exact Eb].
      subst t2. rewrite nth_error_upd_nat. cbn. destruct t1; [cbn in L1; lia|reflexivity].
    + apply nth_error_None in Eb. rewrite roll_length, map_length in Eb. lia.
  - intros i a b x Ha Hb Hx.
    assert (Li : (S i < n)%nat) by (subst n; apply nth_error_Some; congruence).
    destruct (nth_error durs i) as [d|] eqn:Ed; [|apply nth_error_None in Ed; lia].
    exists d. split.
    { unfold cp_durations in D. apply bind_ok in D. destruct D as (last & _ & D).
      apply (cache_nth _ _ _ _ i (no_on a) (no_on b) d D); [rewrite nth_error_map, Ha|rewrite nth_error_map, Hb|]; auto. }
    destruct (nth_error t1 (S i)) as [y|] eqn:Ey; [|apply nth_error_None in Ey; lia].
    assert (Y2 : nth_error t2 (S i) = Some y).
    { subst t2. rewrite nth_error_upd_nat. exact Ey. }
    assert (M : nth_error (roll (map (fun d => Qeq_bool d 0) durs)) (S i) = Some (Qeq_bool d 0)).
    { rewrite roll_nth by (rewrite map_length; lia). rewrite nth_error_map, Ed. reflexivity. }
    rewrite (N3 _ _ _ Y2 M) in Hx. apply Some_inj in Hx. subst x. split.
    + intros Z0. apply Qeq_bool_iff in Z0. rewrite Z0. reflexivity.
    + intros Z0. destruct (Qeq_bool d 0) eqn:Q0; [apply Qeq_bool_iff in Q0; contradiction|]. now apply N1.
Qed.
