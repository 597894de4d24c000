(* The debug log of a harmony: lemmas. *)
From Coq Require Import QArith Lqa String Ascii Lia ZArith.
From Verif Require Import Model_Strings Model_Rhythm Model_Piece Model_Tables Model_Log
  Spec_Music Spec_Piece Spec_Search Spec_Eval Spec_Tables Spec_Log.
From Verif Require Import Proof_Base Proof_Strings Proof_Infer Proof_Eval Proof_Keys Prop_Codec Prop_Eval Proof_Tables.
From Coq Require Import List.
Import ListNotations.
Close Scope Q_scope.
Open Scope Z_scope.

(* ---- masks ---- *)
Lemma mask_nth {A} : forall (m : list bool) (l : list A) k, length m = length l ->
  Forall2 (fun i x => nth_error l (i - k) = Some x /\ (k <= i)%nat) (apply_mask m (seq k (length m))) (apply_mask m l).
Proof.
  induction m as [|b m IH]; intros [|x l] k L; try discriminate L; [constructor|]. cbn [length seq apply_mask].
  assert (F : Forall2 (fun i y => nth_error (x :: l) (i - k) = Some y /\ (k <= i)%nat) (apply_mask m (seq (S k) (length m))) (apply_mask m l)).
  { cbn in L. specialize (IH l (S k) ltac:(lia)). induction IH as [|i y l1 l2 [H1 H2] F' IHF]; constructor; [|exact IHF].
    split; [|lia]. replace (i - k)%nat with (S (i - S k)) by lia. exact H1. }
  destruct b; [|exact F]. constructor; [|exact F]. rewrite Nat.sub_diag. split; [reflexivity|lia].
Qed.
Lemma mask_in : forall m k i, In i (apply_mask m (seq k (length m))) <-> (k <= i)%nat /\ nth_error m (i - k) = Some true.
Proof.
  induction m as [|b m IH]; intros k i; cbn [length seq apply_mask].
  - split; [intros []|]. intros [_ H]. destruct (i - k)%nat; discriminate H.
  - assert (R : In i (apply_mask m (seq (S k) (length m))) <-> (S k <= i)%nat /\ nth_error (b :: m) (i - k) = Some true).
    { rewrite IH. split; intros [H1 H2]; (split; [exact H1|]); replace (i - k)%nat with (S (i - S k)) in *|- by lia;
        replace (i - k)%nat with (S (i - S k)) by lia; exact H2. }
    destruct b.
    + cbn [In]. rewrite R. split; [intros [<-|[H1 H2]]; [rewrite Nat.sub_diag; split; [lia|reflexivity]|split; [lia|exact H2]]|].
      intros [H1 H2]. destruct (Nat.eq_dec k i) as [E|E]; [now left|right]. split; [lia|exact H2].
    + rewrite R. split; [intros [H1 H2]; split; [lia|exact H2]|]. intros [H1 H2]. split; [|exact H2].
      destruct (Nat.eq_dec k i) as [<-|E]; [rewrite Nat.sub_diag in H2; discriminate H2|lia].
Qed.
Fixpoint rising (l : list nat) : Prop :=
  match l with [] => True | x :: r => (forall y, In y r -> (x < y)%nat) /\ rising r end.
Lemma mask_rising : forall m k, rising (apply_mask m (seq k (length m))).
Proof.
  induction m as [|b m IH]; intros k; [exact I|]. cbn [length seq apply_mask]. destruct b; [|apply IH].
  split; [|apply IH]. intros y H. apply mask_in in H. lia.
Qed.
Lemma rising_nth : forall l, rising l -> forall j k a b, (j < k)%nat -> nth_error l j = Some a -> nth_error l k = Some b -> (a < b)%nat.
Proof.
  induction l as [|x l IH]; intros R j k a b Hjk Ha Hb; [destruct j; discriminate Ha|]. destruct R as [H1 H2].
  destruct k as [|k]; [lia|]. cbn in Hb. destruct j as [|j].
  - apply Some_inj in Ha. subst a. apply H1. exact (nth_error_In _ _ Hb).
  - exact (IH H2 j k a b ltac:(lia) Ha Hb).
Qed.
Lemma rising_app l n : rising l -> (forall x, In x l -> (x < n)%nat) -> rising (l ++ [n]).
Proof.
  induction l as [|x l IH]; intros R H; [split; [intros y []|exact I]|]. destruct R as [R1 R2]. split.
  - intros y I0. apply in_app_or in I0. destruct I0 as [I0|[<-|[]]]; [auto|]. apply H. now left.
  - apply IH; [exact R2|]. intros y I0. apply H. now right.
Qed.

(* ---- where the structure changes ---- *)
Lemma labels4_iff a b : labels4_eqb a b = true <-> a = b.
Proof.
  destruct a as [[a1 a2] [a3 a4]], b as [[b1 b2] [b3 b4]]. unfold labels4_eqb. cbn [fst snd]. rewrite !andb_true_iff, !Z.eqb_eq.
  split; [intros (((-> & ->) & ->) & ->); reflexivity|]. intros E. injection E as -> -> -> ->. auto.
Qed.
Lemma changes_length l : l <> [] -> length (structure_changes l) = length l.
Proof. destruct l as [|x l]; intros N; [now destruct N|]. unfold structure_changes. cbn [length tl]. rewrite map_length, combine_length. cbn [length]. lia. Qed.
Lemma changes_nth l i x y : nth_error l i = Some x -> nth_error l (S i) = Some y ->
  nth_error (structure_changes l) (S i) = Some (negb (labels4_eqb x y)).
Proof.
  intros Hx Hy. unfold structure_changes. cbn [nth_error]. rewrite nth_error_map.
  assert (E : nth_error (combine l (tl l)) i = Some (x, y)); [|now rewrite E].
  apply nth_combine_some. split; [exact Hx|]. destruct l; [destruct i; discriminate Hx|exact Hy].
Qed.

Section Cuts.
Variable l : list labels4.
Hypothesis Nl : l <> [].
Definition indexes : list nat := apply_mask (structure_changes l) (seq 0 (length (structure_changes l))).
Definition cuts : list nat := indexes ++ [length l].
Lemma indexes_head : exists r, indexes = 0%nat :: r.
Proof. unfold indexes, structure_changes. cbn [length seq apply_mask]. eauto. Qed.
Lemma indexes_bound i : In i indexes -> (i < length l)%nat.
Proof using Nl.
  intros H. apply mask_in in H. destruct H as [_ H]. rewrite Nat.sub_0_r in H.
  assert (i < length (structure_changes l))%nat by (apply nth_error_Some; congruence). rewrite changes_length in H0; assumption.
Qed.
Lemma cuts_rising : rising cuts.
Proof using Nl. apply rising_app; [apply mask_rising|]. apply indexes_bound. Qed.
Lemma cuts_between k a b c : nth_error cuts k = Some a -> nth_error cuts (S k) = Some b -> In c cuts -> (c <= a \/ b <= c)%nat.
Proof using Nl.
  intros Ha Hb H. apply In_nth_error in H. destruct H as (j & Hj). destruct (Nat.lt_trichotomy j k) as [J|[->|J]].
  - left. pose proof (rising_nth _ cuts_rising j k c a J Hj Ha). lia.
  - left. rewrite Ha in Hj. apply Some_inj in Hj. lia.
  - right. destruct (Nat.eq_dec j (S k)) as [->|E]; [rewrite Hb in Hj; apply Some_inj in Hj; lia|].
    pose proof (rising_nth _ cuts_rising (S k) j b c ltac:(lia) Hb Hj). lia.
Qed.
Lemma cuts_constant k a b i x : nth_error cuts k = Some a -> nth_error cuts (S k) = Some b -> (a <= i < b)%nat ->
  nth_error l a = Some x -> nth_error l i = Some x.
Proof using Nl.
  intros Ha Hb Hi Hx. assert (Bb : (b <= length l)%nat).
  { pose proof (nth_error_In _ _ Hb) as I0. unfold cuts in I0. apply in_app_or in I0. destruct I0 as [I0|[<-|[]]]; [|lia]. apply indexes_bound in I0. lia. }
  induction i as [|i IH]; [replace a with 0%nat in Hx by lia; exact Hx|].
  destruct (Nat.eq_dec a (S i)) as [->|E]; [exact Hx|]. specialize (IH ltac:(lia)).
  destruct (nth_error l (S i)) as [y|] eqn:Ey; [|apply nth_error_None in Ey; lia].
  pose proof (changes_nth _ _ _ _ IH Ey) as C. destruct (labels4_eqb x y) eqn:Q; [apply labels4_iff in Q; congruence|].
  exfalso. assert (I0 : In (S i) cuts).
  { unfold cuts. apply in_or_app. left. apply mask_in. split; [lia|]. rewrite Nat.sub_0_r. exact C. }
  destruct (cuts_between k a b (S i) Ha Hb I0); lia.
Qed.
Lemma cuts_differ i x y : In (S i) cuts -> nth_error l i = Some x -> nth_error l (S i) = Some y -> x <> y.
Proof using Nl.
  intros H Hx Hy E. unfold cuts in H. apply in_app_or in H. destruct H as [H|[H|[]]].
  - apply mask_in in H. destruct H as [_ H]. rewrite Nat.sub_0_r, (changes_nth _ _ _ _ Hx Hy) in H.
    apply Some_inj in H. apply negb_true_iff in H. apply labels4_iff in E. congruence.
  - assert (S i < length l)%nat by (apply nth_error_Some; congruence). lia.
Qed.
End Cuts.

(* ---- the entries ---- *)
Lemma entry_inv cl kl gk gc ek ec a b d r : log_entry cl kl (((gk, gc), (ek, ec)), ((a, b), d)) = Ok r ->
  exists tgk tgc tek tec, py_nth kl gk = Ok tgk /\ py_nth cl gc = Ok tgc /\ py_nth kl ek = Ok tek /\ py_nth cl ec = Ok tec /\
    lg_start r = a /\ lg_end r = b /\ lg_dur r = d /\ lg_est r = (tek, tec) /\
    (lg_correct r = None <-> tgk = tek /\ tgc = tec) /\ (forall x, lg_correct r = Some x -> x = (tgk, tgc)).
Proof.
  intros H. cbn [log_entry] in H. apply bind_ok in H. destruct H as (tgc & H1 & H). apply bind_ok in H. destruct H as (tec & H2 & H).
  apply bind_ok in H. destruct H as (tgk & H3 & H). apply bind_ok in H. destruct H as (tek & H4 & H). apply Ok_inj in H. subst r.
  exists tgk, tgc, tek, tec. cbn [lg_start lg_end lg_dur lg_est lg_correct]. do 8 (split; [assumption || reflexivity|]).
  destruct (str_eqb tgk tek) eqn:E1; cbn [negb orb].
  - apply str_eqb_eq in E1. destruct (str_eqb tgc tec) eqn:E2; cbn [negb].
    + apply str_eqb_eq in E2. split; [tauto|discriminate].
    + split; [split; [discriminate|]|intros x X; apply Some_inj in X; now symmetry]. intros [_ X].
      apply str_eqb_eq in X. congruence.
  - split; [split; [discriminate|]|intros x X; apply Some_inj in X; now symmetry]. intros [X _]. apply str_eqb_eq in X. congruence.
Qed.

(* ---- times ---- *)
Lemma marked_app : forall d1 d2 f1 f2, length d1 = length f1 ->
  (marked_time (d1 ++ d2) (f1 ++ f2) == marked_time d1 f1 + marked_time d2 f2)%Q.
Proof.
  induction d1 as [|d d1 IH]; intros d2 [|f f1] f2 L; try discriminate L; cbn [app marked_time].
  - ring.
  - rewrite IH by (cbn in L; lia). ring.
Qed.
Lemma marked_uniform (t : bool) : forall durs flags, length flags = length durs ->
  (forall i d f, nth_error durs i = Some d -> ~ (d == 0)%Q -> nth_error flags i = Some f -> f = t) ->
  (marked_time durs flags == if t then total durs else 0)%Q.
Proof.
  induction durs as [|d durs IH]; intros [|f flags] L H; try discriminate L; cbn [marked_time total fold_right].
  - destruct t; reflexivity.
  - rewrite (IH flags); [|cbn in L; lia|intros i; exact (H (S i))]. fold (total durs).
    destruct (Qeq_dec d 0) as [Z0|Z0].
    + destruct f, t; rewrite ?Z0; ring.
    + rewrite (H 0%nat d f eq_refl Z0 eq_refl). destruct t; ring.
Qed.
Lemma skipn_more {A} (l : list A) a b : (a <= b)%nat -> skipn b l = skipn (b - a) (skipn a l).
Proof.
  revert a b. induction l as [|x l IH]; intros [|a] [|b] H; cbn [skipn]; rewrite ?skipn_nil; try reflexivity; try lia.
  replace (S b - S a)%nat with (b - a)%nat by lia. apply IH. lia.
Qed.
Lemma seg_times (test : log_line -> bool) durs flags : length flags = length durs ->
  forall lines c cs, length cs = length lines -> 
  (forall k line a b, nth_error lines k = Some line -> nth_error (c :: cs) k = Some a -> nth_error (c :: cs) (S k) = Some b ->
     (a < b <= length durs)%nat /\ lg_dur line = total (firstn (b - a) (skipn a durs)) /\
     forall i d f, (a <= i < b)%nat -> nth_error durs i = Some d -> ~ (d == 0)%Q -> nth_error flags i = Some f -> f = test line) ->
  (row_time lg_dur test lines + marked_time (skipn (last cs c) durs) (skipn (last cs c) flags)
   == marked_time (skipn c durs) (skipn c flags))%Q.
Proof.
  intros Lf. induction lines as [|x lines IH]; intros c cs L H.
  - destruct cs; [|discriminate L]. cbn [row_time last]. ring.
  - destruct cs as [|b cs]; [discriminate L|]. cbn [row_time].
    replace (last (b :: cs) c) with (last cs b).
    2:{ clear. revert b c. induction cs as [|y cs IHc]; intros b c; [reflexivity|]. change (last (b :: y :: cs) c) with (last (y :: cs) c). rewrite <- (IHc y c). now rewrite <- (IHc y b). }
    destruct (H 0%nat x c b eq_refl eq_refl eq_refl) as (Hb & Hd & Hf).
    assert (IH' := IH b cs ltac:(cbn in L; lia) (fun k => H (S k))). clear IH H.
    rewrite <- Qplus_assoc, IH'. rewrite (skipn_more durs c b), (skipn_more flags c b) by lia.
    rewrite <- (firstn_skipn (b - c) (skipn c durs)) at 2. rewrite <- (firstn_skipn (b - c) (skipn c flags)) at 2.
    rewrite marked_app by (rewrite !firstn_length, !skipn_length; lia).
    rewrite (marked_uniform (test x) (firstn (b - c) (skipn c durs)) (firstn (b - c) (skipn c flags))).
    + rewrite Hd. reflexivity.
    + rewrite !firstn_length, !skipn_length. lia.
    + intros i d f H1 H2 H3.
      assert (Hi : (i < b - c)%nat).
      { assert (i < length (firstn (b - c) (skipn c durs)))%nat by (apply nth_error_Some; congruence). rewrite firstn_length in H. lia. }
      assert (N : forall T (l : list T), nth_error (firstn (b - c) (skipn c l)) i = nth_error l (c + i)).
      { intros T l. rewrite nth_error_firstn_lt by exact Hi. clear. revert c. induction l as [|y l IHl]; intros [|c]; cbn; rewrite ?nth_error_nil; try reflexivity.
        - destruct i; reflexivity. - apply IHl. }
      rewrite N in H1, H3. exact (Hf (c + i)%nat d f ltac:(lia) H1 H2 H3).
Qed.
