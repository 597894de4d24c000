(* C105: what the steps of training and validation measure. *)
From Coq Require Import QArith Lia.
From Verif Require Import PyBase Model_Types Model_Harmony Model_Dataset Model_Prior Model_Batch Model_Steps Spec_Dataset Spec_Batch Spec_Steps Proof_Base Proof_Dataset Proof_Batch Prop_Codec Prop_Batch Prop_Classify.
Close Scope Q_scope.
Open Scope Z_scope.

Lemma mapM_judge (ell : list Q -> Z -> res Q) l : forall r, mapM (judge ell) l = Ok r ->
  mapM (fun x : list Q * Z => ell (fst x) (snd x)) l = Ok (map snd r) /\
  mapM (fun x : list Q * Z => let! a := np_argmax (fst x) in Ok (a =? snd x)) l = Ok (map fst r).
Proof.
  induction l as [|x l IH]; intros r H; cbn [mapM] in H |- *; [apply Ok_inj in H as <-; split; reflexivity|].
  apply bind_ok in H as (y & E & H). apply bind_ok in H as (ys & Es & H). apply Ok_inj in H as <-. destruct (IH _ Es) as [-> ->].
  unfold judge in E. apply bind_ok in E as (a & Ea & E). apply bind_ok in E as (q & Eq & E). apply Ok_inj in E as <-. rewrite Ea, Eq. split; reflexivity.
Qed.
Lemma filter_fst (r : list (bool * Q)) : zlen (filter (fun h => h) (map fst r)) = zlen (filter fst r).
Proof. unfold zlen. induction r as [|[[] q] r IH]; cbn in *; lia. Qed.
Lemma zlen_map {A B} (f : A -> B) l : zlen (map f l) = zlen l. Proof. unfold zlen. now rewrite map_length. Qed.
Lemma mapM_zlen {A B} (f : A -> res B) l r : mapM f l = Ok r -> zlen r = zlen l.
Proof. intros H. apply mapM_forall2 in H. unfold zlen. now rewrite (Forall2_len _ _ _ H). Qed.
Lemma measure_says count l : l <> [] -> exists m a, measure count l = mkTally count (Some a) (Some m) /\ (m == mean_loss l)%Q /\ (a == share_right l)%Q.
Proof.
  intros N. assert (P : zlen l <> 0) by (destruct l; [congruence|unfold zlen; cbn; lia]). apply Z.eqb_neq in P. unfold measure, mean_of. rewrite P. eexists _, _. split; [reflexivity|].
  split; [unfold mean_loss; now rewrite qtotal_sum|reflexivity].
Qed.
(* from a tally to the steps *)
Lemma tally_trained r t count l : r = Ok (t_loss t) -> t = measure count l -> l <> [] -> trained r l.
Proof. intros -> -> N. destruct (measure_says count l N) as (m & a & -> & Em & _). exists m. split; [reflexivity|exact Em]. Qed.
Lemma tally_logs t count l : t = measure count l -> l <> [] -> logs (mkLog (t_loss t) (t_acc t)) l.
Proof. intros -> N. destruct (measure_says count l N) as (m & a & -> & Em & Ea). exists m, a. split; [reflexivity|]. split; assumption. Qed.

Lemma csm_steps net filler b t : csm_tally net filler b = Ok t ->
  csm_training_step net filler b = Ok (t_loss t) /\ csm_validation_step net filler b = Ok (mkLog (t_loss t) (t_acc t)).
Proof.
  unfold csm_tally, csm_training_step, csm_validation_step. intros H. apply bind_ok in H as (data & -> & H). apply bind_ok in H as (outs & Eo & H). apply bind_ok in H as (pairs & Ep & H).
  cbn [bind]. rewrite Eo. cbn [bind]. rewrite Ep. cbn [bind]. apply bind_ok in H as (l & El & H). apply Ok_inj in H as <-. change (mapM (judge nll) (filter (fun x : list Q * Z => negb (snd x =? IGNORED)) pairs) = Ok l) in El.
  destruct (mapM_judge _ _ _ El) as [E1 E2]. rewrite E1. cbn [bind]. rewrite E2. cbn [bind]. unfold measure. cbn [t_loss t_acc]. rewrite zlen_map, filter_fst, (mapM_zlen _ _ _ El). split; reflexivity.
Qed.
(* The loss and the accuracy of a step are those over the questions of the batch. *)
Theorem C105_csm net filler classes width b : Forall (csm_item classes width) b ->
  (forall x, length (net x) = length x) -> (forall x o, In o (net x) -> zlen o = classes) ->
  (exists d, In d b /\ asked (csm_target d) (id_length d)) ->
  let l := map csm_judged (flat_map (csm_answers net) b) in
  trained (csm_training_step net filler b) l /\ exists v, csm_validation_step net filler b = Ok v /\ logs v l.
Proof.
  intros F Hn Ho (d & I & A) l. assert (N : b <> []) by (intros ->; destruct I). destruct (csm_steps _ _ _ _ (csm_tally_ok net filler classes width b N F Hn Ho)) as [E1 E2].
  assert (Nl : l <> []).
  { intros E. apply map_eq_nil in E. revert E. apply exam_asked. exists d. split; [exact I|]. apply asked_answers; [|exact A]. rewrite Hn, firstn_length. rewrite Forall_forall in F. destruct (F d I) as (_ & K & W & _). lia. }
  split; [exact (tally_trained _ _ _ l E1 eq_refl Nl)|]. eexists. split; [exact E2|]. exact (tally_logs _ _ l eq_refl Nl).
Qed.
Print Assumptions C105_csm.

(* the pitch-based model *)
Lemma pitch_measured net filler d L pitches width : pitch_item_ok pitches width d -> (pi_length d <= L <= width)%nat ->
  length (net (firstn (pi_length d) (pi_inputs d))) = pi_length d ->
  filter (fun x : list Q * row => match snd x with f :: _ => f =? 0 | [] => false end)
    (combine (net (firstn (pi_length d) (pi_inputs d)) ++ repeat filler (L - pi_length d)) (roll_back (firstn L (pi_targets d))))
  = pitch_answers net d.
Proof.
  intros (Hl & _ & Ht & Hp & Hr & Hb) HL Ho. set (outs := net _) in *. set (n := pi_length d) in *.
  assert (Lt : length (firstn L (pi_targets d)) = L) by (rewrite firstn_length; lia).
  assert (Q : forall t y, nth_error (roll_back (firstn L (pi_targets d))) t = Some y ->
     match pitch_question d t with Some z => y = z /\ match y with f :: _ => f =? 0 | [] => false end = true /\ (t < n)%nat
     | None => match y with f :: _ => f =? 0 | [] => false end = false end).
  { intros t y Hy. rewrite nth_error_roll, Lt in Hy. unfold pitch_question. fold n. destruct (Nat.eqb_spec (S t) L) as [E|E].
    - rewrite nth_error_firstn' in Hy. destruct (Nat.ltb_spec 0 L); [|lia]. destruct (Nat.ltb_spec (S t) n); [lia|].
      assert (B := Hb _ _ Hy (or_introl eq_refl)). destruct y as [|f y]; [reflexivity|]. cbn in B. subst f. reflexivity.
    - rewrite nth_error_firstn' in Hy. destruct (Nat.ltb_spec (S t) L); [|discriminate]. destruct (Nat.ltb_spec (S t) n) as [P|P].
      + rewrite Hy. destruct y as [|f y]; [reflexivity|]. destruct f as [|f|f]; [|reflexivity|reflexivity]. split; [reflexivity|]. split; [reflexivity|lia].
      + assert (B := Hb _ _ Hy (or_intror P)). destruct y as [|f y]; [reflexivity|]. cbn in B. subst f. reflexivity. }
  assert (Lr : length (roll_back (firstn L (pi_targets d))) = L).
  { rewrite <- Lt at 2. destruct (firstn L (pi_targets d)) as [|x r]; [reflexivity|]. cbn. rewrite app_length. cbn. lia. }
  rewrite combine_positions by (rewrite app_length, repeat_length; lia).
  rewrite app_length, repeat_length. replace (length outs + (L - n))%nat with L by lia.
  rewrite filter_flat_map. replace (seq 0 L) with (seq 0 n ++ seq n (L - n)) by (rewrite <- seq_app; f_equal; lia).
  rewrite flat_map_app, (flat_map_nil _ _ _ (seq n (L - n))), app_nil_r.
  - unfold pitch_answers. fold n outs. rewrite !flat_map_concat_map. f_equal. apply map_ext_in. intros t I. apply in_seq in I. rewrite nth_error_app1 by lia.
    destruct (nth_error outs t) as [o|] eqn:Eo; [|reflexivity].
    destruct (nth_error (roll_back (firstn L (pi_targets d))) t) as [y|] eqn:Ey; [|apply nth_error_None in Ey; lia].
    specialize (Q t y Ey). destruct (pitch_question d t) as [z|]; [destruct Q as (<- & Q & _)|]; cbn [filter snd]; rewrite Q; reflexivity.
  - intros t I. apply in_seq in I. destruct (nth_error (outs ++ repeat filler (L - n)) t) as [o|]; [|reflexivity].
    destruct (nth_error (roll_back (firstn L (pi_targets d))) t) as [y|] eqn:Ey; [|reflexivity].
    specialize (Q t y Ey). destruct (pitch_question d t) as [z|]; [lia|]. cbn [filter snd]. rewrite Q. reflexivity.
Qed.
Lemma pitch_pairs_ok net filler pitches width b : b <> [] -> Forall (pitch_item_ok pitches width) b -> (forall x, length (net x) = length x) ->
  pitch_pairs net filler b = Ok (flat_map (pitch_answers net) b).
Proof.
  intros N F Ln. unfold pitch_pairs, pitch_batch. rewrite (stack_same _ width), (stack_same _ width); cbn [bind].
  2,3: apply Forall_map; eapply Forall_impl; [|exact F]; intros d H; apply H.
  rewrite np_max_ok by (destruct b; [now destruct N|discriminate]). cbn [bind]. rewrite !map_map. cbn [fst snd].
  change (fold_right Nat.max 0%nat (map pi_length b)) with (longest pi_length b).
  assert (LW : (longest pi_length b <= width)%nat) by (apply longest_le; eapply Forall_impl; [|exact F]; intros d (H & _); lia).
  rewrite forward_ok; [|assumption|eapply Forall_impl; [|exact F]; intros d (H & H2 & _); lia]. cbn [bind]. rewrite Forall_forall in F.
  assert (LN : forall d, In d b -> length (net (firstn (pi_length d) (pi_inputs d))) = pi_length d).
  { intros d I. rewrite Ln. destruct (F d I) as (H & H2 & _). apply firstn_length_le. lia. }
  assert (LR : forall d, In d b -> length (roll_back (firstn (longest pi_length b) (pi_targets d))) = longest pi_length b).
  { intros d I. destruct (F d I) as (_ & _ & H3 & _). assert (E : length (firstn (longest pi_length b) (pi_targets d)) = longest pi_length b) by (apply firstn_length_le; lia).
    rewrite <- E at 2. destruct (firstn (longest pi_length b) (pi_targets d)) as [|x r]; [reflexivity|]. cbn. rewrite app_length. cbn. lia. }
  rewrite pair_up_ok.
  2:{ apply Forall_forall. intros d I. rewrite app_length, repeat_length, LN, LR by assumption. pose proof (in_longest _ pi_length b d I). lia. }
  cbn [bind]. set (ps := flat_map _ b).
  assert (Rows : forall x, In x ps -> length (snd x) = pitches /\ (1 <= pitches)%nat).
  { intros [o r] I. unfold ps in I. apply in_flat_map in I as (d & Id & I). apply in_combine_r in I. cbn [snd]. destruct (F d Id) as (_ & _ & _ & H4 & H5 & _). split; [|exact H4].
    assert (J : In r (pi_targets d)).
    { assert (K : In r (firstn (longest pi_length b) (pi_targets d))) by (destruct (firstn (longest pi_length b) (pi_targets d)) as [|x l]; [destruct I|]; cbn in I; apply in_app_or in I as [I|[<-|[]]]; [now right|now left]).
      rewrite <- (firstn_skipn (longest pi_length b)). apply in_or_app. now left. }
    apply In_nth_error in J as (t & J). apply (H5 t r J). }
  rewrite (mapM_of _ _ _ (fun x : list Q * row => match snd x with f :: _ => f =? 0 | [] => false end)).
  2:{ intros [o r] I. destruct (Rows _ I) as [H1 H2]. cbn [snd] in *. destruct r as [|f r]; [cbn in H1; lia|]. reflexivity. }
  cbn [bind]. f_equal.
  assert (E : forall l : list (list Q * row), map snd (filter fst (combine (map (fun x : list Q * row => match snd x with f :: _ => f =? 0 | [] => false end) l) l))
     = filter (fun x : list Q * row => match snd x with f :: _ => f =? 0 | [] => false end) l).
  { induction l as [|x l IH]; [reflexivity|]. cbn [map combine filter fst]. destruct (match snd x with f :: _ => f =? 0 | [] => false end); cbn [map snd]; now rewrite IH. }
  rewrite E. unfold ps. rewrite filter_flat_map. apply flat_map_ext_in. intros d I. apply (pitch_measured net filler d _ pitches width); [now apply F|split; [now apply in_longest|exact LW]|now apply LN].
Qed.
(* The loss and the accuracy of a step are those over all pitches of the questions of the batch. *)
Theorem C105_pitch bce net filler pitches width b : Forall (pitch_item_ok pitches width) b ->
  (forall x, length (net x) = length x) -> (forall x o, In o (net x) -> length o = pitches /\ Forall (fun q => 0 <= q <= 1)%Q o) ->
  (exists d t r, In d b /\ pitch_question d t = Some r) ->
  let l := flat_map (pitch_judged bce) (flat_map (pitch_answers net) b) in
  trained (pitch_training_step bce net filler b) l /\ exists v, pitch_validation_step bce net filler b = Ok v /\ logs v l.
Proof.
  intros F Ln Ho (d0 & t0 & r0 & I0 & A0) l. assert (N : b <> []) by (intros ->; destruct I0).
  unfold pitch_training_step, pitch_validation_step. rewrite (pitch_pairs_ok net filler pitches width b N F Ln). cbn [bind].
  set (ps := flat_map (pitch_answers net) b) in *.
  assert (G : forall x, In x ps -> length (fst x) = pitches /\ length (snd x) = pitches /\ Forall (fun q => 0 <= q <= 1)%Q (fst x) /\ Forall (fun z => z = 0 \/ z = 1) (snd x)).
  { intros [o r] I. unfold ps in I. apply in_flat_map in I as (d & Id & I). unfold pitch_answers in I. apply in_flat_map in I as (t & It & I).
    destruct (nth_error (net _) t) as [o'|] eqn:Eo; [|destruct I]. destruct (pitch_question d t) as [r'|] eqn:Eq; [|destruct I]. destruct I as [I|[]]. apply pair_equal_spec in I as [<- <-].
    apply nth_error_In, Ho in Eo. unfold pitch_question in Eq. destruct (S t <? pi_length d)%nat; [|discriminate]. rewrite Forall_forall in F. destruct (F d Id) as (_ & _ & _ & _ & H5 & _).
    destruct (nth_error (pi_targets d) (S t)) as [[|[| |] r]|] eqn:Er; try discriminate Eq. injection Eq as <-. destruct (H5 _ _ Er) as [H6 [H7|H7]]; [|discriminate H7].
    cbn [fst snd]. split; [apply Eo|]. split; [exact H6|]. split; [apply Eo|exact H7]. }
  assert (El : forallb (fun x : list Q * row => (length (fst x) =? length (snd x))%nat) ps = true).
  { apply forallb_forall. intros x I. destruct (G x I) as (-> & -> & _). apply Nat.eqb_refl. }
  unfold pitch_losses. rewrite El. cbv zeta. cbn [bind].
  assert (E1 : flat_map (fun x : list Q * row => map (fun y => bce (fst y) (snd y)) (combine (fst x) (snd x))) ps = map snd l).
  { unfold l. rewrite map_flat_map. apply flat_map_ext_in. intros x _. unfold pitch_judged. rewrite map_map. reflexivity. }
  assert (E2 : flat_map pitch_hits ps = map fst l).
  { unfold l. rewrite map_flat_map. apply flat_map_ext_in. intros x I. destruct (G x I) as (_ & _ & H1 & H2). unfold pitch_hits, pitch_judged. rewrite map_map. apply map_ext_in. intros [q z] J.
    cbn [fst snd yes_no]. rewrite Forall_forall in H1, H2. apply round_decided; [exact (H1 q (in_combine_l _ _ _ _ J))|exact (H2 z (in_combine_r _ _ _ _ J))]. }
  assert (E3 : zlen (flat_map snd ps) = zlen l).
  { unfold zlen, l. f_equal. clear E1 E2 El. induction ps as [|x ps IH]; [reflexivity|]. cbn [flat_map]. rewrite !app_length, IH by (intros y Hy; apply G; now right).
    f_equal. unfold pitch_judged. rewrite map_length, combine_length. destruct (G x (or_introl eq_refl)) as (-> & -> & _). lia. }
  assert (Nl : l <> []).
  { intros E. assert (Z0 : flat_map snd ps = []) by (rewrite E in E3; destruct (flat_map snd ps); [reflexivity|unfold zlen in E3; cbn in E3; lia]).
    rewrite Forall_forall in F. destruct (F d0 I0) as (H1 & H2 & _). assert (Q0 := A0). unfold pitch_question in Q0. destruct (Nat.ltb_spec (S t0) (pi_length d0)); [|discriminate Q0].
    destruct (nth_error (pi_targets d0) (S t0)) as [[|[| |] r]|] eqn:Er; try discriminate Q0. injection Q0 as <-.
    destruct (nth_error (net (firstn (pi_length d0) (pi_inputs d0))) t0) as [o|] eqn:Eo.
    2:{ apply nth_error_None in Eo. rewrite Ln, firstn_length in Eo. lia. }
    assert (J : In (o, 0 :: r) ps).
    { apply in_flat_map. exists d0. split; [exact I0|]. apply in_flat_map. exists t0. split; [apply in_seq; lia|]. rewrite Eo, A0. now left. }
    assert (K : In 0 (flat_map snd ps)) by (apply in_flat_map; exists (o, 0 :: r); split; [exact J|now left]). rewrite Z0 in K. destruct K. }
  rewrite E1. unfold pitch_accuracy. rewrite E2, E3, filter_fst, zlen_map.
  assert (M := measure_says 0 l Nl). destruct M as (m & a & M & Em & Ea). unfold measure in M. injection M as Ma Mm. split.
  - exists m. split; [now rewrite <- Mm|exact Em].
  - eexists. split; [reflexivity|]. exists m, a. split; [now rewrite <- Mm, <- Ma|]. split; assumption.
Qed.
Print Assumptions C105_pitch.
(* How the evaluation of this model fails (C88_pitch_refuted): with a ValueError when the losses are turned into a
   number, or before that with a RuntimeError, if two batches have different numbers of questions, both not 1. *)
Lemma broadcast_all rest : forall n, (forall x y, In x (n :: rest) -> In y (n :: rest) -> x = y \/ x = 1%nat \/ y = 1%nat) ->
  exists m, fold_left (fun acc k => let! a := acc in broadcast a k) rest (Ok n) = Ok m.
Proof.
  induction rest as [|k rest IH]; intros n H; [eexists; reflexivity|]. cbn [fold_left bind]. unfold broadcast at 2.
  assert (K := H n k (or_introl eq_refl) (or_intror (or_introl eq_refl))).
  destruct (Nat.eqb_spec n k) as [->|E]; [apply IH; intros x y Ix Iy; apply H; now right|].
  destruct (Nat.eqb_spec n 1) as [->|E1]; [apply IH; intros x y Ix Iy; apply H; now right|].
  destruct (Nat.eqb_spec k 1) as [->|E2]; [|lia].
  apply IH. intros x y Ix Iy. apply H; [destruct Ix as [->|Ix]; [now left|now right; right]|destruct Iy as [->|Iy]; [now left|now right; right]].
Qed.
Lemma broadcast_raised rest e : fold_left (fun acc k => let! a := acc in broadcast a k) rest (Raise e) = Raise e.
Proof. induction rest as [|k rest IH]; [reflexivity|exact IH]. Qed.
Lemma broadcast_not rest : forall n, (exists x y, In x (n :: rest) /\ In y (n :: rest) /\ x <> y /\ x <> 1%nat /\ y <> 1%nat) ->
  fold_left (fun acc k => let! a := acc in broadcast a k) rest (Ok n) = Raise RuntimeError.
Proof.
  induction rest as [|k rest IH]; intros n (x & y & Ix & Iy & N & N1 & N2).
  - destruct Ix as [<-|[]], Iy as [<-|[]]. now destruct N.
  - cbn [fold_left bind]. unfold broadcast at 2. destruct (Nat.eqb_spec n k) as [<-|E].
    { apply IH. exists x, y. cbn [In] in Ix, Iy |- *. tauto. }
    destruct (Nat.eqb_spec n 1) as [->|E1].
    { apply IH. exists x, y. split; [|split; [|now split]]; [destruct Ix as [Ix|Ix]; [now destruct N1|exact Ix]|destruct Iy as [Iy|Iy]; [now destruct N2|exact Iy]]. }
    destruct (Nat.eqb_spec k 1) as [->|E2].
    { apply IH. exists x, y. split; [|split; [|now split]]; [destruct Ix as [Ix|[Ix|Ix]]|destruct Iy as [Iy|[Iy|Iy]]]; subst; try (now left); try (now right); congruence. }
    apply broadcast_raised.
Qed.
Theorem C88_pitch_why net filler pitches width size data gs : (2 <= pitches)%nat -> (1 <= size)%nat -> data <> [] -> Forall (pitch_item_ok pitches width) data ->
  (forall x, length (net x) = length x) -> grouped size data gs ->
  let questions := map (fun g => length (flat_map (pitch_answers net) g)) gs in
  ((forall x y, In x questions -> In y questions -> x = y \/ x = 1%nat \/ y = 1%nat) -> pitch_evaluate net filler pitches size data = Raise ValueError) /\
  ((exists x y, In x questions /\ In y questions /\ x <> y /\ x <> 1%nat /\ y <> 1%nat) -> pitch_evaluate net filler pitches size data = Raise RuntimeError).
Proof.
  intros P Hs N F Ln G qs. unfold pitch_evaluate. destruct (loader_grouped _ size data Hs) as (gs' & -> & G'). cbn [bind].
  rewrite <- (grouped_fun _ _ _ _ Hs G _ G'). clear G' gs'. assert (Ne := grouped_nonempty _ _ _ _ Hs G). rewrite Forall_forall in Ne.
  rewrite (mapM_of _ _ _ (flat_map (pitch_answers net))).
  2:{ intros g I. apply (pitch_pairs_ok net filler pitches width); [now apply Ne| |exact Ln]. rewrite Forall_forall in F |- *. intros d Id. apply F. rewrite <- (grouped_concat _ _ _ _ G). apply in_concat. eauto. }
  cbn [bind]. rewrite map_map. fold qs. destruct qs as [|n rest] eqn:E.
  - exfalso. apply N. apply (grouped_nil _ _ _ _ G). destruct gs; [reflexivity|discriminate E].
  - split; intros H.
    + destruct (broadcast_all rest n H) as [m ->]. cbn [bind]. replace (m * pitches =? 1)%nat with false; [reflexivity|]. symmetry. apply Nat.eqb_neq. intros K. apply Nat.eq_mul_1 in K. lia.
    + now rewrite (broadcast_not rest n H).
Qed.
Print Assumptions C88_pitch_why.
Lemma ctm_steps bce net filler b t : ctm_tally bce net filler b = Ok t ->
  ctm_training_step bce net filler b = Ok (t_loss t) /\ ctm_validation_step bce net filler b = Ok (mkLog (t_loss t) (t_acc t)).
Proof.
  unfold ctm_tally, ctm_training_step, ctm_validation_step. intros H. apply bind_ok in H as (data & -> & H). apply bind_ok in H as (outs & Eo & H). apply bind_ok in H as (pairs & Ep & H).
  cbn [bind]. rewrite Eo. cbn [bind]. rewrite Ep. cbn [bind]. cbv zeta in *. apply Ok_inj in H as <-. set (asked := filter _ pairs). unfold measure. cbn [t_loss t_acc].
  rewrite !map_map, !zlen_map. cbn [snd]. split; [reflexivity|]. do 4 f_equal. f_equal. unfold zlen. f_equal. clear. induction asked as [|x l IH]; [reflexivity|]. cbn.
  destruct (_ =? _); cbn; now rewrite IH.
Qed.
Theorem C105_ctm bce net filler width b : Forall (ctm_item width) b ->
  (forall x, length (net x) = length x) -> (forall x o, In o (net x) -> 0 <= o <= 1)%Q ->
  (exists d, In d b /\ asked (ctm_target d) (ni_length d)) ->
  let l := map (yes_no bce) (flat_map (ctm_answers net) b) in
  trained (ctm_training_step bce net filler b) l /\ exists v, ctm_validation_step bce net filler b = Ok v /\ logs v l.
Proof.
  intros F Hn Ho (d & I & A) l. assert (N : b <> []) by (intros ->; destruct I). destruct (ctm_steps _ _ _ _ _ (ctm_tally_ok bce net filler width b N F Hn Ho)) as [E1 E2].
  assert (Nl : l <> []).
  { intros E. apply map_eq_nil in E. revert E. apply exam_asked. exists d. split; [exact I|]. apply asked_answers; [|exact A]. rewrite Hn, firstn_length. rewrite Forall_forall in F. destruct (F d I) as (_ & K & W & _). lia. }
  split; [exact (tally_trained _ _ _ l E1 eq_refl Nl)|]. eexists. split; [exact E2|]. exact (tally_logs _ _ l eq_refl Nl).
Qed.
Print Assumptions C105_ctm.
Lemma ktm_steps bce net filler b t : ktm_tally bce net filler b = Ok t ->
  ktm_training_step bce net filler b = Ok (t_loss t) /\ ktm_validation_step bce net filler b = Ok (mkLog (t_loss t) (t_acc t)).
Proof.
  unfold ktm_tally, ktm_training_step, ktm_validation_step. intros H. apply bind_ok in H as (data & -> & H). apply bind_ok in H as (outs & Eo & H). apply bind_ok in H as (pairs & Ep & H).
  cbn [bind]. rewrite Eo. cbn [bind]. rewrite Ep. cbn [bind]. cbv zeta in *. apply Ok_inj in H as <-. set (asked := filter _ pairs). unfold measure. cbn [t_loss t_acc].
  rewrite !map_map, !zlen_map. cbn [snd]. split; [reflexivity|]. do 4 f_equal. f_equal. unfold zlen. f_equal. clear. induction asked as [|x l IH]; [reflexivity|]. cbn.
  destruct (_ =? _); cbn; now rewrite IH.
Qed.
Theorem C105_ktm bce net filler width b : Forall (fun x => ktm_item width (fst x) (snd x)) b ->
  (forall x, length (net x) = length x) -> (forall x o, In o (net x) -> 0 <= o <= 1)%Q ->
  (exists x, In x b /\ asked (ktm_target (snd x)) (ki_length (fst x))) ->
  let l := map (yes_no bce) (flat_map (ktm_answers net) b) in
  trained (ktm_training_step bce net filler (map fst b)) l /\ exists v, ktm_validation_step bce net filler (map fst b) = Ok v /\ logs v l.
Proof.
  intros F Hn Ho (d & I & A) l. assert (N : b <> []) by (intros ->; destruct I). destruct (ktm_steps _ _ _ _ _ (ktm_tally_ok bce net filler width b N F Hn Ho)) as [E1 E2].
  assert (Nl : l <> []).
  { intros E. apply map_eq_nil in E. revert E. apply exam_asked. exists d. split; [exact I|]. apply asked_answers; [|exact A]. rewrite Hn, firstn_length. rewrite Forall_forall in F. destruct (F d I) as (_ & K & W & _). lia. }
  split; [exact (tally_trained _ _ _ l E1 eq_refl Nl)|]. eexists. split; [exact E2|]. exact (tally_logs _ _ l eq_refl Nl).
Qed.
Print Assumptions C105_ktm.

(* The key sequence model is asked once for each item. *)
Lemma ksm_steps last b t : b <> [] -> ksm_tally last b = Ok t ->
  ksm_training_step last b = Ok (t_loss t) /\ ksm_validation_step last b = Ok (mkLog (t_loss t) (t_acc t)).
Proof.
  unfold ksm_tally, ksm_training_step, ksm_validation_step, ksm_pairs. intros N H. apply bind_ok in H as (u & Eu & H). rewrite Eu. cbn [bind]. apply bind_ok in H as (w & -> & H). cbn [bind].
  apply bind_ok in H as (outs & Eo & H). rewrite Eo. cbn [bind]. apply bind_ok in H as (l & El & H). apply Ok_inj in H as <-. destruct (mapM_judge _ _ _ El) as [E1 E2]. rewrite E1. cbn [bind]. rewrite E2. cbn [bind].
  unfold measure. cbn [t_loss t_acc]. rewrite zlen_map, filter_fst. split; [reflexivity|]. do 3 f_equal. rewrite (mapM_zlen _ _ _ El). apply mapM_zlen in Eo. unfold zlen in *. rewrite combine_length, !map_length in *. lia.
Qed.
Theorem C105_ksm (last : list row -> list Q) classes width b : b <> [] -> Forall (one_ok classes width) b -> (forall x, zlen (last x) = classes) ->
  let l := map (fun d => one_judged nll_of (one_answer last d)) b in
  trained (ksm_training_step last b) l /\ exists v, ksm_validation_step last b = Ok v /\ logs v l.
Proof.
  intros N F Ho l. destruct (ksm_steps _ _ _ N (ksm_tally_ok last classes width b N F Ho)) as [E1 E2].
  assert (Nl : l <> []) by (intros E; apply map_eq_nil in E; contradiction).
  split; [exact (tally_trained _ _ _ l E1 eq_refl Nl)|]. eexists. split; [exact E2|]. exact (tally_logs _ _ l eq_refl Nl).
Qed.
Print Assumptions C105_ksm.

(* The chord classifier is asked once for each item whose chord is known; validation logs nothing for a batch
   without such an item, and the loss of training is not a number. *)
Lemma known_pairs {R} (last : list R -> list Q) classes width (b : list (one_item R)) : Forall (one_item_ok classes width) b ->
  filter (fun x : list Q * Z => negb (snd x =? -1)) (combine (map (fun d => last (firstn (Nat.max 1 (oi_length d)) (oi_inputs d))) b) (map oi_target b)) =
  combine (map (fun d => last (firstn (oi_length d) (oi_inputs d))) (known_items b)) (map oi_target (known_items b)).
Proof.
  induction 1 as [|d b (W & Ld & Lw & T) F IH]; [reflexivity|]. cbn [map combine filter known_items]. cbn [snd]. destruct T as [T|[L1 T]].
  - rewrite T. cbn. exact IH.
  - replace (oi_target d =? -1) with false by lia. replace (0 <=? oi_target d) with true by lia. cbn [negb map combine]. f_equal; [|exact IH]. now rewrite Nat.max_r by lia.
Qed.
Lemma ccm_known {R} ce (last : list R -> list Q) classes width (b : list (one_item R)) : Forall (one_item_ok classes width) b -> length b <> 1%nat -> (forall x, zlen (last x) = classes) ->
  stack (map oi_inputs b) = Ok (map oi_inputs b) /\
  ccm_forward last (map (fun d => (oi_inputs d, oi_length d)) b) = Ok (map (fun d => last (firstn (Nat.max 1 (oi_length d)) (oi_inputs d))) b) /\
  mapM (judge (cross_entropy ce)) (combine (map (fun d => last (firstn (oi_length d) (oi_inputs d))) (known_items b)) (map oi_target (known_items b))) = Ok (one_exam ce last (known_items b)).
Proof.
  intros F N Ho. split; [|split].
  - apply (stack_same _ width). apply Forall_map. eapply Forall_impl; [|exact F]. intros d H. apply H.
  - unfold ccm_forward, forward_last. rewrite (mapM_of _ _ _ (fun x => last (firstn (Nat.max 1 (snd x)) (fst x)))).
    + cbn [bind]. rewrite map_length. replace (length b =? 1)%nat with false by (symmetry; now apply Nat.eqb_neq). rewrite map_map. reflexivity.
    + intros x I. apply in_map_iff in I as (d & <- & I). cbn [fst snd]. rewrite Forall_forall in F. destruct (F d I) as (W & Ld & Lw & _). destruct (Nat.ltb_spec (length (oi_inputs d)) (Nat.max 1 (oi_length d))); [lia|reflexivity].
  - apply (judge_all _ _ ce last classes); [|exact Ho|].
    + intros o t P. unfold cross_entropy. destruct (Z.ltb_spec t 0); [lia|]. destruct (Z.leb_spec (zlen o) t); [lia|reflexivity].
    + apply Forall_forall. intros d I. apply filter_In in I as [I K]. rewrite Forall_forall in F. destruct (F d I) as (_ & _ & _ & [T|[_ T]]); lia.
Qed.
Theorem C105_ccm {R} ce (last : list R -> list Q) classes width (b : list (one_item R)) : Forall (one_item_ok classes width) b -> length b <> 1%nat ->
  (forall x, zlen (last x) = classes) ->
  let l := map (fun d => one_judged ce (one_answer last d)) (known_items b) in
  if 0 <? zlen (known_items b)
  then trained (ccm_training_step ce last b) l /\ exists v, ccm_validation_step ce last b = Ok (Some v) /\ logs v l
  else ccm_training_step ce last b = Ok None /\ ccm_validation_step ce last b = Ok None.
Proof.
  intros F N Ho l. destruct (ccm_known ce last classes width b F N Ho) as (E1 & E2 & E3). unfold ccm_training_step, ccm_validation_step. rewrite E1, E2. cbn [bind].
  rewrite (known_pairs last classes width b F). destruct (mapM_judge _ _ _ E3) as [E4 E5]. rewrite E4. cbn [bind]. cbv zeta.
  assert (Lk : zlen (combine (map (fun d => last (firstn (oi_length d) (oi_inputs d))) (known_items b)) (map oi_target (known_items b))) = zlen (known_items b)).
  { unfold zlen. rewrite combine_length, !map_length. lia. }
  rewrite Lk, zlen_map. unfold one_exam in *. fold l in E3, E4, E5 |- *. assert (Ll : zlen l = zlen (known_items b)) by apply zlen_map.
  destruct (Z.ltb_spec 0 (zlen (known_items b))) as [K|K].
  - assert (Nl : l <> []) by (intros X; rewrite X in Ll; unfold zlen in *; cbn in Ll; lia). rewrite E5. cbn [bind]. rewrite filter_fst, <- Ll.
    change (mean_of (qtotal (map snd l)) (zlen l)) with (t_loss (measure 0 l)). change (mean_of (inject_Z (100 * zlen (filter fst l))) (zlen l)) with (t_acc (measure 0 l)).
    split; [exact (tally_trained _ _ 0 l eq_refl eq_refl Nl)|]. eexists. split; [reflexivity|]. exact (tally_logs _ 0 l eq_refl Nl).
  - assert (Z0 : zlen l = 0) by (unfold zlen in *; lia). rewrite Z0. split; reflexivity.
Qed.
Print Assumptions C105_ccm.
(* The items of the dataset are such items, whatever the options and the transposition: the classes are those of the model with these options. *)
Theorem C105_items pt red use_inv tr rows len i d : (1 <= len <= length rows)%nat ->
  ccd_reduce pt red use_inv tr rows len i = Ok d ->
  one_item_ok (get_chord_vector_length pt true false use_inv false red) (length rows) (ccd_one d).
Proof.
  intros L E. unfold ccd_reduce in E. apply bind_ok in E as (ts & Et & E). apply bind_ok in E as (t & Eh & E).
  assert (Ht : 0 <= t < get_chord_vector_length pt true false use_inv false red).
  { unfold reduce_chord_one_hots in Et. apply mapM_forall2 in Et. inversion Et as [|x y ? ? Hx F]; subst. inversion F; subst. unfold hget in Eh. cbn in Eh. apply Ok_inj in Eh as <-.
    unfold reduce_one_hot in Hx. apply bind_ok in Hx as ([[r ty] inv] & _ & Hx). now apply C02_index_in_range in Hx. }
  destruct (bind _ _) as [d'|e] eqn:B in E.
  - apply Ok_inj in E as <-. apply bind_ok in B as ([t' rows'] & Eb & B). apply bind_ok in B as ([[root bass] ps] & _ & B). apply Ok_inj in B as <-.
    assert (K : 0 <= t' < get_chord_vector_length pt true false use_inv false red /\ length rows' = length rows).
    { destruct (tr =? 0); [apply Ok_inj, pair_equal_spec in Eb as [<- <-]; split; [exact Ht|reflexivity]|].
      apply bind_ok in Eb as ([[r ty] inv] & _ & Eb). apply bind_ok in Eb as (t2 & E2 & Eb). apply bind_ok in Eb as (rows2 & Er & Eb). apply Ok_inj, pair_equal_spec in Eb as [<- <-].
      split; [now apply C02_index_in_range in E2|]. unfold transpose_rows in Er. apply bind_ok in Er as (rs & Ers & Er). apply Ok_inj in Er as <-. apply mapM_forall2, Forall2_len in Ers.
      rewrite app_length, <- Ers, firstn_length, skipn_length. lia. }
    destruct K as [K1 K2]. unfold one_item_ok, ccd_one. cbn [ci_inputs ci_length ci_target oi_inputs oi_length oi_target]. rewrite K2, Nat2Z.id. split; [lia|]. split; [reflexivity|]. split; [lia|]. right. split; [lia|exact K1].
  - destruct e; try discriminate. apply Ok_inj in E as <-. unfold one_item_ok, ccd_one. cbn [ci_inputs ci_length ci_target oi_inputs oi_length oi_target]. rewrite map_length. split; [lia|]. split; [reflexivity|]. split; [cbn; lia|]. now left.
Qed.
Print Assumptions C105_items.
(* False: a batch can be of any size.  A batch of one item raises. *)
Theorem C105_single_refuted {R} ce (last : list R -> list Q) classes width d : one_item_ok classes width d ->
  ccm_training_step ce last [d] = Raise IndexError /\ ccm_validation_step ce last [d] = Raise IndexError.
Proof.
  intros (W & Ld & Lw & _). unfold ccm_training_step, ccm_validation_step, ccm_forward, forward_last. change (stack (map oi_inputs [d])) with (Ok (map oi_inputs [d])). cbn [bind map mapM fst snd].
  destruct (Nat.ltb_spec (length (oi_inputs d)) (Nat.max 1 (oi_length d))); [lia|]. split; reflexivity.
Qed.
Print Assumptions C105_single_refuted.
(* False: evaluate leaves out the items whose chord is not known, as the steps do.  One of them ends it with an exception. *)
Theorem C105_evaluate_refuted {R} ce (last : list R -> list Q) size data d : In d data -> oi_target d = -1 ->
  exists e, evaluate_batches (ccm_tally ce last) size data = Raise e.
Proof.
  intros I T. destruct (evaluate_batches (ccm_tally ce last) size data) as [r|e] eqn:E; [|eauto]. exfalso. unfold evaluate_batches in E. apply bind_ok in E as (bs & Eb & E). apply bind_ok in E as (ts & Et & _).
  assert (Hs : (1 <= size)%nat) by (destruct size; [discriminate|lia]). destruct (loader_grouped _ size data Hs) as (gs & Eg & G). rewrite Eb in Eg. apply Ok_inj in Eg as ->.
  rewrite <- (grouped_concat _ _ _ _ G) in I. apply in_concat in I as (g & Ig & Id). apply mapM_forall2 in Et. apply In_nth_error in Ig as [k Ek]. destruct (forall2_nth _ _ _ Et k g Ek) as (t & _ & H).
  unfold ccm_tally in H. apply bind_ok in H as (u & _ & H). apply bind_ok in H as (outs & Eo & H). apply bind_ok in H as (l & El & _).
  assert (Lo : length outs = length g).
  { unfold ccm_forward in Eo. apply bind_ok in Eo as (o' & Eo' & Eo). destruct (Nat.eqb _ 1); [discriminate|]. apply Ok_inj in Eo as <-. apply mapM_forall2 in Eo'. apply Forall2_len in Eo'. now rewrite map_length in Eo'. }
  apply In_nth_error in Id as [j Ej]. destruct (nth_error outs j) as [o|] eqn:Ej'; [|apply nth_error_None in Ej'; assert (j < length g)%nat by (apply nth_error_Some; congruence); lia].
  apply mapM_forall2 in El. assert (En : nth_error (combine outs (map oi_target g)) j = Some (o, -1)).
  { clear -Ej Ej' T. revert outs g Ej Ej'. induction j as [|j IH]; intros [|o' outs] [|d' g] Ej Ej'; try discriminate; cbn in *; [injection Ej as ->; injection Ej' as ->; now rewrite T|auto]. }
  destruct (forall2_nth _ _ _ El j (o, -1) En) as (y & _ & J). unfold judge in J. apply bind_ok in J as (a & _ & J). apply bind_ok in J as (q & Eq & _). discriminate.
Qed.
Print Assumptions C105_evaluate_refuted.

(* the hypotheses are met: the batches of C88, and a batch of three items of the dataset, of which the transposition puts one out of range *)
Definition b105 : list (one_item row) :=
  match get_chord_one_hot_index Maj 16 TPC 0 true false false NO_REDUCTION, get_chord_one_hot_index Maj 33 TPC 0 true false false NO_REDUCTION with
  | Ok i, Ok j => map (fun x => match ccd_reduce TPC NO_REDUCTION true (fst x) [vec65 16; vec65 20] 2 (snd x) with Ok d => ccd_one d | Raise _ => mkOI [] 0 (-2) end) [(1, i); (4, j); (0, i)]
  | _, _ => [] end.
Definition last105 (x : list row) : list Q := map (fun k => if k =? 51 then 1%Q else 0%Q) (zrange 0 1680).
Definition logged_as (r : res logged) (m a : Q) : bool :=
  match r with Ok (mkLog (Some x) (Some y)) => Qeq_bool x m && Qeq_bool y a | _ => false end.
Example C105_ex : Forall (one_item_ok 1680 2) b105 /\ map oi_target b105 = [51; -1; 48] /\ length (known_items b105) = 2%nat
  /\ logged_as (match ccm_validation_step (fun _ t => inject_Z t) last105 b105 with Ok (Some v) => Ok v | Ok None => Raise Unmodelled | Raise e => Raise e end) (99 # 2)%Q 50%Q = true
  /\ evaluate_batches (ccm_tally (fun _ t => inject_Z t) last105) 3 b105 = Raise IndexError
  /\ logged_as (csm_validation_step net88 [] data88c) (7 # 3)%Q (100 # 3)%Q = true
  /\ ksm_training_step (fun _ => [(-1)%Q; (-3)%Q]) (items88 1) <> Ok None.
Proof.
  split; [|split; [vm_compute; reflexivity|split; [vm_compute; reflexivity|split; [vm_compute; reflexivity|split; [vm_compute; reflexivity|split; [vm_compute; reflexivity|vm_compute; discriminate]]]]]].
  assert (E : forall d, In d b105 -> length (oi_inputs d) = 2%nat /\ (oi_length d <= 2)%nat /\ (oi_target d = -1 \/ (1 <= oi_length d)%nat /\ 0 <= oi_target d < 1680)).
  { assert (K : forallb (fun d => (length (oi_inputs d) =? 2)%nat && (oi_length d <=? 2)%nat && ((oi_target d =? -1) || (1 <=? oi_length d)%nat && (0 <=? oi_target d) && (oi_target d <? 1680))) b105 = true) by (vm_compute; reflexivity).
    intros d I. rewrite forallb_forall in K. specialize (K d I). apply andb_prop in K as [K1 K2]. apply andb_prop in K1 as [K0 K1].
    split; [now apply Nat.eqb_eq|split; [now apply Nat.leb_le|]]. apply orb_prop in K2 as [K2|K2]; [left; lia|right]. apply andb_prop in K2 as [K2 K3]. apply andb_prop in K2 as [K2 K4]. apply Nat.leb_le in K2. lia. }
  apply Forall_forall. intros d I. destruct (E d I) as (A & B & C). split; [lia|]. split; [exact A|]. split; [exact B|exact C].
Qed.
(* The targets are those that the dataset of C87_pitch_ex makes: one question, twelve pitches.  The answer "nothing but
   pitches 2 and 7" is right for eleven of them. *)
Definition net105 : list row -> list (list Q) := map (fun _ => map (fun k => if (k =? 2) || (k =? 7) then (3 # 4)%Q else (1 # 4)%Q) (zrange 0 12)).
Definition bce105 (o : Q) (t : Z) : Q := ((o - inject_Z t) * (o - inject_Z t))%Q.
Example C105_pitch_ex : exists b, pitch87 = Ok b /\ Forall (pitch_item_ok 12 3) b
  /\ (forall x, length (net105 x) = length x) /\ (forall x o, In o (net105 x) -> length o = 12%nat /\ Forall (fun q => 0 <= q <= 1)%Q o)
  /\ (exists d t r, In d b /\ pitch_question d t = Some r)
  /\ map snd (flat_map (pitch_answers net105) b) = [[0; 0; 1; 0; 0; 0; 0; 1; 0; 0; 0; 1]]
  /\ logged_as (pitch_validation_step bce105 net105 [] b) (5 # 48)%Q (275 # 3)%Q = true.
Proof.
  destruct pitch87 as [b|] eqn:E; [|vm_compute in E; discriminate]. vm_compute in E. apply Ok_inj in E. subst b. eexists. split; [reflexivity|]. split.
  - constructor; [|constructor]. split; [cbn; lia|]. split; [reflexivity|]. split; [reflexivity|]. split; [lia|]. split.
    + intros t r H. apply nth_error_In in H. cbn in H. destruct H as [<-|[<-|[<-|[]]]]; split; try reflexivity; [right; reflexivity|left|left]; repeat (apply Forall_cons; [lia|]); apply Forall_nil.
    + intros t r H T. cbn [pi_length] in T. destruct t as [|t]; [cbn in H; injection H as <-; reflexivity|]. destruct T as [T|T]; [discriminate|]. exfalso.
      apply nth_error_split in H as (l1 & l2 & E & El). apply (f_equal (@length _)) in E. rewrite app_length in E. cbn in E. lia.
  - split; [intros x; apply map_length|]. split.
    + intros x o I. unfold net105 in I. apply in_map_iff in I as (y & <- & _). split; [reflexivity|]. apply Forall_forall. intros q I. apply in_map_iff in I as (k & <- & _). destruct ((k =? 2) || (k =? 7)); split; vm_compute; discriminate.
    + split; [eexists _, 0%nat, _; split; [left; reflexivity|reflexivity]|]. split; vm_compute; reflexivity.
Qed.
Definition data105 : list pitch_item :=
  [mkPI [[1]; [2]; [3]] 3 [[-100; -100]; [0; 1]; [0; 0]]; mkPI [[1]; [2]; [3]] 1 [[-100; -100]; [-100; -100]; [-100; -100]]].
Example C88_pitch_why_ex : Forall (pitch_item_ok 2 3) data105
  /\ pitch_evaluate (map (fun _ => [(1 # 4)%Q; (3 # 4)%Q])) [] 2 2 data105 = Raise ValueError
  /\ pitch_evaluate (map (fun _ => [(1 # 4)%Q; (3 # 4)%Q])) [] 2 1 data105 = Raise RuntimeError.
Proof.
  split; [|split; vm_compute; reflexivity]. apply Forall_forall. intros d I. destruct I as [<-|[<-|[]]]; (split; [cbn; lia|]; split; [reflexivity|]; split; [reflexivity|]; split; [lia|]; split).
  1,3: intros t r H; apply nth_error_In in H; cbn in H; destruct H as [<-|[<-|[<-|[]]]]; (split; [reflexivity|]); first [right; reflexivity|left; repeat (apply Forall_cons; [lia|]); apply Forall_nil].
  - intros [|[|[|[|t]]]] r H T; cbn in H, T; try (injection H as <-; reflexivity); try discriminate H; lia.
  - intros [|[|[|[|t]]]] r H T; cbn in H, T; try (injection H as <-; reflexivity); try discriminate H.
Qed.
