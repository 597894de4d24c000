(* Properties C87, C88, C89: the batches that the neural models are trained, evaluated and run on. *)
From Coq Require Import QArith Lia Lqa.
From Verif Require Import Proof_Base Model_Types Model_Harmony Model_Dataset Model_Prior Spec_Dataset Proof_Dataset Prop_Items.
From Verif Require Import Model_Batch Spec_Batch Proof_Batch Proof_BatchData.
Close Scope Q_scope.
Open Scope Z_scope.

(* ---- C87: what the models are asked in training ---- *)
(* A batch of the chord sequence dataset, from the pieces to the targets that the loss is computed
   with: the rows of each piece are there, and at position t the target is the chord after t if there
   is one and the key does not change there; at all other positions nothing is asked. *)
Theorem C87_csm : forall pieces ds pt is b, csd pieces = Ok ds -> good_pieces pt pieces ->
  is <> [] -> mapM (hd_getitem ds) is = Ok b ->
  exists data, csm_batch b = Ok data /\
    Forall2 (fun i x => exists p, nth_error pieces i = Some p
      /\ snd (fst x) = length (dp_chords p)
      /\ piece_rows false p = Ok (firstn (length (dp_chords p)) (fst (fst x)))
      /\ (length (dp_chords p) <= length (snd x))%nat
      /\ forall t y, nth_error (snd x) t = Some y ->
           (y <> IGNORED -> next_chord p t y) /\ (forall y', next_chord p t y' -> y = y')) is data.
Proof.
  intros pieces ds pt is b Hc V Hne Hb. apply mapM_forall2 in Hb.
  set (classes := get_chord_vector_length pt true true true false NO_REDUCTION).
  assert (Hne' : b <> []) by (destruct Hb; [congruence|discriminate]).
  assert (Hw : exists width, Forall (csm_item classes width) b).
  { destruct (np_max (map (fun p => length (dp_chords p)) pieces)) as [w|] eqn:Ew.
    - exists w. clear - Hb Hc V Ew. induction Hb as [|i d is b Hd F IH]; constructor; [|exact IH].
      destruct (csd_item _ _ _ _ _ Hc Hd V) as (p & rows & ts & _ & _ & _ & _ & _ & _ & _ & w' & Ew' & Hi). rewrite Ew in Ew'. apply Ok_inj in Ew'. subst w'. exact Hi.
    - destruct Hb as [|i d is b Hd F]; [congruence|].
      destruct (csd_item _ _ _ _ _ Hc Hd V) as (p & rows & ts & _ & _ & _ & _ & _ & _ & _ & w' & Ew' & Hi). congruence. }
  destruct Hw as (width & Hw). eexists. split; [exact (csm_batch_ok _ _ _ Hne' Hw)|].
  assert (HL : forall d, In d b -> (id_length d <= longest id_length b)%nat) by (intros d; apply in_longest).
  revert HL. generalize (longest id_length b) as m. intros m HL. clear Hne Hne' Hw.
  induction Hb as [|i d is b Hd F IH]; [constructor|]. cbn [map]. constructor; [|apply IH; intros x Hx; apply HL; now right].
  specialize (HL d (or_introl eq_refl)). clear IH F. cbn [fst snd].
  destruct (csd_item _ _ _ _ _ Hc Hd V) as (p & rows & ts & Hp & Hr & Ht & E1 & L1 & E2 & E3 & w' & _ & Hi).
  exists p. split; [exact Hp|]. split; [exact E1|].
  split. { rewrite Hr, <- E2. f_equal. rewrite firstn_firstn. f_equal. lia. }
  split; [rewrite map_length, seq_length; lia|].
  assert (Vp : valid_piece p). { unfold good_pieces in V. rewrite Forall_forall in V. apply (V p). eapply nth_error_In; exact Hp. }
  assert (K : forall t y, csm_target d t = Some y <-> next_chord p t y).
  { intros t y. unfold csm_target, next_chord. rewrite E1. destruct (Nat.ltb_spec (S t) (length (dp_chords p))) as [Q|Q].
    - assert (R1 : nth_error (id_inputs d) (S t) = nth_error rows (S t)).
      { rewrite <- E2. rewrite nth_error_firstn'. replace (S t <? length (dp_chords p))%nat with true by (symmetry; now apply Nat.ltb_lt). reflexivity. }
      assert (R2 : nth_error (id_targets d) (S t) = nth_error ts (S t)).
      { rewrite <- E3. rewrite nth_error_firstn'. replace (S t <? length (dp_chords p))%nat with true by (symmetry; now apply Nat.ltb_lt). reflexivity. }
      rewrite R1, R2. destruct (nth_error rows (S t)) as [r|] eqn:Er. 2:{ apply nth_error_None in Er. lia. }
      destruct (nth_error (dp_chords p) (S t)) as [c|] eqn:Ec. 2:{ apply nth_error_None in Ec. lia. }
      unfold csd_targets in Ht. apply mapM_forall2 in Ht. destruct (forall2_nth _ _ _ Ht (S t) c Ec) as (z & Ez & Hz). rewrite Ez.
      destruct (proj2 (piece_flags p _ _ Vp Hr) (S t) r Er) as (_ & F1 & F2).
      assert (Hin : In (S t) (dp_changes p) <-> In (S t) (tl (dp_changes p))).
      { destruct Vp as (_ & V2 & _). destruct (dp_changes p) as [|c0 cs]; [discriminate|]. cbn in V2. injection V2 as ->. cbn. split; [intros [H|H]; [discriminate|exact H]|auto]. }
      split.
      + destruct (Z.eqb_spec (last r 0) 1) as [L|L]; [discriminate|]. intros H. apply Some_inj in H. subst z. exists c. split; [reflexivity|]. split; [|exact Hz].
        rewrite Hin. intros H. apply L. exact (F1 H).
      + intros (c' & H1 & H2 & H3). apply Some_inj in H1. subst c'. rewrite Hin in H2. rewrite (F2 H2). cbn. rewrite Hz in H3. apply Ok_inj in H3. now subst z.
    - split; [discriminate|]. intros (c & H & _). assert (S t < length (dp_chords p))%nat by (apply nth_error_Some; congruence). lia. }
  intros t y Hy. rewrite nth_error_map_seq in Hy. destruct (t <? m)%nat; [|discriminate]. apply Some_inj in Hy. subst y. unfold csm_shown.
  destruct (csm_target d t) as [y|] eqn:Et.
  - apply K in Et. split; [auto|]. intros y' H. apply K in Et, H. congruence.
  - split; [congruence|]. intros y' H. apply K in H. congruence.
Qed.
Print Assumptions C87_csm.
(* two pieces, of four chords with a modulation and of two chords: the questions of the batch *)
Example C87_csm_ex : exists ds b, csd [piece43a; piece43b] = Ok ds /\ good_pieces MIDI [piece43a; piece43b]
  /\ mapM (hd_getitem ds) [0; 1]%nat = Ok b
  /\ match csm_batch b with Ok data => map snd data | Raise _ => [] end = [[15; -100; 21; -100]; [21; -100; -100; -100]].
Proof.
  destruct (csd [piece43a; piece43b]) as [ds|] eqn:E; [|vm_compute in E; discriminate].
  destruct (mapM (hd_getitem ds) [0; 1]%nat) as [b|] eqn:Eb; [|vm_compute in E; apply Ok_inj in E; subst ds; vm_compute in Eb; discriminate].
  exists ds, b. split; [reflexivity|]. split.
  - assert (G : forall ks cs chords, valid_piece (mkDP chords ks cs MIDI) -> Forall (fun c => c_pt (fc c) = MIDI) chords ->
        valid_piece (mkDP chords ks cs MIDI) /\ Forall (fun c => c_pt (fc c) = MIDI) (dp_chords (mkDP chords ks cs MIDI))) by auto.
    constructor; [|constructor; [|constructor]]; apply G; try (repeat constructor; fail).
    all: split; [reflexivity|split; [reflexivity|split]].
    1, 3: intros [|[|[|k]]] x y Hx Hy; cbn in Hx, Hy; try discriminate; apply Some_inj in Hx, Hy; subst; lia.
    all: intros [|[|[|k]]] x Hx; cbn in Hx; try discriminate; apply Some_inj in Hx; subst; cbn; lia.
  - split; [exact Eb|]. vm_compute in E. apply Ok_inj in E. subst ds. vm_compute in Eb. apply Ok_inj in Eb. subst b. vm_compute. reflexivity.
Qed.

(* The chord transition model is asked at each note with a known label, and nowhere else. *)
Theorem C87_ctm : forall width b, b <> [] -> Forall (ctm_item width) b ->
  exists data, ctm_batch b = Ok data /\
    Forall2 (fun d x => fst x = (firstn (longest ni_length b) (ni_inputs d), ni_length d)
      /\ (ni_length d <= length (snd x))%nat
      /\ forall t y m, nth_error (snd x) t = Some (y, m) ->
           (m = true <-> (t < ni_length d)%nat /\ ctm_target d t = Some y)) b data.
Proof.
  intros width b N F. eexists. split; [exact (ctm_batch_ok _ _ N F)|].
  assert (HL : forall d, In d b -> (ni_length d <= longest ni_length b)%nat) by (intros d; apply in_longest).
  assert (LW : (longest ni_length b <= width)%nat) by (apply longest_le; eapply Forall_impl; [|exact F]; intros d (_ & H & _); lia).
  revert HL LW. generalize (longest ni_length b) as m. intros m HL LW. clear N.
  induction F as [|d b (C1 & C2 & C3 & C4 & C5 & C6 & C7) F IH]; [constructor|]. cbn [map]. constructor; [|apply IH; intros x Hx; apply HL; now right].
  specialize (HL d (or_introl eq_refl)). clear IH F. cbn [fst snd]. split; [reflexivity|]. unfold mask_of.
  split. { rewrite map_length, combine_length, !firstn_length. lia. }
  intros t y mk H. rewrite nth_error_map, nth_error_combine, !nth_error_firstn' in H. destruct (Nat.ltb_spec t m) as [T|T]; [|discriminate].
  destruct (nth_error (ni_inputs d) t) as [r|] eqn:Er; [|discriminate]. destruct (nth_error (ni_targets d) t) as [z|] eqn:Ez; [|discriminate].
  cbn [option_map fst snd] in H. apply Some_inj in H. apply pair_equal_spec in H as [-> H]. subst mk.
  unfold ctm_target. rewrite Ez. rewrite andb_true_iff, !negb_true_iff.
  assert (P : Qle_bool (qtotal r) 0 = false <-> (t < ni_length d)%nat).
  { rewrite <- not_true_iff_false, Qle_bool_iff, qtotal_sum. split.
    - intros H. destruct (Nat.lt_ge_cases t (ni_length d)) as [Q|Q]; [exact Q|]. exfalso. apply H.
      rewrite Forall_forall in C6. rewrite (C6 r); [apply Qle_refl|]. rewrite <- (firstn_skipn (ni_length d) (ni_inputs d)) in Er.
      rewrite nth_error_app2 in Er by (rewrite firstn_length; lia). eapply nth_error_In; exact Er.
    - intros Q H. rewrite Forall_forall in C5. apply (Qlt_not_le _ _ (C5 r ltac:(apply (nth_error_In _ t); rewrite nth_error_firstn'; replace (t <? ni_length d)%nat with true by (symmetry; now apply Nat.ltb_lt); exact Er))). exact H. }
  rewrite P. destruct (Z.eqb_spec y IGNORED) as [Q|Q].
  - split; [intros [_ X]; discriminate|intros [_ X]; discriminate].
  - split; [intros [A _]; auto|intros [A _]; auto].
Qed.
Print Assumptions C87_ctm.
Definition notes87 : list note_item :=
  [mkNI [[1%Q]; [1%Q]; [1%Q]] 3 [-100; 0; 1] 3; mkNI [[1%Q]; [1%Q]; [0%Q]] 2 [0; 1; 0] 2].
Lemma notes87_ok : Forall (ctm_item 3) notes87.
Proof.
  constructor; [|constructor; [|constructor]].
  all: split; [reflexivity|]; split; [cbn; lia|]; split; [reflexivity|]; split; [reflexivity|].
  all: split; [repeat constructor; reflexivity|]; split; [repeat constructor; reflexivity|].
  all: apply Forall_forall; intros y Hy; unfold IGNORED; cbn in Hy; lia.
Qed.
Example C87_ctm_ex : match ctm_batch notes87 with Ok data => map (fun x => map fst (filter snd (snd x))) data | Raise _ => [] end = [[0; 1]; [0; 1]].
Proof. vm_compute. reflexivity. Qed.

(* The key transition model: no question of an item is lost and none is added. *)
Theorem C87_ktm : forall width b, b <> [] -> Forall (fun x => ktm_item width (fst x) (snd x)) b ->
  exists data, ktm_batch (map fst b) = Ok data /\
    Forall2 (fun x y => snd (fst y) = ki_length (fst x)
      /\ firstn (ki_length (fst x)) (fst (fst y)) = firstn (ki_length (fst x)) (ki_inputs (fst x))
      /\ forall t v, v <> IGNORED -> (nth_error (snd y) t = Some v <-> ktm_target (snd x) t = Some v)) b data.
Proof.
  intros width b N F. unfold ktm_batch.
  rewrite (stack_same _ width) by (rewrite map_map; apply Forall_map; eapply Forall_impl; [|exact F]; cbn; intros x (_ & _ & H & _); exact H).
  cbn [bind].
  assert (E : mapM ktm_targets (map fst b) = Ok (map snd b)).
  { clear N. induction F as [|x b (H & _) F IH]; [reflexivity|]. cbn [map mapM]. unfold ktm_targets at 1. rewrite H. cbn [bind]. rewrite IH. reflexivity. }
  rewrite E. cbn [bind].
  rewrite (stack_same _ width) by (apply Forall_map; eapply Forall_impl; [|exact F]; cbn; intros x (_ & _ & _ & H & _); exact H).
  cbn [bind]. rewrite np_max_ok by (destruct b; [congruence|discriminate]). cbn [bind]. rewrite combine_fst_snd.
  eexists. split; [reflexivity|].
  assert (HL : forall x, In x b -> (ki_length (fst x) <= fold_right Nat.max 0 (map ki_length (map fst b)))%nat).
  { intros x Hx. apply in_max. apply in_map, in_map, Hx. }
  revert HL. generalize (fold_right Nat.max 0%nat (map ki_length (map fst b))) as m. intros m HL. clear N E.
  induction F as [|x b (C1 & C2 & C3 & C4 & C5 & C6) F IH]; [constructor|]. cbn [map]. constructor; [|apply IH; intros y Hy; apply HL; now right].
  specialize (HL x (or_introl eq_refl)). cbn [fst snd]. split; [reflexivity|]. split; [rewrite firstn_firstn; f_equal; lia|].
  intros t v Hv. rewrite nth_error_firstn'. unfold ktm_target. destruct (Nat.ltb_spec t m) as [T|T].
  - destruct (nth_error (snd x) t) as [y|]; [|tauto]. destruct (Z.eqb_spec y IGNORED) as [Q|Q]; [|tauto]. split; [intros H; apply Some_inj in H; congruence|discriminate].
  - split; [discriminate|]. destruct (nth_error (snd x) t) as [y|] eqn:Ey; [|discriminate].
    rewrite <- (firstn_skipn (ki_length (fst x)) (snd x)) in Ey. rewrite nth_error_app2 in Ey by (rewrite firstn_length; lia).
    rewrite Forall_forall in C6. rewrite (C6 y) by (eapply nth_error_In; exact Ey). discriminate.
Qed.
Print Assumptions C87_ktm.
Definition items87 : list (key_item * list Z) :=
  [(mkKI [[1]; [2]; [3]] 3 (TransitionTargets [-100; 0; 1]), [-100; 0; 1]);
   (mkKI [[1]; [2]; [0]] 2 (TransitionTargets [-100; 0; -100]), [-100; 0; -100])].
Lemma items87_ok : Forall (fun x => ktm_item 3 (fst x) (snd x)) items87.
Proof.
  constructor; [|constructor; [|constructor]].
  all: split; [reflexivity|]; split; [cbn; lia|]; split; [reflexivity|]; split; [reflexivity|].
  all: split; [apply Forall_forall; intros y Hy; unfold IGNORED; cbn in Hy; lia|].
  all: apply Forall_forall; intros y Hy; unfold IGNORED; cbn in Hy; lia.
Qed.
Example C87_ktm_ex : match ktm_batch (map fst items87) with Ok data => map snd data | Raise _ => [] end = [[-100; 0; 1]; [-100; 0; -100]].
Proof. vm_compute. reflexivity. Qed.

(* The items of a key dataset in memory cannot form one batch if the pieces have different lengths:
   those of the longest piece have one row less than the others. *)
Theorem C87_key_refuted : forall pieces ds pi qi i j ii jj n rows rows' a b its, ktd pieces = Ok ds ->
  np_max (kd_lengths ds) = Ok n ->
  item_at (kd_pieces ds) i pi ii -> nth_error (kd_inputs ds) pi = Some rows -> length rows = n ->
  item_at (kd_pieces ds) j qi jj -> nth_error (kd_inputs ds) qi = Some rows' -> (length rows' < n)%nat ->
  read_key true ds i = Ok a -> read_key true ds j = Ok b -> In a its -> In b its ->
  ktm_batch its = Raise RuntimeError.
Proof.
  intros pieces ds pi qi i j ii jj n rows rows' a b its Hds Hn Hi Hr Lr Hj Hr' Lr' Ha Hb Ia Ib.
  assert (W : forall k pk jk it rs, item_at (kd_pieces ds) k pk jk -> nth_error (kd_inputs ds) pk = Some rs ->
     read_key true ds k = Ok it -> length (ki_inputs it) = if (length rs <? n)%nat then S n else length rs).
  { clear - Hn. intros k pk jk it rs Hk Hrs H. unfold read_key, key_getitem in H. rewrite (Proof_KeyItems.piece_index_spec _ _ _ _ 0%nat Hk) in H.
    cbn [bind Nat.add] in H. unfold hget at 1 in H. rewrite Hrs in H. cbn [bind] in H.
    destruct (hget (kd_lengths ds) k) as [len|]; [|discriminate]. cbn [bind] in H.
    destruct (if (0 <? jk)%nat then _ else _) as [start|]; [|discriminate]. cbn [bind] in H. rewrite Hn in H. cbn [bind] in H.
    destruct (hget (kd_repl ds) k) as [repl|]; [|discriminate]. cbn [bind] in H.
    destruct (hget (kd_targets ds) k) as [target|]; [|discriminate]. cbn [bind] in H.
    destruct (if (length rs <? n)%nat then _ else Ok rs) as [x|] eqn:Ex in H; [|discriminate]. cbn [bind] in H.
    destruct (if target =? 1 then set_row _ _ _ else _) as [ts|]; [|discriminate]. cbn [bind] in H.
    destruct (if (target =? 1) || negb true then set_row x len repl else Ok x) as [y|] eqn:Ey; [|discriminate]. cbn [bind] in H.
    unfold key_reduce, reduce_chord_types in H. cbn [bind] in H. apply Ok_inj in H. subst it. cbn [ki_inputs].
    assert (Ly : length y = length x).
    { destruct (_ || _) in Ey; [|apply Ok_inj in Ey; now subst]. unfold set_row in Ey. destruct (_ <? _)%nat in Ey; [|discriminate]. apply Ok_inj in Ey. subst y. apply upd_nat_length. }
    rewrite Ly. destruct (Nat.ltb_spec (length rs) n) as [Q|Q].
    - apply bind_ok in Ex as (r & _ & Ex). apply Ok_inj in Ex. subst x. rewrite app_length, repeat_length. lia.
    - apply Ok_inj in Ex. now subst x. }
  assert (Wa := W i pi ii a rows Hi Hr Ha). assert (Wb := W j qi jj b rows' Hj Hr' Hb).
  replace (length rows <? n)%nat with false in Wa by (symmetry; apply Nat.ltb_ge; lia).
  replace (length rows' <? n)%nat with true in Wb by (symmetry; now apply Nat.ltb_lt).
  unfold ktm_batch, stack. assert (E : same_lengths (map ki_inputs its) = false); [|now rewrite E].
  apply not_true_iff_false. intros H. destruct its as [|x its]; [destruct Ia|]. cbn [map same_lengths] in H. rewrite forallb_forall in H.
  assert (K : forall y, In y (x :: its) -> length (ki_inputs y) = length (ki_inputs x)).
  { intros y [->|Hy]; [reflexivity|]. apply Nat.eqb_eq. apply H. now apply in_map. }
  rewrite (K a Ia) in Wa. rewrite (K b Ib) in Wb. lia.
Qed.
Print Assumptions C87_key_refuted.
Example C87_key_ex : exists ds its, ktd [piece43a; piece43b] = Ok ds /\ mapM (read_key true ds) [0; 1; 2]%nat = Ok its
  /\ np_max (kd_lengths ds) = Ok 4%nat /\ map (@length row) (kd_inputs ds) = [4; 2]%nat /\ kd_pieces ds = [2; 1]%nat
  /\ ktm_batch its = Raise RuntimeError.
Proof.
  destruct (ktd [piece43a; piece43b]) as [ds|] eqn:E; [|vm_compute in E; discriminate]. vm_compute in E. apply Ok_inj in E. subst ds.
  eexists _, _. split; [reflexivity|]. split; [vm_compute; reflexivity|]. repeat split; vm_compute; reflexivity.
Qed.

(* The pitch-based model: no chord that contains the first pitch (for MIDI pitches the tonic of the
   key) is ever measured. *)
Theorem C87_pitch_refuted : forall net filler b pairs, pitch_pairs net filler b = Ok pairs ->
  Forall (fun x => nth_error (snd x) 0 = Some 0) pairs.
Proof.
  intros net filler b pairs H. unfold pitch_pairs in H. apply bind_ok in H as (data & _ & H). apply bind_ok in H as (outs & _ & H).
  apply bind_ok in H as (ps & _ & H). apply bind_ok in H as (flags & Ef & H). apply Ok_inj in H. subst pairs. apply mapM_forall2 in Ef.
  induction Ef as [|x f ps flags Hf F IH]; [constructor|]. cbn [combine filter]. destruct f; cbn [fst]; [|exact IH]. cbn [map snd]. constructor; [|exact IH].
  apply bind_ok in Hf as (v & Ev & Hf). apply Ok_inj in Hf. destruct (Z.eqb_spec v 0) as [->|]; [|discriminate].
  unfold py_nth in Ev. cbv zeta in Ev. change (0 <? 0) with false in Ev. cbn iota in Ev.
  destruct (_ || _) in Ev; [discriminate|]. change (Z.to_nat 0) with 0%nat in Ev. destruct (nth_error (snd x) 0) as [y|]; [|discriminate]. apply Ok_inj in Ev. now subst y.
Qed.
Print Assumptions C87_pitch_refuted.
(* I-V-I in major: two chords could be asked for, only the V is measured *)
Definition piece87 : dpiece := mkDP [chord43 0 0 MAJOR; chord43 7 0 MAJOR; chord43 0 0 MAJOR] [(0, MAJOR)] [0]%nat MIDI.
Definition pitch87 : res (list pitch_item) :=
  let! ds := csd [piece87] in
  let! d := hd_getitem ds 0 in
  let! ts := pitch_targets MIDI NO_REDUCTION true (id_targets d) (id_inputs d) (id_length d) in
  Ok [mkPI (id_inputs d) (id_length d) ts].
Example C87_pitch_ex : exists b pairs, pitch87 = Ok b
  /\ pitch_pairs (map (fun _ => repeat (1 # 2)%Q 12)) [] b = Ok pairs
  /\ map (fun d => map (fun r => zsum (map (fun x => if x =? 1 then 1 else 0) r)) (pi_targets d)) b = [[0; 3; 3]]
  /\ map snd pairs = [[0; 0; 1; 0; 0; 0; 0; 1; 0; 0; 0; 1]].
Proof.
  destruct pitch87 as [b|] eqn:E; [|vm_compute in E; discriminate]. vm_compute in E. apply Ok_inj in E. subst b.
  eexists _, _. split; [reflexivity|]. split; [vm_compute; reflexivity|]. split; vm_compute; reflexivity.
Qed.

(* ---- C88: the accuracy and loss that an evaluation reports ---- *)
(* They are those over all questions of the whole dataset, whatever the size of the batches, as long
   as each batch has a question. *)
Lemma asked_answers {O} (outs : list O) q n : length outs = n -> asked q n -> answers outs q n <> [].
Proof.
  intros H (t & y & T & E) N. unfold answers in N. assert (I : In t (seq 0 n)) by (apply in_seq; lia).
  destruct (nth_error outs t) as [o|] eqn:Eo. 2:{ apply nth_error_None in Eo. lia. }
  assert (X : In (o, y) []); [|destruct X]. rewrite <- N. apply in_flat_map. exists t. split; [exact I|]. rewrite Eo, E. now left.
Qed.
Lemma exam_asked {D A} (ans : D -> list A) g : (exists d, In d g /\ ans d <> []) -> flat_map ans g <> [].
Proof.
  intros (d & I & N) E. destruct (ans d) as [|x l] eqn:Ea; [congruence|]. assert (X : In x []); [|destruct X].
  rewrite <- E. apply in_flat_map. exists d. split; [exact I|]. rewrite Ea. now left.
Qed.
Lemma concat_exam {D A B} (j : A -> B) (ans : D -> list A) gs :
  concat (map (fun g => map j (flat_map ans g)) gs) = map j (flat_map ans (concat gs)).
Proof. induction gs as [|g gs IH]; [reflexivity|]. cbn. rewrite IH, flat_map_app, map_app. reflexivity. Qed.

Theorem C88_csm : forall net filler classes width size data gs,
  (1 <= size)%nat -> data <> [] -> Forall (csm_item classes width) data ->
  (forall x, length (net x) = length x) -> (forall x o, In o (net x) -> zlen o = classes) ->
  grouped size data gs -> Forall (fun g => exists d, In d g /\ asked (csm_target d) (id_length d)) gs ->
  says (evaluate_batches (csm_tally net filler) size data) (map csm_judged (flat_map (csm_answers net) data)).
Proof.
  intros net filler classes width size data gs Hs Hd Hi Hn Ho G A.
  assert (Hin : forall g, In g gs -> Forall (csm_item classes width) g).
  { intros g Hg. apply Forall_forall. intros d I. rewrite Forall_forall in Hi. apply Hi. rewrite <- (grouped_concat _ _ _ _ G). apply in_concat. eauto. }
  rewrite <- (grouped_concat _ _ _ _ G) at 2. rewrite <- concat_exam.
  apply evaluate_says; [exact Hs|exact Hd|exact G| |].
  - intros g Hg. assert (N := grouped_nonempty _ _ _ _ Hs G). rewrite Forall_forall in N.
    exact (csm_tally_ok net filler classes width g (N g Hg) (Hin g Hg) Hn Ho).
  - apply Forall_forall. intros g Hg. rewrite Forall_forall in A. destruct (A g Hg) as (d & I & Q).
    intros E. apply map_eq_nil in E. revert E. apply exam_asked. exists d. split; [exact I|]. apply asked_answers; [|exact Q].
    rewrite Hn, firstn_length. specialize (Hin g Hg). rewrite Forall_forall in Hin. destruct (Hin d I) as (_ & L & W & _). lia.
Qed.
Print Assumptions C88_csm.
Theorem C88_ctm : forall bce net filler width size data gs,
  (1 <= size)%nat -> data <> [] -> Forall (ctm_item width) data ->
  (forall x, length (net x) = length x) -> (forall x o, In o (net x) -> 0 <= o <= 1)%Q ->
  grouped size data gs -> Forall (fun g => exists d, In d g /\ asked (ctm_target d) (ni_length d)) gs ->
  says (evaluate_batches (ctm_tally bce net filler) size data) (map (yes_no bce) (flat_map (ctm_answers net) data)).
Proof.
  intros bce net filler width size data gs Hs Hd Hi Hn Ho G A.
  assert (Hin : forall g, In g gs -> Forall (ctm_item width) g).
  { intros g Hg. apply Forall_forall. intros d I. rewrite Forall_forall in Hi. apply Hi. rewrite <- (grouped_concat _ _ _ _ G). apply in_concat. eauto. }
  rewrite <- (grouped_concat _ _ _ _ G) at 2. rewrite <- concat_exam.
  apply evaluate_says; [exact Hs|exact Hd|exact G| |].
  - intros g Hg. assert (N := grouped_nonempty _ _ _ _ Hs G). rewrite Forall_forall in N.
    exact (ctm_tally_ok bce net filler width g (N g Hg) (Hin g Hg) Hn Ho).
  - apply Forall_forall. intros g Hg. rewrite Forall_forall in A. destruct (A g Hg) as (d & I & Q).
    intros E. apply map_eq_nil in E. revert E. apply exam_asked. exists d. split; [exact I|]. apply asked_answers; [|exact Q].
    rewrite Hn, firstn_length. specialize (Hin g Hg). rewrite Forall_forall in Hin. destruct (Hin d I) as (_ & L & W & _). lia.
Qed.
Print Assumptions C88_ctm.
Lemma grouped_map : forall A B (f : A -> B) size l gs, grouped size l gs -> grouped size (map f l) (map (map f) gs).
Proof.
  intros A B f size l gs G. induction G as [|l N L|g l gs E N G IH]; cbn [map].
  - constructor.
  - apply g_last; [destruct l; [congruence|discriminate]|now rewrite map_length].
  - rewrite map_app. apply g_more; [now rewrite map_length|destruct l; [congruence|discriminate]|exact IH].
Qed.
Theorem C88_ktm : forall bce net filler width size data gs,
  (1 <= size)%nat -> data <> [] -> Forall (fun x => ktm_item width (fst x) (snd x)) data ->
  (forall x, length (net x) = length x) -> (forall x o, In o (net x) -> 0 <= o <= 1)%Q ->
  grouped size data gs -> Forall (fun g => exists x, In x g /\ asked (ktm_target (snd x)) (ki_length (fst x))) gs ->
  says (evaluate_batches (ktm_tally bce net filler) size (map fst data)) (map (yes_no bce) (flat_map (ktm_answers net) data)).
Proof.
  intros bce net filler width size data gs Hs Hd Hi Hn Ho G A.
  assert (Hin : forall g, In g gs -> Forall (fun x => ktm_item width (fst x) (snd x)) g).
  { intros g Hg. apply Forall_forall. intros d I. rewrite Forall_forall in Hi. apply Hi. rewrite <- (grouped_concat _ _ _ _ G). apply in_concat. eauto. }
  assert (N := grouped_nonempty _ _ _ _ Hs G). rewrite Forall_forall in N.
  assert (T : forall g, In g gs -> ktm_tally bce net filler (map fst g) = Ok (measure (zlen (ktm_exam bce net g)) (ktm_exam bce net g))).
  { intros g Hg. exact (ktm_tally_ok bce net filler width g (N g Hg) (Hin g Hg) Hn Ho). }
  assert (S : says (evaluate_batches (fun b => ktm_tally bce net filler (map fst b)) size data) (concat (map (ktm_exam bce net) gs))).
  { apply evaluate_says; [exact Hs|exact Hd|exact G|exact T|].
    apply Forall_forall. intros g Hg. rewrite Forall_forall in A. destruct (A g Hg) as (d & I & Q).
    intros E. apply map_eq_nil in E. revert E. apply exam_asked. exists d. split; [exact I|]. apply asked_answers; [|exact Q].
    rewrite Hn, firstn_length. specialize (Hin g Hg). rewrite Forall_forall in Hin. destruct (Hin d I) as (_ & L & W & _). lia. }
  unfold ktm_exam in S. rewrite concat_exam, (grouped_concat _ _ _ _ G) in S.
  assert (E : evaluate_batches (ktm_tally bce net filler) size (map fst data) = evaluate_batches (fun b => ktm_tally bce net filler (map fst b)) size data); [|now rewrite E].
  unfold evaluate_batches. destruct (loader_grouped _ size data Hs) as (g1 & -> & G1). destruct (loader_grouped _ size (map fst data) Hs) as (g2 & -> & G2). cbn [bind].
  assert (E : g2 = map (map fst) g1) by (apply (grouped_fun _ size (map fst data)); [exact Hs|exact G2|]; now apply grouped_map). subst g2.
  assert (E : mapM (ktm_tally bce net filler) (map (map fst) g1) = mapM (fun b => ktm_tally bce net filler (map fst b)) g1); [|now rewrite E].
  clear. induction g1 as [|g gs IH]; [reflexivity|]. cbn [map mapM]. now rewrite IH.
Qed.
Print Assumptions C88_ktm.

(* The chord classifier: one question per item; the evaluation fails if one item is left over for
   the last batch. *)
Lemma groups_of_one : forall A size (l : list A) gs, (2 <= size)%nat -> grouped size l gs ->
  (Exists (fun g => length g = 1%nat) gs <-> (length l mod size = 1)%nat).
Proof.
  intros A size l gs P G. induction G as [|l N L|g l gs E N G IH].
  - cbn [length]. rewrite Nat.mod_0_l by lia. split; [intros H; inversion H|discriminate].
  - destruct (Nat.eq_dec (length l) size) as [Q|Q].
    + rewrite Q, Nat.mod_same by lia. split; [intros H; inversion H as [? ? H1|? ? H1]; subst; [lia|inversion H1]|discriminate].
    + rewrite Nat.mod_small by lia. split; [intros H; inversion H as [? ? H1|? ? H1]; subst; [exact H1|inversion H1]|intros H; now left].
  - rewrite app_length, E, <- Nat.add_mod_idemp_l, Nat.mod_same by lia. cbn [Nat.add]. rewrite <- IH.
    split; [intros H; inversion H as [? ? H1|? ? H1]; subst; [lia|exact H1]|intros H; now right].
Qed.
Lemma exists_last_group : forall A size (l : list A) gs, (2 <= size)%nat -> grouped size l gs -> (length l mod size = 1)%nat ->
  exists gs' g, gs = gs' ++ [g] /\ length g = 1%nat /\ Forall (fun h => length h <> 1%nat) gs'.
Proof.
  intros A size l gs P G. induction G as [|l N L|g l gs E N G IH]; intros H.
  - cbn [length] in H. rewrite Nat.mod_0_l in H by lia. discriminate.
  - exists [], l. split; [reflexivity|]. split; [|constructor]. destruct (Nat.eq_dec (length l) size) as [Q|Q]; [rewrite Q, Nat.mod_same in H by lia; discriminate|].
    now rewrite Nat.mod_small in H by lia.
  - rewrite app_length, E, <- Nat.add_mod_idemp_l, Nat.mod_same in H by lia. destruct (IH H) as (gs' & g' & -> & H1 & H2).
    exists (g :: gs'), g'. split; [reflexivity|]. split; [exact H1|]. constructor; [lia|exact H2].
Qed.
Lemma mapM_raise : forall A B (f : A -> res B) l x r e, Forall (fun y => is_ok (f y) = true) l -> f x = Raise e ->
  mapM f (l ++ x :: r) = Raise e.
Proof.
  intros A B f l x r e F H. induction F as [|y l Hy F IH]; cbn [app mapM]; [now rewrite H|].
  destruct (f y); [|discriminate]. cbn [bind]. now rewrite IH.
Qed.
Theorem C88_ccm : forall R ce (last : list R -> list Q) classes width size (data : list (one_item R)),
  (2 <= size)%nat -> data <> [] -> Forall (one_ok classes width) data -> (forall x, zlen (last x) = classes) ->
  (length data mod size <> 1)%nat ->
  says (evaluate_batches (ccm_tally ce last) size data)
       (map (fun d => one_judged ce (one_answer last d)) data).
Proof.
  intros R ce last classes width size data Hs Hd Hi Ho M. destruct (loader_grouped _ size data ltac:(lia)) as (gs & _ & G).
  assert (Hin : forall g, In g gs -> Forall (one_ok classes width) g).
  { intros g Hg. apply Forall_forall. intros d I. rewrite Forall_forall in Hi. apply Hi. rewrite <- (grouped_concat _ _ _ _ G). apply in_concat. eauto. }
  assert (E : map (fun d => one_judged ce (one_answer last d)) data = concat (map (one_exam ce last) gs)).
  { rewrite <- (grouped_concat _ _ _ _ G) at 1. rewrite concat_map. reflexivity. }
  rewrite E. apply evaluate_says; [lia|exact Hd|exact G| |].
  - intros g Hg. rewrite (ccm_tally_ok _ _ _ _ _ _ (Hin g Hg) Ho). destruct (Nat.eqb_spec (length g) 1) as [Q|Q]; [|reflexivity].
    exfalso. apply M. apply (groups_of_one _ _ _ _ Hs G). apply Exists_exists. eauto.
  - apply Forall_forall. intros g Hg X. apply map_eq_nil in X. assert (N := grouped_nonempty _ size _ _ ltac:(lia) G). rewrite Forall_forall in N. exact (N g Hg X).
Qed.
Print Assumptions C88_ccm.
Theorem C88_ccm_refuted : forall R ce (last : list R -> list Q) classes width size (data : list (one_item R)),
  (2 <= size)%nat -> Forall (one_ok classes width) data -> (forall x, zlen (last x) = classes) ->
  (length data mod size = 1)%nat ->
  exists e, evaluate_batches (ccm_tally ce last) size data = Raise e.
Proof.
  intros R ce last classes width size data Hs Hi Ho M. exists IndexError. unfold evaluate_batches.
  destruct (loader_grouped _ size data ltac:(lia)) as (gs & -> & G). cbn [bind].
  assert (Hin : forall g, In g gs -> Forall (one_ok classes width) g).
  { intros g Hg. apply Forall_forall. intros d I. rewrite Forall_forall in Hi. apply Hi. rewrite <- (grouped_concat _ _ _ _ G). apply in_concat. eauto. }
  destruct (exists_last_group _ _ _ _ Hs G M) as (gs' & g & -> & L & F).
  rewrite (mapM_raise _ _ _ _ _ _ IndexError); [reflexivity| |].
  - apply Forall_forall. intros h Hh. rewrite (ccm_tally_ok _ _ _ _ _ _ (Hin h ltac:(apply in_or_app; now left)) Ho).
    rewrite Forall_forall in F. specialize (F h Hh). apply Nat.eqb_neq in F. rewrite F. reflexivity.
  - rewrite (ccm_tally_ok _ _ _ _ _ _ (Hin g ltac:(apply in_or_app; right; now left)) Ho), L. reflexivity.
Qed.
Print Assumptions C88_ccm_refuted.

(* The key sequence model: each batch counts the same, whatever its size.  The numbers are the means
   of those of the batches; they are right for one batch. *)
Lemma sum_tallies : forall ls st a m t, Forall (fun l => l <> []) ls -> st = (t, Some a, Some m) ->
  exists a' m', fold_left add_tally (map (measure KSM_FIELDS) ls) st = (t + 3 * zlen ls, Some a', Some m')
    /\ (a' == a + 3 * fold_right Qplus 0 (map share_right ls))%Q /\ (m' == m + 3 * fold_right Qplus 0 (map mean_loss ls))%Q.
Proof.
  induction ls as [|l ls IH]; intros st a m t F ->.
  - exists a, m. cbn. split; [f_equal; f_equal; lia|]. split; ring.
  - inversion F as [|? ? N F']; subst. cbn [map fold_left].
    assert (P : zlen l <> 0) by (destruct l; [congruence|unfold zlen; cbn; lia]). apply Z.eqb_neq in P.
    assert (St : add_tally (t, Some a, Some m) (measure KSM_FIELDS l) =
       (t + KSM_FIELDS, Some (a + inject_Z (100 * zlen (filter fst l)) / inject_Z (zlen l) * inject_Z KSM_FIELDS)%Q,
       Some (m + qtotal (map snd l) / inject_Z (zlen l) * inject_Z KSM_FIELDS)%Q)) by (unfold add_tally, measure, mean_of; rewrite P; reflexivity).
    rewrite St.
    edestruct (IH (t + KSM_FIELDS, Some (a + inject_Z (100 * zlen (filter fst l)) / inject_Z (zlen l) * inject_Z KSM_FIELDS)%Q,
       Some (m + qtotal (map snd l) / inject_Z (zlen l) * inject_Z KSM_FIELDS)%Q)) as (a' & m' & E & Ea & Em); [exact F'|reflexivity|].
    exists a', m'. split; [rewrite E; do 2 f_equal; unfold zlen, KSM_FIELDS; cbn [length]; lia|].
    cbn [fold_right]. change (inject_Z KSM_FIELDS) with 3%Q in *. split.
    + rewrite Ea. unfold share_right. ring.
    + rewrite Em. unfold mean_loss. rewrite qtotal_sum. ring.
Qed.
Theorem C88_ksm_partial : forall (last : list row -> list Q) classes width size data gs,
  (1 <= size)%nat -> data <> [] -> Forall (one_ok classes width) data -> (forall x, zlen (last x) = classes) ->
  grouped size data gs ->
  let exams := map (fun g => map (fun d => one_judged nll_of (one_answer last d)) g) gs in
  exists a m, evaluate_batches (ksm_tally last) size data = Ok (Some a, Some m)
    /\ (a == fold_right Qplus 0 (map share_right exams) / inject_Z (zlen gs))%Q
    /\ (m == fold_right Qplus 0 (map mean_loss exams) / inject_Z (zlen gs))%Q
    /\ ((length data <= size)%nat ->
        says (evaluate_batches (ksm_tally last) size data) (map (fun d => one_judged nll_of (one_answer last d)) data)).
Proof.
  intros last classes width size data gs Hs Hd Hi Ho G exams.
  assert (Hin : forall g, In g gs -> Forall (one_ok classes width) g).
  { intros g Hg. apply Forall_forall. intros d I. rewrite Forall_forall in Hi. apply Hi. rewrite <- (grouped_concat _ _ _ _ G). apply in_concat. eauto. }
  assert (N := grouped_nonempty _ _ _ _ Hs G). assert (N' := N). rewrite Forall_forall in N'.
  assert (E : evaluate_batches (ksm_tally last) size data =
     match fold_left add_tally (map (measure KSM_FIELDS) exams) (0, Some 0%Q, Some 0%Q) with (t, a, m) => Ok (odiv a t, odiv m t) end).
  { unfold evaluate_batches. destruct (loader_grouped _ size data Hs) as (gs' & -> & G'). cbn [bind].
    assert (X := grouped_fun _ _ _ _ Hs G' _ G). subst gs'.
    rewrite (mapM_of _ _ _ (fun g => measure KSM_FIELDS (one_exam nll_of last g))) by (intros g Hg; exact (ksm_tally_ok last classes width g (N' g Hg) (Hin g Hg) Ho)).
    cbn [bind]. unfold exams. rewrite map_map. destruct gs as [|g gs]; [exfalso; apply Hd; exact (grouped_nil _ _ _ _ G eq_refl)|]. reflexivity. }
  assert (P : 0 < zlen gs) by (destruct gs; [exfalso; apply Hd; exact (grouped_nil _ _ _ _ G eq_refl)|unfold zlen; cbn; lia]).
  destruct (sum_tallies exams (0, Some 0%Q, Some 0%Q) 0%Q 0%Q 0) as (a & m & F & Ea & Em).
  { unfold exams. apply Forall_map. eapply Forall_impl; [|exact N]. intros g Hg X. apply map_eq_nil in X. contradiction. }
  { reflexivity. }
  rewrite F in E. replace (zlen exams) with (zlen gs) in E by (unfold exams, zlen; now rewrite map_length).
  unfold odiv, mean_of in E. destruct (Z.eqb_spec (0 + 3 * zlen gs) 0) as [Q|Q]; [lia|].
  assert (NZ : ~ (inject_Z (zlen gs) == 0)%Q). { intros X. apply (proj1 (inject_Z_injective (zlen gs) 0)) in X. lia. }
  assert (R : (inject_Z (0 + 3 * zlen gs) == 3 * inject_Z (zlen gs))%Q) by (rewrite Z.add_0_l, inject_Z_mult; reflexivity).
  assert (Ea' : (a / inject_Z (0 + 3 * zlen gs) == fold_right Qplus 0 (map share_right exams) / inject_Z (zlen gs))%Q) by (rewrite R, Ea; field; exact NZ).
  assert (Em' : (m / inject_Z (0 + 3 * zlen gs) == fold_right Qplus 0 (map mean_loss exams) / inject_Z (zlen gs))%Q) by (rewrite R, Em; field; exact NZ).
  eexists _, _. split; [exact E|]. split; [exact Ea'|]. split; [exact Em'|].
  intros L. eexists _, _. split; [exact E|]. rewrite Ea', Em'.
  assert (G' : gs = [data]) by (apply (grouped_fun _ size data); [exact Hs|exact G|now apply g_last]). unfold exams. rewrite G'.
  cbn [map fold_right]. change (inject_Z (zlen [data])) with 1%Q. split; field.
Qed.
Print Assumptions C88_ksm_partial.
(* 64 items that are right and a 65th that is wrong *)
Definition data88 : list (one_item row) := repeat (mkOI [[0]] 1 0) 64 ++ [mkOI [[0]] 1 1].
Definition last88 (x : list row) : list Q := [(-1)%Q; (-2)%Q].
Theorem C88_ksm_refuted : exists data last a m, Forall (one_ok 2 1) data /\ (forall x, zlen (last x : list Q) = 2)
  /\ evaluate_batches (ksm_tally last) KSM_BATCH data = Ok (Some a, Some m) /\ (a == 50)%Q
  /\ (98 < share_right (map (fun d => one_judged nll_of (one_answer last d)) data))%Q.
Proof.
  exists data88, last88. destruct (evaluate_batches (ksm_tally last88) KSM_BATCH data88) as [[[a|] [m|]]|] eqn:E; vm_compute in E; try discriminate.
  exists a, m. split. { apply Forall_app. split; [apply Forall_forall; intros d H; apply repeat_spec in H; subst d|constructor; [|constructor]]; split; [cbn; lia|split; [reflexivity|cbn; lia]|cbn; lia|split; [reflexivity|cbn; lia]]. }
  split; [reflexivity|]. apply Ok_inj in E. split; [reflexivity|]. apply pair_equal_spec in E as [E _]. apply Some_inj in E. subst a. split; vm_compute; reflexivity.
Qed.
Print Assumptions C88_ksm_refuted.
(* One batch without a question makes both numbers NaN.  Pieces of one chord have no question. *)
Theorem C88_nan_refuted : forall net filler classes width size data gs g,
  (1 <= size)%nat -> Forall (csm_item classes width) data ->
  (forall x, length (net x) = length x) -> (forall x o, In o (net x) -> zlen o = classes) ->
  grouped size data gs -> In g gs -> (forall d t, In d g -> csm_target d t = None) ->
  evaluate_batches (csm_tally net filler) size data = Ok (None, None).
Proof.
  intros net filler classes width size data gs g Hs Hi Hn Ho G Hg A.
  assert (Hin : forall g, In g gs -> Forall (csm_item classes width) g).
  { intros h Hh. apply Forall_forall. intros d I. rewrite Forall_forall in Hi. apply Hi. rewrite <- (grouped_concat _ _ _ _ G). apply in_concat. eauto. }
  assert (N := grouped_nonempty _ _ _ _ Hs G). rewrite Forall_forall in N.
  unfold evaluate_batches. destruct (loader_grouped _ size data Hs) as (gs' & -> & G'). cbn [bind].
  assert (X := grouped_fun _ _ _ _ Hs G' _ G). subst gs'.
  rewrite (mapM_of _ _ _ (fun g => measure (zlen (csm_exam net g)) (csm_exam net g)))
    by (intros h Hh; exact (csm_tally_ok net filler classes width h (N h Hh) (Hin h Hh) Hn Ho)).
  cbn [bind].
  assert (E0 : csm_exam net g = []).
  { unfold csm_exam. assert (E : flat_map (csm_answers net) g = []); [|now rewrite E]. apply flat_map_nil. intros d Hd. unfold csm_answers, answers.
    apply flat_map_nil. intros t _. rewrite (A d t Hd). now destruct (nth_error _ t). }
  assert (K : forall ls st, snd (fst st) = None /\ snd st = None -> let r := fold_left add_tally ls st in snd (fst r) = None /\ snd r = None).
  { induction ls as [|l ls IH]; intros [[t a] m] [Ha Hm]; cbn [fst snd] in *; [auto|]. subst a m. cbn [fold_left]. apply IH. cbn. auto. }
  assert (K' : forall ls st, In (measure 0 []) ls -> let r := fold_left add_tally ls st in snd (fst r) = None /\ snd r = None).
  { induction ls as [|l ls IH]; intros st H; [destruct H|]. destruct H as [->|H]; [|exact (IH _ H)]. cbn [fold_left]. apply K.
    destruct st as [[t a] m]. unfold add_tally, measure. cbn. destruct a, m; auto. }
  destruct (map _ gs) as [|t0 ts] eqn:Em; [apply map_eq_nil in Em; subst gs; destruct Hg|].
  assert (I : In (measure 0 []) (t0 :: ts)).
  { rewrite <- Em. apply in_map_iff. exists g. split; [now rewrite E0|exact Hg]. }
  destruct (K' _ (0, Some 0%Q, Some 0%Q) I) as [H1 H2]. destruct (fold_left add_tally (t0 :: ts) (0, Some 0%Q, Some 0%Q)) as [[t a] m]. cbn [fst snd] in *.
  subst a m. reflexivity.
Qed.
Print Assumptions C88_nan_refuted.
Example C88_nan_ex : evaluate_batches (csm_tally (map (fun _ => [(-1)%Q])) []) 1 [mkID [[5; 0]] 1 [0] (Some 1%nat); mkID [[5; 0]] 1 [0] (Some 1%nat)] = Ok (None, None)
  /\ csm_item 1 1 (mkID [[5; 0]] 1 [0] (Some 1%nat)).
Proof. split; [vm_compute; reflexivity|]. repeat constructor; cbn; try lia. discriminate. Qed.
(* The pitch-based model cannot be evaluated at all. *)
Theorem C88_pitch_refuted : forall net filler width size data, (2 <= width)%nat ->
  exists e, pitch_evaluate net filler width size data = Raise e.
Proof.
  intros net filler width size data W. unfold pitch_evaluate. destruct (loader size data) as [bs|e]; cbn [bind]; [|eauto].
  destruct (mapM (pitch_pairs net filler) bs) as [ls|e]; cbn [bind]; [|eauto]. destruct (map _ ls) as [|n rest]; [eauto|].
  destruct (fold_left _ rest (Ok n)) as [rows|e]; cbn [bind]; [|eauto].
  replace (rows * width =? 1)%nat with false; [eauto|]. symmetry. apply Nat.eqb_neq. intros H. apply Nat.eq_mul_1 in H. lia.
Qed.
Print Assumptions C88_pitch_refuted.

(* a small network: chord 15 always looks best, and the answers to the batch of C87_csm_ex *)
Definition net88 (x : list row) : list (list Q) := map (fun _ => repeat (-3)%Q 15 ++ [(-1)%Q] ++ repeat (-3)%Q 455) x.
Definition data88c : list item_data :=
  match csd [piece43a; piece43b] with
  | Ok ds => match mapM (hd_getitem ds) [0; 1]%nat with Ok b => b | Raise _ => [] end
  | Raise _ => [] end.
Definition close_to (r : res (option Q * option Q)) (a m : Q) : bool :=
  match r with Ok (Some x, Some y) => Qeq_bool x a && Qeq_bool y m | _ => false end.
Example C88_csm_ex : forallb (fun size => close_to (evaluate_batches (csm_tally net88 []) size data88c) (100 # 3)%Q (7 # 3)%Q) [1; 2; 64]%nat = true
  /\ map (fun d => map (csm_target d) (seq 0 4)) data88c = [[Some 15; None; Some 21; None]; [Some 21; None; None; None]].
Proof. split; vm_compute; reflexivity. Qed.
Example C88_ctm_ex : forallb (fun size => close_to (evaluate_batches (ctm_tally (fun _ _ => 1%Q) (map (fun _ => (3 # 4)%Q)) 0%Q) size notes87) 50%Q 1%Q) [1; 2; 64]%nat = true.
Proof. vm_compute. reflexivity. Qed.
Example C88_ktm_ex : forallb (fun size => close_to (evaluate_batches (ktm_tally (fun _ _ => 1%Q) (map (fun _ => (1 # 4)%Q)) 0%Q) size (map fst items87)) (200 # 3)%Q 1%Q) [1; 2; 64]%nat = true
  /\ Forall (fun x => asked (ktm_target (snd x)) (ki_length (fst x))) items87.
Proof. split; [vm_compute; reflexivity|]. constructor; [|constructor; [|constructor]]; exists 1%nat, 0; (split; [cbn; lia|reflexivity]). Qed.
Definition items88 (n : nat) : list (one_item row) := repeat (mkOI [[0]; [1]] 2 0) n ++ [mkOI [[1]; [0]] 1 1].
Example C88_ccm_ex : close_to (evaluate_batches (ccm_tally (fun _ _ => 1%Q) last88) 4 (items88 5)) (500 # 6)%Q 1%Q = true
  /\ Forall (one_ok 2 2) (items88 5) /\ (length (items88 5) mod 4 = 2)%nat
  /\ evaluate_batches (ccm_tally (fun _ _ => 1%Q) last88) 4 (items88 4) = Raise IndexError.
Proof.
  split; [vm_compute; reflexivity|]. split; [|split; vm_compute; reflexivity].
  apply Forall_forall. intros d [<-|[<-|[<-|[<-|[<-|[<-|[]]]]]]]; (split; [cbn; lia|split; [reflexivity|cbn; lia]]).
Qed.

(* ---- C89: batches at inference ---- *)
(* The chord classifier gives each range its own output, in order, unless one range is left over for
   the last batch. *)
Theorem C89_classifier : forall R (last : list R -> list Q) width items,
  Forall (fun x => (1 <= snd x <= width)%nat /\ length (fst x) = width) items ->
  (length items mod CCM_BATCH <> 1)%nat ->
  chord_classifications last items = Ok (map (fun x => last (firstn (snd x) (fst x))) items).
Proof.
  intros R last width items F M. unfold chord_classifications.
  assert (Hs : (2 <= CCM_BATCH)%nat) by (unfold CCM_BATCH; lia). generalize dependent CCM_BATCH. intros size M Hs.
  destruct (loader_grouped _ size items ltac:(lia)) as (gs & -> & G). cbn [bind].
  assert (Hin : forall g, In g gs -> Forall (fun x => (1 <= snd x <= width)%nat /\ length (fst x) = width) g).
  { intros g Hg. apply Forall_forall. intros d I. rewrite Forall_forall in F. apply F. rewrite <- (grouped_concat _ _ _ _ G). apply in_concat. eauto. }
  rewrite (mapM_of _ _ _ (map (fun x => last (firstn (snd x) (fst x))))).
  - cbn [bind]. f_equal. rewrite <- concat_map. now rewrite (grouped_concat _ _ _ _ G).
  - intros g Hg. assert (Fg := Hin g Hg).
    rewrite (stack_same _ width) by (apply Forall_map; eapply Forall_impl; [|exact Fg]; cbn; tauto). cbn [bind]. unfold ccm_forward.
    replace (forward_last last g) with (forward_last last (map (fun d => (fst d, snd d)) g)) by (f_equal; rewrite <- (map_id g) at 2; apply map_ext; intros [? ?]; reflexivity).
    rewrite forward_last_ok by (eapply Forall_impl; [|exact Fg]; cbn; intros x [H1 H2]; lia). cbn [bind].
    destruct (Nat.eqb_spec (length g) 1) as [Q|Q]; [|reflexivity]. exfalso. apply M. apply (groups_of_one _ _ _ _ Hs G). apply Exists_exists. eauto.
Qed.
Print Assumptions C89_classifier.
Theorem C89_classifier_refuted : forall R (last : list R -> list Q) width items,
  Forall (fun x => (1 <= snd x <= width)%nat /\ length (fst x) = width) items ->
  (length items mod CCM_BATCH = 1)%nat ->
  exists e, chord_classifications last items = Raise e.
Proof.
  intros R last width items F M. unfold chord_classifications.
  assert (Hs : (2 <= CCM_BATCH)%nat) by (unfold CCM_BATCH; lia). generalize dependent CCM_BATCH. intros size M Hs.
  destruct (loader_grouped _ size items ltac:(lia)) as (gs & -> & G). cbn [bind].
  assert (Hin : forall g, In g gs -> Forall (fun x => (1 <= snd x <= width)%nat /\ length (fst x) = width) g).
  { intros g Hg. apply Forall_forall. intros d I. rewrite Forall_forall in F. apply F. rewrite <- (grouped_concat _ _ _ _ G). apply in_concat. eauto. }
  assert (K : forall g, In g gs -> (let! _ := stack (map fst g) in ccm_forward last g)
      = if (length g =? 1)%nat then Raise IndexError else Ok (map (fun x => last (firstn (snd x) (fst x))) g)).
  { intros g Hg. assert (Fg := Hin g Hg).
    rewrite (stack_same _ width) by (apply Forall_map; eapply Forall_impl; [|exact Fg]; cbn; tauto). cbn [bind]. unfold ccm_forward.
    replace (forward_last last g) with (forward_last last (map (fun d => (fst d, snd d)) g)) by (f_equal; rewrite <- (map_id g) at 2; apply map_ext; intros [? ?]; reflexivity).
    rewrite forward_last_ok by (eapply Forall_impl; [|exact Fg]; cbn; intros x [H1 H2]; lia). reflexivity. }
  destruct (exists_last_group _ _ _ _ Hs G M) as (gs' & g & -> & L & Fl). exists IndexError.
  rewrite (mapM_raise _ _ _ _ _ _ IndexError); [reflexivity| |].
  - apply Forall_forall. intros h Hh. rewrite K by (apply in_or_app; now left). rewrite Forall_forall in Fl. specialize (Fl h Hh). apply Nat.eqb_neq in Fl. now rewrite Fl.
  - rewrite K by (apply in_or_app; right; now left). now rewrite L.
Qed.
Print Assumptions C89_classifier_refuted.
Example C89_classifier_ex : chord_classifications (fun x => [inject_Z (zsum x)]) [([1; 2], 2%nat); ([4; 0], 1%nat)] = Ok [[3%Q]; [4%Q]]
  /\ chord_classifications (fun x => [inject_Z (zsum x)]) [([1; 2], 2%nat)] = Raise IndexError.
Proof. split; vm_compute; reflexivity. Qed.

(* The chord change probabilities of a piece are the outputs of the network for its notes. *)
Theorem C89_changes : forall (net : list (list Q) -> list Q) filler d, ctm_item (ni_length d) d ->
  (forall x, length (net x) = length x) ->
  chord_change_probs net filler [d] = Ok (Some (net (ni_inputs d))).
Proof.
  intros net filler d H Hn. unfold chord_change_probs. destruct (loader_grouped _ CTM_BATCH [d] ltac:(unfold CTM_BATCH; lia)) as (gs & -> & G). cbn [bind].
  assert (E : gs = [[d]]) by (apply (grouped_fun _ CTM_BATCH [d]); [unfold CTM_BATCH; lia|exact G|apply g_last; [discriminate|unfold CTM_BATCH; cbn; lia]]). subst gs.
  assert (F : Forall (ctm_item (ni_length d)) [d]) by (constructor; [exact H|constructor]).
  assert (Ne : [d] <> []) by discriminate.
  rewrite (ctm_batch_ok _ _ Ne F). cbn [bind]. destruct H as (H1 & H2 & H3 & H4 & _).
  assert (Em : longest ni_length [d] = ni_length d) by (unfold longest; cbn; lia).
  assert (Ef := forward_ok _ _ net filler note_item ni_inputs ni_length [d] Ne
     ltac:(constructor; [rewrite Em; lia|constructor])).
  cbn [map fst snd] in *. rewrite Ef. cbn [bind hget nth_error]. rewrite Em, Nat.sub_diag. cbn [repeat]. rewrite app_nil_r.
  rewrite firstn_all2 with (n := ni_length d) (l := ni_inputs d) by lia. do 2 f_equal. apply firstn_all2. rewrite Hn. lia.
Qed.
Print Assumptions C89_changes.
Example C89_changes_ex : chord_change_probs (map (fun _ => (1 # 2)%Q)) 0%Q [mkNI [[1%Q]; [1%Q]; [1%Q]] 3 [-100; 0; 1] 3] = Ok (Some [(1 # 2)%Q; (1 # 2)%Q; (1 # 2)%Q])
  /\ ctm_item 3 (mkNI [[1%Q]; [1%Q]; [1%Q]] 3 [-100; 0; 1] 3).
Proof. split; [vm_compute; reflexivity|]. assert (F := notes87_ok). now inversion F. Qed.

(* Every state of the search gets the output of its own step, in order, from its own hidden state (or
   the initial one), whatever the size of the batches. *)
Theorem C89_steps : forall I H O (step : I -> H -> O * H) start reduce reduced size states, (1 <= size)%nat ->
  (forall s, In s states -> reduce (fst s) = Ok (reduced (fst s))) ->
  run_steps step start reduce size states
  = Ok (map (fun s => step (reduced (fst s)) (match snd s with Some h => h | None => start end)) states).
Proof.
  intros I H O step start reduce reduced size states Hs Hr. unfold run_steps. set (items := map _ states).
  destruct (loader_grouped _ size items Hs) as (gs & -> & G). cbn [bind].
  rewrite (mapM_of _ _ _ (map (fun x => step (reduced (fst x)) (snd x)))).
  - cbn [bind]. f_equal. rewrite <- concat_map, (grouped_concat _ _ _ _ G). unfold items. rewrite map_map. reflexivity.
  - intros g Hg. apply mapM_of. intros x Hx. assert (Hin : In x items) by (rewrite <- (grouped_concat _ _ _ _ G); apply in_concat; eauto).
    unfold items in Hin. apply in_map_iff in Hin as (s & <- & Hin). cbn [fst snd]. rewrite (Hr s Hin). reflexivity.
Qed.
Print Assumptions C89_steps.
Example C89_steps_ex : run_steps (fun i h => (i + h, h + 1)) 10 (fun i => Ok i) 2 [(1, None); (2, Some 20); (3, None)] = Ok [(11, 11); (22, 21); (13, 11)].
Proof. vm_compute. reflexivity. Qed.

(* The reductions that a model was made for are not applied to its inputs at inference: where the
   datasets refuse them (C67), the search goes on with the unreduced rows. *)
Theorem C89_reduction_refuted : forall pieces ds i it red inv,
  ktd pieces = Ok ds -> read_key true ds i = Ok it -> red <> None \/ inv = false ->
  key_getitem true red inv ds i = Raise ValueError
  /\ key_step_reduce (mkKw red inv) (ki_inputs it) = Ok (ki_inputs it)
  /\ csm_step_reduce (mkKw red inv) (ki_inputs it) = Ok (ki_inputs it).
Proof.
  intros pieces ds i it red inv H Hr Hd. split; [exact (C67_key_refuted true pieces ds i it red inv H Hr Hd)|]. split; reflexivity.
Qed.
Print Assumptions C89_reduction_refuted.
Example C89_reduction_ex : exists ds it, ktd [piece43a; piece43b] = Ok ds /\ read_key true ds 0 = Ok it /\ ki_length it = 3%nat.
Proof.
  destruct (ktd [piece43a; piece43b]) as [ds|] eqn:E; [|vm_compute in E; discriminate]. vm_compute in E. apply Ok_inj in E. subst ds.
  eexists _, _. split; [reflexivity|]. split; vm_compute; reflexivity.
Qed.
