(* C106: runs of train.py. *)
From Coq Require Import QArith Lia Permutation String Ascii.
From Verif Require Import PyBase Model_Types Model_Harmony Model_Heap Model_Dataset Model_Prior Model_Batch Model_Create Model_Steps Model_Train Spec_Dataset Spec_Batch Spec_Prior Spec_Steps Spec_Train Proof_Base Proof_Dataset Proof_Batch Prop_Prior Prop_Batch Prop_Steps.
From Coq Require Import List.
Import ListNotations.
Close Scope Q_scope.
Open Scope Z_scope.

(* the items drawn are those of the dataset *)
Lemma drawn {A} (data : list A) : forall order, Permutation order (seq 0 (length data)) ->
  exists l, mapM (hget data) order = Ok l /\ Permutation l data /\ Forall2 (fun i x => nth_error data i = Some x) order l.
Proof.
  intros order P. destruct data as [|a0 data0] eqn:Ed.
  - cbn in P. apply Permutation_sym, Permutation_nil in P as ->. exists []. split; [reflexivity|]. split; [apply Permutation_refl|constructor].
  - rewrite <- Ed in *. exists (map (fun i => nth i data a0) order). split; [|split].
    + apply mapM_of. intros i I. unfold hget. rewrite (nth_error_nth' data a0); [reflexivity|]. apply (Permutation_in _ P) in I. apply in_seq in I. lia.
    + rewrite P. clear. induction data as [|a l IH]; [apply Permutation_refl|]. cbn [length seq map]. cbn [nth]. apply perm_skip. rewrite <- seq_shift, map_map. exact IH.
    + assert (K : Forall (fun i => (i < length data)%nat) order). { apply Forall_forall. intros i I. apply (Permutation_in _ P) in I. apply in_seq in I. lia. }
      clear P. induction K as [|i l H K IH]; [constructor|]. cbn [map]. constructor; [now apply nth_error_nth'|exact IH].
Qed.
Lemma mapM_steps {A B} (step : nat -> list A -> res B) (good : nat -> list A -> B -> Prop) bs : forall n,
  (forall k b, In b bs -> exists r, step k b = Ok r /\ good k b r) ->
  exists rs, mapM (fun kb : nat * list A => step (fst kb) (snd kb)) (combine (seq n (length bs)) bs) = Ok rs /\ length rs = length bs /\
    forall k b r, nth_error bs k = Some b -> nth_error rs k = Some r -> good (n + k)%nat b r.
Proof.
  induction bs as [|b bs IH]; intros n H.
  - exists []. split; [reflexivity|]. split; [reflexivity|]. intros [|k] b r E; discriminate.
  - destruct (IH (S n)) as (rs & E & Ls & G); [intros k c I; apply H; now right|]. destruct (H n b (or_introl eq_refl)) as (r & Er & Gr).
    exists (r :: rs). cbn [length seq combine mapM fst snd]. rewrite Er. cbn [bind]. rewrite E. split; [reflexivity|]. split; [cbn; now rewrite Ls|].
    intros [|k] c q E1 E2; cbn [nth_error] in E1, E2.
    + apply Some_inj in E1 as <-. apply Some_inj in E2 as <-. now rewrite Nat.add_0_r.
    + replace (n + S k)%nat with (S n + k)%nat by lia. now apply G.
Qed.
Lemma epoch_ok {A B} (step : nat -> list A -> res B) (good : nat -> list A -> B -> Prop) size order data : (1 <= size)%nat ->
  Permutation order (seq 0 (length data)) ->
  (forall k b, b <> [] -> (forall d, In d b -> In d data) -> (length b = 1%nat -> (2 <= size)%nat -> (length data mod size = 1)%nat) -> exists r, step k b = Ok r /\ good k b r) ->
  exists bs rs, epoch step size order data = Ok rs /\ dealt size data bs /\ step_by_step good bs rs.
Proof.
  intros Hs P H. destruct (drawn data order P) as (l & E & Pl & _). unfold epoch. rewrite E. cbn [bind]. destruct (loader_grouped _ size l Hs) as (bs & Eb & G). rewrite Eb. cbn [bind].
  destruct (mapM_steps step good bs 0) as (rs & Er & Lr & Gr).
  - intros k b I. apply H.
    + assert (N := grouped_nonempty _ _ _ _ Hs G). rewrite Forall_forall in N. exact (N b I).
    + intros d J. apply (Permutation_in _ Pl). rewrite <- (grouped_concat _ _ _ _ G). apply in_concat. eauto.
    + intros L1 S2. rewrite <- (Permutation_length Pl). apply (groups_of_one _ _ _ _ S2 G). apply Exists_exists. eauto.
  - exists bs, rs. split; [exact Er|]. split; [now exists l|]. split; [exact Lr|]. intros k b r. apply Gr.
Qed.

(* An epoch of training deals every item into one batch; the loss of each step is the mean over the questions
   of its batch, answered with the weights of this step. *)
Theorem C106_csm classes width (net : nat -> list row -> list (list Q)) filler order data :
  Forall (csm_item classes width) data -> Forall (fun d => asked (csm_target d) (id_length d)) data ->
  (forall k x, length (net k x) = length x) -> (forall k x o, In o (net k x) -> zlen o = classes) ->
  Permutation order (seq 0 (length data)) ->
  exists batches losses, train_epoch ChordSequenceDataset (fun k => csm_training_step (net k) filler) order data = Ok losses
    /\ dealt 32 data batches
    /\ step_by_step (fun k b r => trained (Ok r) (map csm_judged (flat_map (csm_answers (net k)) b))) batches losses.
Proof.
  intros F A Hn Ho P. unfold train_epoch. apply epoch_ok; [apply Nat.leb_le; reflexivity|exact P|]. intros k b N I _. rewrite Forall_forall in F, A. destruct b as [|d b]; [contradiction|].
  destruct (C105_csm (net k) filler classes width (d :: b)) as [(m & E & Em) _].
  - apply Forall_forall. intros x X. apply F, I, X.
  - apply Hn.
  - apply Ho.
  - exists d. split; [now left|]. apply A, I. now left.
  - exists (Some m). split; [exact E|]. exists m. split; [reflexivity|exact Em].
Qed.
Print Assumptions C106_csm.
Theorem C106_ctm bce width (net : nat -> list (list Q) -> list Q) filler order data :
  Forall (ctm_item width) data -> Forall (fun d => asked (ctm_target d) (ni_length d)) data ->
  (forall k x, length (net k x) = length x) -> (forall k x o, In o (net k x) -> 0 <= o <= 1)%Q ->
  Permutation order (seq 0 (length data)) ->
  exists batches losses, train_epoch ChordTransitionDataset (fun k => ctm_training_step bce (net k) filler) order data = Ok losses
    /\ dealt 8 data batches
    /\ step_by_step (fun k b r => trained (Ok r) (map (yes_no bce) (flat_map (ctm_answers (net k)) b))) batches losses.
Proof.
  intros F A Hn Ho P. unfold train_epoch. apply epoch_ok; [apply Nat.leb_le; reflexivity|exact P|]. intros k b N I _. rewrite Forall_forall in F, A. destruct b as [|d b]; [contradiction|].
  destruct (C105_ctm bce (net k) filler width (d :: b)) as [(m & E & Em) _].
  - apply Forall_forall. intros x X. apply F, I, X.
  - apply Hn.
  - apply Ho.
  - exists d. split; [now left|]. apply A, I. now left.
  - exists (Some m). split; [exact E|]. exists m. split; [reflexivity|exact Em].
Qed.
Print Assumptions C106_ctm.
Lemma loader_map {A B} (f : A -> B) size (l : list A) bs : loader size l = Ok bs -> loader size (map f l) = Ok (map (map f) bs).
Proof.
  intros E. assert (Hs : (1 <= size)%nat) by (destruct size; [discriminate|lia]). destruct (loader_grouped _ size l Hs) as (g1 & E1 & G1). rewrite E in E1. apply Ok_inj in E1 as <-.
  destruct (loader_grouped _ size (map f l) Hs) as (g2 & E2 & G2). rewrite E2. f_equal. apply (grouped_fun _ size (map f l)); [exact Hs|exact G2|now apply grouped_map].
Qed.
Lemma epoch_map {A C B} (f : C -> A) (step : nat -> list A -> res B) size order (data : list C) : (1 <= size)%nat -> Permutation order (seq 0 (length data)) ->
  epoch step size order (map f data) = epoch (fun k b => step k (map f b)) size order data.
Proof.
  intros Hs P. destruct (drawn data order P) as (l & E & _ & F). unfold epoch. rewrite E.
  assert (E' : mapM (hget (map f data)) order = Ok (map f l)).
  { clear -F. induction F as [|i x order l H F IH]; [reflexivity|]. cbn [mapM map]. unfold hget at 1. rewrite nth_error_map, H. cbn [option_map bind]. now rewrite IH. }
  rewrite E'. cbn [bind]. destruct (loader_grouped _ size l Hs) as (bs & Eb & _). rewrite (loader_map f _ _ _ Eb), Eb. cbn [bind]. rewrite map_length. clear. generalize 0%nat as n.
  induction bs as [|b bs IH]; intros n; [reflexivity|]. cbn [length seq map combine mapM fst snd]. destruct (step n (map f b)); [|reflexivity]. cbn [bind]. now rewrite IH.
Qed.
Theorem C106_ktm bce width (net : nat -> list row -> list Q) filler order data :
  Forall (fun x => ktm_item width (fst x) (snd x)) data -> Forall (fun x => asked (ktm_target (snd x)) (ki_length (fst x))) data ->
  (forall k x, length (net k x) = length x) -> (forall k x o, In o (net k x) -> 0 <= o <= 1)%Q ->
  Permutation order (seq 0 (length data)) ->
  exists batches losses, train_epoch KeyTransitionDataset (fun k => ktm_training_step bce (net k) filler) order (map fst data) = Ok losses
    /\ dealt 32 data batches
    /\ step_by_step (fun k b r => trained (Ok r) (map (yes_no bce) (flat_map (ktm_answers (net k)) b))) batches losses.
Proof.
  intros F A Hn Ho P. unfold train_epoch. rewrite epoch_map; [|apply Nat.leb_le; reflexivity|exact P]. apply epoch_ok; [apply Nat.leb_le; reflexivity|exact P|]. intros k b N I _. rewrite Forall_forall in F, A. destruct b as [|d b]; [contradiction|].
  destruct (C105_ktm bce (net k) filler width (d :: b)) as [(m & E & Em) _].
  - apply Forall_forall. intros x X. apply F, I, X.
  - apply Hn.
  - apply Ho.
  - exists d. split; [now left|]. apply A, I. now left.
  - exists (Some m). split; [exact E|]. exists m. split; [reflexivity|exact Em].
Qed.
Print Assumptions C106_ktm.
Theorem C106_ksm classes width (last : nat -> list row -> list Q) order data :
  Forall (one_ok classes width) data -> (forall k x, zlen (last k x) = classes) ->
  Permutation order (seq 0 (length data)) ->
  exists batches losses, train_epoch KeySequenceDataset (fun k => ksm_training_step (last k)) order data = Ok losses
    /\ dealt 32 data batches
    /\ step_by_step (fun k b r => trained (Ok r) (map (fun d => one_judged nll_of (one_answer (last k) d)) b)) batches losses.
Proof.
  intros F Ho P. unfold train_epoch. apply epoch_ok; [apply Nat.leb_le; reflexivity|exact P|]. intros k b N I _. rewrite Forall_forall in F.
  destruct (C105_ksm (last k) classes width b N) as [(m & E & Em) _].
  - apply Forall_forall. intros x X. apply F, I, X.
  - apply Ho.
  - exists (Some m). split; [exact E|]. exists m. split; [reflexivity|exact Em].
Qed.
Print Assumptions C106_ksm.
(* The chord classifier, if no item is left over for a batch of its own: a step without a known chord has no loss. *)
Theorem C106_ccm {R} ce classes width (last : nat -> list R -> list Q) order data :
  Forall (one_item_ok classes width) data -> (forall k x, zlen (last k x) = classes) -> (length data mod 256 <> 1)%nat ->
  Permutation order (seq 0 (length data)) ->
  exists batches losses, train_epoch ChordClassificationDataset (fun k => ccm_training_step ce (last k)) order data = Ok losses
    /\ dealt 256 data batches
    /\ step_by_step (fun k b r => if 0 <? zlen (known_items b) then trained (Ok r) (map (fun d => one_judged ce (one_answer (last k) d)) (known_items b)) else r = None) batches losses.
Proof.
  intros F Ho M P. unfold train_epoch. apply epoch_ok; [apply Nat.leb_le; reflexivity|exact P|]. intros k b N I L1. rewrite Forall_forall in F.
  assert (C := C105_ccm ce (last k) classes width b). cbv zeta in C. destruct (0 <? zlen (known_items b)).
  - destruct C as [(m & E & Em) _].
    + apply Forall_forall. intros x X. apply F, I, X.
    + intros X. apply M, L1; [exact X|]. change (TRAIN_BATCH ChordClassificationDataset) with 256%nat. lia.
    + apply Ho.
    + exists (Some m). split; [exact E|]. exists m. split; [reflexivity|exact Em].
  - destruct C as [E _].
    + apply Forall_forall. intros x X. apply F, I, X.
    + intros X. apply M, L1; [exact X|]. change (TRAIN_BATCH ChordClassificationDataset) with 256%nat. lia.
    + apply Ho.
    + exists None. split; [exact E|reflexivity].
Qed.
Print Assumptions C106_ccm.
(* False: the classifier can be trained on any number of items.  With one left over, every epoch ends with an
   exception, in whatever order the items are drawn. *)
Theorem C106_ccm_refuted {R} ce classes width (last : nat -> list R -> list Q) order data :
  Forall (one_item_ok classes width) data -> (forall k x, zlen (last k x) = classes) -> (length data mod 256 = 1)%nat ->
  Permutation order (seq 0 (length data)) ->
  train_epoch ChordClassificationDataset (fun k => ccm_training_step ce (last k)) order data = Raise IndexError.
Proof.
  intros F Ho M P. unfold train_epoch, epoch. destruct (drawn data order P) as (l & -> & Pl & _). cbn [bind]. assert (S2 : (2 <= TRAIN_BATCH ChordClassificationDataset)%nat) by (apply Nat.leb_le; reflexivity).
  destruct (loader_grouped _ (TRAIN_BATCH ChordClassificationDataset) l ltac:(lia)) as (bs & -> & G). cbn [bind]. rewrite <- (Permutation_length Pl) in M.
  destruct (exists_last_group _ _ _ _ S2 G M) as (gs & g & -> & L1 & Fg). destruct g as [|d [|]]; try discriminate. rewrite Forall_forall in F.
  assert (In1 : forall b x, In b (gs ++ [[d]]) -> In x b -> one_item_ok classes width x). { intros b x I J. apply F, (Permutation_in _ Pl). rewrite <- (grouped_concat _ _ _ _ G). apply in_concat. eauto. }
  clear G M. generalize 0%nat as n. induction gs as [|g gs IH]; intros n.
  - cbn [app length seq combine mapM fst snd]. destruct (C105_single_refuted ce (last n) classes width d) as [E _]; [apply (In1 [d]); now left|]. now rewrite E.
  - cbn [app length seq combine mapM fst snd]. assert (C := C105_ccm ce (last n) classes width g). cbv zeta in C.
    assert (H1 : Forall (one_item_ok classes width) g) by (apply Forall_forall; intros x X; apply (In1 g x (or_introl eq_refl) X)).
    specialize (C H1 (Forall_inv Fg) (Ho n)). assert (E : exists r, ccm_training_step ce (last n) g = Ok r).
    { destruct (0 <? zlen (known_items g)); [destruct C as [(m & E & _) _]|destruct C as [E _]]; eauto. }
    destruct E as [r ->]. cbn [bind]. rewrite (IH (Forall_inv_tail Fg)); [reflexivity|]. intros b x I. apply In1. now right.
Qed.
Print Assumptions C106_ccm_refuted.

(* False: every step has a loss.  If one item has no question (a piece with a single chord) and one item is left over
   for the last batch, then in some orders the loss of a step is not a number. *)
Theorem C106_nan_refuted classes width (net : nat -> list row -> list (list Q)) filler data d :
  Forall (csm_item classes width) data -> In d data -> (forall t, csm_target d t = None) -> (length data mod 32 = 1)%nat ->
  (forall k x, length (net k x) = length x) -> (forall k x o, In o (net k x) -> zlen o = classes) ->
  exists order losses, Permutation order (seq 0 (length data))
    /\ train_epoch ChordSequenceDataset (fun k => csm_training_step (net k) filler) order data = Ok losses /\ In None losses.
Proof.
  intros F I T M Hn Ho. apply In_nth_error in I as [i Ei]. assert (Li : (i < length data)%nat) by (apply nth_error_Some; congruence).
  set (order := seq 0 i ++ seq (S i) (length data - S i) ++ [i]).
  assert (P : Permutation order (seq 0 (length data))).
  { unfold order. replace (length data) with (i + S (length data - S i))%nat at 2 by lia. rewrite seq_app. apply Permutation_app_head. cbn [seq Nat.add]. apply Permutation_sym, Permutation_cons_append. }
  exists order. unfold train_epoch. change (TRAIN_BATCH ChordSequenceDataset) with 32%nat.
  assert (Good : forall k b, b <> [] -> (forall x, In x b -> In x data) -> exists r, csm_training_step (net k) filler b = Ok r /\ (b = [d] -> r = None)).
  { intros k b N H. rewrite Forall_forall in F. assert (Fb : Forall (csm_item classes width) b) by (apply Forall_forall; intros x X; apply F, H, X).
    destruct (csm_steps _ _ _ _ (csm_tally_ok (net k) filler classes width b N Fb (Hn k) (Ho k))) as [E _]. eexists. split; [exact E|]. intros ->.
    unfold measure, csm_exam. cbn [flat_map t_loss]. rewrite app_nil_r.
    assert (E0 : csm_answers (net k) d = []). { unfold csm_answers, answers. apply flat_map_nil. intros t _. rewrite (T t). now destruct (nth_error _ t). }
    rewrite E0. reflexivity. }
  assert (H1 : (1 <= 32)%nat) by lia. assert (H2 : (2 <= 32)%nat) by lia.
  destruct (drawn data order P) as (l & E & Pl & F2). unfold epoch. rewrite E. cbn [bind]. destruct (loader_grouped _ 32 l H1) as (bs & -> & G). cbn [bind].
  destruct (mapM_steps (fun k => csm_training_step (net k) filler) (fun _ b r => b = [d] -> r = None) bs 0) as (rs & Er & Lr & Gr).
  { intros k b J. apply Good.
    - assert (N := grouped_nonempty _ _ _ _ H1 G). rewrite Forall_forall in N. exact (N b J).
    - intros x X. apply (Permutation_in _ Pl). rewrite <- (grouped_concat _ _ _ _ G). apply in_concat. eauto. }
  exists rs. split; [exact P|]. split; [exact Er|].
  assert (M' : (length l mod 32 = 1)%nat) by now rewrite (Permutation_length Pl). destruct (exists_last_group _ _ _ _ H2 G M') as (gs & g & -> & L1 & _).
  assert (Eg : g = [d]).
  { destruct g as [|x [|]]; try discriminate. assert (C := grouped_concat _ _ _ _ G). rewrite concat_app in C. cbn [concat app] in C. unfold order in F2. rewrite app_assoc in F2. apply Forall2_app_inv_l in F2 as (l1 & l2 & _ & F2 & El).
    inversion F2 as [|i' x' ? ? Hx F3]; subst. inversion F3; subst. apply app_inj_tail in C as [_ C]. congruence. }
  subst g. assert (K : nth_error (gs ++ [[d]]) (length gs) = Some [d]) by (rewrite nth_error_app2, Nat.sub_diag by lia; reflexivity).
  destruct (nth_error rs (length gs)) as [r|] eqn:Ek; [|exfalso; apply nth_error_None in Ek; rewrite Lr, app_length in Ek; cbn in Ek; lia].
  rewrite (Gr _ _ _ K Ek eq_refl) in Ek. now apply nth_error_In in Ek.
Qed.
Print Assumptions C106_nan_refuted.

(* Validation goes through the items in order; what is logged for each batch is its mean loss and accuracy. *)
Lemma valid_ok {A B} c (step : list A -> res B) (good : list A -> B -> Prop) data :
  (forall b, b <> [] -> (forall d, In d b -> In d data) -> (length b = 1%nat -> (length data mod VALID_BATCH c = 1)%nat) -> exists r, step b = Ok r /\ good b r) ->
  exists bs rs, valid_epoch c step data = Ok rs /\ grouped (VALID_BATCH c) data bs /\ step_by_step (fun _ => good) bs rs.
Proof.
  intros H. assert (Hs : (2 <= VALID_BATCH c)%nat) by (destruct c; apply Nat.leb_le; reflexivity). assert (H1 : (1 <= VALID_BATCH c)%nat) by lia. unfold valid_epoch, epoch.
  assert (E : mapM (hget data) (seq 0 (length data)) = Ok data).
  { clear. assert (K : forall n l, (forall j x, nth_error l j = Some x -> nth_error data (n + j) = Some x) -> mapM (hget data) (seq n (length l)) = Ok l).
    { intros n l. revert n. induction l as [|x l IH]; intros n K; [reflexivity|]. cbn [length seq mapM]. unfold hget at 1. assert (K0 := K 0%nat x eq_refl). rewrite Nat.add_0_r in K0. rewrite K0. cbn [bind].
      rewrite IH; [reflexivity|]. intros j y J. replace (S n + j)%nat with (n + S j)%nat by lia. now apply K. }
    apply K. auto. }
  rewrite E. cbn [bind]. destruct (loader_grouped _ (VALID_BATCH c) data H1) as (bs & -> & G). cbn [bind].
  destruct (mapM_steps (fun _ => step) (fun _ => good) bs 0) as (rs & Er & Lr & Gr).
  - intros _ b I. apply H.
    + assert (N := grouped_nonempty _ _ _ _ H1 G). rewrite Forall_forall in N. exact (N b I).
    + intros d J. rewrite <- (grouped_concat _ _ _ _ G). apply in_concat. eauto.
    + intros L1. apply (groups_of_one _ _ _ _ Hs G). apply Exists_exists. eauto.
  - exists bs, rs. split; [exact Er|]. split; [exact G|]. split; [exact Lr|]. intros k b r. apply Gr.
Qed.
Theorem C106_validation {R} ce classes width (last : list R -> list Q) data :
  Forall (one_item_ok classes width) data -> (forall x, zlen (last x) = classes) -> (length data mod 512 <> 1)%nat ->
  exists batches results, valid_epoch ChordClassificationDataset (ccm_validation_step ce last) data = Ok results
    /\ grouped 512 data batches
    /\ step_by_step (fun _ b r => if 0 <? zlen (known_items b)
         then exists v, r = Some v /\ logs v (map (fun d => one_judged ce (one_answer last d)) (known_items b)) else r = None) batches results.
Proof.
  intros F Ho M. change 512%nat with (VALID_BATCH ChordClassificationDataset). apply valid_ok. intros b N I L1. rewrite Forall_forall in F.
  assert (C := C105_ccm ce last classes width b). cbv zeta in C. specialize (C ltac:(apply Forall_forall; intros x X; apply F, I, X)). specialize (C ltac:(intros X; apply M, L1, X) Ho).
  destruct (0 <? zlen (known_items b)); destruct C as [_ C]; [|eauto]. destruct C as (v & E & Lv). exists (Some v). split; [exact E|]. exists v. split; [reflexivity|exact Lv].
Qed.
Print Assumptions C106_validation.

Theorem C106_valid_csm classes width net filler data :
  Forall (csm_item classes width) data -> Forall (fun d => asked (csm_target d) (id_length d)) data ->
  (forall x, length (net x) = length x) -> (forall x o, In o (net x) -> zlen o = classes) ->
  exists batches results, valid_epoch ChordSequenceDataset (csm_validation_step net filler) data = Ok results
    /\ grouped 64 data batches /\ step_by_step (fun _ b r => logs r (map csm_judged (flat_map (csm_answers net) b))) batches results.
Proof.
  intros F A Hn Ho. change 64%nat with (VALID_BATCH ChordSequenceDataset). apply valid_ok. intros b N I _. rewrite Forall_forall in F, A. destruct b as [|d b]; [contradiction|].
  apply (C105_csm net filler classes width (d :: b)); [|exact Hn|exact Ho|].
  - apply Forall_forall. intros x X. apply F, I, X.
  - exists d. split; [now left|]. apply A, I. now left.
Qed.
Print Assumptions C106_valid_csm.
Theorem C106_valid_ctm bce width net filler data :
  Forall (ctm_item width) data -> Forall (fun d => asked (ctm_target d) (ni_length d)) data ->
  (forall x, length (net x) = length x) -> (forall x o, In o (net x) -> 0 <= o <= 1)%Q ->
  exists batches results, valid_epoch ChordTransitionDataset (ctm_validation_step bce net filler) data = Ok results
    /\ grouped 64 data batches /\ step_by_step (fun _ b r => logs r (map (yes_no bce) (flat_map (ctm_answers net) b))) batches results.
Proof.
  intros F A Hn Ho. change 64%nat with (VALID_BATCH ChordTransitionDataset). apply valid_ok. intros b N I _. rewrite Forall_forall in F, A. destruct b as [|d b]; [contradiction|].
  apply (C105_ctm bce net filler width (d :: b)); [|exact Hn|exact Ho|].
  - apply Forall_forall. intros x X. apply F, I, X.
  - exists d. split; [now left|]. apply A, I. now left.
Qed.
Print Assumptions C106_valid_ctm.
Theorem C106_valid_ktm bce width net filler data :
  Forall (fun x => ktm_item width (fst x) (snd x)) data -> Forall (fun x => asked (ktm_target (snd x)) (ki_length (fst x))) data ->
  (forall x, length (net x) = length x) -> (forall x o, In o (net x) -> 0 <= o <= 1)%Q ->
  exists batches results, valid_epoch KeyTransitionDataset (ktm_validation_step bce net filler) (map fst data) = Ok results
    /\ grouped 64 data batches /\ step_by_step (fun _ b r => logs r (map (yes_no bce) (flat_map (ktm_answers net) b))) batches results.
Proof.
  intros F A Hn Ho. change 64%nat with (VALID_BATCH KeyTransitionDataset). unfold valid_epoch. rewrite map_length, epoch_map; [|apply Nat.leb_le; reflexivity|apply Permutation_refl].
  apply (valid_ok KeyTransitionDataset (fun b => ktm_validation_step bce net filler (map fst b))). intros b N I _. rewrite Forall_forall in F, A. destruct b as [|d b]; [contradiction|].
  apply (C105_ktm bce net filler width (d :: b)); [|exact Hn|exact Ho|].
  - apply Forall_forall. intros x X. apply F, I, X.
  - exists d. split; [now left|]. apply A, I. now left.
Qed.
Print Assumptions C106_valid_ktm.
Theorem C106_valid_ksm classes width (last : list row -> list Q) data :
  Forall (one_ok classes width) data -> (forall x, zlen (last x) = classes) ->
  exists batches results, valid_epoch KeySequenceDataset (ksm_validation_step last) data = Ok results
    /\ grouped 64 data batches /\ step_by_step (fun _ b r => logs r (map (fun d => one_judged nll_of (one_answer last d)) b)) batches results.
Proof.
  intros F Ho. change 64%nat with (VALID_BATCH KeySequenceDataset). apply valid_ok. intros b N I _. rewrite Forall_forall in F.
  apply (C105_ksm last classes width b N); [|exact Ho]. apply Forall_forall. intros x X. apply F, I, X.
Qed.
Print Assumptions C106_valid_ksm.

(* The file of the initial chord model gives each chord the share of the training pieces that begin with it. *)
Theorem C106_icm pt pieces chords : pieces <> [] -> begin_with pieces chords ->
  (forall c, In c chords -> c_pt c = pt) -> (forall c, In c chords -> in_vocabulary c) ->
  exists file data m, train_icm_model pieces = Ok file /\ load_kwargs_from_json file = Ok data /\ SimpleInitialChordModel data true None = Ok m /\
  forall mode, let prior := get_prior m (match mode with MAJOR => false | MINOR => true end) in
    zlen prior = vocabulary pt /\ (sum_of prior == 1)%Q /\
    forall i p, nth_error prior i = Some p ->
      exists x, get_chord_from_one_hot_index (Z.of_nat i) pt true true false NO_REDUCTION = Ok x /\
        (p == (1 / inject_Z (vocabulary pt) + inject_Z (times_seen mode x chords)) / (1 + inject_Z (in_mode mode chords)))%Q.
Proof.
  intros N B Hc Hv. assert (E : train_icm_model pieces = train_icm chords 1%Q).
  { unfold train_icm_model. assert (E : mapM (fun p => match p with Some cs => py_nth cs 0 | None => Raise TypeError end) pieces = Ok chords); [|now rewrite E].
    clear -B. induction B as [|p c ps cs (r & ->) B IH]; [reflexivity|]. cbn [mapM]. change (py_nth (c :: r) 0) with (@Ok chord c). cbn [bind]. now rewrite IH. }
  assert (Nc : chords <> []) by (intros ->; inversion B; subst; contradiction).
  destruct (C45_defined pt chords 1%Q Nc Hc eq_refl) as [D1 D2]. destruct (proj2 D1 Hv) as [file Ef]. destruct (D2 file Ef) as (data & m & E1 & E2). exists file, data, m.
  rewrite E. split; [exact Ef|]. split; [exact E1|]. split; [exact E2|]. intros mode. destruct (C45_prior pt chords 1%Q file data m Hc eq_refl Ef E1 E2) as (_ & _ & _ & K). destruct (K mode) as (K1 & K2 & K3).
  split; [exact K1|]. split; [exact K2|]. intros i p Ep. destruct (K3 i p Ep) as (_ & x & Ex & Hx). exists x. split; [exact Ex|exact Hx].
Qed.
Print Assumptions C106_icm.

(* the hypotheses are met: three items in another order; pieces that begin with the same chord and with another one *)
Definition c106 (root : Z) : chord := {| c_root := root; c_bass := root; c_type := Maj; c_inv := 0; c_tonic := 15; c_mode := MAJOR; c_pt := TPC |}.
Example C106_ex : Forall (csm_item 471 4) data88c
  /\ match train_epoch ChordSequenceDataset (fun _ => csm_training_step net88 []) [1; 0]%nat data88c with Ok [Some m] => Qeq_bool m (7 # 3)%Q | _ => false end = true
  /\ match train_epoch ChordClassificationDataset (fun _ => ccm_training_step (fun _ t => inject_Z t) last105) [2; 0; 1]%nat b105 with Ok [Some m] => Qeq_bool m (99 # 2)%Q | _ => false end = true
  /\ Permutation [2; 0; 1]%nat (seq 0 (length b105)) /\ (length b105 mod 256 = 3)%nat
  /\ begin_with [Some [c106 15; c106 16]; Some [c106 15]; Some [c106 14]] [c106 15; c106 15; c106 14]
  /\ in_vocabulary (c106 15) /\ in_vocabulary (c106 14).
Proof.
  split; [|split; [vm_compute; reflexivity|split; [vm_compute; reflexivity|split; [|split; [vm_compute; reflexivity|split; [|split; (split; cbn; lia)]]]]]].
  - assert (K : forallb (fun d => match id_target_length d with Some n => (n =? id_length d)%nat | None => false end && (1 <=? id_length d)%nat && (id_length d <=? 4)%nat
      && (length (id_inputs d) =? 4)%nat && (length (id_targets d) =? 4)%nat && forallb (fun r => match r with [] => false | _ => true end) (id_inputs d)
      && forallb (fun y => (0 <=? y) && (y <? 471)) (firstn (id_length d) (id_targets d))) data88c = true) by (vm_compute; reflexivity).
    apply Forall_forall. intros d I. rewrite forallb_forall in K. specialize (K d I). do 6 (apply andb_prop in K as [K ?]).
    destruct (id_target_length d) as [n|] eqn:En; [|discriminate]. apply Nat.eqb_eq in K as ->.
    split; [exact En|]. repeat match goal with H : (_ =? _)%nat = true |- _ => apply Nat.eqb_eq in H | H : (_ <=? _)%nat = true |- _ => apply Nat.leb_le in H end.
    split; [lia|]. split; [assumption|]. split; [assumption|]. split; apply Forall_forall; intros x X.
    + match goal with H : forallb _ (id_inputs d) = true |- _ => rewrite forallb_forall in H; specialize (H x X) end. now destruct x.
    + match goal with H : forallb _ (firstn _ _) = true |- _ => rewrite forallb_forall in H; specialize (H x X) end. lia.
  - change (Permutation [2; 0; 1]%nat [0; 1; 2]%nat). apply (perm_trans (l' := [0; 2; 1]%nat)); constructor. constructor.
  - constructor; [now exists [c106 16]|]. constructor; [now exists []|]. constructor; [now exists []|constructor].
Qed.
