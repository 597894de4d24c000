(* The steps of training and validation: training_step and validation_step of the models in
   harmonic_inference/models/.  A training step returns its loss (and logs it under train_loss), a
   validation step logs val_loss and val_acc; None is NaN.  As in Model_Batch the networks and the
   losses with logarithms are functions; in training that of a step is the network with the weights
   and the dropout of this step.  The gradient and the optimizer are not modelled. *)
From Coq Require Import QArith.
From Verif Require Import PyBase Model_Types Model_Harmony Model_Dataset Model_Prior Model_Batch.
Close Scope Q_scope.
Open Scope Z_scope.

(* what a validation step logs *)
Record logged := mkLog { v_loss : option Q; v_acc : option Q }.

(* chord_sequence_models.py:110-118: the mean of F.nll_loss over the targets that are not -100 *)
Definition csm_training_step (net : list row -> list (list Q)) (filler : list Q) (b : list item_data) : res (option Q) :=
  let! data := csm_batch b in
  let! outs := forward net filler (map fst data) in
  let! pairs := pair_up outs (map snd data) in
  let! l := mapM (fun x : list Q * Z => nll (fst x) (snd x)) (filter (fun x : list Q * Z => negb (snd x =? IGNORED)) pairs) in
  Ok (mean_of (qtotal l) (zlen l)).
(* chord_sequence_models.py:120-134 *)
Definition csm_validation_step (net : list row -> list (list Q)) (filler : list Q) (b : list item_data) : res logged :=
  let! data := csm_batch b in
  let! outs := forward net filler (map fst data) in
  let! pairs := pair_up outs (map snd data) in
  let asked := filter (fun x : list Q * Z => negb (snd x =? IGNORED)) pairs in
  let! l := mapM (fun x : list Q * Z => nll (fst x) (snd x)) asked in
  let! hits := mapM (fun x : list Q * Z => let! a := np_argmax (fst x) in Ok (a =? snd x)) asked in
  Ok (mkLog (mean_of (qtotal l) (zlen l)) (mean_of (inject_Z (100 * zlen (filter (fun h => h) hits))) (zlen asked))).

(* chord_sequence_models.py:480-492 (PitchBasedChordSequenceModel): the mean of F.binary_cross_entropy over all
   pitches of the measured chords; ValueError if an output and its target have different sizes *)
Definition pitch_losses (bce : Q -> Z -> Q) (pairs : list (list Q * row)) : res (option Q) :=
  if forallb (fun x : list Q * row => (length (fst x) =? length (snd x))%nat) pairs then
    let l := flat_map (fun x : list Q * row => map (fun y => bce (fst y) (snd y)) (combine (fst x) (snd x))) pairs in
    Ok (mean_of (qtotal l) (zlen l))
  else Raise ValueError.
(* chord_sequence_models.py:477-492 *)
Definition pitch_training_step (bce : Q -> Z -> Q) (net : list row -> list (list Q)) (filler : list Q) (b : list pitch_item) : res (option Q) :=
  let! pairs := pitch_pairs net filler b in pitch_losses bce pairs.
(* chord_sequence_models.py:494-513 *)
Definition pitch_validation_step (bce : Q -> Z -> Q) (net : list row -> list (list Q)) (filler : list Q) (b : list pitch_item) : res logged :=
  let! pairs := pitch_pairs net filler b in
  let! loss := pitch_losses bce pairs in
  Ok (mkLog loss (pitch_accuracy pairs)).

(* chord_transition_models.py:78-90 *)
Definition ctm_training_step (bce : Q -> Z -> Q) (net : list (list Q) -> list Q) (filler : Q) (b : list note_item) : res (option Q) :=
  let! data := ctm_batch b in
  let! outs := forward net filler (map fst data) in
  let! pairs := pair_up outs (map snd data) in
  let asked := filter (fun x : Q * (Z * bool) => snd (snd x)) pairs in
  Ok (mean_of (qtotal (map (fun x => bce (fst x) (fst (snd x))) asked)) (zlen asked)).
(* chord_transition_models.py:92-105 *)
Definition ctm_validation_step (bce : Q -> Z -> Q) (net : list (list Q) -> list Q) (filler : Q) (b : list note_item) : res logged :=
  let! data := ctm_batch b in
  let! outs := forward net filler (map fst data) in
  let! pairs := pair_up outs (map snd data) in
  let asked := filter (fun x : Q * (Z * bool) => snd (snd x)) pairs in
  Ok (mkLog (mean_of (qtotal (map (fun x => bce (fst x) (fst (snd x))) asked)) (zlen asked))
            (mean_of (inject_Z (100 * zlen (filter (fun x => torch_round (fst x) =? fst (snd x)) asked))) (zlen asked))).

(* key_transition_models.py:86-98 *)
Definition ktm_training_step (bce : Q -> Z -> Q) (net : list row -> list Q) (filler : Q) (b : list key_item) : res (option Q) :=
  let! data := ktm_batch b in
  let! outs := forward net filler (map fst data) in
  let! pairs := pair_up outs (map snd data) in
  let asked := filter (fun x : Q * Z => negb (snd x =? IGNORED)) pairs in
  Ok (mean_of (qtotal (map (fun x => bce (fst x) (snd x)) asked)) (zlen asked)).
(* key_transition_models.py:100-114 *)
Definition ktm_validation_step (bce : Q -> Z -> Q) (net : list row -> list Q) (filler : Q) (b : list key_item) : res logged :=
  let! data := ktm_batch b in
  let! outs := forward net filler (map fst data) in
  let! pairs := pair_up outs (map snd data) in
  let asked := filter (fun x : Q * Z => negb (snd x =? IGNORED)) pairs in
  Ok (mkLog (mean_of (qtotal (map (fun x => bce (fst x) (snd x)) asked)) (zlen asked))
            (mean_of (inject_Z (100 * zlen (filter (fun x => torch_round (fst x) =? snd x) asked))) (zlen asked))).

(* key_sequence_models.py:78-86 get_data_from_batch and the outputs with their targets *)
Definition ksm_pairs (last : list row -> list Q) (b : list (one_item row)) : res (list (list Q * Z)) :=
  let! _ := stack (map oi_inputs b) in
  let! longest := np_max (map oi_length b) in
  let! outs := forward_last last (map (fun d => (firstn longest (oi_inputs d), oi_length d)) b) in
  Ok (combine outs (map oi_target b)).
(* key_sequence_models.py:98-106 *)
Definition ksm_training_step (last : list row -> list Q) (b : list (one_item row)) : res (option Q) :=
  let! pairs := ksm_pairs last b in
  let! l := mapM (fun x : list Q * Z => nll (fst x) (snd x)) pairs in
  Ok (mean_of (qtotal l) (zlen l)).
(* key_sequence_models.py:108-117 *)
Definition ksm_validation_step (last : list row -> list Q) (b : list (one_item row)) : res logged :=
  let! pairs := ksm_pairs last b in
  let! l := mapM (fun x : list Q * Z => nll (fst x) (snd x)) pairs in
  let! hits := mapM (fun x : list Q * Z => let! a := np_argmax (fst x) in Ok (a =? snd x)) pairs in
  Ok (mkLog (mean_of (qtotal l) (zlen l)) (mean_of (inject_Z (100 * zlen (filter (fun h => h) hits))) (zlen b))).

(* chord_classifier_models.py:95-104: targets -1 are ignored; a length of -1 is 0 here (forward takes
   both for 1) *)
Definition ccm_training_step {R} (ce : list Q -> Z -> Q) (last : list R -> list Q) (b : list (one_item R)) : res (option Q) :=
  let! _ := stack (map oi_inputs b) in
  let! outs := ccm_forward last (map (fun d => (oi_inputs d, oi_length d)) b) in
  let! l := mapM (fun x : list Q * Z => cross_entropy ce (fst x) (snd x))
                 (filter (fun x : list Q * Z => negb (snd x =? -1)) (combine outs (map oi_target b))) in
  Ok (mean_of (qtotal l) (zlen l)).
(* chord_classifier_models.py:106-122: None if nothing is logged *)
Definition ccm_validation_step {R} (ce : list Q -> Z -> Q) (last : list R -> list Q) (b : list (one_item R)) : res (option logged) :=
  let! _ := stack (map oi_inputs b) in
  let! outs := ccm_forward last (map (fun d => (oi_inputs d, oi_length d)) b) in
  let known := filter (fun x : list Q * Z => negb (snd x =? -1)) (combine outs (map oi_target b)) in
  if 0 <? zlen known then
    let! hits := mapM (fun x : list Q * Z => let! a := np_argmax (fst x) in Ok (a =? snd x)) known in
    let! l := mapM (fun x : list Q * Z => cross_entropy ce (fst x) (snd x)) known in
    Ok (Some (mkLog (mean_of (qtotal l) (zlen l)) (mean_of (inject_Z (100 * zlen (filter (fun h => h) hits))) (zlen known))))
  else Ok None.

(* an item of the dataset as the model gets it, datasets.py:144-184, 458-462: -1 as a length is 0 *)
Definition ccd_one (d : ccd_item) : one_item row := mkOI (ci_inputs d) (Z.to_nat (ci_length d)) (ci_target d).
