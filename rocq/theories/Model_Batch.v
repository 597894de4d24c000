(* Model of the batches that the neural models are trained, evaluated and run on:
   harmonic_inference/models/chord_sequence_models.py, chord_transition_models.py,
   chord_classifier_models.py, key_transition_models.py and key_sequence_models.py
   (get_data_from_batch, evaluate), and of the batches of joint_model.py.

   - Tensors are lists.  The networks are arguments: [net] gives one output for each row of a
     sequence (an LSTM with linear layers on top of each position), [last] one output for the
     whole sequence.  Dropout and devices are not modelled (evaluation mode).
   - Numbers are exact; a mean over nothing is NaN in torch and None here.
   - Losses with logarithms are arguments (bce, ce). *)
From Coq Require Import QArith Qround.
From Verif Require Import PyBase Model_Types Model_Harmony Model_Heap Model_Dataset Model_Prior.
Close Scope Q_scope.
Open Scope Z_scope.

(* ---- torch.utils.data.DataLoader(dataset, batch_size=size), shuffle=False ---- *)
(* consecutive items; the last batch may be smaller *)
Fixpoint batches_go {A} (size left : nat) (batch l : list A) : list (list A) :=
  match l with
  | [] => match batch with [] => [] | _ => [batch] end
  | x :: r => match left with
              | O => batch :: batches_go size (size - 1) [x] r
              | S k => batches_go size k (batch ++ [x]) r
              end
  end.
(* batch_size=0 is a ValueError *)
Definition loader {A} (size : nat) (l : list A) : res (list (list A)) :=
  match size with O => Raise ValueError | _ => Ok (batches_go size size [] l) end.
(* default_collate: torch.stack of arrays of different lengths is a RuntimeError *)
Definition same_lengths {A} (l : list (list A)) : bool :=
  match l with [] => true | x :: r => forallb (fun y => Nat.eqb (length y) (length x)) r end.
(* rows of one length are stacked *)
Definition stack {A} (l : list (list A)) : res (list (list A)) :=
  if same_lengths l then Ok l else Raise RuntimeError.

(* ---- means and totals ---- *)
Definition qtotal (l : list Q) : Q := fold_left Qplus l 0%Q.
(* the sum s of n numbers divided by n *)
Definition mean_of (s : Q) (n : Z) : option Q := if n =? 0 then None else Some (s / inject_Z n)%Q.
(* a sum of floats; None is NaN *)
Definition oplus (a b : option Q) : option Q :=
  match a, b with Some x, Some y => Some (x + y)%Q | _, _ => None end.
(* loss.item() * n, chord_sequence_models.py:155 (and the other models) *)
Definition oscale (a : option Q) (n : Z) : option Q :=
  match a with Some x => Some (x * inject_Z n)%Q | None => None end.

(* batch_count, acc and loss of one batch *)
Record tally := mkTally { t_count : Z; t_acc : option Q; t_loss : option Q }.
(* acc = 100 * (outputs == targets).sum() / len(outputs) and the mean loss, over what is
   measured in the batch: for each output whether it is right, and its loss *)
Definition measure (count : Z) (l : list (bool * Q)) : tally :=
  let n := zlen l in
  mkTally count (mean_of (inject_Z (100 * zlen (filter fst l))) n) (mean_of (qtotal (map snd l)) n).

(* chord_classifier_models.py:124-149 and the evaluate methods of the other models: total,
   total_acc and total_loss.  The batches are all run before anything is added up here.
   Without batches 0 / 0 is a ZeroDivisionError (Python numbers); with batches but total = 0
   it is NaN (tensors). *)
Definition add_tally (st : Z * option Q * option Q) (b : tally) : Z * option Q * option Q :=
  let '(total, acc, loss) := st in
  (total + t_count b, oplus acc (oscale (t_acc b) (t_count b)), oplus loss (oscale (t_loss b) (t_count b))).
(* a total divided by the number of questions, chord_classifier_models.py:146-147 *)
Definition odiv (a : option Q) (n : Z) : option Q :=
  match a with Some x => mean_of x n | None => None end.
(* evaluate: the batches are tallied one by one (chord_classifier_models.py:124-148) *)
Definition evaluate_batches {D} (per_batch : list D -> res tally) (size : nat) (data : list D)
  : res (option Q * option Q) :=
  let! bs := loader size data in
  let! ts := mapM per_batch bs in
  match ts with
  | [] => Raise ZeroDivisionError
  | _ => let '(total, acc, loss) := fold_left add_tally ts (0, Some 0%Q, Some 0%Q) in
         Ok (odiv acc total, odiv loss total)
  end.

(* ---- forward ---- *)
(* chord_sequence_models.py:334-352 and the forward methods of the other sequence models:
   lengths are at least 1; pack_padded_sequence drops what is after the length of each
   sequence (a length beyond the array is a RuntimeError), pad_packed_sequence fills up to the
   longest sequence; [filler] is what the linear layers make of the filling. *)
Section Forward.
Context {R O : Type}.
Variable net : list R -> list O.
Variable filler : O.
(* forward: chord_sequence_models.py:334-352, chord_transition_models.py:255-273, key_transition_models.py:292-309 *)
Definition forward (xs : list (list R * nat)) : res (list (list O)) :=
  let! longest := np_max (map (fun x => Nat.max 1 (snd x)) xs) in
  mapM (fun x : list R * nat =>
          let n := Nat.max 1 (snd x) in
          if (length (fst x) <? n)%nat then Raise RuntimeError
          else Ok (net (firstn n (fst x)) ++ repeat filler (longest - n))) xs.
End Forward.

(* outputs.reshape(-1)[mask] and targets.reshape(-1)[mask] need as many outputs as targets *)
Definition pair_up {O T} (outs : list (list O)) (targets : list (list T)) : res (list (O * T)) :=
  if Nat.eqb (length outs) (length targets) then
    let! l := mapM (fun x : list O * list T =>
                      if Nat.eqb (length (fst x)) (length (snd x)) then Ok (combine (fst x) (snd x))
                      else Raise IndexError) (combine outs targets) in
    Ok (concat l)
  else Raise IndexError.

(* F.nll_loss of one output: minus the log probability of the target *)
Definition nll (o : list Q) (t : Z) : res Q :=
  if t <? 0 then Raise IndexError else let! x := py_nth o t in Ok (- x)%Q.

(* torch.round: to the nearest integer, halves to even *)
Definition torch_round (x : Q) : Z :=
  let f := Qfloor x in
  match Qcompare (x - inject_Z f) (1 # 2) with
  | Lt => f
  | Gt => f + 1
  | Eq => if Z.even f then f else f + 1
  end.

(* ---- chord sequence model ---- *)
Definition IGNORED : Z := -100.
(* torch.roll(targets, -1, dims=1), one row *)
Definition roll_back {A} (l : list A) : list A := match l with [] => [] | x :: r => r ++ [x] end.

(* chord_sequence_models.py:92-108 get_data_from_batch, one row of the batch *)
Definition csm_row (longest : nat) (d : item_data) : res (list row * nat * list Z) :=
  let inputs := firstn longest (id_inputs d) in
  let targets := firstn longest (id_targets d) in
  let! flags := mapM (fun r => py_nth r (-1)) inputs in
  if negb (Nat.eqb (length flags) (length targets)) then Raise IndexError
  else
    let targets := map (fun x : Z * Z => if fst x =? 1 then IGNORED else snd x) (combine flags targets) in
    match targets, id_target_length d with
    | [], _ => Raise IndexError
    | _, None => Raise KeyError
    | _ :: r, Some len =>
        let targets := IGNORED :: r in
        let targets := firstn len targets ++ map (fun _ => IGNORED) (skipn len targets) in
        Ok (inputs, id_length d, roll_back targets)
    end.
(* chord_sequence_models.py:92-108 get_data_from_batch: the whole batch *)
Definition csm_batch (b : list item_data) : res (list (list row * nat * list Z)) :=
  let! _ := stack (map id_inputs b) in
  let! _ := stack (map id_targets b) in
  let! longest := np_max (map id_length b) in
  mapM (csm_row longest) b.

(* chord_sequence_models.py:143-161, one batch *)
Definition csm_tally (net : list row -> list (list Q)) (filler : list Q) (b : list item_data) : res tally :=
  let! data := csm_batch b in
  let! outs := forward net filler (map fst data) in
  let! pairs := pair_up outs (map snd data) in
  let! l := mapM (fun x : list Q * Z => let! a := np_argmax (fst x) in
                                        let! loss := nll (fst x) (snd x) in
                                        Ok (a =? snd x, loss))
                 (filter (fun x : list Q * Z => negb (snd x =? IGNORED)) pairs) in
  Ok (measure (zlen l) l).

(* ---- pitch-based chord sequence model ---- *)
(* An item whose targets are rows of pitches *)
Record pitch_item := mkPI { pi_inputs : list row; pi_length : nat; pi_targets : list row }.
(* chord_sequence_models.py:464-475 get_data_from_batch *)
Definition pitch_batch (b : list pitch_item) : res (list (list row * nat * list row)) :=
  let! _ := stack (map pi_inputs b) in
  let! _ := stack (map pi_targets b) in
  let! longest := np_max (map pi_length b) in
  Ok (map (fun d => (firstn longest (pi_inputs d), pi_length d,
                     roll_back (firstn longest (pi_targets d)))) b).
(* chord_sequence_models.py:482-487, 499-504, 529-535: the outputs and targets that are measured *)
Definition pitch_pairs (net : list row -> list (list Q)) (filler : list Q) (b : list pitch_item)
  : res (list (list Q * row)) :=
  let! data := pitch_batch b in
  let! outs := forward net filler (map fst data) in
  let! pairs := pair_up outs (map snd data) in
  let! flags := mapM (fun x : list Q * row => let! f := py_nth (snd x) 0 in Ok (f =? 0)) pairs in
  Ok (map snd (filter fst (combine flags pairs))).
(* chord_sequence_models.py:508-510: the accuracy of one batch in validation, over single pitches *)
Definition pitch_hits (x : list Q * row) : list bool :=
  map (fun y : Q * Z => torch_round (fst y) =? snd y) (combine (fst x) (snd x)).
(* 100 * hits / pitches of the batch *)
Definition pitch_accuracy (pairs : list (list Q * row)) : option Q :=
  mean_of (inject_Z (100 * zlen (filter (fun b => b) (flat_map pitch_hits pairs))))
          (zlen (flat_map snd pairs)).
(* chord_sequence_models.py:515-551 evaluate: loss is kept per pitch (reduction="none"), as a
   tensor of one row per measured output; adding two such tensors needs the same number of
   rows (or one row in one of them); .item() of a tensor that has not exactly one entry is a
   ValueError.  [width] is the number of pitches. *)
Definition broadcast (a b : nat) : res nat :=
  if (a =? b)%nat then Ok a else if (a =? 1)%nat then Ok b else if (b =? 1)%nat then Ok a
  else Raise RuntimeError.
(* chord_sequence_models.py:515-551 evaluate: the .item() of a tensor with several losses is a ValueError *)
Definition pitch_evaluate (net : list row -> list (list Q)) (filler : list Q) (width size : nat)
  (data : list pitch_item) : res (option Q * option Q) :=
  let! bs := loader size data in
  let! ls := mapM (pitch_pairs net filler) bs in
  match map (@length _) ls with
  | [] => Raise ZeroDivisionError
  | n :: rest =>
      (* total_loss = 0 + loss of the first batch: n rows of width entries *)
      let! rows := fold_left (fun acc k => let! a := acc in broadcast a k) rest (Ok n) in
      if (rows * width =? 1)%nat then Raise Unmodelled else Raise ValueError
  end.

(* ---- chord transition model ---- *)
(* An item of the chord transition dataset: one row per note *)
Record note_item := mkNI { ni_inputs : list (list Q); ni_length : nat;
                           ni_targets : list Z; ni_target_length : nat }.
(* chord_transition_models.py:60-71 get_data_from_batch; the mask, inputs.sum(axis=2) > 0 and
   targets != -100, needs inputs and targets of equal length (otherwise a RuntimeError).  The
   last component has the mask beside each target. *)
Definition ctm_row (longest longest_target : nat) (d : note_item)
  : res (list (list Q) * nat * list (Z * bool)) :=
  let inputs := firstn longest (ni_inputs d) in
  let targets := firstn longest_target (ni_targets d) in
  if negb (Nat.eqb (length inputs) (length targets)) then Raise RuntimeError
  else Ok (inputs, ni_length d,
           map (fun x : list Q * Z => (snd x, negb (Qle_bool (qtotal (fst x)) 0) && negb (snd x =? IGNORED)))
               (combine inputs targets)).
(* chord_transition_models.py:60-71, the whole batch *)
Definition ctm_batch (b : list note_item) : res (list (list (list Q) * nat * list (Z * bool))) :=
  let! _ := stack (map ni_inputs b) in
  let! _ := stack (map ni_targets b) in
  let! longest := np_max (map ni_length b) in
  let! longest_target := np_max (map ni_target_length b) in
  mapM (ctm_row longest longest_target) b.
(* chord_transition_models.py:114-129 and 92-105, one batch *)
Definition ctm_tally (bce : Q -> Z -> Q) (net : list (list Q) -> list Q) (filler : Q)
  (b : list note_item) : res tally :=
  let! data := ctm_batch b in
  let! outs := forward net filler (map fst data) in
  let! pairs := pair_up outs (map snd data) in
  let l := map (fun x : Q * (Z * bool) => (torch_round (fst x) =? fst (snd x), bce (fst x) (fst (snd x))))
               (filter (fun x : Q * (Z * bool) => snd (snd x)) pairs) in
  Ok (measure (zlen l) l).

(* ---- key transition model ---- *)
(* key_transition_models.py:74-84 get_data_from_batch *)
Definition ktm_targets (d : key_item) : res (list Z) :=
  match ki_target d with TransitionTargets l => Ok l | SequenceTarget _ => Raise IndexError end.
(* key_transition_models.py:74-84, the whole batch *)
Definition ktm_batch (b : list key_item) : res (list (list row * nat * list Z)) :=
  let! _ := stack (map ki_inputs b) in
  let! ts := mapM ktm_targets b in
  let! _ := stack ts in
  let! longest := np_max (map ki_length b) in
  Ok (map (fun x : key_item * list Z =>
             (firstn longest (ki_inputs (fst x)), ki_length (fst x), firstn longest (snd x)))
          (combine b ts)).
(* key_transition_models.py:123-137 and 100-114, one batch *)
Definition ktm_tally (bce : Q -> Z -> Q) (net : list row -> list Q) (filler : Q) (b : list key_item)
  : res tally :=
  let! data := ktm_batch b in
  let! outs := forward net filler (map fst data) in
  let! pairs := pair_up outs (map snd data) in
  let l := map (fun x : Q * Z => (torch_round (fst x) =? snd x, bce (fst x) (snd x)))
               (filter (fun x : Q * Z => negb (snd x =? IGNORED)) pairs) in
  Ok (measure (zlen l) l).

(* ---- models with one output for each sequence ---- *)
Section Last.
Context {R : Type}.
Variable last : list R -> list Q.
(* key_sequence_models.py:287-309 forward: the output at the last position of each sequence *)
Definition forward_last (xs : list (list R * nat)) : res (list (list Q)) :=
  mapM (fun x : list R * nat =>
          let n := Nat.max 1 (snd x) in
          if (length (fst x) <? n)%nat then Raise RuntimeError else Ok (last (firstn n (fst x)))) xs.
(* chord_classifier_models.py:294-321 forward.  last_forward is squeezed in all dimensions, so
   with one sequence in the batch it has one dimension while last_backward has two: torch.cat
   along dimension 1 raises (an IndexError in torch 1.9; hidden_dim is taken to be above 1). *)
Definition ccm_forward (xs : list (list R * nat)) : res (list (list Q)) :=
  let! outs := forward_last xs in
  if Nat.eqb (length xs) 1 then Raise IndexError else Ok outs.
End Last.

(* An item with one target *)
Record one_item (R : Type) := mkOI { oi_inputs : list R; oi_length : nat; oi_target : Z }.
Arguments mkOI {R}. Arguments oi_inputs {R}. Arguments oi_length {R}. Arguments oi_target {R}.

(* whether the output is right and its loss *)
Definition judge (ell : list Q -> Z -> res Q) (x : list Q * Z) : res (bool * Q) :=
  let! a := np_argmax (fst x) in
  let! loss := ell (fst x) (snd x) in
  Ok (a =? snd x, loss).
(* F.cross_entropy of one output: [ce], for a target that is a class *)
Definition cross_entropy (ce : list Q -> Z -> Q) (o : list Q) (t : Z) : res Q :=
  if (t <? 0) || (zlen o <=? t) then Raise IndexError else Ok (ce o t).

(* chord_classifier_models.py:131-144, one batch *)
Definition ccm_tally {R} (ce : list Q -> Z -> Q) (last : list R -> list Q) (b : list (one_item R)) : res tally :=
  let! _ := stack (map oi_inputs b) in
  let! outs := ccm_forward last (map (fun d => (oi_inputs d, oi_length d)) b) in
  let! l := mapM (judge (cross_entropy ce)) (combine outs (map oi_target b)) in
  Ok (measure (zlen b) l).

(* key_sequence_models.py:78-86 get_data_from_batch and 126-137, one batch.  batch_count is
   len(batch): the batch is a dictionary, with [fields] entries ("targets", "inputs" and
   "input_lengths": 3). *)
Definition KSM_FIELDS : Z := 3.
(* key_sequence_models.py:119-142: what one batch adds *)
Definition ksm_tally (last : list row -> list Q) (b : list (one_item row)) : res tally :=
  let! _ := stack (map oi_inputs b) in
  let! longest := np_max (map oi_length b) in
  let! outs := forward_last last (map (fun d => (firstn longest (oi_inputs d), oi_length d)) b) in
  let! l := mapM (judge nll) (combine outs (map oi_target b)) in
  Ok (measure KSM_FIELDS l).

(* ---- valid_batch_size: datasets.py:313, 371, 597, 890, 988 ---- *)
Definition CTM_BATCH : nat := 64.
(* ChordClassificationDataset, datasets.py:371 *)
Definition CCM_BATCH : nat := 512.
(* ChordSequenceDataset, datasets.py:597 *)
Definition CSM_BATCH : nat := 64.
(* KeyTransitionDataset, datasets.py:890 *)
Definition KTM_BATCH : nat := 64.
(* KeySequenceDataset, datasets.py:988 *)
Definition KSM_BATCH : nat := 64.

(* ---- inference ---- *)
(* joint_model.py:793-837 get_chord_classifications: the outputs of all batches, in order
   (before softmax and logarithm, which work on each output by itself) *)
Definition chord_classifications {R} (last : list R -> list Q) (items : list (list R * nat)) : res (list (list Q)) :=
  let! bs := loader CCM_BATCH items in
  let! outs := mapM (fun b => let! _ := stack (map fst b) in ccm_forward last b) bs in
  Ok (concat outs).

(* joint_model.py:631-650 get_chord_change_probs: the only item of the dataset *)
Definition chord_change_probs (net : list (list Q) -> list Q) (filler : Q) (items : list note_item)
  : res (option (list Q)) :=
  let! bs := loader CTM_BATCH items in
  match bs with
  | [] => Ok None
  | b :: _ =>
      (* chord_transition_models.py:73-76 get_output *)
      let! data := ctm_batch b in
      let! outs := forward net filler (map fst data) in
      let! out := hget outs 0 in
      let! d := hget b 0 in
      Ok (Some (firstn (ni_length d) out))
  end.

(* joint_model.py:1129-1168, 1204-1242, 1337-1378: all states are run through a network, one
   step each, with their inputs and hidden states ([start] for a state that has none yet);
   what comes out is put into the states in order.  [step] is the network on one state. *)
Section Steps.
Context {I H O : Type}.
Variable step : I -> H -> O * H.
Variable start : H.
Variable reduce : I -> res I.
(* the batched runs, for all states *)
Definition run_steps (size : nat) (states : list (I * option H)) : res (list (O * H)) :=
  let items := map (fun s : I * option H =>
                      (fst s, match snd s with Some h => h | None => start end)) states in
  let! bs := loader size items in
  let! outs := mapM (mapM (fun x : I * H => let! i := reduce (fst x) in Ok (step i (snd x)))) bs in
  Ok (concat outs).
End Steps.

(* The options of a model: get_dataset_kwargs (key_transition_models.py:58-72) *)
Record kwargs := mkKw { kw_reduction : option reduction; kw_use_inversions : bool }.
(* joint_model.py:1145, 1217: KeyTransitionDataset([], kwargs).reduce.  The second parameter of
   the constructor is transform, so the dataset has the default reduction (None) and
   use_inversions (True). *)
Definition key_step_reduce (k : kwargs) (rows : list row) : res (list row) := key_reduce None true rows.
(* joint_model.py:1353-1355: ChordTransitionDataset([], ...).reduce is the default, which does
   nothing (datasets.py:131-142) *)
Definition csm_step_reduce (k : kwargs) (rows : list row) : res (list row) := Ok rows.
