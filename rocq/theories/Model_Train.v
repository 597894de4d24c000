(* Runs of train.py: train.py:208-290 for the initial chord model, and an epoch of the others.
   trainer.fit (pytorch_lightning) goes through the batches of dl_train and calls training_step
   on each, then through those of dl_valid with validation_step.  Not modelled: the optimizer, when
   fit stops, the checkpoints and the means of what is logged. *)
From Coq Require Import QArith String Ascii.
From Verif Require Import PyBase Model_Types Model_Heap Model_Dataset Model_Prior Model_Batch Model_Create Model_Steps.
From Coq Require Import List.
Import ListNotations.
Close Scope Q_scope.
Open Scope Z_scope.

(* datasets.py:312, 370, 596, 889, 987 train_batch_size *)
Definition TRAIN_BATCH (c : dataset_class) : nat :=
  match c with
  | ChordTransitionDataset => 8
  | ChordClassificationDataset => 256
  | ChordSequenceDataset | KeyTransitionDataset | KeySequenceDataset => 32
  end.
(* datasets.py:313, 371, 597, 890, 988 valid_batch_size *)
Definition VALID_BATCH (c : dataset_class) : nat :=
  match c with
  | ChordClassificationDataset => 512
  | _ => 64
  end.

(* train.py:258-269, 290: one epoch, with the indexes of the items in the order in which the sampler
   draws them; step k is done with the weights after k steps *)
Definition epoch {A B} (step : nat -> list A -> res B) (size : nat) (order : list nat) (data : list A) : res (list B) :=
  let! items := mapM (hget data) order in
  let! bs := loader size items in
  mapM (fun kb : nat * list A => step (fst kb) (snd kb)) (combine (seq 0 (length bs)) bs).
(* train.py:258-263: shuffle=True, a permutation drawn for each epoch *)
Definition train_epoch {A B} (c : dataset_class) (step : nat -> list A -> res B) (order : list nat) (data : list A) : res (list B) :=
  epoch step (TRAIN_BATCH c) order data.
(* train.py:264-269: in order; the weights stay the same *)
Definition valid_epoch {A B} (c : dataset_class) (step : list A -> res B) (data : list A) : res (list B) :=
  epoch (fun _ => step) (VALID_BATCH c) (seq 0 (length data)) data.

(* train.py:226-231: the file of the initial chord model, from the chords of the pieces (get_chords is None for a
   piece without annotations) *)
Definition train_icm_model (pieces : list (option (list chord))) : res (list (pystr * json)) :=
  let! chords := mapM (fun p => match p with Some cs => py_nth cs 0 | None => Raise TypeError end) pieces in
  train_icm chords 1%Q.
