(* What an epoch of training should do.  Used by Prop_Train.v. *)
From Coq Require Import QArith Permutation.
From Verif Require Import PyBase Model_Types Model_Prior Spec_Batch.
Close Scope Q_scope.
Open Scope Z_scope.

(* the batches: every item is in one batch; all but the last have [size] items, the last one has at most as many *)
Definition dealt {A} (size : nat) (data : list A) (batches : list (list A)) : Prop :=
  exists l, Permutation l data /\ grouped size l batches.
(* each step gives a value that agrees with its batch; steps are counted from 0 *)
Definition step_by_step {A B} (good : nat -> list A -> B -> Prop) (batches : list (list A)) (results : list B) : Prop :=
  length results = length batches /\
  forall k b r, nth_error batches k = Some b -> nth_error results k = Some r -> good k b r.
(* the pieces begin with these chords *)
Definition begin_with (pieces : list (option (list chord))) (chords : list chord) : Prop :=
  Forall2 (fun p c => exists r, p = Some (c :: r)) pieces chords.
