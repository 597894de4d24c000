(* What the recurrent networks should be asked.  Used by Prop_Hidden.v. *)
From Verif Require Import PyBase Model_Search Spec_Search Model_Hidden.
From Coq Require Import List.
Import ListNotations.
Open Scope Z_scope.

(* the states of an analysis, without the initial one: one for each chord *)
Definition analysis (s : state) : list state := map snd (steps_of s).
(* a network that is run from the start on a whole sequence *)
Definition feed {H O} (n : net H O) (xs : list (list Z)) : O := n_out n (fold_left (n_step n) xs (n_start n)).
(* the output is that of the network on the input vectors of all these states *)
Definition answer {H O} (n : net H O) (vector : state -> res (list Z)) (l : list state) (o : O) : Prop :=
  exists xs, Forall2 (fun s x => vector s = Ok x) l xs /\ o = feed n xs.
