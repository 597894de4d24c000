(* Vocabulary for the statements about beams. *)
From Verif Require Export Model_Beam.
From Coq Require Export Permutation.
Open Scope Z_scope.

(* The identities of the state objects in a sequence of add calls; NoDup of this list says
   that each call adds a new object. *)
Definition ids (ops : list (bstate * bool)) : list nat := map (fun o => s_id (fst o)) ops.

(* no call is forced *)
Definition unforced (ops : list (bstate * bool)) : Prop := forall o, In o ops -> snd o = false.
(* number of forced calls *)
Definition forced_calls (ops : list (bstate * bool)) : Z := zlen (filter snd ops).

(* number of states of l that score at least as well as r *)
Definition at_least (r : bstate) (l : list bstate) : Z :=
  zlen (filter (fun b => s_score r <=? s_score b) l).

(* two states count as the same analysis: equal tuples of recent keys and chords, or, without
   tuples, the same object *)
Definition same_hash (a b : bstate) : Prop :=
  match s_tuple a, s_tuple b with
  | Some x, Some y => x = y
  | None, None => s_id a = s_id b
  | _, _ => False
  end.
