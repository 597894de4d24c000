(* Vocabulary for C115. *)
From Verif Require Export Spec_Dataset.
Open Scope Z_scope.

(* the whole numbers with a half precision float: a factor below 2^11 times one of 1, 2, 4, ..., 32 *)
Definition is_half (z : Z) : Prop :=
  exists m e, z = m * 2 ^ e /\ Z.abs m < 2048 /\ 0 <= e <= 5.
(* x is such a number, and none is nearer to z *)
Definition nearest_half (z x : Z) : Prop := is_half x /\ forall y, is_half y -> Z.abs (z - x) <= Z.abs (z - y).
(* every number in the rows is 0 or 1 *)
Definition binary (rows : list (list row)) : Prop := Forall (Forall (Forall (fun x => x = 0 \/ x = 1))) rows.
(* the numbers that a dataset has as targets *)
Definition target_numbers (t : targets) : list Z := match t with Ragged l => concat l | Scalars l => l end.
