(* What a classifier that does not depend on transposition should do.  Used by Prop_Cnn.v. *)
From Verif Require Import PyBase Model_Cnn.
Open Scope nat_scope.

(* r' is r, transposed by k steps around the circle of its pitches *)
Definition transposed {A} (k : nat) (r r' : list A) : Prop :=
  length r' = length r /\ forall i, i < length r -> nth_error r' i = nth_error r ((i + k) mod length r).
(* the entries of the matrix at one position, one for each channel *)
Definition at_position {A} (i : nat) (m : list (list A)) (column : list A) : Prop :=
  Forall2 (fun channel a => nth_error channel i = Some a) m column.
(* the layers fit together, as the constructor makes them *)
Inductive chained {A} : nat -> list (linear A * option (list A -> list A)) -> nat -> Prop :=
| ch_nil n : chained n [] n
| ch_cons n l f r m : l_in l = n -> chained (length (l_rows l)) r m -> chained n ((l, f) :: r) m.
(* the shapes that the constructor gives the layers, with at least one channel and one pitch *)
Definition constructed {A} (net : cnn A) : Prop :=
  0 < length (cn_conv net) /\ 0 < cn_width net /\
  l_in (cn_input net) = length (cn_conv net) /\
  exists m, chained (length (l_rows (cn_input net))) (cn_hidden net) m /\ l_in (cn_output net) = m.
(* the rows of a tensor all have its width *)
Definition rectangular {A} (x : tensor A) : Prop :=
  match x with
  | T2 w rows => rows <> [] /\ Forall (fun r => length r = w) rows
  | T3 w rows => rows <> [] /\ Forall (Forall (fun r => length r = w)) rows
  end.
(* for each root i there is an answer to what was found at i in m' and at i + k in m *)
Definition same_answers {A} (net : cnn A) (k : nat) (answer : list A -> list A -> Prop) (m m' : list (list A)) : Prop :=
  forall i, i < cn_width net -> exists column o,
    at_position i m' column /\ at_position ((i + k) mod cn_width net) m column /\ answer column o.
