(* C92: what the combined tables are to hold. *)
From Coq Require Import String Ascii.
From Verif Require Import Model_Aggregate.
From Coq Require Import List.
Import ListNotations.
Open Scope Z_scope.

(* the table of kind k (harmonies, notes, measures) beside the file at base/d/file *)
Definition beside (k : pystr) (p q : path) : Prop :=
  exists base d file, p = base ++ [d; file] /\ q = base ++ [k; file].
(* a path base/dir/file *)
Definition three_parts (p : path) : Prop := exists base d file, p = base ++ [d; file].

(* the rows of the combined table are, for every file, the rows of its own table *)
Definition holds_rows {R} (read_table : path -> option (list R)) (k : pystr) (found : list path) (t : indexed R) : Prop :=
  forall i j r, In (i, j, r) t <->
    exists n m p q rows, i = Z.of_nat n /\ j = Z.of_nat m /\ nth_error found n = Some p /\ beside k p q /\
      read_table q = Some rows /\ nth_error rows m = Some r.
(* ... in their order *)
Definition in_order {R} (t : indexed R) : Prop :=
  forall a b i j r i' j' r', nth_error t a = Some (i, j, r) -> nth_error t b = Some (i', j', r') ->
    ((a < b)%nat <-> i < i' \/ (i = i' /\ j < j')).

(* what load_pieces gets to see of the written files, if cleaning drops no rows: the index of
   files.tsv and the ids in the tables *)
Definition has_rows {R} (t : option (indexed R)) (i : Z) : bool :=
  match t with Some t => existsb (fun '(i', _, _) => i' =? i) t | None => false end.
Definition as_input {R} (o : out_files R) : input :=
  Frames (match o_files o with Some l => zrange 0 (zlen l) | None => [] end) (has_rows (o_notes o)) (has_rows (o_measures o))
    (match o_chords o with Some t => Some (has_rows (Some t)) | None => None end).
Definition empty_dir {R} : out_files R := OutFiles None None None None.
(* a table of kind k beside p with at least a row *)
Definition table_with_rows {R} (read_table : path -> option (list R)) (k : pystr) (p : path) : Prop :=
  exists q rows, beside k p q /\ read_table q = Some rows /\ rows <> [].
