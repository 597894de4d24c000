(* Vocabulary for the statements about the data files. *)
From Coq Require Import String Ascii QArith Qabs Permutation.
From Verif Require Import Model_Create Spec_Dataset.
From Coq Require Import List.
Import ListNotations.
Close Scope Q_scope.
Open Scope Z_scope.

(* m has the partners of those elements of l that have one, in the order of l *)
Inductive selects {A B} (R : A -> B -> Prop) : list A -> list B -> Prop :=
| select_none : selects R [] []
| select_take x y l m : R x y -> selects R l m -> selects R (x :: l) (y :: m)
| select_skip x l m : (forall y, ~ R x y) -> selects R l m -> selects R (x :: l) m.

(* the names of the three splits, and of the files *)
Definition split_names : list pystr := [L"train"; L"valid"; L"test"].
Definition pieces_file (split : pystr) (seed : Z) : pystr :=
  L"pieces_" ++ split ++ L"_seed_" ++ z_to_str seed ++ L".pkl".
Definition dataset_file (c : dataset_class) (split : pystr) (seed : Z) : pystr :=
  match c with
  | ChordTransitionDataset => L"ChordTransitionDataset_"
  | ChordClassificationDataset => L"ChordClassificationDataset_"
  | ChordSequenceDataset => L"ChordSequenceDataset_"
  | KeyTransitionDataset => L"KeyTransitionDataset_"
  | KeySequenceDataset => L"KeySequenceDataset_"
  end ++ split ++ L"_seed_" ++ z_to_str seed ++ L".h5".
(* the class whose data a model learns from *)
Definition learns_from (model : pystr) (c : dataset_class) : Prop :=
  In (model, c) [(L"ccm", ChordClassificationDataset); (L"ctm", ChordTransitionDataset); (L"csm", ChordSequenceDataset);
                 (L"ktm", KeyTransitionDataset); (L"ksm", KeySequenceDataset)].

(* a number for each class, for examples *)
Definition class_code (c : dataset_class) : Z :=
  match c with
  | ChordTransitionDataset => 1 | ChordClassificationDataset => 2 | ChordSequenceDataset => 3
  | KeyTransitionDataset => 4 | KeySequenceDataset => 5
  end.

Section Create.
Context {P D Dat : Type}.
Variables (fadd fmul fdiv : Q -> Q -> Q) (to_dict : P -> D) (build : dataset_class -> list P -> res Dat).

(* the corpus is one of those asked for: its name has one of the texts in it, or none is given *)
Definition in_corpus (r : @run P) (name : pystr) : Prop :=
  r_corpus r = [] \/ exists c a b, In c (r_corpus r) /\ name = a ++ c ++ b.
(* no text of --corpus has a character that is special in regular expressions *)
Definition plain_corpus (r : @run P) : Prop :=
  Forall (Forall (fun a => ~ In a (L".^$*+?{}[]\|()"))) (r_corpus r).
(* the files that the run uses, with their pieces *)
Definition used (r : @run P) (l : list (Z * P)) : Prop :=
  match r_input r with
  | FromDfs files parse =>
      selects (fun f x => in_corpus r (snd f) /\ fst x = fst f /\ parse (fst f) = Some (snd x))
        (if r_debug r then firstn 5 files else files) l
  | FromXmls scores => map fst l = zrange 0 (zlen scores) /\ scores = map (fun x => Ok (snd x)) l
  end.
(* the proportions as a list *)
Definition proportions (r : @run P) : list Q := let '(a, b, c) := r_splits r in [a; b; c].
(* no proportion is negative, they do not add up to 0, and the errors of the float arithmetic in
   dividing twice by the sum and in adding up are below one half of a file *)
Definition good_proportions (r : @run P) (n : Z) : Prop :=
  let shares l := map (fun s => fdiv s (fold_left fadd l 0%Q)) l in
  let once := shares (proportions r) in
  float_like fadd fmul fdiv
  /\ Forall (fun s => 0 <= s)%Q (proportions r)
  /\ (0 < fold_left fadd (proportions r) 0)%Q /\ (0 < fold_left fadd once 0)%Q
  /\ (Qabs (fmul (fold_left fadd (shares once) 0%Q) (inject_Z n) - inject_Z n) < 1 # 2)%Q.
(* a run as the command line gives it: the files, and a permutation to shuffle them *)
Definition good_run (r : @run P) (l : list (Z * P)) : Prop :=
  plain_corpus r /\ used r l /\ good_proportions r (zlen l) /\ Permutation (r_perm r) (seq 0 (length l)).
(* the files are divided into three parts *)
Definition divided (l : list (Z * P)) (parts : list (list (Z * P))) : Prop :=
  length parts = 3%nat /\ Permutation (concat parts) l.

Notation dir := (list (pystr * @content D Dat)).
(* the directory holds the pieces, and the data of every class, for this part and under this name *)
Definition holds (fs : dir) (split : pystr) (seed : Z) (part : list (Z * P)) : Prop :=
  str_lookup (pieces_file split seed) fs = Some (PklFile (map (fun x => to_dict (snd x)) part))
  /\ forall c, exists d, build c (map snd part) = Ok d
       /\ str_lookup (dataset_file c split seed) fs = Some (H5File d (map fst part)).
(* the directory has no file of this split *)
Definition has_none (fs : dir) (split : pystr) (seed : Z) : Prop :=
  str_lookup (pieces_file split seed) fs = None
  /\ forall c, str_lookup (dataset_file c split seed) fs = None.
(* fs' is fs with the files of the parts that are not empty *)
Definition written (seed : Z) (parts : list (list (Z * P))) (fs fs' : dir) : Prop :=
  (forall k split part, nth_error split_names k = Some split -> nth_error parts k = Some part ->
     part <> [] -> holds fs' split seed part)
  /\ forall name,
       (forall k split part, nth_error split_names k = Some split -> nth_error parts k = Some part -> part <> [] ->
          name <> pieces_file split seed /\ forall c, name <> dataset_file c split seed) ->
       str_lookup name fs' = str_lookup name fs.
(* the directory after some runs that ended normally, the last one first *)
Inductive history : list (@run P) -> dir -> Prop :=
| no_runs : history [] []
| one_more r l h fs fs' : history h fs -> good_run r l ->
    create_h5_data fadd fmul fdiv to_dict build r fs = Ok (Finished fs') -> history (r :: h) fs'.
End Create.
