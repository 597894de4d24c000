(* The data files: create_h5_data.py:88-168, harmonic_inference/data/datasets.py:1288-1345
   get_dataset_splits, and who reads the files: train.py:151-256, test.py:559-581.
   Simplifications: the constructors of the datasets and Piece.to_dict are given from outside, and so
   are the parsed files and the shuffled index array (get_splits, Model_Dataset.v); a directory is a
   list of names with contents, the newest first, and all names are in the directory --output; a
   dataset in a file is the dataset (C43 is about the file format); writing to the disk does not fail;
   messages, --log and the progress bars are left out.  The texts of --corpus are joined with | to a
   regular expression: modelled for texts without characters that are special there. *)
From Coq Require Import String Ascii QArith.
From Verif Require Export Model_Dataset Model_Load Model_Checkpoints.
From Coq Require Import List.
Import ListNotations.
Close Scope Q_scope.
Open Scope Z_scope.

(* create_h5_data.py:15-21 DATASET_CLASSES *)
Inductive dataset_class := ChordTransitionDataset | ChordClassificationDataset | ChordSequenceDataset
| KeyTransitionDataset | KeySequenceDataset.
(* create_h5_data.py:15-21 *)
Definition DATASET_CLASSES : list dataset_class :=
  [ChordTransitionDataset; ChordClassificationDataset; ChordSequenceDataset; KeyTransitionDataset; KeySequenceDataset].
(* __name__ *)
Definition class_name (c : dataset_class) : pystr :=
  match c with
  | ChordTransitionDataset => L"ChordTransitionDataset"
  | ChordClassificationDataset => L"ChordClassificationDataset"
  | ChordSequenceDataset => L"ChordSequenceDataset"
  | KeyTransitionDataset => L"KeyTransitionDataset"
  | KeySequenceDataset => L"KeySequenceDataset"
  end.
(* create_h5_data.py:23 *)
Definition SPLITS : list pystr := [L"train"; L"valid"; L"test"].

(* c in text *)
Fixpoint contains (c text : pystr) : bool :=
  is_prefix c text || match text with [] => false | _ :: r => contains c r end.
(* the characters that are special in a regular expression *)
Definition special (a : ascii) : bool := existsb (Ascii.eqb a) (L".^$*+?{}[]\|()").
(* create_h5_data.py:141-143, the filter of files_df by corpus_name *)
Definition filter_corpus (corpus : list pystr) (files : list (Z * pystr)) : res (list (Z * pystr)) :=
  if existsb (existsb special) corpus then Raise Unmodelled
  else Ok (filter (fun f => existsb (fun c => contains c (snd f)) corpus) files).

Section Create.
Context {P D Dat : Type}.
Variables (fadd fmul fdiv : Q -> Q -> Q).        (* float arithmetic *)
Variable to_dict : P -> D.                       (* Piece.to_dict *)
Variable build : dataset_class -> list P -> res Dat.    (* the constructor of the class *)

(* the input: files_df as ids and corpus names, with None for an id that is skipped; or the scores
   with labels, where an exception is not caught *)
Inductive corpus_input :=
| FromDfs (files : list (Z * pystr)) (parse : Z -> option P)
| FromXmls (scores : list (res P)).
(* the arguments --input, --corpus, --debug, --seed, --splits of a run, and the shuffled indexes *)
Record run := mkRun { r_input : corpus_input; r_corpus : list pystr; r_debug : bool; r_seed : Z;
                      r_splits : Q * Q * Q; r_perm : list nat }.

(* datasets.py:1182-1285, either branch *)
Definition split_ids_and_pieces (inp : corpus_input) (perm : list nat) (splits : list Q)
  : res (list (list Z) * list (list P)) :=
  match inp with
  | FromDfs files parse => get_splits fadd fmul fdiv parse perm splits (map fst files)
  | FromXmls scores =>
      let! _ := normalise fadd fdiv splits in
      let! ps := mapM (fun x => x) scores in
      get_splits fadd fmul fdiv (fun i => nth_error ps (Z.to_nat i)) perm splits (zrange 0 (zlen ps))
  end.
(* datasets.py:1342-1343, the loop over the classes for one split; the matrix as a function of the
   index of the class and of the split *)
Fixpoint build_all (classes : list dataset_class) (i1 : nat) (i2 : nat) (pieces : list P)
  (m : nat -> nat -> option Dat) : res (nat -> nat -> option Dat) :=
  match classes with
  | [] => Ok m
  | c :: r =>
      let! d := build c pieces in
      build_all r (S i1) i2 pieces
        (fun a b => if (Nat.eqb a i1 && Nat.eqb b i2)%bool then Some d else m a b)
  end.
(* datasets.py:1333-1343, the loop over the splits *)
Fixpoint build_splits (i2 : nat) (split_pieces : list (list P)) (m : nat -> nat -> option Dat)
  : res (nat -> nat -> option Dat) :=
  match split_pieces with
  | [] => Ok m
  | pieces :: r =>
      let! m := (match pieces with [] => Ok m | _ => build_all DATASET_CLASSES 0 i2 pieces m end) in
      build_splits (S i2) r m
  end.
(* datasets.py:1288-1345 get_dataset_splits, for DATASET_CLASSES *)
Definition get_dataset_splits (inp : corpus_input) (perm : list nat) (splits : list Q)
  : res ((nat -> nat -> option Dat) * list (list Z) * list (list P)) :=
  let! (split_ids, split_pieces) := split_ids_and_pieces inp perm splits in
  let! m := build_splits 0 (firstn (List.length splits) split_pieces) (fun _ _ => None) in
  Ok (m, split_ids, split_pieces).

(* a file: the dictionaries of pieces, or a dataset with file_ids *)
Inductive content := PklFile (dicts : list D) | H5File (data : Dat) (file_ids : list Z).
(* a directory *)
Notation dir := (list (pystr * content)).
(* create_h5_data.py:157 *)
Definition pickle_name (split : pystr) (seed : Z) : pystr :=
  L"pieces_" ++ split ++ L"_seed_" ++ z_to_str seed ++ L".pkl".
(* create_h5_data.py:164, train.py:212, 242-243, test.py:562 *)
Definition h5_name (c : dataset_class) (split : pystr) (seed : Z) : pystr :=
  class_name c ++ L"_" ++ split ++ L"_seed_" ++ z_to_str seed ++ L".h5".
(* create_h5_data.py:155-159 *)
Fixpoint write_pickles (splits : list pystr) (split_pieces : list (list P)) (seed : Z) (fs : dir) : dir :=
  match splits, split_pieces with
  | split :: r, pieces :: rp =>
      write_pickles r rp seed
        (match pieces with [] => fs | _ => (pickle_name split seed, PklFile (map to_dict pieces)) :: fs end)
  | _, _ => fs
  end.
(* create_h5_data.py:162-167, the loop over the splits for one class *)
Fixpoint write_class (c : dataset_class) (row : nat -> option Dat) (split_ids : list (list Z)) (seed : Z)
  (i2 : nat) (splits : list pystr) (fs : dir) : res dir :=
  match splits with
  | [] => Ok fs
  | split :: r =>
      let! fs := (match row i2 with
                  | None => Ok fs
                  | Some d => let! ids := py_nth split_ids (Z.of_nat i2) in Ok ((h5_name c split seed, H5File d ids) :: fs)
                  end) in
      write_class c row split_ids seed (S i2) r fs
  end.
(* create_h5_data.py:161-167 *)
Fixpoint write_h5 (classes : list dataset_class) (i1 : nat) (m : nat -> nat -> option Dat) (split_ids : list (list Z))
  (seed : Z) (fs : dir) : res dir :=
  match classes with
  | [] => Ok fs
  | c :: r => let! fs := write_class c (m i1) split_ids seed 0 SPLITS fs in write_h5 r (S i1) m split_ids seed fs
  end.

(* sys.exit, or the directory at the end *)
Inductive ended := Exited (code : Z) | Finished (fs : dir).
(* create_h5_data.py:126-143: --debug takes the first five files, --corpus filters; neither has an
   effect on scores *)
Definition select_input (r : run) : res corpus_input :=
  match r_input r with
  | FromXmls scores => Ok (FromXmls scores)
  | FromDfs files parse =>
      let files := if r_debug r then firstn 5 files else files in
      let! files := match r_corpus r with [] => Ok files | c => filter_corpus c files end in
      Ok (FromDfs files parse)
  end.
(* create_h5_data.py:88-168 *)
Definition create_h5_data (r : run) (fs : dir) : res ended :=
  let '(s1, s2, s3) := r_splits r in
  let splits := [s1; s2; s3] in
  if existsb (fun s => negb (Qle_bool 0%Q s)) splits then Ok (Exited 1)
  else
    let sum_splits := fold_left fadd splits 0%Q in
    if Qeq_bool sum_splits 0%Q then Ok (Exited 1)
    else
      let splits := map (fun s => fdiv s sum_splits) splits in
      let! inp := select_input r in
      let! (m, split_ids, split_pieces) := get_dataset_splits inp (r_perm r) splits in
      let fs := write_pickles SPLITS split_pieces (r_seed r) fs in
      let! fs := write_h5 DATASET_CLASSES 0 m split_ids (r_seed r) fs in
      Ok (Finished fs).

(* the dictionaries in a pickle file, as load_pieces sees them (data_utils.py:124-130) *)
Definition pickle_at (fs : dir) (name : pystr) : pickle D :=
  match str_lookup name fs with Some (PklFile ds) => Pickle ds | _ => MissingPickle end.
(* the class of a model: train.py:151-208; None: train.py:234-236 or the branch of the icm *)
Definition class_of_model (model : pystr) : option dataset_class :=
  str_lookup model [(L"ccm", ChordClassificationDataset); (L"ctm", ChordTransitionDataset); (L"csm", ChordSequenceDataset);
                    (L"ktm", KeyTransitionDataset); (L"ksm", KeySequenceDataset)].
(* train.py:242-256: the data to train on and to validate on; None: no such file *)
Definition train_data (fs : dir) (c : dataset_class) (seed : Z) : option (Dat * Dat) :=
  match str_lookup (h5_name c (L"train") seed) fs, str_lookup (h5_name c (L"valid") seed) fs with
  | Some (H5File t _), Some (H5File v _) => Some (t, v)
  | _, _ => None
  end.
(* train.py:212-225: the pieces of the icm; None: no such file *)
Definition icm_pieces (fs : dir) (inp : input) (seed : Z) : option (res (list (piece_plan D))) :=
  match str_lookup (h5_name ChordTransitionDataset (L"train") seed) fs with
  | Some (H5File _ file_ids) => Some (load_pieces inp (pickle_at fs (pickle_name (L"train") seed)) file_ids None)
  | _ => None
  end.
(* test.py:559-581: the pieces that are evaluated, without --no_h5 *)
Definition test_pieces (fs : dir) (inp : input) (test : bool) (seed : Z) (id : option Z) : res (list (piece_plan D)) :=
  let data_type := if test then L"test" else L"valid" in
  let file_ids := match str_lookup (h5_name ChordTransitionDataset data_type seed) fs with
                  | Some (H5File _ file_ids) => file_ids
                  | _ => []
                  end in
  load_pieces inp (pickle_at fs (pickle_name data_type seed)) file_ids id.
End Create.
