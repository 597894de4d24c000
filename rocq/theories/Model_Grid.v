(* The commands of a grid search: grid_search.py:119-208, and the options test.py reads
   (test.py:363-535, joint_model.py:61-178).
   Simplifications: the values of a searched parameter are given by their texts str(value);
   argparse of grid_search.py is not modelled, its result (the namespace) is the input.  A
   default value that is no list is the list of its one text (grid_search.py:189). *)
From Coq Require Import String Ascii.
From Verif Require Export Model_Output.
From Coq Require Import List.
Import ListNotations.
Open Scope Z_scope.

(* joint_model.py:31-38: the keys of MODEL_CLASSES without "icm" *)
Definition MODEL_NAMES : list pystr := [L"ccm"; L"ctm"; L"csm"; L"ktm"; L"ksm"].
(* joint_model.py:72-178: the names of the parameters in the namespace, in the order of the options *)
Definition PARAMS : list pystr :=
  [L"min_chord_change_prob"; L"max_no_chord_change_prob"; L"max_chord_length"; L"min_key_change_prob";
   L"max_no_key_change_prob"; L"beam_size"; L"max_chord_branching_factor"; L"target_chord_branch_prob";
   L"max_key_branching_factor"; L"target_key_branch_prob"; L"hash_length"; L"ksm_exponent"].

(* grid_search.py:60-62, 163-165 *)
Definition default_checkpoint (model_name : pystr) : pystr :=
  str_join (L"/") [L"`--checkpoint`"; model_name; L"lightning_logs"; L"version_*"; L"checkpoints"; L"*.ckpt"].
(* grid_search.py:84, 136 *)
Definition default_icm : pystr := str_join (L"/") [L"`--checkpoint`"; L"icm"; L"initial_chord_prior.json"].

(* the namespace ARGS of grid_search.py; a model has a checkpoint text and a version; the last field
   has a list of texts for every name in PARAMS *)
Record grid_args := GridArgs {
  g_threads : option Z; g_seed : Z; g_h5_dir : fpath; g_icm_json : pystr; g_checkpoint : pystr;
  g_xml : bool; g_test : bool; g_input : fpath;
  g_model : pystr -> pystr; g_version : pystr -> option Z;
  g_output : fpath; g_values : list (list pystr) }.

(* grid_search.py:159-178, one model *)
Definition model_args (a : grid_args) (model_name : pystr) : list pystr :=
  match g_version a model_name with
  | Some v => [L"--" ++ model_name ++ L"-version"; z_to_str v]
  | None =>
      if negb (str_eqb (g_model a model_name) (default_checkpoint model_name))
      then [L"--" ++ model_name; g_model a model_name] else []
  end.
(* grid_search.py:119-178 *)
Definition static_args (a : grid_args) : list pystr :=
  match g_threads a with Some n => [L"--threads"; z_to_str n] | None => [] end ++
  (if negb (g_seed a =? 0) then [L"--seed"; z_to_str (g_seed a)] else []) ++
  (if negb (fpath_eqb (g_h5_dir a) (parse_path (L"h5_data"))) then [L"-h5"; path_text (g_h5_dir a)] else []) ++
  (if negb (str_eqb (g_icm_json a) default_icm) then [L"--icm-json"; g_icm_json a] else []) ++
  (if negb (str_eqb (g_checkpoint a) (L"checkpoints")) then [L"--checkpoint"; g_checkpoint a] else []) ++
  (if g_xml a then [L"-x"] else []) ++
  (if g_test a then [L"--test"] else []) ++
  (if negb (fpath_eqb (g_input a) (parse_path (L"corpus_data"))) then [L"--input"; path_text (g_input a)] else []) ++
  flat_map (model_args a) MODEL_NAMES.

(* grid_search.py:188: "".join(name[0] for name in arg_name.split("_")) *)
Definition abbreviation (name : pystr) : res pystr := mapM (fun w => py_nth w 0) (split_on "_" name).
(* itertools.product *)
Fixpoint product {A} (ls : list (list A)) : list (list A) :=
  match ls with
  | [] => [[]]
  | l :: r => flat_map (fun x => map (cons x) (product r)) l
  end.
(* grid_search.py:193-195 *)
Definition dir_name (abbrs values : list pystr) : pystr :=
  str_join (L"_") (map (fun '(name, val) => str_join (L"-") [name; val]) (combine abbrs values)).
(* name.replace('_', '-') *)
Definition dashed (name : pystr) : pystr := map (fun c => if Ascii.eqb c "_" then "-"%char else c) name.
(* grid_search.py:191-206, one setting *)
Definition this_args (a : grid_args) (abbrs values : list pystr) : list pystr :=
  static_args a ++
  [L"--output"; path_text (join_path (g_output a) (parse_path (dir_name abbrs values)))] ++
  [L"--log"; L"test.log"] ++
  flat_map (fun '(name, val) => [L"--" ++ dashed name; val]) (combine PARAMS values).
(* grid_search.py:208 *)
Definition command (a : grid_args) (abbrs values : list pystr) : pystr :=
  L"python test.py " ++ str_join (L" ") (this_args a abbrs values).
(* grid_search.py:180-208: the lines printed *)
Definition grid_search (a : grid_args) : res (list pystr) :=
  let! abbrs := mapM abbreviation PARAMS in
  Ok (map (command a abbrs) (product (g_values a))).
