(* The script create_ml_course_data.py.
   Simplifications: the tables are already read (14); making a piece (44-57) is given from outside; directories are
   seen through the files in them; the messages are left out.  Lines 71-86 come after an operation that always raises
   (68) and are not modelled. *)
From Coq Require Import String Ascii.
From Verif Require Import Model_Strings Model_Piece Model_Runs.
From Verif Require Export Model_Scores.
From Coq Require Import List.
Import ListNotations.
Open Scope Z_scope.

(* the files there are, with their texts *)
Notation texts := (list (fpath * pystr)).
(* set.add of a list *)
Definition add_list {A} (l : list A) : res unit := Raise TypeError.
(* open(path, "a+") *)
Definition open_append (fs : texts) (p : fpath) : texts := if existsb (fun f => fpath_eqb (fst f) p) fs then fs else fs ++ [(p, [])].
(* write to a file opened so *)
Definition append_text (fs : texts) (p : fpath) (text : pystr) : texts :=
  map (fun f => if fpath_eqb (fst f) p then (fst f, snd f ++ text) else f) fs.
(* Path.write_text *)
Definition write_text (fs : texts) (p : fpath) (text : pystr) : texts := filter (fun f => negb (fpath_eqb (fst f) p)) fs ++ [(p, text)].
(* shutil.rmtree(dir, ignore_errors=True) *)
Definition remove_tree (fs : texts) (dir : fpath) : texts :=
  filter (fun f => match relative_to (fst f) dir with Ok _ => false | Raise _ => true end) fs.

(* 18 *)
Definition base_dir : fpath := FPath 0 [L"ML_course_data"].
(* 20 *)
Definition chord_dir : fpath := join_path base_dir (FPath 0 [L"chord"]).
(* 24 *)
Definition key_dir : fpath := join_path base_dir (FPath 0 [L"key"]).

(* 60-67: key_symbols *)
Definition key_symbol (k : key_obj) : res pystr :=
  let! degree := get_scale_degree_from_interval (k_local k - k_global k) (k_global_mode k) TPC in
  Ok (degree ++ L":" ++ match k_local_mode k with MAJOR => L"MAJOR" | MINOR => L"MINOR" end).
(* 59-69: the file of keys.  The files, and the exception. *)
Definition write_keys (composer : pystr) (p : piece) (fs : texts) : texts * option exn :=
  let path := join_path key_dir (parse_path (composer ++ L".csv")) in
  let fs := open_append fs path in
  match (let! key_symbols := mapM key_symbol (p_keys p) in
         let! first := py_nth (p_keys p) 0 in
         let! _ := add_list key_symbols in
         Ok key_symbols) with
  | Raise e => (fs, Some e)
  | Ok key_symbols => (append_text fs path (str_join (L",") key_symbols ++ [ascii_of_nat 10]), None)
  end.
(* 39-69: the files of a composer; None: no piece *)
Fixpoint course_files (composer : pystr) (pieces : list (option piece)) (fs : texts) : texts * option exn :=
  match pieces with
  | [] => (fs, None)
  | None :: r => course_files composer r fs
  | Some p :: r => match write_keys composer p fs with
                   | (fs, Some e) => (fs, Some e)
                   | (fs, None) => course_files composer r fs
                   end
  end.
(* 16: the composers of the corpora *)
Definition composers (names : list pystr) : list pystr :=
  str_sorted (nodup (list_eq_dec Ascii.ascii_dec) (map (fun name => strip (hd [] (split_on "-" name))) names)).
(* 35-37 *)
Fixpoint course_composers (files : list (pystr * option piece)) (l : list pystr) (fs : texts) : texts * option exn :=
  match l with
  | [] => (fs, None)
  | composer :: r =>
      match course_files composer (map snd (filter (fun f => is_prefix composer (fst f)) files)) fs with
      | (fs, Some e) => (fs, Some e)
      | (fs, None) => course_composers files r fs
      end
  end.
(* the script; files: corpus_name and piece, in the order of the table.  The sets of labels are still empty at 88-98. *)
Definition create_course_data (files : list (pystr * option piece)) (fs : texts) : texts * option exn :=
  let fs := remove_tree (remove_tree fs chord_dir) key_dir in
  match course_composers files (composers (map fst files)) fs with
  | (fs, Some e) => (fs, Some e)
  | (fs, None) =>
      (fold_left (fun fs name => write_text fs (join_path base_dir (FPath 0 [name])) [])
         [L"chord_vocab_major.txt"; L"chord_vocab_minor.txt"; L"chord_vocab_full.txt"; L"key_vocab_major.txt"; L"key_vocab_minor.txt"; L"key_vocab_full.txt"] fs,
       None)
  end.
