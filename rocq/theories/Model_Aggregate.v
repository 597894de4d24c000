(* harmonic_inference/data/corpus_reading.py:217-319 aggregate_annotation_dfs.
   Simplifications: the file system is the list of paths that glob finds (255-258; the pattern is
   **/harmonies/*.tsv or **/notes/*.tsv), in its order, and a function that reads a table (None: read_csv raises); a row is a value of type R (the columns of
   tables that differ are filled up by pd.concat, not modelled); the texts of the written files are
   not modelled, only the rows with their index (file_id, row number); messages are left out. *)
From Coq Require Import String Ascii.
From Verif Require Export Model_Load.
From Coq Require Import List.
Import ListNotations.
Open Scope Z_scope.

Section Aggregate.
Context {R : Type}.
(* the rows of a written table, with file_id and row number *)
Definition indexed : Type := list (Z * Z * R).
(* the files in the output directory (None: no such file) *)
Record out_files := OutFiles {
  o_files : option (list (pystr * pystr)); o_chords : option indexed; o_notes : option indexed; o_measures : option indexed }.

(* the lists of the loop, 243-251; files_dict is the list of (corpus_name, file_name) *)
Record lists := Lists {
  files_dict : list (pystr * pystr);
  chord_df_list : list (list R); note_df_list : list (list R); measure_df_list : list (list R);
  chord_indexes : list Z; note_indexes : list Z; measure_indexes : list Z }.
(* corpus_reading.py:243-251: all lists are empty *)
Definition no_lists : lists := Lists [] [] [] [] [] [] [].

(* the tables: read_table p is what pd.read_csv gives for the path p *)
Variable read_table : path -> option (list R).

(* 263-268, 270-275, 277-282: the index is appended if the table is read; 287-292: so is the table *)
Definition add_index (t : option (list R)) (n : Z) (indexes : list Z) : list Z :=
  match t with Some _ => indexes ++ [n] | None => indexes end.
(* 287-292: a table that was read is appended *)
Definition add_table (t : option (list R)) (l : list (list R)) : list (list R) :=
  match t with Some df => l ++ [df] | None => l end.
(* 255-292, the body of the loop *)
Definition aggregate_step (s : lists) (file_path : path) : lists :=
  let base_path := parent (parent file_path) in
  let corpus_name := path_name base_path in
  let file_name := path_name file_path in
  let n := zlen (files_dict s) in
  let chord_df := read_table (base_path ++ [L"harmonies"; file_name]) in
  let note_df := read_table (base_path ++ [L"notes"; file_name]) in
  let measure_df := read_table (base_path ++ [L"measures"; file_name]) in
  Lists (files_dict s ++ [(corpus_name, file_name)])
    (add_table chord_df (chord_df_list s)) (add_table note_df (note_df_list s)) (add_table measure_df (measure_df_list s))
    (add_index chord_df n (chord_indexes s)) (add_index note_df n (note_indexes s)) (add_index measure_df n (measure_indexes s)).

(* pd.concat(tables, keys=indexes, axis=0); the tables are numbered from 0 *)
Definition number_rows (t : list R) : list (Z * R) := combine (zrange 0 (zlen t)) t.
(* 306-308, 312, 316-318: rows under (index, row number), table after table *)
Definition concat_tables (tables : list (list R)) (indexes : list Z) : indexed :=
  flat_map (fun '(i, t) => map (fun '(j, r) => (i, j, r)) (number_rows t)) (combine indexes tables).
(* 305-319: a table is written if there is something in the list *)
Definition write_table (tables : list (list R)) (indexes : list Z) (old : option indexed) : option indexed :=
  match tables with [] => old | _ => Some (concat_tables tables indexes) end.

(* 217-319; found: what glob gives; old: the output directory before *)
Definition aggregate_annotation_dfs (found : list path) (old : out_files) : out_files :=
  let s := fold_left aggregate_step found no_lists in
  match files_dict s with
  | [] => old
  | _ =>
      OutFiles (Some (files_dict s)) (write_table (chord_df_list s) (chord_indexes s) (o_chords old))
        (write_table (note_df_list s) (note_indexes s) (o_notes old))
        (write_table (measure_df_list s) (measure_indexes s) (o_measures old))
  end.
End Aggregate.
Arguments indexed R : clear implicits.
Arguments out_files R : clear implicits.
