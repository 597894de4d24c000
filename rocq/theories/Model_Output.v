(* Where the scripts write the tables of a piece: test.py:325-360 (evaluate), annotate.py:172-181
   (annotate), and the names pieces get in harmonic_inference/utils/data_utils.py:153-188.
   Simplifications: paths are POSIX paths; a file is its path (no links, no ".." resolved, no
   file system that ignores case); mkdir and to_csv succeed (an exception there is logged and
   the script goes on); the tables themselves are values of any type T. *)
From Coq Require Import String Ascii.
From Verif Require Export Model_Load.
From Coq Require Import List.
Import ListNotations.
Open Scope Z_scope.

(* pathlib.PurePosixPath: the number of slashes of the root (0, 1 or 2), the other parts *)
Record fpath := FPath { p_root : nat; p_parts : path }.
(* the root of a text: exactly two slashes are kept, any other number counts as one *)
Definition text_root (s : pystr) : nat :=
  match s with
  | a :: b :: c :: _ =>
      if Ascii.eqb a "/" then if Ascii.eqb b "/" && negb (Ascii.eqb c "/") then 2%nat else 1%nat else O
  | [a; b] => if Ascii.eqb a "/" then if Ascii.eqb b "/" then 2%nat else 1%nat else O
  | [a] => if Ascii.eqb a "/" then 1%nat else O
  | [] => O
  end.
(* Path(text): empty parts and "." are dropped *)
Definition parse_path (s : pystr) : fpath :=
  FPath (text_root s) (filter (fun w => negb (str_eqb w [] || str_eqb w (L"."))) (split_on "/" s)).
(* a / b *)
Definition join_path (a b : fpath) : fpath :=
  match p_root b with
  | O => FPath (p_root a) (p_parts a ++ p_parts b)
  | _ => b
  end.
(* p.parent (of a path without parts: the path itself), p.name *)
Definition fparent (p : fpath) : fpath := FPath (p_root p) (parent (p_parts p)).
(* p.name *)
Definition fname (p : fpath) : pystr := path_name (p_parts p).
(* sep.join(texts) *)
Fixpoint str_join (sep : pystr) (l : list pystr) : pystr :=
  match l with
  | [] => []
  | [w] => w
  | w :: r => w ++ sep ++ str_join sep r
  end.
(* str(path) *)
Definition path_text (p : fpath) : pystr :=
  match p_root p, p_parts p with
  | O, [] => L"."
  | k, parts => repeat "/"%char k ++ str_join (L"/") parts
  end.

(* data_utils.py:176-188: the name of a piece from the data frames *)
Definition frame_name (file_id : Z) (corpus_name file_name : pystr) : pystr :=
  z_to_str file_id ++ L": " ++ corpus_name ++ L"/" ++ file_name.
(* data_utils.py:156, 162: the name of a piece from a score; its path relative to the input *)
Definition score_name (file_id : Z) (relative : path) : pystr :=
  z_to_str file_id ++ L": " ++ path_text (FPath 0 relative).

Section Output.
Context {T : Type}.
(* the three tables of a piece, test.py:325-357 *)
Record tables := Tables { t_labels : T; t_results : T; t_midi : T }.

(* test.py:326, annotate.py:173: Path(piece.name.split(" ")[-1]) *)
Definition piece_path (name : pystr) : fpath := parse_path (last (split_on " " name) []).

(* test.py:325-360, one piece: the files written, in order; None instead of tables: get_harmony
   returned None (test.py:229-231) *)
Definition evaluate_piece (output_tsv_dir : option fpath) (name : option pystr) (t : option tables)
  : list (fpath * T) :=
  match t, name, output_tsv_dir with
  | Some t, Some name, Some dir =>
      let output_tsv_path := join_path dir (piece_path name) in
      let base := py_slice (fname output_tsv_path) 0 (-4) in
      let beside suffix := join_path (fparent output_tsv_path) (parse_path (base ++ suffix)) in
      [(beside (L"_results.tsv"), t_results t); (beside (L"_results_midi.tsv"), t_midi t);
       (output_tsv_path, t_labels t)]
  | _, _, _ => []
  end.
(* test.py:185-360 evaluate: the files written *)
Definition evaluate_files (dir : option fpath) (pieces : list (option pystr * option tables))
  : list (fpath * T) :=
  flat_map (fun '(name, t) => evaluate_piece dir name t) pieces.

(* annotate.py:172-181, one piece *)
Definition annotate_piece (output_tsv_dir : option fpath) (name : option pystr) (t : option T)
  : list (fpath * T) :=
  match t, name, output_tsv_dir with
  | Some t, Some name, Some dir =>
      [(join_path dir (parse_path (stem (p_parts (piece_path name)) ++ L".tsv")), t)]
  | _, _, _ => []
  end.
(* annotate.py:131-185 annotate: the files written *)
Definition annotate_files (dir : option fpath) (pieces : list (option pystr * option T))
  : list (fpath * T) :=
  flat_map (fun '(name, t) => annotate_piece dir name t) pieces.

(* the same file *)
Definition fpath_eqb (p q : fpath) : bool :=
  (p_root p =? p_root q)%nat &&
  (fix eqb (a b : path) : bool :=
     match a, b with
     | [], [] => true
     | x :: a', y :: b' => str_eqb x y && eqb a' b'
     | _, _ => false
     end) (p_parts p) (p_parts q).
(* the table in a file after the writes: the last one written there *)
Fixpoint file_content (writes : list (fpath * T)) (p : fpath) : option T :=
  match writes with
  | [] => None
  | (q, t) :: r =>
      match file_content r p with
      | Some t' => Some t'
      | None => if fpath_eqb q p then Some t else None
      end
  end.
End Output.
Arguments tables T : clear implicits.
