(* Writing labels onto scores: write_to_score.py:13-45 write_tsvs_to_scores (the same text in test.py:150-182) and
   harmonic_inference/utils/eval_utils.py:902-938 write_labels_to_score.
   Simplifications: the file system is the list of all files and directories, without links; an output directory
   whose name has a character special to glob is not modelled; what ms3 does is given from outside: whether an
   operation raises, as a function of the operations on the same object so far. *)
From Coq Require Import String Ascii.
From Verif Require Export Model_Output Model_Checkpoints.
From Coq Require Import List.
Import ListNotations.
Open Scope Z_scope.

(* glob.has_magic: characters special to glob *)
Definition magic (c : ascii) : bool := Ascii.eqb c "*" || Ascii.eqb c "?" || Ascii.eqb c "[".
(* glob._ishidden: "*" and "**" do not match these names *)
Definition hidden (w : pystr) : bool := match w with c :: _ => Ascii.eqb c "." | [] => false end.
(* fnmatch(name, "*.tsv") *)
Definition is_tsv (w : pystr) : bool := is_prefix (rev (L".tsv")) (rev w).
(* the parts after those of a directory, if it is there *)
Fixpoint parts_after (dir p : path) : option path :=
  match dir, p with
  | [], _ => Some p
  | v :: d, w :: r => if str_eqb v w then parts_after d r else None
  | _ :: _, [] => None
  end.
(* PurePath.relative_to *)
Definition relative_to (p dir : fpath) : res fpath :=
  if (p_root p =? p_root dir)%nat then
    match parts_after (p_parts dir) (p_parts p) with Some r => Ok (FPath 0 r) | None => Raise ValueError end
  else Raise ValueError.
(* write_to_score.py:35: glob(str(dir / "**" / "*.tsv"), recursive=True), in any order *)
Definition glob_tsv (fs : list fpath) (dir : fpath) : res (list pystr) :=
  if existsb magic (path_text dir) then Raise Unmodelled
  else Ok (flat_map (fun p =>
    match relative_to p dir with
    | Ok q => match p_parts q with
              | [] => []
              | r => if forallb (fun w => negb (hidden w)) r && is_tsv (path_name r) then [path_text p] else []
              end
    | Raise _ => []
    end) fs).

(* the operations on an object of ms3, eval_utils.py:926-938; Compile: re.compile *)
Inductive ms3_op :=
  | Compile (re : pystr)
  | Parse (dir re : pystr)
  | AddDir (dir key re : pystr)
  | ParseAll
  | AddDetached (key labels : pystr)
  | Attach (staff voice : Z) (check_for_clashes : bool)
  | Store (root_dir suffix : pystr) (overwrite : bool).
(* eval_utils.py:919-938 *)
Definition label_ops (labels_dir annotations_dir : fpath) (basename : pystr) : list ms3_op :=
  let labels := path_text labels_dir in
  let re := basename ++ L"\.(mscx|tsv)" in
  [Compile re; Parse (path_text annotations_dir) re; AddDir labels (L"labels") re; ParseAll; AddDetached (L"MS3") (L"labels");
   Attach 2 1 false; Store labels (L"_inferred") true].

(* what is done: an operation, a message of logging.exception *)
Inductive score_event := Op (o : ms3_op) | Message (text : pystr).

Section Scores.
(* whether the last of the operations raises *)
Variable fails : list ms3_op -> bool.
(* the operations in order; whether all went well *)
Fixpoint perform (so_far todo : list ms3_op) : list score_event * bool :=
  match todo with
  | [] => ([], true)
  | o :: r =>
      if fails (so_far ++ [o]) then ([Op o], false)
      else let (es, ok) := perform (so_far ++ [o]) r in (Op o :: es, ok)
  end.
(* write_to_score.py:37-45, one file *)
Definition write_score (output_tsv_dir annotations_base_dir : fpath) (text : pystr) : res (list score_event) :=
  let! piece_name := relative_to (parse_path text) output_tsv_dir in
  let labels_dir := join_path output_tsv_dir (fparent piece_name) in
  let (es, ok) := perform [] (label_ops labels_dir (join_path annotations_base_dir (fparent piece_name)) (stem (p_parts piece_name))) in
  Ok (es ++ if ok then [] else [Message (L"Error writing score out to " ++ path_text labels_dir)]).
(* write_to_score.py:32-45 *)
Definition write_tsvs_to_scores (fs : list fpath) (output_tsv_dir annotations_base_dir : fpath) : res (list score_event) :=
  let! found := glob_tsv fs output_tsv_dir in
  let! ess := mapM (write_score output_tsv_dir annotations_base_dir) (str_sorted found) in
  Ok (concat ess).
End Scores.
