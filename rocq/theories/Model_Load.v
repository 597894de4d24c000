(* Loading pieces: harmonic_inference/utils/data_utils.py:65-201 load_pieces, and the file list of
   create_h5_data.py:107-122.  The functions that parse a score, a label file or the data frames are
   not entered: the result of load_pieces is the list of what is handed to them (Inductive source).
   The file system is the list of scores that glob finds, in sorted order, and the set of paths
   that exist; files do not appear or vanish meanwhile, so music_xml_path.exists() holds.
   Progress bars are left out.  A pickle file holds a list of dictionaries (type D). *)
From Coq Require Import String Ascii.
From Verif Require Export Model_Strings.
From Coq Require Import List.
Import ListNotations.
Open Scope Z_scope.

(* a pathlib path as its components *)
Notation path := (list pystr).
(* Path.parent *)
Definition parent (p : path) : path := removelast p.
(* Path.name *)
Definition path_name (p : path) : pystr := last p [].
(* PurePath.stem: what comes before the last dot, if something comes before and after it *)
Fixpoint last_dot (s : pystr) (i : nat) (found : option nat) : option nat :=
  match s with [] => found | c :: r => last_dot r (S i) (if Ascii.eqb c "." then Some i else found) end.
(* Path.stem *)
Definition stem (p : path) : pystr :=
  let name := path_name p in
  match last_dot name 0 None with
  | Some (S i) => if (S (S i) <? List.length name)%nat then firstn (S i) name else name
  | _ => name
  end.
(* data_utils.py:112-116, create_h5_data.py:111-113 *)
Definition label_csv_path (music_xml_path : path) : path :=
  parent (parent music_xml_path) ++ [L"chords"; stem music_xml_path ++ L".csv"].

(* data_utils.py:108-120, the loop over the scores *)
Fixpoint find_files (exists_ : path -> bool) (scores : list path) : list path * list path :=
  match scores with
  | [] => ([], [])
  | x :: r =>
      let '(xmls, csvs) := find_files exists_ r in
      (x :: xmls, if exists_ (label_csv_path x) then label_csv_path x :: csvs else csvs)
  end.
(* create_h5_data.py:107-119 *)
Fixpoint find_annotated (exists_ : path -> bool) (scores : list path) : list path * list path :=
  match scores with
  | [] => ([], [])
  | x :: r =>
      let '(xmls, csvs) := find_annotated exists_ r in
      if exists_ (label_csv_path x) then (x :: xmls, label_csv_path x :: csvs) else (xmls, csvs)
  end.

(* what a piece is made from *)
Inductive source {D : Type} :=
| FromXml (xml : path) (csv : option path)          (* get_score_piece_from_music_xml *)
| FromXmlDict (xml : path) (d : D)                  (* measures of the score, the rest from the dict *)
| FromFrames (file_id : Z) (labelled : bool)        (* get_score_piece_from_data_frames *)
| FromFramesDict (file_id : Z) (d : D).             (* measures of the id, the rest from the dict *)
Arguments source D : clear implicits.
(* the id of a piece and what its reader is given *)
Record piece_plan {D : Type} := mkPlan { plan_id : Z; plan_source : source D }.
Arguments piece_plan D : clear implicits.

(* the input: a directory of scores; one score (given as a Path or as a str); data frames: the index
   of files_df, the ids found in notes_df, in measures_df, and in chords_df if there is one *)
Inductive input :=
| ScoreDir (exists_ : path -> bool) (scores : list path)
| ScoreFile (p : path) (is_str : bool)
| Frames (files : list Z) (notes measures : Z -> bool) (chords : option (Z -> bool)).
(* piece_dicts_path: not given, no such file, its contents (data_utils.py:65-146) *)
Inductive pickle {D : Type} := NoPickle | MissingPickle | Pickle (dicts : list D).
Arguments pickle D : clear implicits.

(* the position of an id *)
Fixpoint zfind (x : Z) (l : list Z) : option nat :=
  match l with [] => None | y :: r => if y =? x then Some O else option_map S (zfind x r) end.

Section Load.
Context {D : Type}.

(* data_utils.py:153-171, one piece; the f-string of the name is evaluated before the call *)
Definition load_score (xmls : list path) (csvs : list (option path)) (name_fails : bool)
  (file_id : Z) (d : option D) : res (piece_plan D) :=
  match d with
  | None =>
      let! x := py_nth xmls file_id in
      let! c := py_nth csvs file_id in
      if name_fails then Raise AttributeError else Ok (mkPlan D file_id (FromXml x c))
  | Some d =>
      let! x := py_nth xmls file_id in
      if name_fails then Raise AttributeError else Ok (mkPlan D file_id (FromXmlDict x d))
  end.
(* data_utils.py:173-200, one piece *)
Definition load_frames (files : list Z) (notes measures : Z -> bool) (chords : option (Z -> bool))
  (file_id : Z) (d : option D) : res (piece_plan D) :=
  let has (f : Z -> bool) := if f file_id then Ok tt else Raise KeyError in
  match d with
  | None =>
      let! _ := has notes in
      let! _ := (match chords with Some c => has c | None => Ok tt end) in
      let! _ := has measures in
      let! _ := has (fun i => existsb (Z.eqb i) files) in
      Ok (mkPlan D file_id (FromFrames file_id (match chords with Some _ => true | None => false end)))
  | Some d =>
      let! _ := has measures in
      let! _ := has (fun i => existsb (Z.eqb i) files) in
      Ok (mkPlan D file_id (FromFramesDict file_id d))
  end.

(* data_utils.py:65-201; file_ids = None and file_ids = [] are the same *)
Definition load_pieces (inp : input) (pkl : pickle D) (file_ids : list Z) (specific_id : option Z)
  : res (list (piece_plan D)) :=
  let '(count, all_ids, load) :=
    match inp with
    | ScoreDir exists_ scores =>
        let '(xmls, csvs) := find_files exists_ scores in
        (Some (zlen xmls), zrange 0 (zlen xmls), load_score xmls (map Some csvs) false)
    | ScoreFile p is_str => (Some 1, [0], load_score [p] [None] is_str)
    | Frames files notes measures chords => (None, files, load_frames files notes measures chords)
    end in
  let file_ids := match file_ids with [] => all_ids | _ => file_ids end in
  (* None: the name piece_dicts is not bound *)
  let piece_dicts :=
    match pkl with
    | Pickle ds => Some (map Some ds)
    | MissingPickle => None
    | NoPickle =>
        let n := match count with Some n => n | None => zlen file_ids end in
        Some (repeat None (Z.to_nat n))
    end in
  let! (file_ids, piece_dicts) :=
    match specific_id with
    | None => Ok (file_ids, piece_dicts)
    | Some s =>
        match zfind s file_ids with
        | None => Raise ValueError
        | Some k =>
            match piece_dicts with
            | None => Raise UnboundLocalError
            | Some ds =>
                let! i := py_nth file_ids (Z.of_nat k) in
                let! d := py_nth ds (Z.of_nat k) in
                Ok ([i], Some [d])
            end
        end
    end in
  match piece_dicts with
  | None => Raise UnboundLocalError
  | Some ds => mapM (fun '(i, d) => load i d) (combine file_ids ds)
  end.
End Load.
