(* Vocabulary for the statements about loading pieces. *)
From Coq Require Import String Ascii.
From Verif Require Import Model_Load.
From Coq Require Import List.
Import ListNotations.
Open Scope Z_scope.

(* The annotation of the score <dirs>/<folder>/<name>.mxl is <dirs>/chords/<name>.csv. *)
Definition label_of (score csv : list pystr) : Prop :=
  exists dirs folder name, name <> [] /\ score = dirs ++ [folder; name ++ L".mxl"] /\
    csv = dirs ++ [L"chords"; name ++ L".csv"].
Definition well_named (score : list pystr) : Prop := exists csv, label_of score csv.
Definition labelled (exists_ : list pystr -> bool) (score : list pystr) : Prop :=
  exists csv, label_of score csv /\ exists_ csv = true.

(* the ids of all files of the input, and the ids asked for: all if none are given *)
Definition all_files (inp : input) : list Z :=
  match inp with
  | ScoreDir _ scores => zrange 0 (zlen scores)
  | ScoreFile _ _ => [0]
  | Frames files _ _ _ => files
  end.
Definition asked_for (inp : input) (ids : list Z) : list Z := match ids with [] => all_files inp | _ => ids end.
(* the piece is made from the saved dictionary d, or from the raw data if there is none *)
Definition uses_dict {D} (p : piece_plan D) (d : option D) : Prop :=
  match plan_source p, d with
  | FromXml _ _, None => True | FromFrames i _, None => i = plan_id p
  | FromXmlDict _ x, Some y => x = y | FromFramesDict i x, Some y => i = plan_id p /\ x = y
  | _, _ => False
  end.
