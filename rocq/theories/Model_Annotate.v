(* The annotation of a list of pieces: annotate.py:131-185 annotate; and the joint model's inference for them
   (joint_model.py:505-629, with no forces: annotate.py:158).  Parts as in Model_Script (events), Model_Eval (the
   table), Model_Infer and Model_Models.
   Simplifications: writing a file succeeds; the lines of debug messages are given from outside. *)
From Coq Require Import QArith String Ascii.
From Verif Require Import Model_Strings Model_Rhythm Model_Piece Model_Output Model_Tables Model_Log Model_Infer Model_Models.
From Verif Require Export Model_Script.
From Coq Require Import List.
Import ListNotations.
Close Scope Q_scope.
Open Scope Z_scope.

Section Annotate.
(* get_harmony and what it logs; the types of the model's chords and keys *)
Variable infer : subject -> list pystr * res (option state).
Variables root_type tonic_type : pitch_type.
(* --verbose, and the lines of the debug messages 164 (log_state), 185 (a table) *)
Variable verbose : bool.
Variable state_lines : list Model_Log.log_line -> list pystr.
Variable table_lines : list (pystr * note) -> list pystr.
Variable dir : option fpath.

(* annotate.py:172-185: the file with its line, or the table in verbose mode *)
Definition write_annotation (x : subject) (rows : list (pystr * note)) : list event :=
  match annotate_piece dir (sj_name x) (Some (TAnnotation rows)) with
  | [] => if verbose then map Line (table_lines rows) else []
  | writes => flat_map (fun y : fpath * table =>
                [File (fst y) (snd y); info (L"Labels TSV written out to " ++ path_text (fst y))]) writes
  end.
(* annotate.py:154-185, one piece.  log_state needs the annotations of the piece (eval_utils.py:994-997). *)
Definition annotate_subject (x : subject) : progress :=
  let start := match sj_name x with None => [] | Some name => [info (L"Running piece " ++ name)] end in
  let (said, r) := infer x in
  after (start ++ map Line said) r (fun o =>
  match o with
  | None => ([info (L"Returned None")], None)
  | Some s =>
      after [] (if verbose then if sj_annotated x then log_state (sj_piece x) (sj_durs x) s root_type tonic_type else Raise TypeError
                else Ok []) (fun entries =>
      after (if verbose then map Line (state_lines entries) else [])
            (get_annotation (sj_piece x) (sj_durs x) s root_type tonic_type) (fun rows =>
      (write_annotation x rows, None)))
  end).
(* annotate.py:154-185: an exception ends the run *)
Fixpoint annotate_subjects (l : list subject) : progress :=
  match l with
  | [] => ([], None)
  | x :: r => match annotate_subject x with
              | (es, Some e) => (es, Some e)
              | (es, None) => let (rest, e) := annotate_subjects r in (es ++ rest, e)
              end
  end.
End Annotate.

(* joint_model.py:287-293: what get_chord_ranges reads of the object; [scale] and [dscale] take probabilities and
   durations to the integers of Model_Ranges *)
Definition ranges_cfg_of (scale dscale : Q -> Z) (j : joint) : range_cfg :=
  let p := j_params j in
  {| min_change := scale (min_chord_change_prob p); max_no_change := scale (max_no_chord_change_prob p);
     max_length := dscale (max_chord_length p) |}.
(* annotate.py:158: get_harmony(piece) *)
Definition no_forces : request :=
  {| q_chord_changes := []; q_chord_non := []; q_key_changes := []; q_key_non := []; q_chords := []; q_keys := [] |}.
(* joint_model.py:505-629 for a piece: its durations, what the networks say about it and the levels of its inputs *)
Definition infer_with (scale dscale : Q -> Z) (j : joint) (nets : subject -> networks) (orc : subject -> oracle)
  (levels : subject -> list Z) (x : subject) : res (option state) :=
  get_harmony (cfg_of scale j) (ranges_cfg_of scale dscale j) (nets x) (orc x) (map dscale (sj_durs x)) (levels x) no_forces.
