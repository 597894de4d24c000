(* The evaluation of a list of pieces and the averages of its log: test.py:185-360 evaluate and 539-552.
   Parts as in Model_Runs (forces, averages), Model_Eval (accuracies), Model_Log, Model_Tables and
   Model_Output (paths).
   Simplifications: writing a file succeeds; get_harmony is given from outside (what it returns and the lines
   that it logs); the text of a number and the lines of debug messages are given from outside; the forces are
   already read. *)
From Coq Require Import QArith String Ascii.
From Verif Require Import Model_Strings Model_Rhythm Model_Piece Model_Runs Model_Output Model_Tables Model_Log.
From Verif Require Export Model_Eval.
From Coq Require Import List.
Import ListNotations.
Close Scope Q_scope.
Open Scope Z_scope.

(* a piece: piece.name; whether its chords are not None (piece.py:459); inputs and labels; the durations of
   piece.get_duration_cache() *)
Record subject := Subject { sj_name : option pystr; sj_annotated : bool; sj_piece : piece; sj_durs : list Q }.
(* the tables written: test.py:298-323, annotate.py:166-171 *)
Inductive table := TLabels (rows : list label_row_out) | TResults (rows : list result_row) | TAnnotation (rows : list (pystr * note)).
(* what a run does: a line of the log (with its end), a file *)
Inductive event := Line (text : pystr) | File (p : fpath) (t : table).
(* logging.info with the default format of logging.basicConfig, "%(levelname)s:%(name)s:%(message)s" *)
Definition info (text : pystr) : event := Line (L"INFO:root:" ++ text ++ [ascii_of_nat 10]).

(* what has been done when the run goes on or stops *)
Definition progress := (list event * option exn)%type.
(* the events so far, then an expression that may raise, then the rest *)
Definition after {A} (done : list event) (r : res A) (rest : A -> progress) : progress :=
  match r with
  | Raise e => (done, Some e)
  | Ok a => let (es, e) := rest a in (done ++ es, e)
  end.

Section Script.
(* str of a number; get_harmony and what it logs; the types of the model's chords and keys *)
Variable text_of : Q -> pystr.
Variable infer : subject -> list (pystr * force) -> list pystr * res (option state).
Variables root_type tonic_type : pitch_type.
(* --verbose, and the lines of the debug messages 296 (log_state) and 360 (a table) *)
Variable verbose : bool.
Variable state_lines : list Model_Log.log_line -> list pystr.
Variable table_lines : list label_row_out -> list pystr.
(* the forces and the order of their keys, as in Model_Runs.choose_forces; the output directory *)
Variable order : list pystr.
Variable forces : list (pystr * list (pystr * force)).
Variable dir : option fpath.

(* "name = value" *)
Definition value_line (name : pystr) (q : Q) : event := info (name ++ L" = " ++ text_of q).

(* test.py:233-293 *)
Definition measure (x : subject) (s : state) (rest : unit -> progress) : progress :=
  if negb (sj_annotated x) then
    after [info (L"Cannot compute accuracy. Ground truth unknown.")] (Ok tt) rest
  else
    let chords ui red := evaluate_chords (sj_piece x) (sj_durs x) s root_type ui red in
    let keys to := evaluate_keys (sj_piece x) (sj_durs x) s tonic_type to in
    after [] (let! a := chords true NO_REDUCTION in
              let! b := chords false NO_REDUCTION in
              let! c := chords true TRIAD_REDUCTION in
              let! d := chords false TRIAD_REDUCTION in
              let! e := chords false ALL_ONE_TYPE_REDUCTION in
              Ok (a, b, c, d, e)) (fun '(a, b, c, d, e) =>
    after [value_line (L"Chord accuracy") a; value_line (L"Chord accuracy, no inversions") b;
           value_line (L"Chord accuracy, triads") c; value_line (L"Chord accuracy, triad, no inversions") d;
           value_line (L"Chord accuracy, root only") e]
          (let! k := keys false in let! t := keys true in Ok (k, t)) (fun '(k, t) =>
    after [value_line (L"Key accuracy") k; value_line (L"Key accuracy, tonic only") t]
          (evaluate_jointly (sj_piece x) (sj_durs x) s root_type tonic_type true NO_REDUCTION false) (fun f =>
    after [value_line (L"Full accuracy") f] (Ok tt) rest))).

(* test.py:295-323: the state in verbose mode, and the three tables.  Without annotations the chords are None:
   None[1:] in log_state (eval_utils.py:997) and len(None) in get_label_df (745) are TypeErrors. *)
Definition make_tables (x : subject) (s : state) (rest : list label_row_out * @tables table -> progress) : progress :=
  after [] (if verbose then if sj_annotated x then log_state (sj_piece x) (sj_durs x) s root_type tonic_type else Raise TypeError
            else Ok []) (fun entries =>
  after (if verbose then map Line (state_lines entries) else [])
        (if sj_annotated x then
           let! labels := get_label_table (sj_piece x) (sj_durs x) s root_type tonic_type in
           let! results := get_results (sj_piece x) (sj_durs x) s root_type tonic_type TPC TPC in
           let! midi := get_results (sj_piece x) (sj_durs x) s root_type tonic_type MIDI MIDI in
           Ok (labels, Tables (TLabels labels) (TResults results) (TResults midi))
         else Raise TypeError) rest).

(* test.py:325-360: the files, each with its line *)
Definition write_tables (x : subject) (labels : list label_row_out) (t : @tables table) : list event :=
  match evaluate_piece dir (sj_name x) (Some t) with
  | [] => if verbose then map Line (table_lines labels) else []
  | writes =>
      flat_map (fun y : pystr * (fpath * table) =>
                  [File (fst (snd y)) (snd (snd y)); info (fst y ++ L" TSV written out to " ++ path_text (fst (snd y)))])
        (combine [L"Results"; L"MIDI results"; L"Labels"] writes)
  end.

(* test.py:211-360, one piece *)
Definition run_piece (x : subject) : progress :=
  let start := match sj_name x with
               | None => []
               | Some name =>
                   info (L"Running piece " ++ name)
                   :: match find (fun key => substring_of key name) order with
                      | Some key => [info (L"Using forces with key " ++ key)]
                      | None => []
                      end
               end in
  after start (choose_forces order forces (sj_name x)) (fun f =>
  let (said, r) := infer x f in
  after (map Line said) r (fun o =>
  match o with
  | None => ([info (L"Returned None")], None)
  | Some s => measure x s (fun _ => make_tables x s (fun '(labels, t) => (write_tables x labels t, None)))
  end)).
(* test.py:211-360: an exception ends the run *)
Fixpoint run_pieces (l : list subject) : progress :=
  match l with
  | [] => ([], None)
  | x :: r => match run_piece x with
              | (es, Some e) => (es, Some e)
              | (es, None) => let (rest, e) := run_pieces r in (es ++ rest, e)
              end
  end.
End Script.

(* the file of the log, test.py:543-547 *)
Definition log_lines (es : list event) : list pystr :=
  flat_map (fun e => match e with Line t => [t] | File _ _ => [] end) es.
(* the files in the order in which they are written, test.py:329-357 *)
Definition files_written (es : list event) : list (fpath * table) :=
  flat_map (fun e => match e with File p t => [(p, t)] | Line _ => [] end) es.

(* test.py:539-552: a run with --average; the file system gives the lines of the files.  logging.basicConfig opens
   the log with mode "w" first, relative to the output directory. *)
Definition run_average (float_of : pystr -> option Q) (fs : fpath -> option (list pystr)) (output : fpath)
  (log : option fpath) (average : fpath) : res (list (pystr * Q)) :=
  let now p := match log with
               | Some l => if fpath_eqb (join_path output l) p then Some [] else fs p
               | None => fs p
               end in
  match now average with
  | Some lines => average_results float_of lines (L" = ")
  | None => Raise Unmodelled  (* FileNotFoundError *)
  end.
