(* The columns mc, mc_onset and mn_onset of the tables of labels (get_annotation_df and get_label_df in eval_utils.py). *)
From Coq Require Import QArith.
From Verif Require Import PyBase Model_Types Model_Strings Model_Harmony Model_Rhythm Model_Piece Model_Search Model_Eval Model_Tables.
Close Scope Q_scope.
Open Scope Z_scope.

(* note.py:410-420: the notes of a table with their mc_onset; a row of the table is given with its column mc_onset *)
Definition table_notes (timesig : Z -> option (Z * Z)) (note_rows : list (note_row * Q)) : list (note * Q) :=
  somes (map (fun r : note_row * Q => match note_from_series timesig TPC (fst r) with Some n => Some (n, snd r) | None => None end) note_rows).

(* eval_utils.py:690-708, 833-840 and 881-889: a row without its colour *)
Record label_columns := mkCols { col_label : pystr; col_mc : Z; col_mc_onset : Q; col_mn_onset : Q }.
(* eval_utils.py:692-695 *)
Definition columns_of (label : pystr) (n : note * Q) : label_columns :=
  mkCols label (fst (no_on (fst n))) (snd n) (snd (no_on (fst n))).

(* eval_utils.py:631-713 get_annotation_df; notes: the inputs of the piece with their mc_onset *)
Definition get_annotation_df (p : piece) (notes : list (note * Q)) (durs : list Q) (s : state) (root_type tonic_type : pitch_type)
  : res (list label_columns) :=
  let! chords := estimated_chords p s in
  let! keys := estimated_keys p s in
  let! chord_list := get_chord_label_list root_type true false None false NO_REDUCTION in
  let! key_list := get_key_label_list tonic_type false None in
  let! texts := mapM (fun x => let '(d, (c, k)) := x : Q * (Z * Z) in
                       if Qeq_bool d 0%Q then Ok ([], []) else
                       let! ct := py_nth chord_list c in
                       let! kt := py_nth key_list k in
                       Ok (kt, ct)) (combine durs (combine chords keys)) in
  Ok (map (fun r => columns_of (fst r) (snd r)) (annotate None (combine (combine durs notes) texts))).

(* eval_utils.py:716-899 get_label_df *)
Definition get_label_df (p : piece) (notes : list (note * Q)) (durs : list Q) (s : state) (root_type tonic_type : pitch_type)
  : res (list (label_columns * colour)) :=
  let n := List.length (p_notes p) in
  let! gold_c := (match p_chords p with
                  | [] => Ok (repeat (-1) n)
                  | _ => true_labels_from (-1) chord_index n (p_chords p) (p_changes p) end) in
  let! est_c := estimated_chords p s in
  let! gold_k := (match p_keys p with [] => Ok (repeat (-1) n) | _ => true_keys p end) in
  let! est_k := estimated_keys p s in
  let! chord_list := get_chord_label_list root_type true false None false NO_REDUCTION in
  let! key_list := get_key_label_list tonic_type false None in
  let! rows := label_rows root_type tonic_type chord_list key_list None
    (combine (combine durs notes) (combine (combine est_c gold_c) (combine est_k gold_k))) in
  Ok (map (fun r : pystr * (note * Q) * colour => (columns_of (fst (fst r)) (snd (fst r)), snd r)) rows).
