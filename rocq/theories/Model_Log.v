(* The debug log of an inferred harmony: harmonic_inference/utils/eval_utils.py:977-1058 log_state, and
   its place in annotate.py:152-170.  Pieces, states and arrays of labels as in Model_Eval.v. *)
From Coq Require Import QArith String Ascii.
From Verif Require Import Model_Strings Model_Rhythm Model_Piece.
From Verif Require Export Model_Eval.
From Coq Require Import List.
Import ListNotations.
Close Scope Q_scope.
Open Scope Z_scope.

(* an entry of the log, lines 1053-1056: from where to where, how long, the estimated key and chord, and the
   right ones if they are other texts.  The values are kept, not the text they are formatted to (the
   positions are rows of an array, except for the last end, which is a tuple). *)
Record log_line := mkLog {
  lg_start : pos; lg_end : pos; lg_dur : Q; lg_est : pystr * pystr; lg_correct : option (pystr * pystr) }.

(* line 1023: the labels of an input: (gold key, gold chord), (estimated key, estimated chord) *)
Notation labels4 := ((Z * Z) * (Z * Z))%type.
(* != on tuples, negated *)
Definition labels4_eqb (a b : labels4) : bool :=
  (fst (fst a) =? fst (fst b)) && (snd (fst a) =? snd (fst b)) &&
  (fst (snd a) =? fst (snd b)) && (snd (snd a) =? snd (snd b)).
(* lines 1024-1027 *)
Definition structure_changes (l : list labels4) : list bool :=
  true :: map (fun x => negb (labels4_eqb (fst x) (snd x))) (combine l (tl l)).

(* lines 1038-1056: the body of the loop.  If a label has no text the entries before it have already been
   logged; here the whole log is lost. *)
Definition log_entry (chord_list key_list : list pystr) (x : labels4 * ((pos * pos) * Q)) : res log_line :=
  let '(((gt_key, gt_chord), (est_key, est_chord)), ((start, end_), dur)) := x in
  let! gc := py_nth chord_list gt_chord in
  let! ec := py_nth chord_list est_chord in
  let! gk := py_nth key_list gt_key in
  let! ek := py_nth key_list est_key in
  Ok (mkLog start end_ dur (ek, ec)
        (if negb (str_eqb gk ek) || negb (str_eqb gc ec) then Some (gk, gc) else None)).

(* lines 977-1056 log_state.  Without inputs the mask [True] does not fit the empty array: IndexError. *)
Definition log_state (p : piece) (durs : list Q) (s : state) (root_type tonic_type : pitch_type)
  : res (list log_line) :=
  let! gold_c := true_chords p in
  let! est_c := estimated_chords p s in
  let! gold_k := true_keys p in
  let! est_k := estimated_keys p s in
  let! chord_list := get_chord_label_list root_type true false None false NO_REDUCTION in
  let! key_list := get_key_label_list tonic_type false None in
  let structure := combine (combine gold_k gold_c) (combine est_k est_c) in
  let changes := structure_changes structure in
  match p_notes p with
  | [] => Raise IndexError
  | _ =>
      let starts := apply_mask changes (map no_on (p_notes p)) in
      let! last := py_nth (p_notes p) (-1) in
      let ends := tl starts ++ [no_off last] in
      let indexes := apply_mask changes (seq 0 (List.length changes)) in
      let durations := map (fun x => qsum (py_slice durs (Z.of_nat (fst x)) (Z.of_nat (snd x))))
                           (combine indexes (tl indexes ++ [List.length changes])) in
      mapM (log_entry chord_list key_list)
           (combine (apply_mask changes structure) (combine (combine starts ends) durations))
  end.

(* annotate.py:156-170: what is done with a state (not None).  In verbose mode (--verbose) the state is logged
   first.  A piece without annotations has None for its chords and their changes, and None[1:] is a
   TypeError (eval_utils.py:997). *)
Definition annotate_state (verbose annotated : bool) (p : piece) (durs : list Q) (s : state)
  (root_type tonic_type : pitch_type) : res (list (pystr * note)) :=
  let! _ := if verbose then if annotated then log_state p durs s root_type tonic_type else Raise TypeError
            else Ok [] in
  get_annotation p durs s root_type tonic_type.
