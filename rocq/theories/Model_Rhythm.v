(* Measure tables and score positions: utils/rhythmic_utils.py, the metrical parts of
   utils/corpus_utils.py (add_note_offsets) and ScorePiece.get_duration_cache.

   fractions.Fraction is Q; equality of fractions is [==].  A measures DataFrame of one
   piece is a list of rows with the columns that the functions read. *)
From Coq Require Import QArith Qround.
From Verif Require Import PyBase.
Close Scope Q_scope.
Open Scope Z_scope.

(* A cell of the "next" column.  read_dump + remove_repeats produce a nullable Int64
   column, so a missing value is pd.NA (corpus_utils.py:93-94); Python code that builds a
   table by hand uses None (tests, Piece.from_dict). *)
Inductive next_cell := NextMc (mc : Z) | NextNone | NextNA.

(* Columns "mc", "act_dur", MEASURE_OFFSET, "next" (rhythmic_utils.py:47-49). *)
Record measure := mkM { m_mc : Z; m_dur : Q; m_off : Q; m_next : next_cell }.
(* the measures of one piece *)
Definition table := list measure.

(* measures.loc[measures["mc"] == mc].values[0]: the first row with that mc, IndexError if
   there is none. *)
Definition row (ms : table) (mc : Z) : res measure :=
  match find (fun m => m_mc m =? mc) ms with
  | Some m => Ok m
  | None => Raise IndexError
  end.

(* A score position: tuple (mc, beat). *)
Definition pos := (Z * Q)%type.

(* Python's > on tuples (int, Fraction). *)
Definition pos_gt (a b : pos) : bool :=
  (fst b <? fst a) || ((fst a =? fst b) && negb (Qle_bool (snd a) (snd b))).

(* rhythmic_utils.py:53-61: the while loop and the final row access.  [cur] is current_mc.
   - None: the condition `current_mc is not None` is false, the final access compares the
     mc column with None, finds no row: IndexError.
   - pd.NA: `pd.NA != end_mc` is pd.NA, its truth value is a TypeError.
   Every iteration visits one row; a loop longer than the table revisits a row and never
   ends, hence fuel = number of rows + 1 in [get_range_length]. *)
Fixpoint walk (fuel : nat) (ms : table) (cur : next_cell) (end_mc : Z) (acc : Q) : res (Q * Z) :=
  match cur with
  | NextNone => Raise IndexError
  | NextNA => Raise TypeError
  | NextMc c =>
      if c =? end_mc then Ok (acc, c)
      else match fuel with
           | O => Raise OutOfFuel
           | S f => let! m := row ms c in
                    walk f ms (m_next m) end_mc (Qplus acc (m_dur m))
           end
  end.

(* rhythmic_utils.py:31-62 get_range_length. *)
Definition get_range_length (range_start range_end : pos) (ms : table) : res Q :=
  let swap := pos_gt range_start range_end in
  let factor : Q := if swap then (-1 # 1)%Q else 1%Q in
  let '(start_mc, start_beat) := if swap then range_end else range_start in
  let '(end_mc, end_beat) := if swap then range_start else range_end in
  if start_mc =? end_mc then Ok (Qmult factor (Qminus end_beat start_beat))
  else
    let! m := row ms start_mc in
    let length := Qminus (Qplus (m_dur m) (m_off m)) start_beat in
    let! (length, cur) := walk (S (List.length ms)) ms (m_next m) end_mc length in
    let! last := row ms cur in
    Ok (Qmult factor (Qplus length (Qminus end_beat (m_off last)))).

(* Fraction division: ZeroDivisionError. *)
Definition frac_div (a b : Q) : res Q :=
  if Qeq_bool b 0%Q then Raise ZeroDivisionError else Ok (Qdiv a b).

(* rhythmic_utils.py:65-121 get_rhythmic_info_as_proportion_of_range; the note is its mc,
   onset beat and duration. *)
Definition get_rhythmic_info (note : pos) (note_dur : Q) (range_start range_end : pos)
    (ms : table) (range_len : option Q) : res (Q * Q * Q) :=
  let! len := match range_len with
              | Some l => Ok l
              | None => get_range_length range_start range_end ms
              end in
  let! duration := frac_div note_dur len in
  let onset_to_start := Z.abs (fst note - fst range_start) in
  let onset_to_end := Z.abs (fst note - fst range_end) in
  let! onset :=
    if onset_to_start <=? onset_to_end then
      let! l := get_range_length range_start note ms in frac_div l len
    else
      let! l := get_range_length note range_end ms in
      let! p := frac_div l len in Ok (Qminus 1 p) in
  Ok (onset, Qplus onset duration, duration).

(* Fraction % Fraction: a - b * floor(a / b), ZeroDivisionError for b = 0. *)
Definition frac_mod (a b : Q) : res Q :=
  if Qeq_bool b 0%Q then Raise ZeroDivisionError
  else Ok (Qminus a (Qmult b (inject_Z (Qfloor (Qdiv a b))))).

(* Fraction(n, d) for ints: ZeroDivisionError for d = 0. *)
Definition fraction (n d : Z) : res Q :=
  if d =? 0 then Raise ZeroDivisionError else Ok (Qdiv (inject_Z n) (inject_Z d)).

(* rhythmic_utils.py:124-155 get_metrical_level_lengths; the time signature string
   "numerator/denominator" is given as its two ints (line 144, int() of the two parts). *)
Definition get_metrical_level_lengths (numerator denominator : Z) : res (Q * Q * Q) :=
  let! (beat_length, sub_beat_length) :=
    if (3 <? numerator) && (numerator mod 3 =? 0) then
      let! sub := fraction 1 denominator in Ok (Qmult sub (3 # 1)%Q, sub)
    else
      let! beat := fraction 1 denominator in Ok (beat, Qdiv beat (2 # 1)%Q) in
  let! measure_length := fraction numerator denominator in
  Ok (measure_length, beat_length, sub_beat_length).

(* rhythmic_utils.py:158-188 get_metrical_level. *)
Definition get_metrical_level (beat : Q) (timesig : Z * Z) : res Z :=
  let! (x, sub_beat_length) := get_metrical_level_lengths (fst timesig) (snd timesig) in
  let '(measure_length, beat_length) := x in
  let! r3 := frac_mod beat measure_length in
  if Qeq_bool r3 0%Q then Ok 3 else
  let! r2 := frac_mod beat beat_length in
  if Qeq_bool r2 0%Q then Ok 2 else
  let! r1 := frac_mod beat sub_beat_length in
  if Qeq_bool r1 0%Q then Ok 1 else Ok 0.

(* The levels cache of Note.from_series / Chord.from_series (note.py:389-402,
   chord.py:523-537): levels_cache[timesig] is a dict beat -> level.  One lookup: the level
   and the cache after it.  A dict is an association list; Fractions are looked up by
   value. *)
Definition cache := list ((Z * Z) * Q * Z).
(* one query: looked up, or computed and stored (note.py:389-402) *)
Definition cached_level (c : cache) (beat : Q) (timesig : Z * Z) : res (Z * cache) :=
  match find (fun e => let '(ts, b, _) := e : (Z * Z) * Q * Z in
                       (fst ts =? fst timesig) && (snd ts =? snd timesig) && Qeq_bool b beat) c with
  | Some (_, _, level) => Ok (level, c)
  | None => let! level := get_metrical_level beat timesig in
            Ok (level, (timesig, beat, level) :: c)
  end.
(* queries one after the other with one cache *)
Fixpoint cached_levels (c : cache) (queries : list (Q * (Z * Z))) : res (list Z * cache) :=
  match queries with
  | [] => Ok ([], c)
  | (beat, ts) :: r =>
      let! (l, c') := cached_level c beat ts in
      let! (ls, c'') := cached_levels c' r in
      Ok (l :: ls, c'')
  end.

(* corpus_utils.py:245-386 add_note_offsets, for one note of one piece.  The code works on
   all notes at once with boolean masks, each row's values depending only on that row, so a
   note's offset is the following loop.  The mc column of a piece is taken to be free of
   duplicates (pd.merge would duplicate the note rows otherwise).

   A missing merge partner leaves NaN in the merged columns: a note whose measure is not in
   the table has next = NaN, so `last_measures` is true for it; a next measure that is not
   in the table has offset_next = NaN, modelled as a beat of None.  Comparisons with NaN are
   false. *)
Definition next_of (m : measure) : option Z :=
  match m_next m with NextMc c => Some c | _ => None end.
(* the row of a measure *)
Definition lookup (ms : table) (mc : Z) : option measure := find (fun m => m_mc m =? mc) ms.
(* end = act_dur + offset, line 297-299 *)
Definition m_end (m : measure) : Q := Qplus (m_dur m) (m_off m).
(* f"{MEASURE_OFFSET}_next": lines 302-310 *)
Definition off_next (ms : table) (next : Z) : option Q :=
  match lookup ms next with Some n => Some (m_off n) | None => None end.

(* State of a note at the head of the while loop (lines 345-379) or before it (lines
   323-342): current offset_mc and offset_beat. *)
Fixpoint offset_loop (fuel : nat) (ms : table) (mc : Z) (beat : option Q) : res (Z * option Q) :=
  match lookup ms mc, beat with
  | Some m, Some b =>
      match next_of m with
      | None => Ok (mc, Some b)                                (* last_measures *)
      | Some nx =>
          if Qeq_bool b (m_end m) then Ok (nx, off_next ms nx) (* at_end *)
          else if Qle_bool b (m_end m) then Ok (mc, Some b)    (* not past_end *)
          else match fuel with
               | O => Raise OutOfFuel
               | S f =>
                   offset_loop f ms nx
                     (match off_next ms nx with
                      | Some o => Some (Qplus (Qminus (Qminus b (m_dur m)) (m_off m)) o)
                      | None => None
                      end)
               end
      end
  | _, _ => Ok (mc, beat)
  end.
(* corpus_utils.py:247-386 add_note_offsets for one note *)
Definition add_note_offset (fuel : nat) (ms : table) (note : pos) (dur : Q) : res (Z * option Q) :=
  offset_loop fuel ms (fst note) (Some (Qplus (snd note) dur)).

(* piece.py:425-447 ScorePiece.get_duration_cache: onsets of the notes and the onset of the
   fake last note (the offset of the last chord, or the latest note offset). *)
Definition get_duration_cache (onsets : list pos) (last : pos) (ms : table) : res (list Q) :=
  mapM (fun p => get_range_length (fst p) (snd p) ms) (combine onsets (tl onsets ++ [last])).
