(* Pieces: harmonic_inference/data/piece.py, and the parts of data/note.py, data/chord.py,
   data/key.py that build the objects of a piece.  Fractions are Q; float16 rounding of
   vectors is not modelled. *)
From Coq Require Import QArith String Ascii.
From Verif Require Import PyBase Model_Types Model_Harmony Model_Strings Model_Rhythm.
From Coq Require Import List.
Import ListNotations.
Close Scope Q_scope.
Open Scope Z_scope.

(* < and == on positions, tuples (int, Fraction) *)
Definition pos_lt (a b : pos) : bool := pos_gt b a.
(* == on positions *)
Definition pos_eqb (a b : pos) : bool := (fst a =? fst b) && Qeq_bool (snd a) (snd b).

(* bisect.bisect_left(l, x, lo, hi): the loop; the interval shrinks in every iteration *)
Fixpoint bisect_loop {A} (lt : A -> A -> bool) (fuel : nat) (l : list A) (x : A) (lo hi : nat)
  : res nat :=
  if (lo <? hi)%nat then
    match fuel with
    | O => Raise OutOfFuel
    | S f =>
        let mid := ((lo + hi) / 2)%nat in
        match nth_error l mid with
        | None => Raise IndexError
        | Some y => if lt y x then bisect_loop lt f l x (S mid) hi
                    else bisect_loop lt f l x lo mid
        end
    end
  else Ok lo.
(* bisect.bisect_left(l, x, lo) *)
Definition bisect_left {A} (lt : A -> A -> bool) (l : list A) (x : A) (lo : nat) : res nat :=
  bisect_loop lt (S (List.length l)) l x lo (List.length l).

(* ---- objects ---- *)
(* note.py:20-78 Note.__init__ (mc_onset is left out) *)
Record note := mkNote {
  no_pitch : Z; no_octave : Z; no_on : pos; no_on_level : Z; no_dur : Q;
  no_off : pos; no_off_level : Z; no_pt : pitch_type }.

(* chord.py:42-113 Chord.__init__ *)
Record pchord := mkPC {
  pc : chord; pc_on : pos; pc_on_level : Z; pc_off : pos; pc_off_level : Z; pc_dur : Q;
  pc_susp : option pystr }.

(* key.py:31-76 Key.__init__ *)
Record key_obj := mkKey {
  k_rel : Z; k_local : Z; k_global : Z;
  k_rel_mode : key_mode; k_local_mode : key_mode; k_global_mode : key_mode; k_pt : pitch_type }.

(* == on texts or None *)
Definition ostr_eqb (a b : option pystr) : bool :=
  match a, b with
  | None, None => true
  | Some x, Some y => str_eqb x y
  | _, _ => false
  end.

(* chord.py:327-360 Chord.is_repeated(self, other) *)
Definition chord_repeated (use_inversion use_suspension : bool) (self other : pchord) : bool :=
  pt_eqb (c_pt (pc self)) (c_pt (pc other)) &&
  (c_root (pc self) =? c_root (pc other)) &&
  ct_eqb (c_type (pc self)) (c_type (pc other)) &&
  (if use_inversion then c_inv (pc self) =? c_inv (pc other) else true) &&
  (if use_suspension then ostr_eqb (pc_susp self) (pc_susp other) else true).

(* key.py:211-260 Key.is_repeated / Key.equals *)
Definition key_repeated (use_relative : bool) (self other : key_obj) : bool :=
  pt_eqb (k_pt self) (k_pt other) &&
  (if use_relative then (k_rel self =? k_rel other) && km_eqb (k_rel_mode self) (k_rel_mode other)
   else (k_local self =? k_local other) && km_eqb (k_local_mode self) (k_local_mode other)).

(* chord.py:362-375 Chord.merge_with *)
Definition merge_with (c next : pchord) : pchord :=
  mkPC (pc c) (pc_on c) (pc_on_level c) (pc_off next) (pc_off_level next)
       (Qplus (pc_dur c) (pc_dur next)) (pc_susp c).

(* piece.py:22-49 get_reduction_mask; [rep next prev] is next.is_repeated(prev) *)
Fixpoint mask_from {A} (rep : A -> A -> bool) (prev : A) (l : list A) : list bool :=
  match l with [] => [] | x :: r => negb (rep x prev) :: mask_from rep x r end.
(* piece.py:22-49 *)
Definition get_reduction_mask {A} (rep : A -> A -> bool) (l : list A) : list bool :=
  match l with [] => [] | x :: r => true :: mask_from rep x r end.

(* array[mask] for a mask of the same length *)
Fixpoint apply_mask {A} (mask : list bool) (l : list A) : list A :=
  match mask, l with
  | b :: mask', x :: l' => if b then x :: apply_mask mask' l' else apply_mask mask' l'
  | _, _ => []
  end.

(* piece.py:684-689: the loop; [acc] is the list so far, newest first *)
Fixpoint merge_repeats (acc : list pchord) (l : list (pchord * bool)) : res (list pchord) :=
  match l with
  | [] => Ok (rev acc)
  | (c, keep) :: r =>
      if keep then merge_repeats (c :: acc) r
      else match acc with
           | [] => Raise IndexError
           | last :: acc' => merge_repeats (merge_with last c :: acc') r
           end
  end.

(* ---- note and chord rows ---- *)
(* A row of the notes table, columns used by Note.from_series (note.py:334-425) *)
Record note_row := mkNR {
  nr_midi : Z; nr_tpc : Z; nr_on : pos; nr_off : pos; nr_dur : Q }.

(* A row of the chords table (chord.py:420-568, key.py:289-348).  None is a null cell; a null
   figbass is the empty string, as in Model_Strings.get_chord_inversion. *)
Record label_row := mkLR {
  lr_numeral : option pystr; lr_root : Z; lr_type : pystr; lr_figbass : pystr;
  lr_globalkey : pystr; lr_global_minor : bool; lr_localkey : pystr; lr_local_minor : bool;
  lr_relroot : option pystr; lr_on : pos; lr_off : pos; lr_dur : Q; lr_changes : option pystr }.

(* The time signature of a measure; without exactly one row for the mc, the lookup of
   measure["timesig"] fails (TypeError: an empty or longer Series is not hashable). *)
Section Rows.
Variable timesig : Z -> option (Z * Z).
(* note.py:386-405, chord.py:521-540.  levels_cache is left out: C59_cache_transparent. *)
Definition level_at (p : pos) : res Z :=
  match timesig (fst p) with
  | None => Raise TypeError
  | Some ts => get_metrical_level (snd p) ts
  end.

(* except Exception: return None *)
Definition or_none {A} (x : res A) : option A := match x with Ok a => Some a | Raise _ => None end.

(* note.py:334-425 Note.from_series *)
Definition note_from_series (pt : pitch_type) (r : note_row) : option note :=
  or_none (
    let! pitch := (match pt with
                   | TPC => let p := nr_tpc r + TPC_C in
                            if (p <? 0) || (NUM_PITCHES TPC <=? p) then Raise ValueError else Ok p
                   | MIDI => Ok (nr_midi r mod NUM_PITCHES MIDI)
                   end) in
    let octave := nr_midi r / NUM_PITCHES MIDI in
    let! on_level := level_at (nr_on r) in
    let! off_level := level_at (nr_off r) in
    Ok (mkNote pitch octave (nr_on r) on_level (nr_dur r) (nr_off r) off_level pt)).

(* key.py:289-348 Key.from_series *)
Definition key_of_row (pt : pitch_type) (r : label_row) : res key_obj :=
  let! global_tonic := get_pitch_from_string (lr_globalkey r) pt in
  let global_mode := if lr_global_minor r then MINOR else MAJOR in
  let! (local_tonic, local_mode) := decode_relative_keys (lr_localkey r) global_tonic global_mode pt in
  let! (rel_tonic, rel_mode) :=
    (match lr_relroot r with
     | Some s => decode_relative_keys s local_tonic local_mode pt
     | None => Ok (local_tonic, local_mode)
     end) in
  Ok (mkKey rel_tonic local_tonic global_tonic rel_mode local_mode global_mode pt).
(* key.py:290-348; None if an exception was caught *)
Definition key_from_series (pt : pitch_type) (r : label_row) : option key_obj :=
  or_none (key_of_row pt r).

(* chord.py:420-568 Chord.from_series with key=None.  Attributes of a None key raise
   AttributeError inside the try block. *)
Definition chord_from_series (pt : pitch_type) (red : reduction) (use_inversion use_relative : bool)
  (r : label_row) : option pchord :=
  match lr_numeral r with
  | None => None
  | Some n =>
      if str_eqb n (L"@none") then None else
      or_none (
        let! key := (match key_from_series pt r with Some k => Ok k | None => Raise AttributeError end) in
        let root_interval := match pt with
                             | MIDI => tpc_interval_to_midi_interval (lr_root r)
                             | TPC => lr_root r
                             end in
        let! root := transpose_pitch (k_local key) root_interval pt in
        let! t := get_chord_type_from_string (lr_type r) in
        let t := red t in
        let! inversion := (if use_inversion then get_chord_inversion (lr_figbass r) else Ok 0) in
        let inversion := inversion mod zlen (CHORD_PITCHES pt t) in
        let! bass := get_bass_note t root inversion pt false in
        if negb ((0 <=? bass) && (bass <? NUM_PITCHES pt)) then Raise AssertionError else
        let! on_level := level_at (lr_on r) in
        let! off_level := level_at (lr_off r) in
        Ok (mkPC {| c_root := root; c_bass := bass;
                    c_tonic := if use_relative then k_rel key else k_local key;
                    c_mode := if use_relative then k_rel_mode key else k_local_mode key;
                    c_type := t; c_inv := inversion; c_pt := pt |}
                 (lr_on r) on_level (lr_off r) off_level (lr_dur r) (lr_changes r)))
  end.

(* ---- indexes ---- *)
(* piece.py:694-699 (also 996-1001): [rest] are the note onsets from note_index on *)
Fixpoint advance (rest : list pos) (note_index : nat) (onset : pos) : list pos * nat :=
  match rest with
  | x :: ((_ :: _) as r) => if pos_lt x onset then advance r (S note_index) onset
                            else (rest, note_index)
  | _ => (rest, note_index)
  end.
(* piece.py:694-699: a note index for every chord *)
Fixpoint chord_changes (rest : list pos) (note_index : nat) (chord_onsets : list pos) : list nat :=
  match chord_onsets with
  | [] => []
  | o :: r => let (rest', i) := advance rest note_index o in i :: chord_changes rest' i r
  end.

(* piece.py:165-185 get_range_start *)
Fixpoint range_start_from (i : nat) (onset : pos) (notes : list note) : nat :=
  match notes with
  | [] => i
  | n :: r => if negb (pos_lt (no_on n) onset) || pos_lt onset (no_off n) then i
              else range_start_from (S i) onset r
  end.
(* piece.py:165-185 *)
Definition get_range_start (onset : pos) (notes : list note) : nat := range_start_from 0 onset notes.

(* piece.py:701-705 *)
Definition chord_ranges (notes : list note) (chord_onsets : list pos) (changes : list nat)
  : list (nat * nat) :=
  combine (map (fun o => get_range_start o notes) chord_onsets) (tl changes ++ [List.length notes]).

(* piece.py:707-720: a row differs from the previous one in one of the five key columns
   (null cells are equal to null cells) *)
Definition same_key_cols (a b : label_row) : bool :=
  str_eqb (lr_globalkey a) (lr_globalkey b) && Bool.eqb (lr_global_minor a) (lr_global_minor b) &&
  Bool.eqb (lr_local_minor a) (lr_local_minor b) && str_eqb (lr_localkey a) (lr_localkey b) &&
  ostr_eqb (lr_relroot a) (lr_relroot b).
(* piece.py:707-720: numbered rows where the key columns change *)
Fixpoint key_rows_from (i : nat) (prev : option label_row) (rows : list label_row)
  : list (nat * label_row) :=
  match rows with
  | [] => []
  | r :: rest =>
      let changed := match prev with None => true | Some p => negb (same_key_cols r p) end in
      if changed then (i, r) :: key_rows_from (S i) (Some r) rest
      else key_rows_from (S i) (Some r) rest
  end.

(* [x for x in l if x is not None] *)
Fixpoint somes {A} (l : list (option A)) : list A :=
  match l with [] => [] | Some a :: r => a :: somes r | None :: r => somes r end.

(* the fields of ScorePiece, piece.py:379-422 *)
Record piece := mkPiece {
  p_notes : list note; p_chords : list pchord; p_keys : list key_obj;
  p_changes : list nat; p_ranges : list (nat * nat); p_key_changes : list nat }.

(* piece.py:581-745 get_score_piece_from_data_frames with chords_df given.
   - np.squeeze turns a list of one element into a 0-dimensional array, whose len() is a
     TypeError (lines 673 and 43, 638 and 697).
   - With no chord at all the outcome depends on pandas (apply on an empty frame).
   - The index of chords_df is taken to have no duplicates (it is the row number of the TSV).
   - keys_list drops keys that could not be parsed; if there are any, indexing with a mask of
     another length is an IndexError (line 734). *)
Definition get_score_piece (red : reduction) (use_inversions use_relative use_suspensions : bool)
  (note_rows : list note_row) (rows : list label_row) : res piece :=
  let notes := somes (map (note_from_series TPC) note_rows) in
  let parsed := somes (map (fun r => match chord_from_series TPC red use_inversions use_relative r with
                                     | Some c => Some (c, r) | None => None end) rows) in
  let chords_list := map fst parsed in
  match parsed with
  | [] => Raise Unmodelled
  | [_] => Raise TypeError
  | _ =>
      let mask := get_reduction_mask (chord_repeated use_inversions use_suspensions) chords_list in
      let! chords := merge_repeats [] (combine chords_list mask) in
      let kept_rows := map snd (apply_mask mask parsed) in
      match notes with
      | [_] => Raise TypeError
      | _ =>
          let changes := chord_changes (map no_on notes) 0 (map pc_on chords) in
          let ranges := chord_ranges notes (map pc_on chords) changes in
          let key_rows := key_rows_from 0 None kept_rows in
          let keys_list := somes (map (fun x => key_from_series TPC (snd x)) key_rows) in
          let kmask := get_reduction_mask (key_repeated use_relative) keys_list in
          if (List.length keys_list =? List.length key_rows)%nat then
            Ok (mkPiece notes chords (apply_mask kmask keys_list) changes ranges
                        (apply_mask kmask (map fst key_rows)))
          else Raise IndexError
      end
  end.
End Rows.

(* piece.py:252-290 Piece.get_chords_within_range *)
Definition get_chords_within_range {A} (chords : list A) (changes : list Z) (start : Z)
  (stop : option Z) : res (list A) :=
  if match stop with Some s => s <? start | None => false end then Raise AssertionError else
  let! i := bisect_left Z.ltb changes start 0 in
  let start_index := match nth_error changes i with
                     | Some c => if c =? start then Z.of_nat i else Z.of_nat i - 1
                     | None => Z.of_nat i - 1
                     end in
  match stop with
  | None => Ok (py_slice chords start_index (zlen chords))
  | Some s =>
      let! e := bisect_left Z.ltb changes s (Z.to_nat (Z.max start_index 0)) in
      Ok (py_slice chords start_index (Z.of_nat e))
  end.

(* ---- note vectors and chord windows ---- *)
(* note.py:118-133 Note.get_midi_note_number *)
Definition midi_note_number (n : note) : res Z :=
  match no_pt n with
  | MIDI => Ok (NUM_PITCHES TPC * no_octave n + no_pitch n)
  | TPC => let! p := convert_pitch (no_pitch n) TPC MIDI in Ok (NUM_PITCHES MIDI * no_octave n + p)
  end.

(* a vector with one entry 1 *)
Definition qone_hot (n i : Z) : res (list Q) := py_upd (repeat 0%Q (Z.to_nat n)) i 1%Q.
(* note.py:157 and 540: 127 // 12 *)
Definition NUM_OCTAVES : Z := 127 / NUM_PITCHES MIDI.

(* note.py:228-262: the rhythmic part; note_onset=None asks for
   get_rhythmic_info_as_proportion_of_range *)
Definition rhythm_part (n : note) (chord_on chord_off : pos) (chord_dur : Q) (ms : table)
  (note_onset : option Q) : res (list Q) :=
  match note_onset with
  | None =>
      let! (x, d) := get_rhythmic_info (no_on n) (no_dur n) chord_on chord_off ms (Some chord_dur) in
      let (on, off) := x : Q * Q in Ok [on; off; d]
  | Some o =>
      if Qeq_bool chord_dur 0%Q then Ok [1%Q; 1%Q; 1%Q]
      else let on := Qdiv o chord_dur in let d := Qdiv (no_dur n) chord_dur in
           Ok [on; Qplus on d; d]
  end.

(* note.py:135-302 Note.to_vec, all arguments given.  Pitches are (octave, number) pairs. *)
Definition note_vector (n : note) (chord_on chord_off : pos) (chord_dur : Q) (ms : table)
  (min_pitch max_pitch : Z * Z) (note_onset : option Q) (from_prev : option Q) (to_next : Q)
  : res (list Q) :=
  let! pitch := qone_hot (NUM_PITCHES (no_pt n)) (no_pitch n) in
  let! octave := qone_hot NUM_OCTAVES (no_octave n) in
  let! on := qone_hot 4 (no_on_level n) in
  let! off := qone_hot 4 (no_off_level n) in
  let! rhythm := rhythm_part n chord_on chord_off chord_dur ms note_onset in
  let durations := [match from_prev with None => 0%Q | Some d => d end; to_next] in
  let! number := midi_note_number n in
  let is_min := [if number =? snd min_pitch then 1%Q else 0%Q] in
  let! rel := qone_hot NUM_OCTAVES (no_octave n - fst min_pitch) in
  let height := [Qdiv (inject_Z number) (127 # 1)%Q] in
  let range_size := snd max_pitch - snd min_pitch in
  let range_size := if range_size =? 0 then 1 else range_size in
  let relative := [Qdiv (inject_Z (number - snd min_pitch)) (inject_Z range_size)] in
  Ok (pitch ++ octave ++ on ++ off ++ rhythm ++ durations ++ is_min ++ rel ++ height ++ relative).

(* min and max of a list of pairs (lexicographic order); ValueError for an empty list *)
Definition pair_lt (a b : Z * Z) : bool :=
  (fst a <? fst b) || ((fst a =? fst b) && (snd a <? snd b)).
(* min(pairs) *)
Definition pair_min (l : list (Z * Z)) : res (Z * Z) :=
  match l with
  | [] => Raise ValueError
  | a :: r => Ok (fold_left (fun best x => if pair_lt x best then x else best) r a)
  end.
(* max(pairs) *)
Definition pair_max (l : list (Z * Z)) : res (Z * Z) :=
  match l with
  | [] => Raise ValueError
  | a :: r => Ok (fold_left (fun best x => if pair_lt best x then x else best) r a)
  end.

(* np.sum *)
Definition qsum (l : list Q) : Q := fold_right Qplus 0%Q l.

(* piece.py:122-133: the distance of note [i] from the chord onset; numpy slices *)
Definition note_onset_of (durs : list Q) (change_index i : Z) : Q :=
  if i <? change_index then Qopp (qsum (py_slice durs i change_index))
  else if change_index <? i then qsum (py_slice durs change_index i)
  else 0%Q.

(* assignment of rows to a slice of a zero matrix: equal lengths, or one row repeated *)
Definition place_rows (total start stop : Z) (width : nat) (rows : list (list Q))
  : res (list (list Q)) :=
  let z := repeat (repeat 0%Q width) (Z.to_nat total) in
  let a := py_bound total start in
  let b := Z.max a (py_bound total stop) in
  if b - a =? zlen rows then
    Ok (firstn (Z.to_nat a) z ++ rows ++ skipn (Z.to_nat b) z)
  else match rows with
       | [r] => Ok (firstn (Z.to_nat a) z ++ repeat r (Z.to_nat (b - a)) ++ skipn (Z.to_nat b) z)
       | _ => Raise ValueError
       end.

(* piece.py:135-160: the rows of the notes *)
Fixpoint vec_rows (f : note -> option Q -> option Q -> Q -> res (list Q))
  (notes : list note) (onsets : list (option Q)) (prevs : list (option Q)) (nexts : list Q)
  : res (list (list Q)) :=
  match notes, onsets, prevs, nexts with
  | n :: ns, o :: os, p :: ps, d :: ds =>
      let! v := f n o p d in let! vs := vec_rows f ns os ps ds in Ok (v :: vs)
  | _, _, _, _ => Ok []
  end.

(* piece.py:52-162 get_chord_note_input; duration_cache is given (None is a TypeError in line
   109).  np.vstack of no rows is a ValueError, but then min() has raised one already. *)
Definition get_chord_note_input (notes : list note) (ms : table) (chord_on chord_off : pos)
  (chord_dur : Q) (change_index onset_index offset_index window : Z) (durs : list Q)
  (chord : option pchord) : res (list (list Q)) :=
  let on_aligns := match chord with None => true | Some c => pos_eqb (pc_on c) chord_on end in
  let off_aligns := match chord with None => true | Some c => pos_eqb (pc_off c) chord_off end in
  let win_on := onset_index - window in
  let win_off := offset_index + window in
  let first := Z.max win_on 0 in
  let last := Z.min win_off (zlen notes) in
  let chord_notes := py_slice notes first last in
  let! pitches := mapM (fun n => let! m := midi_note_number n in Ok (no_octave n, m)) chord_notes in
  let! lo := pair_min pitches in
  let! hi := pair_max pitches in
  let onsets := if on_aligns then map (fun i => Some (note_onset_of durs change_index i)) (zrange first last)
                else map (fun _ => None) chord_notes in
  let con := match chord with Some c => if on_aligns then chord_on else pc_on c | None => chord_on end in
  let coff := match chord with Some c => if off_aligns then chord_off else pc_off c | None => chord_off end in
  let! rows := vec_rows (fun n o p d => note_vector n con coff chord_dur ms lo hi o p d)
                 chord_notes onsets (py_slice (None :: map Some durs) first last) (py_slice durs first last) in
  match rows with
  | [] => Raise ValueError
  | r :: _ =>
      let total := win_off - win_on in
      if total <? 0 then Raise ValueError
      else place_rows total (first - win_on) (total - (win_off - last)) (List.length r) rows
  end.

(* the latest of some positions *)
Definition pos_max (l : list pos) : res pos :=
  match l with
  | [] => Raise ValueError
  | a :: r => Ok (fold_left (fun best x => if pos_lt best x then x else best) r a)
  end.

(* piece.py:479-483 and 429-431: the end of the last chord, or of the note that ends last *)
Definition last_offset (notes : list note) (chords : option (list pchord)) : res pos :=
  match chords with
  | Some cs => let! c := py_nth cs (-1) in Ok (pc_off c)
  | None => pos_max (map no_off notes)
  end.

(* piece.py:462-519 ScorePiece.get_chord_note_inputs.  [use_real] is use_real_chords: the
   ranges and changes are then those of the piece; joint_model.py:812-816 passes the candidate
   ranges and their starts instead.  The duration cache is computed once (piece.py:425). *)
Definition get_chord_note_inputs (notes : list note) (ms : table) (chords : option (list pchord))
  (window : Z) (ranges : list (Z * Z)) (change_indices : list Z) (use_real : bool)
  : res (list (list (list Q))) :=
  let! real := (if use_real
                then match chords with Some cs => Ok (map Some cs) | None => Raise TypeError end
                else Ok (repeat None (List.length ranges))) in
  let! last := last_offset notes chords in
  let! durs := get_duration_cache (map no_on notes) last ms in
  mapM (fun x => let '((onset_index, offset_index), change_index, chord) :=
                     x : (Z * Z) * Z * option pchord in
          let duration := match chord with
                          | None => qsum (py_slice durs change_index offset_index)
                          | Some c => pc_dur c
                          end in
          let! n := py_nth notes change_index in
          let offset := match py_nth notes offset_index with Ok m => no_on m | Raise _ => last end in
          get_chord_note_input notes ms (no_on n) offset duration change_index onset_index
            offset_index window durs chord)
       (combine (combine ranges change_indices) real).
