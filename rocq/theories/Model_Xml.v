(* Pieces from MusicXML scores and csv label files: piece.py:748-1035, Note.from_music21
   (note.py:427-520), Chord.from_labels_csv_row (chord.py:570-726) and
   Key.from_labels_csv_row (key.py:350-479).  music21 is not modelled: the functions are given
   what they read from its objects.  Offsets and lengths in music21 are floats or Fractions;
   both are exact in Fraction(x) / 4, so they are Q here. *)
From Coq Require Import QArith Qround String Ascii.
From Verif Require Import PyBase Model_Types Model_Harmony Model_Strings Model_Rhythm Model_Vectors Model_Piece Model_Prior.
From Coq Require Import List.
Import ListNotations.
Close Scope Q_scope.
Open Scope Z_scope.

(* one entry of measureOffsetMap(): the key, and of the first measure at that offset the number,
   the time signature (ratioString as its two ints; None if there is none in this measure) and
   duration.quarterLength *)
Record m21_measure := mkMM { mm_offset : Q; mm_number : Z; mm_ts : option (Z * Z); mm_ql : Q }.
(* a RepeatBracket: int(number) (None if it is not an int, e.g. "1,2"), numbers of the first and
   the last measure *)
Record bracket := mkBr { br_number : option Z; br_first : Z; br_last : Z }.

(* a row of the measures table; the columns of Model_Rhythm.measure and "mn", "timesig", "start" *)
Record xrow := mkX { x_mn : Z; x_ts : Z * Z; x_start : Q; x_row : measure }.
(* the measures table of a score *)
Definition xtable := list xrow.

(* piece.py:786-790 *)
Definition first_endings (bs : list bracket) : res (list (Z * Z)) :=
  let! l := mapM (fun b => match br_number b with
                           | None => Raise ValueError
                           | Some n => Ok (if n =? 1 then [(br_first b, br_last b)] else [])
                           end) bs in
  Ok (concat l).
(* 798-802 *)
Definition in_endings (es : list (Z * Z)) (n : Z) : bool :=
  existsb (fun e => (fst e <=? n) && (n <? snd e + 1)) es.

(* the local variables of the loop; the lists are one list of rows, newest first:
   (mn, time signature, start, length, mc_offset) *)
Record macc := mkAcc { a_epoch : Q; a_ts : Z * Z; a_dur : Q; a_skip : Q;
                       a_rows : list (Z * (Z * Z) * Q * Q * Q) }.
(* 821-823: lengths[-1] = offset - starts[-1] *)
Definition set_length (offset : Q) (rows : list (Z * (Z * Z) * Q * Q * Q)) :=
  match rows with
  | [] => []
  | (mn, ts, start, _, off) :: r => (mn, ts, start, Qminus offset start, off) :: r
  end.
(* 794-830, the body of the loop *)
Definition measure_step (es : list (Z * Z)) (a : macc) (x : nat * m21_measure) : res macc :=
  let (mc, m) := x in
  let offset := Qminus (Qdiv (mm_offset m) 4) (a_skip a) in
  if in_endings es (mm_number m) then
    Ok (mkAcc (a_epoch a) (a_ts a) (a_dur a) (Qplus (a_skip a) (Qdiv (mm_ql m) 4)) (a_rows a))
  else
    let! (td, epoch) :=
      match mm_ts m with
      | None => Ok (a_ts a, a_dur a, a_epoch a)
      | Some ts =>
          if (fst ts =? fst (a_ts a)) && (snd ts =? snd (a_ts a)) then Ok (a_ts a, a_dur a, a_epoch a)
          else let! d := fraction (fst ts) (snd ts) in
               Ok (ts, d, if (mc =? 0)%nat then a_epoch a else offset)
      end in
    let (ts, dur) := td : (Z * Z) * Q in
    let! off := frac_mod (Qminus offset epoch) dur in
    Ok (mkAcc epoch ts dur (a_skip a)
              ((mm_number m, ts, offset, Qdiv (mm_ql m) 4, off) :: set_length offset (a_rows a))).
(* enumerate *)
Fixpoint number_from {A} (i : nat) (l : list A) : list (nat * A) :=
  match l with [] => [] | x :: r => (i, x) :: number_from (S i) r end.
(* 832-840: the columns "mc" and "next" *)
Fixpoint make_rows (i : nat) (l : list (Z * (Z * Z) * Q * Q * Q)) : xtable :=
  match l with
  | [] => []
  | (mn, ts, start, len, off) :: r =>
      mkX mn ts start (mkM (Z.of_nat i) len off (match r with [] => NextNA | _ => NextMc (Z.of_nat (S i)) end))
      :: make_rows (S i) r
  end.
(* 748-840 get_measures_df_from_music21_score; without a measure left the columns have different
   lengths (ValueError) *)
Definition get_measures (ms : list m21_measure) (bs : list bracket) : res xtable :=
  match ms with
  | _ :: second :: _ =>
      let! es := first_endings bs in
      let! a := foldM (measure_step es) (number_from 0 ms)
                  (mkAcc (Qdiv (mm_offset second) 4) (4, 4) 1%Q 0%Q []) in
      match a_rows a with
      | [] => Raise ValueError
      | rows => Ok (make_rows 0 (rev rows))
      end
  | _ => Raise IndexError
  end.
(* the columns used by the rhythmic functions *)
Definition measures_of (t : xtable) : table := map x_row t.

(* measures_df.loc[measures_df["mc"] == mc].iloc[0] *)
Definition xrow_at (t : xtable) (mc : Z) : res xrow :=
  match find (fun x => m_mc (x_row x) =? mc) t with Some x => Ok x | None => Raise IndexError end.

(* a note or a chord in music21: offset and quarterLength, and (pitch.name, octave) of its notes *)
Record m21_item := mkItem { it_offset : Q; it_ql : Q; it_pitches : list (pystr * Z) }.

(* str.replace of one character *)
Definition replace_char (a b : ascii) (s : pystr) : pystr := map (fun c => if Ascii.eqb c a then b else c) s.

(* note.py:468-473, the loop; every iteration moves on to the next measure *)
Fixpoint offset_measure (fuel : nat) (t : xtable) (m : xrow) (tmp : Q) : res (xrow * Q) :=
  if Qle_bool (m_dur (x_row m)) tmp then
    match m_next (x_row m) with
    | NextMc n =>
        match fuel with
        | O => Raise OutOfFuel
        | S f => let! m' := xrow_at t n in offset_measure f t m' (Qminus tmp (m_dur (x_row m)))
        end
    | _ => Ok (m, tmp)
    end
  else Ok (m, tmp).

(* note.py:427-520 Note.from_music21 with its last field mc_onset; levels_cache is left out
   (C59_cache_transparent) *)
Definition note_from_music21 (t : xtable) (mc : Z) (pt : pitch_type) (it : m21_item) (p : pystr * Z)
  : res (note * Q) :=
  let note_start := Qdiv (it_offset it) 4 in
  let note_duration := Qdiv (it_ql it) 4 in
  let! on_m := xrow_at t mc in
  let tmp := Qminus (Qplus note_duration note_start) (m_off (x_row on_m)) in
  let! (off_m, tmp) := offset_measure (S (List.length t)) t on_m tmp in
  let onset_beat := Qplus note_start (m_off (x_row on_m)) in
  let offset_beat := Qplus (Qplus tmp (m_off (x_row off_m))) (m_off (x_row off_m)) in
  let! on_level := get_metrical_level onset_beat (x_ts on_m) in
  let! off_level := get_metrical_level offset_beat (x_ts off_m) in
  let! pitch := get_pitch_from_string (replace_char "-" "b" (fst p)) pt in
  Ok (mkNote pitch (snd p) (m_mc (x_row on_m), onset_beat) on_level note_duration
        (m_mc (x_row off_m), offset_beat) off_level pt,
      Qminus onset_beat (m_off (x_row on_m))).

(* piece.py:843-910 get_notes_from_music_xml; the measures of the score after flattenParts and
   stripTies: their numbers and items, in the order of recurse().notes *)
Definition get_notes (t : xtable) (score : list (Z * list m21_item)) : res (list (note * Q)) :=
  let! ls := mapM (fun mi =>
      let (number, items) := mi : Z * list m21_item in
      match find (fun x => x_mn x =? number) t with
      | None => Ok []
      | Some x =>
          let! l := mapM (fun it => mapM (note_from_music21 t (m_mc (x_row x)) TPC it) (it_pitches it)) items in
          Ok (concat l)
      end) score in
  Ok (concat ls).

(* ---- labels ---------------------------------------------------------------------------- *)
(* a row of the label file; times in quarter notes *)
Record csv_row := mkRow { r_on : Q; r_off : Q; r_key : pystr; r_degree : pystr; r_type : pystr; r_inv : Z }.

(* str.replace(old, new); old is not empty *)
Fixpoint replace_text (fuel : nat) (old new s : pystr) : pystr :=
  match fuel with
  | O => s
  | S f =>
      if starts_with old s then new ++ replace_text f old new (skipn (List.length old) s)
      else match s with [] => [] | c :: r => c :: replace_text f old new r end
  end.
(* str.replace(old, new) *)
Definition str_replace (old new s : pystr) : pystr := replace_text (S (List.length s)) old new s.
(* "-" is written for flats and "+" for sharps: chord.py:646-647, key.py:388-389, 409-410 *)
Definition csv_accidentals (s : pystr) : pystr := replace_char "+" "#" (replace_char "-" "b" s).

(* key.py:412-420 and chord.py:653-657: the seventh degree of minor keys; [0] of a text that
   contains "7" *)
Definition fix_seventh (m : key_mode) (s : pystr) : pystr :=
  match m with
  | MAJOR => s
  | MINOR =>
      if substring_of (L"7") s then
        match s with
        | c :: r => if Ascii.eqb c "b" then r else L"#" ++ s
        | [] => s
        end
      else s
  end.

(* key.py:441-456 and 461-475 *)
Definition mode_in_major : list (pystr * key_mode) :=
  [(L"1", MAJOR); (L"#1", MINOR); (L"b2", MAJOR); (L"2", MINOR); (L"b3", MAJOR); (L"3", MINOR);
   (L"b4", MINOR); (L"4", MAJOR); (L"#4", MAJOR); (L"5", MAJOR); (L"#5", MAJOR); (L"6", MINOR);
   (L"b7", MAJOR); (L"7", MINOR)].
(* key.py:461-475: the modes of the degrees in minor *)
Definition mode_in_minor : list (pystr * key_mode) :=
  [(L"b1", MAJOR); (L"1", MINOR); (L"b2", MAJOR); (L"2", MINOR); (L"3", MAJOR); (L"b4", MINOR);
   (L"4", MINOR); (L"b5", MINOR); (L"5", MINOR); (L"6", MAJOR); (L"b7", MINOR); (L"7", MAJOR);
   (L"#7", MAJOR)].

(* key.py:405-479: the applied key *)
Definition relative_key (pt : pitch_type) (tonic : Z) (mode : key_mode) (degree : pystr)
  : res (Z * key_mode) :=
  match split_on "/" degree with
  | [_] => Ok (tonic, mode)
  | [_; root] =>
      let root := fix_seventh mode root in
      let root := match mode with MINOR => str_replace (L"#6") (L"6") root | MAJOR => root end in
      let! i := get_interval_from_scale_degree root true mode pt in
      let! tonic' := transpose_pitch tonic i pt in
      match str_lookup root (match mode with MAJOR => mode_in_major | MINOR => mode_in_minor end) with
      | Some mode' => Ok (tonic', mode')
      | None => Raise ValueError
      end
  | _ => Raise ValueError
  end.
(* key.py:350-479 Key.from_labels_csv_row *)
Definition key_from_csv (pt : pitch_type) (global : option key_obj) (r : csv_row) : res key_obj :=
  let key_str := csv_accidentals (r_key r) in
  let! local_tonic := get_pitch_from_string key_str pt in
  let! c := (match key_str with c :: _ => Ok c | [] => Raise IndexError end) in
  let local_mode := if (let n := Z.of_nat (nat_of_ascii c) in (65 <=? n) && (n <=? 90)) then MAJOR else MINOR in
  let '(gt, gm) := match global with None => (local_tonic, local_mode) | Some g => (k_global g, k_global_mode g) end in
  let! (rel_tonic, rel_mode) := relative_key pt local_tonic local_mode (csv_accidentals (r_degree r)) in
  Ok (mkKey rel_tonic local_tonic gt rel_mode local_mode gm pt).

(* chord.py:628-641 *)
Definition csv_types : list (pystr * chord_type) :=
  [(L"D7", Maj_Min7); (L"M", Maj); (L"M7", Maj_Maj7); (L"d", Dim); (L"a", Aug); (L"d7", Dim7);
   (L"m", Min); (L"m7", Min_Min7); (L"Gr+6", Maj); (L"Fr+6", Maj); (L"It+6", Maj); (L"h7", Half_Dim7)].

(* chord.py:682-688: measures_df.loc[measures_df["start"] <= x].iloc[-1] and the beat *)
Definition position_of (t : xtable) (x : Q) : res (xrow * Q) :=
  match find (fun m => Qle_bool (x_start m) x) (rev t) with
  | None => Raise IndexError
  | Some m => Ok (m, Qminus (Qplus (m_off (x_row m)) x) (x_start m))
  end.

(* chord.py:570-726 Chord.from_labels_csv_row with the default arguments; on and off are those of
   the row in whole notes *)
Definition chord_from_csv (t : xtable) (pt : pitch_type) (on off : Q) (r : csv_row) : res pchord :=
  let! key := key_from_csv pt None r in
  let! ty := dict_get csv_types (r_type r) in
  let degree := hd [] (split_on "/" (csv_accidentals (r_degree r))) in
  let degree := fix_seventh (k_rel_mode key) degree in
  let degree := match k_rel_mode key with MINOR => str_replace (L"##6") (L"#6") degree | MAJOR => degree end in
  let! i := get_interval_from_scale_degree degree true (k_rel_mode key) pt in
  let! root := transpose_pitch (k_rel key) i pt in
  let inv := if existsb (str_eqb (r_type r)) [L"Gr+6"; L"Fr+6"; L"It+6"] then 0 else r_inv r in
  let inv := inv mod zlen (CHORD_PITCHES TPC ty) in
  let! (on_m, on_beat) := position_of t on in
  let! (off_m, off_beat) := position_of t off in
  let! on_level := get_metrical_level on_beat (x_ts on_m) in
  let! off_level := get_metrical_level off_beat (x_ts off_m) in
  let! bass := get_bass_note ty root inv pt true in
  Ok (mkPC {| c_root := root; c_bass := bass; c_tonic := k_rel key; c_mode := k_rel_mode key;
              c_type := ty; c_inv := inv; c_pt := pt |}
           (m_mc (x_row on_m), on_beat) on_level (m_mc (x_row off_m), off_beat) off_level (Qminus off on) None).

(* piece.py:977-987: whole notes, rows before the start and rows without duration removed, "1+" to
   "5+" without the plus *)
Definition whole_notes (r : csv_row) : csv_row :=
  mkRow (Qdiv (r_on r) 4) (Qdiv (r_off r) 4) (r_key r) (r_degree r) (r_type r) (r_inv r).
(* piece.py:979-983: rows that are kept *)
Definition usable (r : csv_row) : bool :=
  Qle_bool 0 (r_on r) && negb (Qle_bool (r_off r) 0) && negb (Qle_bool (r_off r) (r_on r)).
(* piece.py:985-987: "1+" to "1" *)
Definition drop_plus (r : csv_row) : csv_row :=
  let d := r_degree r in
  mkRow (r_on r) (r_off r) (r_key r)
    (if existsb (str_eqb d) [L"1+"; L"2+"; L"3+"; L"4+"; L"5+"] then firstn 1 d else d) (r_type r) (r_inv r).
(* piece.py:977-987, all rows *)
Definition clean_labels (rows : list csv_row) : list csv_row :=
  map drop_plus (filter usable (map whole_notes rows)).

(* piece.py:913-1035 get_score_piece_from_music_xml with a label file.  The rows are those of the
   csv file; reading and printing are left out. *)
Definition piece_from_xml (ms : list m21_measure) (bs : list bracket) (score : list (Z * list m21_item))
  (rows : list csv_row) : res (xtable * piece) :=
  let! t := get_measures ms bs in
  let! ns := get_notes t score in
  let notes := map fst ns in
  let! _ := py_nth rows (-1) in
  let rows := clean_labels rows in
  let! chords := mapM (fun r => chord_from_csv t TPC (r_on r) (r_off r) r) rows in
  let changes := chord_changes (map no_on notes) 0 (map pc_on chords) in
  let ranges := chord_ranges notes (map pc_on chords) changes in
  let! first := py_nth rows 0 in
  let! global := key_from_csv TPC None first in
  let! keys := mapM (key_from_csv TPC (Some global)) rows in
  let mask := get_reduction_mask (key_repeated true) keys in
  let kept := apply_mask mask keys in
  let! _ := mapM (fun p => key_change_vector (k_pt (fst p)) (k_rel (fst p)) (k_rel (snd p)) (k_rel_mode (snd p)))
              (combine kept (tl kept)) in
  Ok (t, mkPiece notes chords kept changes ranges (apply_mask mask (seq 0 (List.length keys)))).
(* 955-967: without a label file *)
Definition notes_from_xml (ms : list m21_measure) (bs : list bracket) (score : list (Z * list m21_item))
  : res (xtable * list note) :=
  let! t := get_measures ms bs in
  let! ns := get_notes t score in
  Ok (t, map fst ns).
