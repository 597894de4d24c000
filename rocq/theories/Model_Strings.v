(* String side of harmonic_inference/utils/harmonic_utils.py and harmonic_constants.py.
   Python strings are lists of ASCII characters (simplification: no non-ASCII text). *)
From Coq Require Import String Ascii.
From Coq Require DecimalString.
From Verif Require Export Model_Harmony.
From Coq Require Import List.
Import ListNotations.
Open Scope Z_scope.

Notation pystr := (list ascii).
(* a Python text from a Coq text *)
Definition L (s : string) : pystr := list_ascii_of_string s.
Arguments L s%string.

(* == on texts *)
Fixpoint str_eqb (a b : pystr) : bool :=
  match a, b with
  | [], [] => true
  | x :: a', y :: b' => Ascii.eqb x y && str_eqb a' b'
  | _, _ => false
  end.

(* dict lookup with string keys; the first matching pair (keys are distinct in the tables) *)
Fixpoint str_lookup {V} (s : pystr) (d : list (pystr * V)) : option V :=
  match d with
  | [] => None
  | (k, v) :: r => if str_eqb s k then Some v else str_lookup s r
  end.
(* d[s] *)
Definition dict_get {V} (d : list (pystr * V)) (s : pystr) : res V :=
  match str_lookup s d with Some v => Ok v | None => Raise KeyError end.

(* s * n *)
Definition str_times (c : ascii) (n : Z) : pystr := repeat c (Z.to_nat n).

(* str(int) *)
Definition z_to_str (z : Z) : pystr := L (DecimalString.NilZero.string_of_int (Z.to_int z)).

(* str.split(sep) for a one-character separator *)
Fixpoint split_on (sep : ascii) (s : pystr) : list pystr :=
  match s with
  | [] => [[]]
  | c :: r =>
      if Ascii.eqb c sep then [] :: split_on sep r
      else match split_on sep r with
           | w :: ws => (c :: w) :: ws
           | [] => [[c]]
           end
  end.

(* str.islower() on a one-character string (ASCII) *)
Definition char_is_lower (c : ascii) : bool :=
  let n := Z.of_nat (nat_of_ascii c) in (97 <=? n) && (n <=? 122).
(* str.lower() (ASCII) *)
Definition char_lower (c : ascii) : ascii :=
  let n := nat_of_ascii c in
  if (65 <=? Z.of_nat n) && (Z.of_nat n <=? 90) then ascii_of_nat (n + 32) else c.
(* str.lower() *)
Definition str_lower (s : pystr) : pystr := map char_lower s.
(* str.isnumeric() on a one-character string (ASCII) *)
Definition char_is_digit (c : ascii) : bool :=
  let n := Z.of_nat (nat_of_ascii c) in (48 <=? n) && (n <=? 57).

(* harmonic_constants.py:16-27 and 51-53 (lower case copies of the letters) *)
Definition STRING_TO_PITCH (pt : pitch_type) : list (pystr * Z) :=
  match pt with
  | TPC => [(L"A", TPC_C + 3); (L"B", TPC_C + 5); (L"C", TPC_C); (L"D", TPC_C + 2);
            (L"E", TPC_C + 4); (L"F", TPC_C - 1); (L"G", TPC_C + 1);
            (L"a", TPC_C + 3); (L"b", TPC_C + 5); (L"c", TPC_C); (L"d", TPC_C + 2);
            (L"e", TPC_C + 4); (L"f", TPC_C - 1); (L"g", TPC_C + 1)]
  | MIDI => [(L"C", 0); (L"D", 2); (L"E", 4); (L"F", 5); (L"G", 7); (L"A", 9); (L"B", 11);
             (L"a", 9); (L"b", 11); (L"c", 0); (L"d", 2); (L"e", 4); (L"f", 5); (L"g", 7)]
  end.

(* harmonic_constants.py:32-46 *)
Definition PITCH_TO_STRING_MIDI : list pystr :=
  [L"C"; L"C#/Db"; L"D"; L"D#/Eb"; L"E"; L"F"; L"F#/Gb"; L"G"; L"G#/Ab"; L"A"; L"A#/Bb"; L"B"].
(* harmonic_constants.py:47 (built before the lower case letters are added) *)
Definition PITCH_TO_STRING_TPC (p : Z) : res pystr :=
  match p - TPC_C with
  | 3 => Ok (L"A") | 5 => Ok (L"B") | 0 => Ok (L"C") | 2 => Ok (L"D")
  | 4 => Ok (L"E") | -1 => Ok (L"F") | 1 => Ok (L"G")
  | _ => Raise KeyError
  end.

(* harmonic_constants.py:56-65 *)
Definition SCALE_INTERVALS (m : key_mode) (pt : pitch_type) : list Z :=
  match m, pt with
  | MAJOR, TPC => [0; 0; 2; 4; -1; 1; 3; 5]
  | MAJOR, MIDI => [0; 0; 2; 4; 5; 7; 9; 11]
  | MINOR, TPC => [0; 0; 2; -3; -1; 1; -4; -2]
  | MINOR, MIDI => [0; 0; 2; 3; 5; 7; 8; 10]
  end.

(* harmonic_constants.py:75-97 *)
Definition SCALE_DEGREE_TO_NUMBER : list (pystr * Z) :=
  [(L"I", 1); (L"II", 2); (L"III", 3); (L"IV", 4); (L"V", 5); (L"VI", 6); (L"VII", 7);
   (L"i", 1); (L"ii", 2); (L"iii", 3); (L"iv", 4); (L"v", 5); (L"vi", 6); (L"vii", 7);
   (L"1", 1); (L"2", 2); (L"3", 3); (L"4", 4); (L"5", 5); (L"6", 6); (L"7", 7)].

(* harmonic_constants.py:100-109 *)
Definition NUMBER_TO_SCALE_DEGREE (n : Z) : res pystr :=
  match n with
  | 0 => Ok (L"I") | 1 => Ok (L"I") | 2 => Ok (L"II") | 3 => Ok (L"III") | 4 => Ok (L"IV")
  | 5 => Ok (L"V") | 6 => Ok (L"VI") | 7 => Ok (L"VII") | _ => Raise KeyError
  end.

(* harmonic_constants.py:170-186 (CHORD_TYPE_TO_STRING), harmonic_utils.py:990-1004 *)
Definition get_chord_string (t : chord_type) : pystr :=
  match t with
  | Maj => L"M" | Min => L"m" | Dim => L"o" | Aug => L"+"
  | Maj_Maj7 => L"MM7" | Maj_Min7 => L"Mm7" | Min_Maj7 => L"mM7" | Min_Min7 => L"mm7"
  | Dim7 => L"o7" | Half_Dim7 => L"%7" | Aug_Min7 => L"+7" | Aug_Maj7 => L"+M7"
  end.

(* harmonic_constants.py:170-190 *)
Definition STRING_TO_CHORD_TYPE : list (pystr * chord_type) :=
  [(L"M", Maj); (L"m", Min); (L"o", Dim); (L"+", Aug); (L"MM7", Maj_Maj7); (L"Mm7", Maj_Min7);
   (L"mM7", Min_Maj7); (L"mm7", Min_Min7); (L"o7", Dim7); (L"%7", Half_Dim7);
   (L"+7", Aug_Min7); (L"+M7", Aug_Maj7); (L"It", Dim); (L"Ger", Dim7); (L"Fr", Maj_Min7)].

(* harmonic_utils.py:964-987 *)
Definition get_chord_type_from_string (s : pystr) : res chord_type :=
  match str_lookup s STRING_TO_CHORD_TYPE with Some t => Ok t | None => Raise ValueError end.

(* harmonic_constants.py:193; harmonic_utils.py:937-958 (a null value is modelled as []) *)
Definition get_chord_inversion (figbass : pystr) : res Z :=
  match figbass with
  | [] => Ok 0
  | _ => match str_lookup figbass
                 [(L"7", 0); (L"6", 1); (L"65", 1); (L"43", 2); (L"64", 2); (L"2", 3)] with
         | Some v => Ok v
         | None => Raise ValueError
         end
  end.

(* harmonic_utils.py:681-683: while string[0] == "b" and len(string) > 1 *)
Fixpoint strip_flats (s : pystr) (adj : Z) : res (Z * pystr) :=
  match s with
  | [] => Raise IndexError
  | c :: r => if Ascii.eqb c "b" && negb (str_eqb r []) then strip_flats r (adj - 1)
              else Ok (adj, s)
  end.
(* harmonic_utils.py:685-687: while string[0] == "#" (no length check) *)
Fixpoint strip_sharps (s : pystr) (adj : Z) : res (Z * pystr) :=
  match s with
  | [] => Raise IndexError
  | c :: r => if Ascii.eqb c "#" then strip_sharps r (adj + 1) else Ok (adj, s)
  end.

(* harmonic_utils.py:657-698.  in_front=False strips at the end (string[-1], string[:-1]):
   the same loops on the reversed string. *)
Definition get_accidental_adjustment (s : pystr) (in_front : bool) : res (Z * pystr) :=
  if in_front then
    let! (adj, s1) := strip_flats s 0 in
    strip_sharps s1 adj
  else
    let! (adj, s1) := strip_flats (rev s) 0 in
    let! (adj, s2) := strip_sharps s1 adj in
    Ok (adj, rev s2).

(* harmonic_utils.py:1024-1025 (only for MIDI) *)
Definition midi_first_spelling (s : pystr) : pystr := hd [] (split_on "/" s).

(* harmonic_utils.py:1007-1039 *)
Definition get_pitch_from_string (s : pystr) (pt : pitch_type) : res Z :=
  let s := match pt with MIDI => midi_first_spelling s | TPC => s end in
  let! (adj, s) := get_accidental_adjustment s false in
  let! p := dict_get (STRING_TO_PITCH pt) s in
  let p := p + adj * ACCIDENTAL_ADJUSTMENT pt in
  match pt with
  | MIDI => Ok (p mod NUM_PITCHES MIDI)
  | TPC => if (p <? 0) || (NUM_PITCHES TPC <=? p) then Raise ValueError else Ok p
  end.

(* harmonic_utils.py:1063-1065: while pitch < 14 (fuel bounds the number of iterations) *)
Fixpoint raise_pitch (fuel : nat) (pitch acc : Z) : res (Z * Z) :=
  if pitch <? 14 then
    match fuel with O => Raise OutOfFuel | S f => raise_pitch f (pitch + 7) (acc - 1) end
  else Ok (pitch, acc).
(* harmonic_utils.py:1066-1068: while pitch > 20 *)
Fixpoint lower_pitch (fuel : nat) (pitch acc : Z) : res (Z * Z) :=
  if 20 <? pitch then
    match fuel with O => Raise OutOfFuel | S f => lower_pitch f (pitch - 7) (acc + 1) end
  else Ok (pitch, acc).

(* harmonic_utils.py:1042-1074 *)
Definition get_pitch_string (pitch : Z) (pt : pitch_type) : res pystr :=
  match pt with
  | MIDI => py_nth PITCH_TO_STRING_MIDI (pitch mod NUM_PITCHES MIDI)
  | TPC =>
      let fuel := Z.to_nat (Z.abs pitch + 14) in
      let! (p1, a1) := raise_pitch fuel pitch 0 in
      let! (p2, a2) := lower_pitch fuel p1 a1 in
      let! letter := PITCH_TO_STRING_TPC p2 in
      Ok (letter ++ (if a2 <? 0 then str_times "b" (- a2) else str_times "#" a2))
  end.

(* harmonic_utils.py:817-849 *)
Definition get_interval_from_scale_degree (s : pystr) (prefixed : bool) (m : key_mode)
  (pt : pitch_type) : res Z :=
  let! (adj, s) := get_accidental_adjustment s prefixed in
  let! n := dict_get SCALE_DEGREE_TO_NUMBER s in
  let! i := py_nth (SCALE_INTERVALS m pt) n in
  Ok (i + adj * ACCIDENTAL_ADJUSTMENT pt).

(* harmonic_utils.py:777-796 *)
Definition get_interval_from_numeral (s : pystr) (m : key_mode) (pt : pitch_type) : res Z :=
  get_interval_from_scale_degree s true m pt.

(* list.index for integers *)
Fixpoint z_index (x : Z) (l : list Z) : res Z :=
  match l with
  | [] => Raise ValueError
  | y :: r => if x =? y then Ok 0 else let! k := z_index x r in Ok (1 + k)
  end.
(* x in l *)
Definition z_in (x : Z) (l : list Z) : bool := existsb (Z.eqb x) l.

(* min(l) *)
Definition zmin_list (l : list Z) : Z := fold_right Z.min (hd 0 l) l.
(* max(l) *)
Definition zmax_list (l : list Z) : Z := fold_right Z.max (hd 0 l) l.

(* harmonic_utils.py:878-881 *)
Fixpoint midi_degree_loop (fuel : nat) (scale : list Z) (interval sharps : Z) : res (Z * Z) :=
  if z_in interval scale then Ok (interval, sharps)
  else match fuel with
       | O => Raise OutOfFuel
       | S f => midi_degree_loop f scale ((interval - 1) mod NUM_PITCHES MIDI) (sharps + 1)
       end.
(* harmonic_utils.py:888-890 *)
Fixpoint flats_loop (fuel : nat) (lo interval flats : Z) : res (Z * Z) :=
  if interval <? lo then
    match fuel with O => Raise OutOfFuel | S f => flats_loop f lo (interval + 7) (flats + 1) end
  else Ok (interval, flats).
(* harmonic_utils.py:892-894 *)
Fixpoint sharps_loop (fuel : nat) (hi interval sharps : Z) : res (Z * Z) :=
  if hi <? interval then
    match fuel with O => Raise OutOfFuel | S f => sharps_loop f hi (interval - 7) (sharps + 1) end
  else Ok (interval, sharps).

(* harmonic_utils.py:852-900 *)
Definition get_scale_degree_from_interval (interval : Z) (m : key_mode) (pt : pitch_type)
  : res pystr :=
  let scale := SCALE_INTERVALS m pt in
  match pt with
  | MIDI =>
      let! (i, sharps) := midi_degree_loop 12 scale (interval mod NUM_PITCHES MIDI) 0 in
      let! k := z_index i scale in
      let! d := NUMBER_TO_SCALE_DEGREE k in
      Ok (str_times "#" sharps ++ d)
  | TPC =>
      let fuel := Z.to_nat (Z.abs interval + 14) in
      let! (i1, flats) := flats_loop fuel (zmin_list scale) interval 0 in
      let! (i2, sharps) := sharps_loop fuel (zmax_list scale) i1 0 in
      let! k := z_index i2 scale in
      let! d := NUMBER_TO_SCALE_DEGREE k in
      Ok (str_times "#" sharps ++ str_times "b" flats ++ d)
  end.

(* harmonic_utils.py:543-547, one iteration; relative[-1] raises IndexError on "" but
   get_accidental_adjustment has raised it before *)
Definition relative_key_step (pt : pitch_type) (st : Z * key_mode) (relative : pystr)
  : res (Z * key_mode) :=
  let '(tonic, mode) := st in
  let! interval := get_interval_from_numeral relative mode pt in
  let! last := py_nth relative (-1) in
  let mode' := if char_is_lower last then MINOR else MAJOR in
  let! tonic' := transpose_pitch tonic interval pt in
  Ok (tonic', mode').

(* a loop with an accumulator that stops at the first exception *)
Fixpoint foldM {A B} (f : A -> B -> res A) (l : list B) (a : A) : res A :=
  match l with [] => Ok a | b :: r => let! a' := f a b in foldM f r a' end.

(* harmonic_utils.py:514-549 *)
Definition decode_relative_keys (s : pystr) (tonic : Z) (mode : key_mode) (pt : pitch_type)
  : res (Z * key_mode) :=
  foldM (relative_key_step pt) (rev (split_on "/" s)) (tonic, mode).

(* harmonic_utils.py:59-75: the root strings of the label list *)
Definition relative_root_string (pt : pitch_type) (relative_to : option Z) (root : Z) : res pystr :=
  match relative_to with
  | None => Ok (z_to_str root)
  | Some k =>
      match (let! p := transpose_pitch root k pt in get_pitch_string p pt) with
      | Ok s => Ok s
      | Raise ValueError => Ok (z_to_str root)
      | Raise e => Raise e
      end
  end.
(* harmonic_utils.py:59-75 *)
Definition root_strings (pt : pitch_type) (relative pad : bool) (relative_to : option Z)
  : res (list pystr) :=
  if relative then mapM (relative_root_string pt relative_to) (decode_roots pt true pad)
  else mapM (fun i => get_pitch_string i pt) (zrange 0 (NUM_PITCHES pt)).

(* harmonic_utils.py:78 *)
Definition chord_label (root : pystr) (t : chord_type) (inv : option Z) : pystr :=
  root ++ L":" ++ get_chord_string t ++
  match inv with None => [] | Some i => L", inv:" ++ z_to_str i end.

(* harmonic_utils.py:12-81 *)
Definition get_chord_label_list (pt : pitch_type) (use_inversions relative : bool)
  (relative_to : option Z) (pad : bool) (red : reduction) : res (list pystr) :=
  let! roots := root_strings pt relative pad relative_to in
  Ok (flat_map (fun t =>
        flat_map (fun root =>
          map (fun inv => chord_label root t inv)
              (if use_inversions then map Some (zrange 0 (get_chord_inversion_count t))
               else [None]))
          roots)
        (reduced_types red)).

(* str(KeyMode.X) *)
Definition mode_str (m : key_mode) : pystr :=
  match m with MAJOR => L"KeyMode.MAJOR" | MINOR => L"KeyMode.MINOR" end.

(* harmonic_utils.py:394-447 *)
Definition tonic_strings (pt : pitch_type) (relative : bool) (relative_to : option Z)
  : res (list pystr) :=
  if relative then mapM (relative_root_string pt relative_to) (key_tonics pt true)
  else mapM (fun i => get_pitch_string i pt) (zrange 0 (NUM_PITCHES pt)).
(* one label, harmonic_utils.py:394-447 *)
Definition key_label (m : key_mode) (tonic : pystr) : pystr :=
  (match m with MINOR => str_lower tonic | MAJOR => tonic end) ++ L":" ++ mode_str m.
(* harmonic_utils.py:394-447 *)
Definition get_key_label_list (pt : pitch_type) (relative : bool) (relative_to : option Z)
  : res (list pystr) :=
  let! tonics := tonic_strings pt relative relative_to in
  Ok (flat_map (fun m => map (key_label m) tonics) all_modes).

(* harmonic_utils.py:101-129 (get_first_change_length) on a non-empty string: position of
   the first digit, +1, or +2 if that digit is '1'.  IndexError when there is no digit. *)
Fixpoint first_digit (s : pystr) (k : Z) : res (Z * ascii) :=
  match s with
  | [] => Raise IndexError
  | c :: r => if char_is_digit c then Ok (k, c) else first_digit r (k + 1)
  end.
(* harmonic_utils.py:101-129 *)
Definition get_first_change_length (s : pystr) : res Z :=
  match s with
  | [] => Ok 0
  | _ => let! (k, c) := first_digit s 0 in
         Ok (if Ascii.eqb c "1" then k + 2 else k + 1)
  end.
(* harmonic_utils.py:131-138 *)
Fixpoint split_changes_loop (fuel : nat) (s : pystr) : res (list pystr) :=
  let! n := get_first_change_length s in
  if n =? 0 then Ok []
  else match fuel with
       | O => Raise OutOfFuel
       | S f => let! rest := split_changes_loop f (py_slice s n (zlen s)) in
                Ok (py_slice s 0 n :: rest)
       end.
(* harmonic_utils.py:84-138 *)
Definition split_changes_into_list (s : pystr) : res (list pystr) :=
  split_changes_loop (length s) s.

(* pitch-type conversion of one pitch: chord.py:139-142, key.py:101-105 *)
Definition convert_pitch (p : Z) (from_pt to_pt : pitch_type) : res Z :=
  if pt_eqb from_pt to_pt then Ok p
  else let! s := get_pitch_string p from_pt in get_pitch_from_string s to_pt.
