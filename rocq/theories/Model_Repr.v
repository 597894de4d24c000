(* Model of the texts of notes, chords and keys: __repr__ and __str__ in harmonic_inference/data
   note.py:324-332, chord.py:397-418, key.py:282-287, on the objects of Model_Dict. *)
From Coq Require Import QArith String Ascii.
From Verif Require Import PyBase Model_Types Model_Harmony Model_Strings Model_Output Model_Dict.
From Coq Require Import List.
Import ListNotations.
Close Scope Q_scope.
Open Scope Z_scope.

(* the denominator of a fraction in lowest terms (Python keeps Fractions in lowest terms) *)
Definition den_of (q : Q) : Z := Z.pos (Qden (Qred q)).
(* ... and its numerator *)
Definition num_of (q : Q) : Z := Qnum (Qred q).

(* data_types.py:35-41, as str() of the members *)
Definition mode_text (m : key_mode) : pystr :=
  L"KeyMode." ++ match m with MAJOR => L"MAJOR" | MINOR => L"MINOR" end.
(* data_types.py:20-27 *)
Definition pitch_type_text (p : pitch_type) : pystr :=
  L"PitchType." ++ match p with TPC => L"TPC" | MIDI => L"MIDI" end.
(* data_types.py:49-65 *)
Definition chord_type_text (t : chord_type) : pystr :=
  L"ChordType." ++
  match t with
  | Maj => L"MAJOR" | Min => L"MINOR" | Dim => L"DIMINISHED" | Aug => L"AUGMENTED"
  | Maj_Maj7 => L"MAJ_MAJ7" | Maj_Min7 => L"MAJ_MIN7" | Min_Maj7 => L"MIN_MAJ7" | Min_Min7 => L"MIN_MIN7"
  | Dim7 => L"DIM7" | Half_Dim7 => L"HALF_DIM7" | Aug_Min7 => L"AUG_MIN7" | Aug_Maj7 => L"AUG_MAJ7"
  end.

(* f"{value}", as in note.py:325, 330-331: str() of the value; the elements of a tuple by repr() *)
Definition str_val (v : pyval) : pystr :=
  match v with
  | VNone => L"None"
  | VInt z => z_to_str z
  | VFrac q => if den_of q =? 1 then z_to_str (num_of q) else z_to_str (num_of q) ++ L"/" ++ z_to_str (den_of q)
  | VPos m q => L"(" ++ z_to_str m ++ L", Fraction(" ++ z_to_str (num_of q) ++ L", " ++ z_to_str (den_of q) ++ L"))"
  | VMode m => mode_text m
  | VType t => chord_type_text t
  | VPitchType p => pitch_type_text p
  | VText s => s
  end.

(* the name in front of the parameters: note.py:326, chord.py:399, key.py:284 *)
Definition class_name (c : class) : pystr :=
  match c with CNote => L"Note" | CChord => L"Chord" | CKey => L"Key" end.

(* note.py:324-326, chord.py:397-399, key.py:282-284 __repr__ *)
Definition obj_repr (o : obj) : res pystr :=
  let! fs := mapM (fun f => let! v := getattr o f in Ok (f ++ L"=" ++ str_val v)) (params (o_class o)) in
  Ok (class_name (o_class o) ++ L"(" ++ str_join (L", ") fs ++ L")").

(* chord.py:402-411 *)
Definition inversion_text (v : pyval) : pystr :=
  if val_eqb v (VInt 0) then L"root position"
  else if val_eqb v (VInt 1) then L"1st inversion"
  else if val_eqb v (VInt 2) then L"2nd inversion"
  else if val_eqb v (VInt 3) then L"3rd inversion"
  else str_val v ++ L"th inversion".

(* get_pitch_string(pitch, pitch_type) of two fields; other values than an integer and a pitch
   type are not modelled *)
Definition pitch_text (o : obj) (f type_f : pystr) : res pystr :=
  let! p := getattr o f in let! t := getattr o type_f in
  match p, t with VInt z, VPitchType pt => get_pitch_string z pt | _, _ => Raise Unmodelled end.

(* note.py:328-332 *)
Definition note_str (o : obj) : res pystr :=
  let! pitch := pitch_text o (L"pitch_class") (L"pitch_type") in
  let! octave := getattr o (L"octave") in
  let! onset := getattr o (L"onset") in
  let! offset := getattr o (L"offset") in
  Ok (pitch ++ str_val octave ++ L": " ++ str_val onset ++ L"--" ++ str_val offset).

(* chord.py:401-418; a chord_type that is no chord type is not modelled *)
Definition chord_str (o : obj) : res pystr :=
  let! inversion := getattr o (L"inversion") in
  let! root := pitch_text o (L"root") (L"pitch_type") in
  let! t := getattr o (L"chord_type") in
  let! type_str := match t with VType t => Ok (get_chord_string t) | _ => Raise Unmodelled end in
  let! bass := pitch_text o (L"bass") (L"pitch_type") in
  let! onset := getattr o (L"onset") in
  let! offset := getattr o (L"offset") in
  Ok (root ++ L":" ++ type_str ++ L" " ++ inversion_text inversion ++ L" BASS=" ++ bass ++ L": " ++
      str_val onset ++ L"--" ++ str_val offset).

(* key.py:286-287 *)
Definition key_str (o : obj) : res pystr :=
  let! tonic := pitch_text o (L"relative_tonic") (L"tonic_type") in
  let! mode := getattr o (L"relative_mode") in
  Ok (tonic ++ L" " ++ str_val mode).

(* str(o): note.py:328-332, chord.py:401-418, key.py:286-287 *)
Definition obj_str (o : obj) : res pystr :=
  match o_class o with CNote => note_str o | CChord => chord_str o | CKey => key_str o end.
