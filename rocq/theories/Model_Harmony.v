(* harmonic_inference/utils/harmonic_constants.py and harmonic_utils.py: pitches, chord and
   key indices, transposition.  (Strings are in Model_Strings.v.) *)
From Verif Require Export Model_Types.
Open Scope Z_scope.

(* harmonic_constants.py:4-7 : int(5 / 2) * 7 + 1 *)
Definition TPC_C : Z := 15.
(* harmonic_constants.py:10-13 *)
Definition C_of (pt : pitch_type) : Z := match pt with MIDI => 0 | TPC => TPC_C end.
(* harmonic_constants.py:29 *)
Definition NUM_PITCHES (pt : pitch_type) : Z := match pt with TPC => 35 | MIDI => 12 end.
(* harmonic_constants.py:68 *)
Definition ACCIDENTAL_ADJUSTMENT (pt : pitch_type) : Z := match pt with TPC => 7 | MIDI => 1 end.
(* harmonic_constants.py:72 *)
Definition TPC_INTERVAL_SEMITONES : Z := 7.
(* harmonic_constants.py:211-218 *)
Definition MIN_RELATIVE_TPC : Z := -14.
(* harmonic_constants.py:211-218 *)
Definition MAX_RELATIVE_TPC : Z := 15.
(* harmonic_constants.py:211-218 *)
Definition RELATIVE_TPC_EXTRA : Z := 5.
(* harmonic_constants.py:211-218 *)
Definition MIN_KEY_CHANGE_INTERVAL_TPC : Z := -14.
(* harmonic_constants.py:211-218 *)
Definition MAX_KEY_CHANGE_INTERVAL_TPC : Z := 15.

(* harmonic_constants.py:16-27 (upper case letters C, E, G, B, used by CHORD_PITCHES) *)
Definition pitch_C (pt : pitch_type) := match pt with TPC => TPC_C | MIDI => 0 end.
(* harmonic_constants.py:16-27 *)
Definition pitch_E (pt : pitch_type) := match pt with TPC => TPC_C + 4 | MIDI => 4 end.
(* harmonic_constants.py:16-27 *)
Definition pitch_G (pt : pitch_type) := match pt with TPC => TPC_C + 1 | MIDI => 7 end.
(* harmonic_constants.py:16-27 *)
Definition pitch_B (pt : pitch_type) := match pt with TPC => TPC_C + 5 | MIDI => 11 end.

(* harmonic_constants.py:112-167: the loops that fill CHORD_PITCHES, unrolled per type.
   First the triad under each type (115-151), then the seventh (153-167). *)
Definition triad_pitches (pt : pitch_type) (t : chord_type) : list Z :=
  let a := ACCIDENTAL_ADJUSTMENT pt in
  match t with
  | Maj | Maj_Maj7 | Maj_Min7 => [pitch_C pt; pitch_E pt; pitch_G pt]
  | Min | Min_Maj7 | Min_Min7 => [pitch_C pt; pitch_E pt - a; pitch_G pt]
  | Dim | Dim7 | Half_Dim7 => [pitch_C pt; pitch_E pt - a; pitch_G pt - a]
  | Aug | Aug_Maj7 | Aug_Min7 => [pitch_C pt; pitch_E pt; pitch_G pt + a]
  end.
(* the fourth pitch, harmonic_constants.py:112-167 *)
Definition seventh_pitches (pt : pitch_type) (t : chord_type) : list Z :=
  let a := ACCIDENTAL_ADJUSTMENT pt in
  match t with
  | Maj | Min | Dim | Aug => []
  | Maj_Maj7 | Min_Maj7 | Aug_Maj7 => [pitch_B pt]
  | Maj_Min7 | Min_Min7 | Half_Dim7 | Aug_Min7 => [pitch_B pt - a]
  | Dim7 => [pitch_B pt - 2 * a]
  end.
(* harmonic_constants.py:112-167 *)
Definition CHORD_PITCHES (pt : pitch_type) (t : chord_type) : list Z :=
  triad_pitches pt t ++ seventh_pitches pt t.

(* harmonic_constants.py:195-208; harmonic_utils.py:586-600 *)
Definition get_chord_inversion_count (t : chord_type) : Z :=
  match t with Maj | Min | Dim | Aug => 3 | _ => 4 end.

(* sorted(set(reduction.values())): harmonic_utils.py:79, 316, 363 *)
Definition reduced_types (red : reduction) : list chord_type :=
  filter (fun t => existsb (fun u => ct_eqb (red u) t) all_chord_types) all_chord_types.

(* harmonic_utils.py:298-312, the roots listed by the decoder *)
Definition decode_roots (pt : pitch_type) (relative pad : bool) : list Z :=
  if relative then
    match pt with
    | TPC =>
        let minimum := if pad then MIN_RELATIVE_TPC - RELATIVE_TPC_EXTRA else MIN_RELATIVE_TPC in
        let maximum := if pad then MAX_RELATIVE_TPC + RELATIVE_TPC_EXTRA else MAX_RELATIVE_TPC in
        zrange minimum maximum
    | MIDI => zrange 0 (NUM_PITCHES MIDI)
    end
  else zrange 0 (NUM_PITCHES pt).

(* harmonic_utils.py:314-318, the list before indexing *)
Definition chord_list (pt : pitch_type) (use_inversions relative pad : bool) (red : reduction)
  : list (Z * chord_type * Z) :=
  flat_map (fun t =>
    flat_map (fun root =>
      map (fun inv => (root, t, inv))
          (if use_inversions then zrange 0 (get_chord_inversion_count t) else [0]))
      (decode_roots pt relative pad))
    (reduced_types red).

(* harmonic_utils.py:258-318 *)
Definition get_chord_from_one_hot_index (i : Z) (pt : pitch_type)
  (use_inversions relative pad : bool) (red : reduction) : res (Z * chord_type * Z) :=
  py_nth (chord_list pt use_inversions relative pad red) i.

(* list.index for chord types *)
Fixpoint ct_index (t : chord_type) (l : list chord_type) : res nat :=
  match l with
  | [] => Raise ValueError
  | x :: r => if ct_eqb x t then Ok O else let! k := ct_index t r in Ok (S k)
  end.

(* harmonic_utils.py:367-372 *)
Definition encode_num_pitches (pt : pitch_type) (relative pad : bool) : Z :=
  match pt with
  | MIDI => NUM_PITCHES MIDI
  | TPC =>
      if negb relative then NUM_PITCHES TPC
      else (MAX_RELATIVE_TPC - MIN_RELATIVE_TPC) + (if pad then 2 * RELATIVE_TPC_EXTRA else 0)
  end.

(* harmonic_utils.py:321-391.  numpy int64 arithmetic is exact here (all values small). *)
Definition get_chord_one_hot_index (t : chord_type) (root : Z) (pt : pitch_type)
  (inversion : Z) (use_inversion relative pad : bool) (red : reduction) : res Z :=
  let chord_types := reduced_types red in
  let t' := red t in
  let! k := ct_index t' chord_types in
  let num := encode_num_pitches pt relative pad in
  if (root <? 0) || (num <=? root) then Raise ValueError
  else if use_inversion
          && ((inversion <? 0) || (get_chord_inversion_count t' <=? inversion))
  then Raise ValueError
  else
    let chord_inversions :=
      if use_inversion then map get_chord_inversion_count chord_types
      else map (fun _ => 1) chord_types in
    let! here := py_nth chord_inversions (Z.of_nat k) in
    let index := zsum (map (fun c => num * c) (firstn k chord_inversions)) in
    let index := index + here * root in
    Ok (if use_inversion then index + inversion else index).

(* chord.py:729-791 (get_chord_vector_length) *)
Definition vector_num_pitches (pt : pitch_type) (relative pad : bool) : Z :=
  if relative && pt_eqb pt TPC then
    (MAX_RELATIVE_TPC - MIN_RELATIVE_TPC) + (if pad then RELATIVE_TPC_EXTRA * 2 else 0)
  else NUM_PITCHES pt.
(* chord.py:729-791 *)
Definition get_chord_vector_length (pt : pitch_type) (one_hot relative use_inversions pad : bool)
  (red : reduction) : Z :=
  let num := vector_num_pitches pt relative pad in
  if one_hot then
    if use_inversions then
      zsum (map (fun t => get_chord_inversion_count t * num) (reduced_types red))
    else num * zlen (reduced_types red)
  else num + num + 12 + 14.

(* harmonic_utils.py:903-934 *)
Definition transpose_pitch (pitch interval : Z) (pt : pitch_type) : res Z :=
  match pt with
  | MIDI => Ok ((pitch + interval) mod NUM_PITCHES MIDI)
  | TPC =>
      let p := pitch + interval in
      if (p <? 0) || (NUM_PITCHES TPC <=? p) then Raise ValueError else Ok p
  end.

(* harmonic_utils.py:552-583.  modulo=True takes inversion modulo the chord size. *)
Definition get_bass_note (t : chord_type) (root inversion : Z) (pt : pitch_type) (modulo : bool)
  : res Z :=
  let ps := CHORD_PITCHES pt t in
  let! bass := py_nth ps (if modulo then inversion mod zlen ps else inversion) in
  transpose_pitch bass (root - C_of pt) pt.

(* harmonic_utils.py:603-654 *)
Definition absolute_to_relative (pitch key_tonic : Z) (pt : pitch_type) (is_key_change pad : bool)
  : res Z :=
  match pt with
  | MIDI => transpose_pitch pitch (- key_tonic) MIDI
  | TPC =>
      let relative := pitch - key_tonic in
      let minimum := if is_key_change then MIN_KEY_CHANGE_INTERVAL_TPC else MIN_RELATIVE_TPC in
      let maximum := if is_key_change then MAX_KEY_CHANGE_INTERVAL_TPC else MAX_RELATIVE_TPC in
      let widen := pad && negb is_key_change in
      let minimum := if widen then minimum - RELATIVE_TPC_EXTRA else minimum in
      let maximum := if widen then maximum + RELATIVE_TPC_EXTRA else maximum in
      if (relative <? minimum) || (maximum <=? relative) then Raise ValueError
      else Ok (relative - minimum)
  end.

(* chord.py:37-112: the fields used here (onset/offset positions and suspension are in
   Model_Piece.v). *)
Record chord := {
  c_root : Z; c_bass : Z; c_tonic : Z; c_mode : key_mode;
  c_type : chord_type; c_inv : Z; c_pt : pitch_type
}.

(* chord.py:146-196 (Chord.get_one_hot_index) *)
Definition chord_one_hot (c : chord) (relative use_inversion pad : bool) (red : reduction)
  : res Z :=
  let! root :=
    (if relative then absolute_to_relative (c_root c) (c_tonic c) (c_pt c) false pad
     else Ok (c_root c)) in
  get_chord_one_hot_index (c_type c) root (c_pt c) (c_inv c) use_inversion relative pad red.

(* harmonic_utils.py:474-485 *)
Definition key_tonics (pt : pitch_type) (relative : bool) : list Z :=
  if relative then
    match pt with
    | TPC => zrange MIN_KEY_CHANGE_INTERVAL_TPC MAX_KEY_CHANGE_INTERVAL_TPC
    | MIDI => zrange 0 (NUM_PITCHES MIDI)
    end
  else zrange 0 (NUM_PITCHES pt).

(* harmonic_utils.py:487 *)
Definition key_list (pt : pitch_type) (relative : bool) : list (Z * key_mode) :=
  flat_map (fun m => map (fun t => (t, m)) (key_tonics pt relative)) all_modes.

(* harmonic_utils.py:450-487 *)
Definition get_key_from_one_hot_index (i : Z) (pt : pitch_type) (relative : bool)
  : res (Z * key_mode) := py_nth (key_list pt relative) i.

(* harmonic_utils.py:490-511 *)
Definition get_key_one_hot_index (m : key_mode) (tonic : Z) (pt : pitch_type) : res Z :=
  if (tonic <? 0) || (NUM_PITCHES pt <=? tonic) then Raise ValueError
  else Ok (NUM_PITCHES pt * mode_value m + tonic).

(* key.py:181-209 (Key.get_key_change_one_hot_index); the keys are given by their relative
   tonic (and the mode of the next key), the pitch type by the first key. *)
Definition key_change_one_hot (tonic : Z) (pt : pitch_type) (next_tonic : Z) (next_mode : key_mode)
  : res Z :=
  let! interval := absolute_to_relative next_tonic tonic pt true false in
  let num := match pt with
             | MIDI => NUM_PITCHES MIDI
             | TPC => MAX_KEY_CHANGE_INTERVAL_TPC - MIN_KEY_CHANGE_INTERVAL_TPC
             end in
  Ok (mode_value next_mode * num + interval).

(* key.py:482-507 *)
Definition get_key_change_vector_length (pt : pitch_type) (one_hot : bool) : Z :=
  let num := match pt with
             | TPC => MAX_KEY_CHANGE_INTERVAL_TPC - MIN_KEY_CHANGE_INTERVAL_TPC
             | MIDI => 12
             end in
  if one_hot then num * 2 else num + 2.

(* joint_model.py:274-283, LABELS["relative_key"] (mode, interval) *)
Definition relative_key_labels (pt : pitch_type) : list (key_mode * Z) :=
  flat_map (fun m => map (fun i => (m, i))
      match pt with
      | TPC => zrange MIN_KEY_CHANGE_INTERVAL_TPC MAX_KEY_CHANGE_INTERVAL_TPC
      | MIDI => zrange 0 (NUM_PITCHES MIDI)
      end) all_modes.

(* harmonic_utils.py:799-814 *)
Definition tpc_interval_to_midi_interval (i : Z) : Z :=
  (TPC_INTERVAL_SEMITONES * i) mod NUM_PITCHES MIDI.

(* np.roll(v, k) *)
Definition np_roll {A} (v : list A) (k : Z) : list A :=
  let n := zlen v in
  match v with
  | [] => []
  | _ => let s := Z.to_nat ((- k) mod n) in skipn s v ++ firstn s v
  end.

(* numpy assignment of an array to a slice: lengths must agree (broadcasting of a
   length-1 source is handled too). *)
Definition np_slice_assign_ok (target src : Z) : bool := (target =? src) || (src =? 1).

(* harmonic_utils.py:701-741.  For TPC the destination slice and the source slice are
   computed with Python slice semantics; a length mismatch raises ValueError
   (length-1 sources broadcast). *)
Definition transpose_chord_vector (v : list Z) (interval : Z) (pt : pitch_type)
  : res (list Z) :=
  match pt with
  | MIDI => Ok (np_roll v interval)
  | TPC =>
      let n := zlen v in
      if 0 <? interval then
        let k := py_bound n interval in
        let src := py_slice v 0 (- interval) in
        let tgt := n - k in
        if zlen src =? tgt then Ok (repeat 0 (Z.to_nat k) ++ src)
        else match src with
             | [x] => Ok (repeat 0 (Z.to_nat k) ++ repeat x (Z.to_nat tgt))
             | _ => Raise ValueError
             end
      else if interval <? 0 then
        let k := py_bound n interval in
        let src := py_slice v (- interval) n in
        if zlen src =? k then Ok (src ++ repeat 0 (Z.to_nat (n - k)))
        else match src with
             | [x] => Ok (repeat x (Z.to_nat k) ++ repeat 0 (Z.to_nat (n - k)))
             | _ => Raise ValueError
             end
      else Ok v
  end.

(* chord_vector[list of indices] = 1 *)
Fixpoint set_ones (v : list Z) (ps : list Z) : res (list Z) :=
  match ps with
  | [] => Ok v
  | p :: r => let! v' := py_upd v p 1 in set_ones v' r
  end.

(* harmonic_utils.py:744-774 *)
Definition get_vector_from_chord_type (t : chord_type) (pt : pitch_type) (root : option Z)
  : res (list Z) :=
  let! v := set_ones (repeat 0 (Z.to_nat (NUM_PITCHES pt))) (CHORD_PITCHES pt t) in
  match root with
  | None => Ok v
  | Some r => transpose_chord_vector v (r - C_of pt) pt
  end.
