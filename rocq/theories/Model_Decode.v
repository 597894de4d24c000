(* Decoding of key change vectors: harmonic_inference/data/vector_decoding.py:79-112 and 460-523.
   Simplification: what is printed is left out. *)
From Verif Require Export Model_Vectors.
From Coq Require Import List.
Import ListNotations.
Open Scope Z_scope.

(* vector_decoding.py:106-112: what decode_key_change_vector makes a Key of: relative_tonic, relative_mode, tonic_type.
   The mode is the array np.array(KeyMode)[mask], not a KeyMode. *)
Record decoded_key := { dk_tonic : Z; dk_modes : list key_mode; dk_pt : pitch_type }.
(* 79-112; PitchType lists TPC first.  The vector is longer than two, so that the mask fits. *)
Definition decode_key_change_vector (v : list Z) : res decoded_key :=
  let! pt := (if zlen v =? get_key_change_vector_length TPC false then Ok TPC
              else if zlen v =? get_key_change_vector_length MIDI false then Ok MIDI
              else Raise ValueError) in
  let! relative_tonic := first_one v in
  let relative_tonic := match pt with TPC => relative_tonic + MIN_KEY_CHANGE_INTERVAL_TPC | MIDI => relative_tonic end in
  let mask := map (fun x => x =? 1) (py_slice v (-2) (zlen v)) in
  Ok {| dk_tonic := relative_tonic; dk_modes := map snd (filter fst (combine mask all_modes)); dk_pt := pt |}.

(* 460-523 *)
Definition decode_chord_and_key_change_vector (v : list Z) (root_type tonic_type : option pitch_type) (pad : bool)
  : res (decoded_chord * option decoded_key) :=
  let! chord_vector_length :=
    match root_type, tonic_type with
    | None, None => Raise ValueError
    | Some rt, _ => Ok (get_chord_vector_length rt false true true pad NO_REDUCTION)
    | None, Some kt => Ok (zlen v - 1 - get_key_change_vector_length kt false)
    end in
  let! chord := decode_chord_vector (py_slice v 0 chord_vector_length) pad None in
  let! is_key_change := py_nth v (-1) in
  let key_vector := py_slice v chord_vector_length (-1) in
  if is_key_change =? 0 then
    if 0 <? zsum key_vector then Raise ValueError else Ok (chord, None)
  else
    let! key := decode_key_change_vector key_vector in
    Ok (chord, Some key).
