(* Chord and note vectors: harmonic_inference/data/chord.py:239-325, note.py:135-302 and
   523-552, vector_decoding.py.  Vector entries are integers: everything but durations and
   pitch heights is 0 or 1; those values are carried along as given (float16 rounding is not
   modelled).  A tensor is a list of rows of equal length. *)
From Verif Require Export Model_Harmony.
Open Scope Z_scope.

(* np.zeros(n); v[i] = 1 *)
Definition one_hot_vec (n i : Z) : res (list Z) := py_upd (repeat 0 (Z.to_nat n)) i 1.

(* np.where(v == 1)[0][0] *)
Fixpoint first_one (v : list Z) : res Z :=
  match v with
  | [] => Raise IndexError
  | x :: r => if x =? 1 then Ok 0 else let! k := first_one r in Ok (k + 1)
  end.

(* chord.py:42-113, with the fields to_vec uses *)
Record full_chord := {
  fc : chord; fc_onset_level : Z; fc_offset_level : Z; fc_duration : Z
}.

(* chord.py:239-325 Chord.to_vec; relative_to is given by its (relative_tonic, relative_mode) *)
Definition to_vec (c : full_chord) (relative_to : option (Z * key_mode)) (pad : bool)
  (red : reduction) : res (list Z) :=
  let ch := fc c in
  let key_tonic := match relative_to with None => c_tonic ch | Some (t, _) => t end in
  let key_mode := match relative_to with None => c_mode ch | Some (_, m) => m end in
  let num_pitches :=
    match c_pt ch with
    | MIDI => NUM_PITCHES MIDI
    | TPC => (MAX_RELATIVE_TPC - MIN_RELATIVE_TPC) + (if pad then 2 * RELATIVE_TPC_EXTRA else 0)
    end in
  let! index := absolute_to_relative (c_root ch) key_tonic (c_pt ch) false pad in
  let! pitch := one_hot_vec num_pitches index in
  let! chord_type := one_hot_vec (zlen all_chord_types) (ct_value (red (c_type ch))) in
  let! index := absolute_to_relative (c_bass ch) key_tonic (c_pt ch) false pad in
  let! bass_note := one_hot_vec num_pitches index in
  let! inversion := one_hot_vec 4 (c_inv ch) in
  let! onset_level := one_hot_vec 4 (fc_onset_level c) in
  let! offset_level := one_hot_vec 4 (fc_offset_level c) in
  Ok (pitch ++ chord_type ++ bass_note ++ inversion ++ onset_level ++ offset_level
      ++ [fc_duration c] ++ [match key_mode with MAJOR => 1 | MINOR => 0 end]).

(* key.py:125-164 Key.get_key_change_vector; the keys are given by their relative tonic (and
   the mode of the next key), the pitch type by the first key.  Only ValueError is caught. *)
Definition key_change_vector (pt : pitch_type) (tonic next_tonic : Z) (next_mode : key_mode)
  : res (list Z) :=
  let v := repeat 0 (Z.to_nat (get_key_change_vector_length pt false)) in
  let! v := match absolute_to_relative next_tonic tonic pt true false with
            | Ok i => py_upd v i 1
            | Raise ValueError => Ok v
            | Raise e => Raise e
            end in
  py_upd v (-2 + mode_value next_mode) 1.

(* vector_decoding.py:204-229; relative=True is the default of get_chord_vector_length and
   PitchType lists TPC first (data_types.py) *)
Definition infer_chord_vector_pitch_type (len : Z) (pad : bool) : res pitch_type :=
  if len =? get_chord_vector_length TPC false true true pad NO_REDUCTION then Ok TPC
  else if len =? get_chord_vector_length MIDI false true true pad NO_REDUCTION then Ok MIDI
  else Raise ValueError.

(* the number of pitches of a relative vector, vector_decoding.py:204-229 *)
Definition decode_num_pitches (pt : pitch_type) (pad : bool) : Z :=
  match pt with
  | MIDI => NUM_PITCHES MIDI
  | TPC => (MAX_RELATIVE_TPC - MIN_RELATIVE_TPC) + (if pad then 2 * RELATIVE_TPC_EXTRA else 0)
  end.

(* What decode_chord_vector reads; the Chord built from it has key_tonic 0 and no onset,
   offset or duration (vector_decoding.py:179-192). *)
Record decoded_chord := {
  d_root : Z; d_bass : Z; d_mode : key_mode; d_type : chord_type; d_inv : Z;
  d_onset_level : Z; d_offset_level : Z; d_pt : pitch_type
}.

(* vector_decoding.py:115-192 *)
Definition decode_chord_vector (v : list Z) (pad : bool) (pt : option pitch_type)
  : res decoded_chord :=
  let! pt := (match pt with Some p => Ok p | None => infer_chord_vector_pitch_type (zlen v) pad end) in
  let num := decode_num_pitches pt pad in
  let to_add := match pt with
                | MIDI => 0
                | TPC => MIN_RELATIVE_TPC - (if pad then RELATIVE_TPC_EXTRA else 0)
                end in
  let! root := first_one v in
  let types := py_slice v num (num + zlen all_chord_types) in
  (* boolean indexing needs equal lengths *)
  let! k := (if zlen types =? zlen all_chord_types then first_one types else Raise IndexError) in
  let! t := py_nth all_chord_types k in
  let! bass := first_one (py_slice v (num + zlen all_chord_types) (2 * num + zlen all_chord_types)) in
  let i := 2 * num + zlen all_chord_types in
  let! inv := first_one (py_slice v i (i + 4)) in
  let! on := first_one (py_slice v (i + 4) (i + 8)) in
  let! off := first_one (py_slice v (i + 8) (i + 12)) in
  let! last := py_nth v (-1) in
  Ok {| d_root := root + to_add; d_bass := bass + to_add;
        d_mode := if last =? 1 then MAJOR else MINOR; d_type := t; d_inv := inv;
        d_onset_level := on; d_offset_level := off; d_pt := pt |}.

(* vector_decoding.py:232-267 and 270-305 (the names and docstrings are swapped in the
   source; the values are these) *)
Definition inversion_index (pt : pitch_type) (pad : bool) : Z :=
  2 * decode_num_pitches pt pad + zlen all_chord_types.
(* vector_decoding.py:232-305 *)
Definition chord_type_index (pt : pitch_type) (pad : bool) : Z := decode_num_pitches pt pad.

(* tensor[:, a:b] = new, for one row: the slice must have the length of new *)
Definition assign_slice (v : list Z) (a b : Z) (new : list Z) : res (list Z) :=
  let a := py_bound (zlen v) a in let b := Z.max a (py_bound (zlen v) b) in
  if (b - a =? zlen new) then Ok (firstn (Z.to_nat a) v ++ new ++ skipn (Z.to_nat b) v)
  else Raise ValueError.

(* vector_decoding.py:389-413, one row *)
Definition remove_inversions_row (pt : pitch_type) (pad : bool) (v : list Z) : res (list Z) :=
  let i := inversion_index pt pad in
  let inv := py_slice v i (i + 4) in
  match inv with
  | [] => Raise IndexError
  | _ :: r => assign_slice v i (i + 4) (zsum inv :: map (fun _ => 0) r)
  end.

(* vector_decoding.py:447-457, the loop over reduction.items() for one row *)
Fixpoint reduce_types_loop (items : list (chord_type * chord_type)) (old new : list Z)
  : res (list Z) :=
  match items with
  | [] => Ok new
  | (from_type, to_type) :: r =>
      if ct_eqb from_type to_type then reduce_types_loop r old new
      else
        let! x := py_nth old (ct_value from_type) in
        if x =? 1 then let! new' := py_upd new (ct_value to_type) 1 in reduce_types_loop r old new'
        else reduce_types_loop r old new
  end.
(* vector_decoding.py:416-457, one row; reduction=None leaves the tensor alone *)
Definition reduce_types_row (pt : pitch_type) (pad : bool) (red : option reduction) (v : list Z)
  : res (list Z) :=
  match red with
  | None => Ok v
  | Some f =>
      let i := chord_type_index pt pad in
      let types := py_slice v i (i + zlen all_chord_types) in
      let! new := reduce_types_loop (map (fun t => (t, f t)) all_chord_types) types
                    (map (fun _ => 0) types) in
      assign_slice v i (i + zlen all_chord_types) new
  end.

(* The functions on tensors: the pitch type is inferred from the first row if not given
   (an empty tensor is then an IndexError); all rows have the same length. *)
Definition tensor_pitch_type (tensor : list (list Z)) (pad : bool) (pt : option pitch_type)
  : res pitch_type :=
  match pt with
  | Some p => Ok p
  | None => match tensor with
            | [] => Raise IndexError
            | row :: _ => infer_chord_vector_pitch_type (zlen row) pad
            end
  end.
(* vector_decoding.py:389-413 *)
Definition remove_chord_inversions (tensor : list (list Z)) (pad : bool) (pt : option pitch_type)
  : res (list (list Z)) :=
  let! pt := tensor_pitch_type tensor pad pt in mapM (remove_inversions_row pt pad) tensor.
(* vector_decoding.py:416-457 *)
Definition reduce_chord_types (tensor : list (list Z)) (red : option reduction) (pad : bool)
  (pt : option pitch_type) : res (list (list Z)) :=
  match red with
  | None => Ok tensor
  | Some _ => let! pt := tensor_pitch_type tensor pad pt in mapM (reduce_types_row pt pad red) tensor
  end.

(* vector_decoding.py:308-386.  The loop over unique indices followed by a masked assignment
   gives each position the value for its index.  If several indices are faulty, which error
   is raised first may differ (the loop runs over sorted indices). *)
Definition reduce_one_hot (pad : bool) (pt : pitch_type) (inversions_present : bool)
  (reduction_present : reduction) (relative : bool) (red : reduction) (use_inversions : bool)
  (one_hot : Z) : res Z :=
  let! (root_type, inversion) :=
    get_chord_from_one_hot_index one_hot pt inversions_present relative pad reduction_present in
  let (root, t) := root_type : Z * chord_type in
  let! root := (if relative then absolute_to_relative root 0 pt false pad else Ok root) in
  get_chord_one_hot_index t root pt inversion use_inversions relative pad red.
(* vector_decoding.py:308-386 *)
Definition reduce_chord_one_hots (one_hots : list Z) (pad : bool) (pt : pitch_type)
  (inversions_present : bool) (reduction_present : reduction) (relative : bool)
  (red : reduction) (use_inversions : bool) : res (list Z) :=
  mapM (reduce_one_hot pad pt inversions_present reduction_present relative red use_inversions)
       one_hots.

(* note.py:537: 127 // 12 *)
Definition num_octaves : Z := 127 / NUM_PITCHES MIDI.
(* note.py:523-552 *)
Definition get_note_vector_length (pt : pitch_type) : Z :=
  NUM_PITCHES pt + num_octaves + num_octaves + 16.

(* note.py:135-302 Note.to_vec.  The real-valued entries (position in the chord, durations
   to neighbours, heights) are parameters; is_min and relative_octave depend on the
   surrounding notes and are given as numbers. *)
Record note_vec_in := {
  nv_pitch : Z; nv_octave : Z; nv_onset_level : Z; nv_offset_level : Z;
  nv_metrical : Z * Z * Z; nv_durations : Z * Z; nv_is_min : bool;
  nv_relative_octave : Z; nv_height : Z; nv_relative_height : Z; nv_pt : pitch_type
}.
(* note.py:135-302 Note.to_vec *)
Definition note_to_vec (x : note_vec_in) : res (list Z) :=
  let! pitch := one_hot_vec (NUM_PITCHES (nv_pt x)) (nv_pitch x) in
  let! octave := one_hot_vec num_octaves (nv_octave x) in
  let! on := one_hot_vec 4 (nv_onset_level x) in
  let! off := one_hot_vec 4 (nv_offset_level x) in
  let! rel := one_hot_vec num_octaves (nv_relative_octave x) in
  let '(m1, m2, m3) := nv_metrical x in let (d1, d2) := nv_durations x in
  Ok (pitch ++ octave ++ on ++ off ++ [m1; m2; m3] ++ [d1; d2]
      ++ [if nv_is_min x then 1 else 0] ++ rel ++ [nv_height x] ++ [nv_relative_height x]).

(* vector_decoding.py:526-574.  np.arange(n)[i] is an IndexError for i >= n.  The check in
   lines 565-569 looks at old_pitch, which is always in range, so its body is not reached. *)
Definition transpose_note_vector (v : list Z) (interval : Z) (pt : option pitch_type)
  : res (list Z) :=
  let! pt :=
    (match pt with
     | Some p => Ok p
     | None => if zlen v =? get_note_vector_length TPC then Ok TPC
               else if zlen v =? get_note_vector_length MIDI then Ok MIDI
               else Raise ValueError
     end) in
  let! i := first_one v in
  let! old_pitch := (if i <? NUM_PITCHES pt then Ok i else Raise IndexError) in
  let new_pitch := old_pitch + interval in
  if negb ((0 <=? old_pitch) && (old_pitch <? NUM_PITCHES pt)) then Raise ValueError else
  let! v := py_upd v old_pitch 0 in
  py_upd v new_pitch 1.

(* vector_decoding.py:26-76: unpacking three entries into five names is a ValueError, so
   every vector of a valid length that gets that far is refused (line 66). *)
Definition decode_note_vector (v : list Z) : res Z :=
  let! pt := (if zlen v =? get_note_vector_length TPC then Ok TPC
              else if zlen v =? get_note_vector_length MIDI then Ok MIDI
              else Raise ValueError) in
  let! i := first_one v in
  let! pitch := (if i <? NUM_PITCHES pt then Ok i else Raise IndexError) in
  let! _ := first_one (py_slice v (NUM_PITCHES pt) (NUM_PITCHES pt + num_octaves)) in
  let j := NUM_PITCHES pt + num_octaves in
  let! _ := first_one (py_slice v j (j + 4)) in
  let! _ := first_one (py_slice v (j + 4) (j + 8)) in
  if zlen (py_slice v (j + 8) (j + 11)) =? 5 then Ok pitch else Raise ValueError.
