(* Model of the dictionary forms of notes, chords, keys and pieces: harmonic_inference/data
   note.py:22-88, 303-327; chord.py:36-145, 377-396; key.py:26-108, 262-281; piece.py:527-578.

   Attributes are untyped values, as in Python: any of the values below may be stored in any
   field.  Floats (positions in seconds) are not modelled. *)
From Coq Require Import QArith String Ascii.
From Verif Require Import PyBase Model_Types Model_Harmony Model_Strings.
From Coq Require Import List.
Import ListNotations.
Close Scope Q_scope.
Open Scope Z_scope.

(* the values of the fields of notes, chords and keys *)
Inductive pyval :=
| VNone | VInt (z : Z) | VFrac (q : Q) | VPos (measure : Z) (beat : Q)
| VMode (m : key_mode) | VType (t : chord_type) | VPitchType (p : pitch_type) | VText (s : pystr).

(* == of two values: numbers by value, tuples by element, enum members by identity *)
Definition val_eqb (a b : pyval) : bool :=
  match a, b with
  | VNone, VNone => true
  | VInt x, VInt y => x =? y
  | VInt x, VFrac q | VFrac q, VInt x => Qeq_bool (inject_Z x) q
  | VFrac q, VFrac r => Qeq_bool q r
  | VPos m q, VPos n r => (m =? n) && Qeq_bool q r
  | VMode m, VMode n => km_eqb m n
  | VType t, VType u => ct_eqb t u
  | VPitchType p, VPitchType q => pt_eqb p q
  | VText s, VText t => str_eqb s t
  | _, _ => false
  end.

Notation dict := (list (pystr * pyval)).
(* the classes Note, Chord and Key *)
Inductive class := CNote | CChord | CKey.
(* the same class *)
Definition class_eqb (a b : class) : bool :=
  match a, b with CNote, CNote | CChord, CChord | CKey, CKey => true | _, _ => false end.

(* note.py:27-38, chord.py:42-57, key.py:31-40: parameters of the constructors with their
   default values *)
Definition signature (c : class) : list (pystr * option pyval) :=
  match c with
  | CNote => [(L"pitch_class", None); (L"octave", None); (L"onset", None); (L"onset_level", None);
              (L"duration", None); (L"offset", None); (L"offset_level", None); (L"pitch_type", None);
              (L"mc_onset", Some VNone)]
  | CChord => [(L"root", None); (L"bass", None); (L"key_tonic", None); (L"key_mode", None);
               (L"chord_type", None); (L"inversion", None); (L"onset", None); (L"onset_level", None);
               (L"offset", None); (L"offset_level", None); (L"duration", None); (L"pitch_type", None);
               (L"suspension", Some VNone)]
  | CKey => [(L"relative_tonic", None); (L"local_tonic", None); (L"global_tonic", None);
             (L"relative_mode", None); (L"local_mode", None); (L"global_mode", None); (L"tonic_type", None)]
  end.
(* self.params: the names, without self *)
Definition params (c : class) : list pystr := map fst (signature c).

(* An object: its class and its attributes. *)
Record obj := mkObj { o_class : class; o_attrs : dict }.
(* getattr(self, field) *)
Definition getattr (o : obj) (f : pystr) : res pyval :=
  match str_lookup f (o_attrs o) with Some v => Ok v | None => Raise AttributeError end.
(* d[field] = value *)
Fixpoint dict_set (d : dict) (f : pystr) (v : pyval) : dict :=
  match d with
  | [] => [(f, v)]
  | (g, w) :: r => if str_eqb g f then (g, v) :: r else (g, w) :: dict_set r f v
  end.

(* A call with keyword arguments: TypeError for unexpected or missing names. *)
Definition bind_args (sig : list (pystr * option pyval)) (kwargs : dict) : res dict :=
  if forallb (fun kv => existsb (str_eqb (fst kv)) (map fst sig)) kwargs then
    mapM (fun pd => match str_lookup (fst pd) kwargs, snd pd with
                    | Some v, _ => Ok (fst pd, v)
                    | None, Some d => Ok (fst pd, d)
                    | None, None => Raise TypeError
                    end) sig
  else Raise TypeError.

(* note.py:70-80, chord.py:98-113, key.py:67-77.  A note without mc_onset takes onset[1]
   (note.py:78); a number cannot be subscripted (TypeError); a text can (Unmodelled). *)
Definition construct (c : class) (kwargs : dict) : res obj :=
  let! attrs := bind_args (signature c) kwargs in
  match c with
  | CNote =>
      let! mc := dict_get attrs (L"mc_onset") in
      match mc with
      | VNone =>
          let! onset := dict_get attrs (L"onset") in
          match onset with
          | VPos _ b => Ok (mkObj c (dict_set attrs (L"mc_onset") (VFrac b)))
          | VText _ => Raise Unmodelled
          | _ => Raise TypeError
          end
      | _ => Ok (mkObj c attrs)
      end
  | _ => Ok (mkObj c attrs)
  end.

(* note.py:303-313, chord.py:377-387, key.py:262-272 *)
Definition to_dict (o : obj) : res dict :=
  mapM (fun f => let! v := getattr o f in Ok (f, v)) (params (o_class o)).

(* note.py:315-321, chord.py:389-395, key.py:274-280; the other object is a note, chord or key *)
Fixpoint fields_equal (o p : obj) (fs : list pystr) : res bool :=
  match fs with
  | [] => Ok true
  | f :: r => let! v := getattr o f in let! w := getattr p f in
              if negb (val_eqb v w) then Ok false else fields_equal o p r
  end.
(* __eq__: note.py:316-322, chord.py:389-395, key.py:274-280 *)
Definition obj_eq (o p : obj) : res bool :=
  if class_eqb (o_class p) (o_class o) then fields_equal o p (params (o_class o)) else Ok false.

(* note.py:93-116, chord.py:115-144, key.py:78-107 to_pitch_type *)
Definition type_field (c : class) : pystr :=
  match c with CKey => L"tonic_type" | _ => L"pitch_type" end.
(* the fields that are converted: note.py:91-116, chord.py:115-144, key.py:78-107 *)
Definition pitch_fields (c : class) : list pystr :=
  match c with
  | CNote => [L"pitch_class"]
  | CChord => [L"key_tonic"; L"root"; L"bass"]
  | CKey => [L"relative_tonic"; L"local_tonic"; L"global_tonic"]
  end.
(* one converted field *)
Definition convert_field (from_pt to_pt : pitch_type) (d : dict) (f : pystr) : res dict :=
  let! v := dict_get d f in
  match v with
  | VInt p => let! q := convert_pitch p from_pt to_pt in Ok (dict_set d f (VInt q))
  | _ => Raise TypeError
  end.
(* note.py:91-116, chord.py:115-144, key.py:78-107 *)
Definition to_pitch_type (o : obj) (pt : pitch_type) : res obj :=
  let! new_params := to_dict o in
  let! own := getattr o (type_field (o_class o)) in
  let new_params := dict_set new_params (type_field (o_class o)) (VPitchType pt) in
  if val_eqb (VPitchType pt) own then construct (o_class o) new_params
  else match own with
       | VPitchType from_pt =>
           let! d := foldM (convert_field from_pt pt) (pitch_fields (o_class o)) new_params in
           construct (o_class o) d
       | _ => Raise Unmodelled
       end.

(* piece.py:381-422 ScorePiece, without measures and name *)
Record dpiece := mkDP { dp_notes : list obj; dp_chords : option (list obj); dp_keys : option (list obj);
                        dp_chord_changes : option (list Z); dp_chord_ranges : option (list (Z * Z));
                        dp_key_changes : option (list Z) }.
(* piece.py:527-545 to_dict: the values under the six keys.  Without chords or keys the loop
   is over None (TypeError). *)
Definition piece_dict : Type :=
  (list dict * list dict * list dict) * (option (list Z) * option (list (Z * Z)) * option (list Z)).
(* piece.py:527-544 *)
Definition piece_to_dict (p : dpiece) : res piece_dict :=
  let! notes := mapM to_dict (dp_notes p) in
  let! chords := match dp_chords p with Some l => mapM to_dict l | None => Raise TypeError end in
  let! keys := match dp_keys p with Some l => mapM to_dict l | None => Raise TypeError end in
  Ok ((notes, chords, keys), (dp_chord_changes p, dp_chord_ranges p, dp_key_changes p)).
(* piece.py:548-578 get_score_piece_from_dict *)
Definition piece_from_dict (d : piece_dict) : res dpiece :=
  let '((notes, chords, keys), (cc, cr, kc)) := d in
  let! notes := mapM (construct CNote) notes in
  let! chords := mapM (construct CChord) chords in
  let! keys := mapM (construct CKey) keys in
  Ok (mkDP notes (Some chords) (Some keys) cc cr kc).
