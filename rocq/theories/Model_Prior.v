(* The initial chord model: harmonic_inference/models/initial_chord_models.py, and the options
   read from json: harmonic_inference/utils/data_utils.py:27-62.
   Simplifications: probabilities are rationals; the decimal text that json writes for a float
   is read back as the same number; warnings (logging) are left out. *)
From Coq Require Import QArith String Ascii.
From Verif Require Export Model_Strings.
From Coq Require Import List.
Import ListNotations.
Close Scope Q_scope.
Open Scope Z_scope.

(* ---- json values ------------------------------------------------------------------ *)
(* what json.load returns; objects have distinct keys, in the order of the file *)
Inductive json :=
| JNull | JBool (b : bool) | JNum (q : Q) | JStr (s : pystr) | JList (l : list json)
| JDict (d : list (pystr * json)).
(* the values of the keyword arguments afterwards *)
Inductive kwarg :=
| KJson (j : json) | KPitch (pt : pitch_type) | KReduction (r : list (chord_type * chord_type)).

(* data_types.py:26-27, 54-65: the names of the members *)
Definition pitch_names : list (pystr * pitch_type) := [(L"TPC", TPC); (L"MIDI", MIDI)].
(* data_types.py:54-65, by name *)
Definition type_names : list (pystr * chord_type) :=
  [(L"MAJOR", Maj); (L"MINOR", Min); (L"DIMINISHED", Dim); (L"AUGMENTED", Aug);
   (L"MAJ_MAJ7", Maj_Maj7); (L"MAJ_MIN7", Maj_Min7); (L"MIN_MAJ7", Min_Maj7);
   (L"MIN_MIN7", Min_Min7); (L"DIM7", Dim7); (L"HALF_DIM7", Half_Dim7);
   (L"AUG_MIN7", Aug_Min7); (L"AUG_MAJ7", Aug_Maj7)].

(* str.startswith *)
Fixpoint starts_with (p s : pystr) : bool :=
  match p, s with
  | [], _ => true
  | x :: p', y :: s' => Ascii.eqb x y && starts_with p' s'
  | _ :: _, [] => false
  end.
(* p in s, for strings *)
Fixpoint substring_of (p s : pystr) : bool :=
  starts_with p s || match s with [] => false | _ :: r => substring_of p r end.

(* d[k] = v: the value of a key already present is replaced in its place *)
Fixpoint put_type (r : list (chord_type * chord_type)) (k v : chord_type) : list (chord_type * chord_type) :=
  match r with
  | [] => [(k, v)]
  | (k', v') :: r' => if ct_eqb k' k then (k', v) :: r' else (k', v') :: put_type r' k v
  end.

(* data_utils.py:57-60: one item of a reduction; value[10:] needs a string (or a list, on
   which the enum lookup raises TypeError as well: a list is not hashable).  The value of a
   dict display is evaluated after its key. *)
Definition read_reduction_item (r : list (chord_type * chord_type)) (kv : pystr * json)
  : res (list (chord_type * chord_type)) :=
  let! k := dict_get type_names (skipn 10 (fst kv)) in
  match snd kv with
  | JStr s => let! v := dict_get type_names (skipn 10 s) in Ok (put_type r k v)
  | _ => Raise TypeError
  end.
(* data_utils.py:51-60 *)
Definition read_field (kv : pystr * json) : res (pystr * kwarg) :=
  let '(key, value) := kv in
  match value with
  | JStr s =>
      if starts_with (L"PitchType") s || starts_with (L"PieceType") s then
        let! pt := dict_get pitch_names (skipn 10 s) in Ok (key, KPitch pt)
      else Ok (key, KJson value)
  | JDict d =>
      if substring_of (L"reduction") key then
        let! r := foldM read_reduction_item d [] in Ok (key, KReduction r)
      else Ok (key, KJson value)
  | _ => Ok (key, KJson value)
  end.
(* data_utils.py:27-62 load_kwargs_from_json; the argument is the object in the file *)
Definition load_kwargs_from_json (fields : list (pystr * json)) : res (list (pystr * kwarg)) :=
  mapM read_field fields.

(* ---- training ---------------------------------------------------------------------- *)
(* np.sum *)
Fixpoint np_sum (l : list Q) : Q := match l with [] => 0 | x :: r => x + np_sum r end%Q.
(* a[i] += 1 *)
Definition add_one (l : list Q) (i : Z) : res (list Q) :=
  let! v := py_nth l i in py_upd l i (v + 1)%Q.
(* initial_chord_models.py:251-260 *)
Definition count_chord (st : list Q * list Q) (c : chord) : res (list Q * list Q) :=
  let '(major, minor) := st in
  let! i := chord_one_hot c true true false NO_REDUCTION in
  match c_mode c with
  | MAJOR => let! major' := add_one major i in Ok (major', minor)
  | MINOR => let! minor' := add_one minor i in Ok (major, minor')
  end.
(* initial_chord_models.py:263-264; a sum of 0 gives NaN or infinities, which the model does
   not represent *)
Definition normalise_prior (l : list Q) : res (list Q) :=
  if Qeq_bool (np_sum l) 0 then Raise Unmodelled else Ok (map (fun x => x / np_sum l)%Q l).
(* str(pitch_type) *)
Definition pitch_type_str (pt : pitch_type) : pystr :=
  match pt with TPC => L"PitchType.TPC" | MIDI => L"PitchType.MIDI" end.
(* initial_chord_models.py:211-272 train_icm; the object written to the json file *)
Definition train_icm (chords : list chord) (add_n_smoothing : Q) : res (list (pystr * json)) :=
  let! first := py_nth chords 0 in
  let pt := c_pt first in
  let n := get_chord_vector_length pt true true true false NO_REDUCTION in
  let smoothing_factor := (add_n_smoothing / inject_Z n)%Q in
  let ones := repeat smoothing_factor (Z.to_nat n) in
  let! (major, minor) := foldM count_chord chords (ones, ones) in
  let! major := normalise_prior major in
  let! minor := normalise_prior minor in
  Ok [(L"inversions_present", JBool true); (L"reduction_present", JNull);
      (L"pitch_type", JStr (pitch_type_str pt));
      (L"major", JList (map JNum major)); (L"minor", JList (map JNum minor))].

(* ---- the loaded model ---------------------------------------------------------------- *)
Record icm := mkIcm {
  icm_pt : pitch_type; icm_major : list Q; icm_minor : list Q;
  icm_inversions : bool; icm_reduction : reduction
}.

(* a field used as a list of numbers, a truth value, a reduction or None, a pitch type; other
   types of values are not modelled *)
Definition as_numbers (k : kwarg) : res (list Q) :=
  match k with
  | KJson (JList l) => mapM (fun j => match j with JNum q => Ok q | _ => Raise Unmodelled end) l
  | _ => Raise Unmodelled end.
(* a truth value *)
Definition as_bool (k : kwarg) : res bool :=
  match k with KJson (JBool b) => Ok b | _ => Raise Unmodelled end.
(* a pitch type *)
Definition as_pitch (k : kwarg) : res pitch_type :=
  match k with KPitch pt => Ok pt | _ => Raise Unmodelled end.
(* a reduction that has all 12 types as keys (Model_Types.v) *)
Fixpoint type_lookup (t : chord_type) (r : list (chord_type * chord_type)) : option chord_type :=
  match r with [] => None | (k, v) :: r' => if ct_eqb k t then Some v else type_lookup t r' end.
(* a reduction or None *)
Definition as_reduction (k : kwarg) : res (option reduction) :=
  match k with
  | KJson JNull => Ok None
  | KReduction r =>
      if forallb (fun t => match type_lookup t r with Some _ => true | None => false end) all_chord_types
      then Ok (Some (fun t => match type_lookup t r with Some v => v | None => t end))
      else Raise Unmodelled
  | _ => Raise Unmodelled
  end.
(* None means no reduction *)
Definition or_no_reduction (r : option reduction) : reduction :=
  match r with Some r => r | None => NO_REDUCTION end.

(* initial_chord_models.py:25-140 SimpleInitialChordModel.__init__.  Lines 70-105 with total
   reductions: no KeyError, self.reduction becomes the composition.  Lines 107-138: the branch
   passes the list of labels to np.zeros as a shape, which raises TypeError ('str' object cannot
   be interpreted as an integer) at 114, before anything is redistributed. *)
Definition SimpleInitialChordModel (data : list (pystr * kwarg)) (use_inversions : bool)
  (red : option reduction) : res icm :=
  let! k := dict_get data (L"pitch_type") in let! pt := as_pitch k in
  let! k := dict_get data (L"major") in let! major := as_numbers k in
  let! k := dict_get data (L"minor") in let! minor := as_numbers k in
  let! k := dict_get data (L"inversions_present") in let! inversions_present := as_bool k in
  let! k := dict_get data (L"reduction_present") in let! present := as_reduction k in
  let! self_inversions :=
    (match str_lookup (L"use_inversions") data with Some k => as_bool k | None => Ok use_inversions end) in
  let! self_red :=
    (match str_lookup (L"reduction") data with Some k => as_reduction k | None => Ok red end) in
  let self_inversions := if self_inversions && negb inversions_present then false else self_inversions in
  let self_red := fun t => or_no_reduction self_red (or_no_reduction present t) in
  if (match red with Some _ => true | None => false end) || negb use_inversions then
    let! num_labels := get_chord_label_list pt use_inversions true None false (or_no_reduction red) in
    Raise TypeError
  else Ok (mkIcm pt major minor self_inversions self_red).

(* initial_chord_models.py:143-161 get_prior with log=False *)
Definition get_prior (m : icm) (is_minor : bool) : list Q := if is_minor then icm_minor m else icm_major m.

(* ---- evaluation ------------------------------------------------------------------------ *)
Section Evaluate.
(* np.log; the model uses it on positive numbers only (a prior of 0 would give -inf) *)
Variable log : Q -> Q.

(* np.argmax: the first of the largest entries *)
Fixpoint argmax_from (best : Q) (at_ i : Z) (l : list Q) : Z :=
  match l with
  | [] => at_
  | x :: r => if Qle_bool x best then argmax_from best at_ (i + 1) r else argmax_from x i (i + 1) r
  end.
(* np.argmax; ValueError for an empty array *)
Definition np_argmax (l : list Q) : res Z :=
  match l with [] => Raise ValueError | x :: r => Ok (argmax_from x 0 1 r) end.
(* a piece: its chords and the relative modes of its keys *)
Notation evaluated_piece := (list chord * list key_mode)%type.
(* initial_chord_models.py:184-202, one piece *)
Definition evaluate_piece (m : icm) (major_max minor_max : Z) (st : Z * Q) (piece : evaluated_piece)
  : res (Z * Q) :=
  let '(correct, loss) := st in
  let! c := py_nth (fst piece) 0 in
  let! first := chord_one_hot c true true false NO_REDUCTION in
  let! mode := py_nth (snd piece) 0 in
  let '(correct_index, prior) :=
    match mode with MAJOR => (major_max, get_prior m false) | MINOR => (minor_max, get_prior m true) end in
  let correct := if first =? correct_index then correct + 1 else correct in
  let! p := py_nth (map log prior) first in
  Ok (correct, (loss - p)%Q).
(* initial_chord_models.py:163-207 evaluate: "acc" and "loss" *)
Definition evaluate (m : icm) (pieces : list evaluated_piece) : res (Q * Q) :=
  let! major_max := np_argmax (map log (get_prior m false)) in
  let! minor_max := np_argmax (map log (get_prior m true)) in
  let! (correct, loss) := foldM (evaluate_piece m major_max minor_max) pieces (0, 0%Q) in
  if zlen pieces =? 0 then Raise ZeroDivisionError
  else Ok ((inject_Z (100 * correct) / inject_Z (zlen pieces))%Q, (loss / inject_Z (zlen pieces))%Q).
End Evaluate.
