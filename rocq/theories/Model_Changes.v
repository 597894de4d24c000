(* Pitch alterations of a chord: harmonic_inference/utils/harmonic_utils.py:141-256,
   get_added_and_removed_pitches.  Strings as in Model_Strings.v. *)
From Coq Require Import String Ascii.
From Verif Require Export Model_Strings.
From Coq Require Import List.
Import ListNotations.
Open Scope Z_scope.

(* int(s) for a string of digits.  Simplification: a string with white space, an underscore
   or a sign is not modelled (int accepts some of these); any other text is a ValueError. *)
Definition py_int (s : pystr) : res Z :=
  match s with
  | [] => Raise ValueError
  | _ =>
      if forallb char_is_digit s
      then Ok (fold_left (fun v c => 10 * v + (Z.of_nat (nat_of_ascii c) - 48)) s 0)
      else if existsb (fun c => existsb (Ascii.eqb c)
                                  ["_"; "+"; "-"; " "; "009"; "010"; "011"; "012"; "013"]%char) s
           then Raise Unmodelled
           else Raise ValueError
  end.

(* s in "246": s is a substring of "246" *)
Definition in_246 (s : pystr) : bool :=
  existsb (str_eqb s) [[]; L"2"; L"4"; L"6"; L"24"; L"46"; L"246"].

(* harmonic_utils.py:180-184: the loop over degree; [degrees] are the remaining values and
   [degree] the value the variable has kept so far (the loop has no else). *)
Fixpoint root_degree (root_char : ascii) (tonic : Z) (m : key_mode) (degrees : list Z) (degree : Z)
  : res Z :=
  match degrees with
  | [] => Ok degree
  | d :: r =>
      let! interval := get_interval_from_scale_degree (z_to_str d) true m TPC in
      let! pitch_str := get_pitch_string (interval + tonic) TPC in
      let! c := py_nth pitch_str 0 in
      if Ascii.eqb c root_char then Ok d else root_degree root_char tonic m r d
  end.

(* harmonic_utils.py:190-191: while change[0] in "v^+" *)
Fixpoint strip_marks (s : pystr) : res pystr :=
  match s with
  | [] => Raise IndexError
  | c :: r => if existsb (Ascii.eqb c) ["v"; "^"; "+"]%char then strip_marks r else Ok s
  end.

(* harmonic_utils.py:189-209, one iteration *)
Definition added_pitch (degree tonic : Z) (m : key_mode) (change : pystr) : res pystr :=
  let! change := strip_marks change in
  let! (count, new_change) := get_accidental_adjustment change true in
  let count := Z.abs count in
  let! n := py_int new_change in
  let octave := if 8 <=? n then L"+" else [] in
  let change_degree := (n + degree - 2) mod 7 + 1 in
  let! interval := get_interval_from_scale_degree
                     (py_slice change 0 count ++ z_to_str change_degree) true m TPC in
  Ok (octave ++ z_to_str (interval + tonic)).

(* harmonic_utils.py:213: np.where(chord_vector == 1)[0] *)
Definition where_one (v : list Z) : list Z :=
  filter (fun p => match py_nth v p with Ok x => x =? 1 | Raise _ => false end) (zrange 0 (zlen v)).

(* harmonic_utils.py:220-222: the pitches of the chord with the given letter *)
Fixpoint with_letter (c : ascii) (pitches : list Z) : res (list Z) :=
  match pitches with
  | [] => Ok []
  | p :: r =>
      let! s := get_pitch_string p TPC in
      let! x := py_nth s 0 in
      let! rest := with_letter c r in
      Ok (if Ascii.eqb x c then p :: rest else rest)
  end.
(* harmonic_utils.py:212-222 *)
Definition ascending_chord_vector (root : Z) (t : chord_type) (m : key_mode) : res (list Z) :=
  let! v := get_vector_from_chord_type t TPC (Some root) in
  let! groups := mapM (fun degree =>
      let! interval := get_interval_from_scale_degree (z_to_str degree) true m TPC in
      let! pitch_str := get_pitch_string (interval + root) TPC in
      let! c := py_nth pitch_str 0 in
      with_letter c (where_one v)) (zrange 1 8) in
  Ok (concat groups).

(* harmonic_utils.py:226-254, one iteration: what it appends to removed_pitches.  After a
   leading "+" the iteration goes on, so it appends twice. *)
Definition removed_pitch (ascending : list Z) (change : pystr) : res (list pystr) :=
  let! first := py_nth change 0 in
  let pre := if Ascii.eqb first "+" then [[]] else [] in
  let! (_, new_change) := get_accidental_adjustment change true in
  if Ascii.eqb first "^" || (in_246 new_change && Ascii.eqb first "#") then
    if str_eqb change (L"#6") && (zlen ascending =? 3) then Ok (pre ++ [[]])
    else
      let! lastc := py_nth change (-1) in
      let! n := py_int [lastc] in
      let! p := py_nth ascending (n / 2) in
      Ok (pre ++ [z_to_str p])
  else if Ascii.eqb first "v" || (in_246 new_change && negb (Ascii.eqb first "#")) then
    let! lastc := py_nth change (-1) in
    let! n := py_int [lastc] in
    let! p := py_nth ascending (n / 2 - 1) in
    Ok (pre ++ [z_to_str p])
  else Ok (pre ++ [[]]).

(* d[k] = v *)
Fixpoint dict_set {V} (d : list (pystr * V)) (k : pystr) (v : V) : list (pystr * V) :=
  match d with
  | [] => [(k, v)]
  | (k', v') :: r => if str_eqb k k' then (k', v) :: r else (k', v') :: dict_set r k v
  end.
(* {k: v for k, v in l} *)
Definition dict_of_pairs {V} (l : list (pystr * V)) : list (pystr * V) :=
  fold_left (fun d x => dict_set d (fst x) (snd x)) l [].

(* harmonic_utils.py:141-256 *)
Definition get_added_and_removed_pitches (root : Z) (t : chord_type) (changes : pystr)
  (tonic : Z) (m : key_mode) : res (list (pystr * pystr)) :=
  let! root_str := get_pitch_string root TPC in
  let! root_char := py_nth root_str 0 in
  let! degree := root_degree root_char tonic m (zrange 1 8) 0 in
  let! changes_list := split_changes_into_list changes in
  let! added := mapM (added_pitch degree tonic m) changes_list in
  let! ascending := ascending_chord_vector root t m in
  let! removed := mapM (removed_pitch ascending) changes_list in
  Ok (dict_of_pairs (combine (concat removed) added)).
