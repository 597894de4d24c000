(* The inference for one piece: harmonic_inference/models/joint_model.py:373-629.
   Sets are lists without duplicates, dictionaries are lists of pairs.  Numbers are integers, as in
   Model_Ranges and Model_Search. *)
From Verif Require Export Model_Ranges Model_Search.
Open Scope Z_scope.

(* The forces given to get_harmony (505-514): sets of indexes, and {(start, end): id}.  None is an
   empty set or dictionary (575-584). *)
Record request := {
  q_chord_changes : list Z; q_chord_non : list Z; q_key_changes : list Z; q_key_non : list Z;
  q_chords : list (Z * Z * Z); q_keys : list (Z * Z * Z)
}.

(* raise ArgumentError(message): argparse.ArgumentError takes an argument and a message, so this is
   a TypeError *)
Definition argument_error {A} : res A := Raise TypeError.
(* for x in l: if bad(x): raise ... *)
Definition for_each {A} (f : A -> res unit) (l : list A) : res unit :=
  let! _ := mapM f l in Ok tt.

(* lines 393-417, after 0 has been removed; the result is the set of changes *)
Definition change_checks (durs changes non_changes : list Z) : res (list Z) :=
  if existsb (fun c => zlen durs <=? c) changes then argument_error
  else if existsb (fun c => zlen durs <=? c) non_changes then argument_error
  else if existsb (fun c => existsb (Z.eqb c) non_changes) changes then argument_error
  else
    let! _ := for_each (fun c => let! d := py_nth durs (c - 1) in
                                 if d =? 0 then argument_error else Ok tt) changes in
    Ok changes.
(* lines 386-417; the result is the set without 0.  The caller's set is changed: see Model_Reuse. *)
Definition check_changes (durs changes non_changes : list Z) : res (list Z) :=
  change_checks durs (filter (fun c => negb (c =? 0)) changes) non_changes.

(* ids[start:end] = x *)
Definition fill_slice (ids : list Z) (a b x : Z) : list Z :=
  let a := py_bound (zlen ids) a in
  let b := Z.max a (py_bound (zlen ids) b) in
  firstn (Z.to_nat a) ids ++ repeat x (Z.to_nat (b - a)) ++ skipn (Z.to_nat b) ids.
(* lines 435-449; the second ArgumentError gets two strings, the first of which has no attribute
   option_strings *)
Fixpoint load_labels (max_id : Z) (ids : list Z) (labels : list (Z * Z * Z)) : res (list Z) :=
  match labels with
  | [] => Ok ids
  | (a, b, x) :: r =>
      if (x <? 0) || (max_id <=? x) then argument_error
      else if forallb (fun y => (y =? -1) || (y =? x)) (py_slice ids a b)
      then load_labels max_id (fill_slice ids a b x) r
      else Raise AttributeError
  end.

(* lines 451-472; the message of the second error looks for an index in forced_chords, whose keys
   are pairs *)
Definition check_labels (changes non_changes ids : list Z) : res unit :=
  let! _ := for_each (fun c => let! a := py_nth ids (c - 1) in
                               let! b := py_nth ids c in
                               if (a =? b) && negb (b =? -1) then argument_error else Ok tt) changes in
  for_each (fun c => let! a := py_nth ids (c - 1) in
                     let! b := py_nth ids c in
                     if negb (a =? b) && negb (existsb (Z.eqb (-1)) (py_slice ids (c - 1) (c + 1)))
                     then Raise KeyError else Ok tt) non_changes.

(* one round of the loop 380-472 *)
Definition load_type (durs : list Z) (max_id : Z) (changes non_changes : list Z)
  (labels : list (Z * Z * Z)) : res (list Z * list Z) :=
  let! changes := check_changes durs changes non_changes in
  let! ids := load_labels max_id (repeat (-1) (length durs)) labels in
  let! _ := check_labels changes non_changes ids in
  Ok (changes, ids).

(* lines 474-503.  -1 not in forced_chord_ids[i] is a TypeError: the entry is a number. *)
Definition check_both (key_changes chord_non chord_ids key_ids : list Z) : res unit :=
  let! _ := for_each (fun c =>
      if existsb (Z.eqb c) chord_non then argument_error else
      let! a := py_nth chord_ids (c - 1) in
      let! b := py_nth chord_ids c in
      if (a =? b) && negb (b =? -1) then argument_error else Ok tt) key_changes in
  for_each (fun c => let! a := py_nth key_ids (c - 1) in
                     let! b := py_nth key_ids c in
                     if negb (a =? b) then Raise TypeError else Ok tt) chord_non.

(* lines 373-503 _validate_and_load_forced_labels: the forced chord changes without 0,
   forced_chord_ids and forced_key_ids.  max_chord, max_key: 422-433. *)
Definition validate (durs : list Z) (max_chord max_key : Z) (q : request)
  : res (list Z * list Z * list Z) :=
  let! (cc, chord_ids) := load_type durs max_chord (q_chord_changes q) (q_chord_non q) (q_chords q) in
  let! (kc, key_ids) := load_type durs max_key (q_key_changes q) (q_key_non q) (q_keys q) in
  let! _ := check_both kc (q_chord_non q) chord_ids key_ids in
  Ok (cc, chord_ids, key_ids).

(* The networks before the search: the probability of a chord change for each input, its logarithm
   and that of the opposite (702-703), and the log priors of the chord classifier for a list of
   ranges; the classifier's vocabulary. *)
Record networks := {
  n_change : list Z; n_one : Z; n_log : Z -> Z; n_log_not : Z -> Z;
  n_classify : list (nat * nat) -> list (list Z);
  n_inv : bool; n_red : reduction
}.

(* lines 505-629 get_harmony: durs and levels are the caches of the piece *)
Definition get_harmony (g : search_cfg) (cfg : range_cfg) (w : networks) (o : oracle)
  (durs levels : list Z) (q : request) : res (option state) :=
  let max_chord := get_chord_vector_length (g_cpt g) true false (n_inv w) false (n_red w) in
  let! (x, key_ids) := validate durs max_chord (NUM_PITCHES (g_kpt g) * 2) q in
  let (changes, chord_ids) := x : list Z * list Z in
  let! ps := apply_forced_chord_changes (n_one w) (n_change w) changes (q_chord_non q) in
  let! (y, rejoins) := get_chord_ranges cfg
       {| probs := ps; change_log := map (n_log w) ps; no_change_log := map (n_log_not w) ps;
          durs := durs; forced_c := chord_ids; forced_k := key_ids |} in
  let (ranges, logs) := y : list (nat * nat) * list Z in
  beam_search g o {| p_forced_c := chord_ids; p_forced_k := key_ids; p_durs := durs; p_levels := levels |}
    ranges logs rejoins (n_classify w ranges).
