(* The accuracies logged in verbose runs: DebugLogger (joint_model.py:1380-2073).
   Simplified: a message is a constructor with the numbers printed, not its text; the names of chords and keys
   printed beside them are left out; messages written before an exception are not kept; probabilities are rationals; the change of a chord or key of the
   piece into its number in the vocabulary of the models is given (encode). *)
From Coq Require Import QArith List. Import ListNotations.
From Verif Require Import PyBase Model_Piece.
Close Scope Q_scope.
Open Scope Z_scope.

(* the messages with numbers *)
Inductive message :=
| MissedChange (i : nat) (p : Q)         (* joint_model.py:1907-1912 *)
| WrongChange (i : nat) (p : Q)          (* joint_model.py:1918-1923 *)
| Accuracy (what : nat) (correct total : Z)   (* "... %s / %s = %s"; what: 0 change, 1 no change, 2 chords, 3 key changes, 4 next chords, 5 next keys, 6 next keys of the states with the right chord *)
| NoStates                               (* joint_model.py:1538, 1879 *)
| Misclassified (start stop : Z)         (* joint_model.py:2009-2011 *)
| CorrectChord (chord : Z) (p : Q) (rank : Z)      (* joint_model.py:2016-2022, 1836-1841 *)
| TopChord (star : bool) (rank chord : Z) (p : Q)  (* joint_model.py:2024-2034, 1857-1867 *)
| KeyChangeHere (i : Z) | NoKeyChangeHere (i : Z)  (* joint_model.py:1458-1471 *)
| StateProb (key : Z) (prev_chord chord : Z) (p : Q)  (* joint_model.py:1521-1526 *)
| NextKeyHere (i : Z)                              (* joint_model.py:1591-1596 *)
| KeyState (key prev_chord chord : Z)              (* joint_model.py:1661-1665 *)
| CorrectKey (change : Z) (p : Q) (rank : Z)       (* joint_model.py:1667-1672 *)
| FirstChord (chord : Z) (p : Q) (rank : Z)        (* joint_model.py:2071-2073 *).

(* "%s / %s = %s": the division *)
Definition accuracy (what : nat) (correct total : Z) : res message :=
  if total =? 0 then Raise ZeroDivisionError else Ok (Accuracy what correct total).
(* 0.5 *)
Definition half : Q := 1 # 2.
(* a < b on floats *)
Definition q_ltb (a b : Q) : bool := negb (Qle_bool b a).

(* ---- debug_chord_change_probs ------------------------------------------------------------- *)
(* joint_model.py:1890-1891: np.roll(durations == 0, 1), then the first is True *)
Definition index_invalid (durs : list Z) : res (list bool) :=
  match map (fun d => d =? 0) durs with
  | [] => Raise IndexError
  | l => Ok (true :: removelast l)
  end.
(* the counters and the messages so far *)
Record change_counts := mkCounts { change_correct : Z; change_total : Z; no_change_correct : Z; no_change_total : Z; said : list message }.
(* joint_model.py:1898-1925, the loop *)
Fixpoint change_loop (changes : option (list Z)) (i : nat) (l : list (Q * bool)) (st : change_counts) : change_counts :=
  match l with
  | [] => st
  | (p, invalid) :: r =>
      let st' :=
        if invalid then st
        else if match changes with Some c => existsb (Z.eqb (Z.of_nat i)) c | None => false end then
          if q_ltb p half
          then mkCounts (change_correct st) (change_total st + 1) (no_change_correct st) (no_change_total st) (said st ++ [MissedChange i p])
          else mkCounts (change_correct st + 1) (change_total st + 1) (no_change_correct st) (no_change_total st) (said st)
        else
          if q_ltb half p
          then mkCounts (change_correct st) (change_total st) (no_change_correct st) (no_change_total st + 1) (said st ++ [WrongChange i p])
          else mkCounts (change_correct st) (change_total st) (no_change_correct st + 1) (no_change_total st + 1) (said st) in
      change_loop changes (S i) r st'
  end.
(* joint_model.py:1881-1940 debug_chord_change_probs *)
Definition debug_chord_change_probs (durs : list Z) (changes : option (list Z)) (change_probs : list Q) : res (list message) :=
  let! invalid := index_invalid durs in
  let st := change_loop changes 0 (combine change_probs invalid) (mkCounts 0 0 0 0 []) in
  match changes with
  | None => Ok (said st)
  | Some _ =>
      let! a := accuracy 0 (change_correct st) (change_total st) in
      let! b := accuracy 1 (no_change_correct st) (no_change_total st) in
      Ok (said st ++ [a; b])
  end.

(* ---- debug_chord_classifications ------------------------------------------------------------ *)
Section Classifications.
Context {Chord : Type}.
(* chord.to_pitch_type(...).get_one_hot_index(...), joint_model.py:1968-1978 *)
Variable encode : Chord -> res Z.
(* list(np.argsort(-probs)), joint_model.py:1980 *)
Variable argsort : list Q -> list Z.
Variable max_chords_to_print : Z.
(* list.index *)
Definition list_index (l : list Z) (x : Z) : res Z :=
  (fix go (l : list Z) (i : Z) : res Z :=
     match l with [] => Raise ValueError | y :: r => if y =? x then Ok i else go r (i + 1) end) l 0.
(* min(l) of a list *)
Definition py_min (l : list Z) : res Z := match l with [] => Raise ValueError | x :: r => Ok (fold_left Z.min r x) end.
(* max(l) of a list *)
Definition py_max (l : list Z) : res Z := match l with [] => Raise ValueError | x :: r => Ok (fold_left Z.max r x) end.
(* joint_model.py:2024-2034: the best classes, with their ranks from [rank] *)
Fixpoint top_chords (correct : list Z) (probs : list Q) (rank : Z) (rankings : list Z) : res (list message) :=
  match rankings with
  | [] => Ok []
  | c :: r => let! p := py_nth probs c in
              let! ms := top_chords correct probs (rank + 1) r in
              Ok (TopChord (existsb (Z.eqb c) correct) rank c p :: ms)
  end.
(* joint_model.py:1964-2034, one range *)
Definition classify_range (chords : option (list Chord * list Z)) (range : Z * Z) (probs : list Q)
  (st : Z * Z * list message) : res (Z * Z * list message) :=
  let '(ranges, good, ms) := st in
  let '(start, stop) := range in
  let! correct_chords :=
    match chords with
    | None => if stop <? start then Raise AssertionError else Ok []
    | Some (cs, changes) => get_chords_within_range cs changes start (Some stop)
    end in
  let! one_hots := mapM encode correct_chords in
  let rankings := argsort probs in
  let! correct_probs := mapM (py_nth probs) one_hots in
  let! correct_rank := mapM (list_index rankings) one_hots in
  let! is_range_correct :=
    (if (length correct_chords =? 1)%nat then
       match chords with
       | None => Raise TypeError
       | Some (_, changes) => Ok (existsb (Z.eqb start) changes && existsb (Z.eqb stop) changes)
       end
     else Ok false) in
  let! is_classification_correct := (if is_range_correct then let! r := py_nth correct_rank 0 in Ok (r =? 0) else Ok false) in
  let! is_any := (if (0 <? length correct_rank)%nat then let! r := py_min correct_rank in Ok (r =? 0) else Ok false) in
  let ranges := if is_range_correct then ranges + 1 else ranges in
  let good := if is_range_correct && is_classification_correct then good + 1 else good in
  if is_any || negb is_range_correct then Ok (ranges, good, ms)
  else
    let details := map (fun x : Z * Q * Z => CorrectChord (fst (fst x)) (snd (fst x)) (snd x)) (combine (combine one_hots correct_probs) correct_rank) in
    let! m := py_max correct_rank in
    let! top := top_chords one_hots probs 0 (py_slice rankings 0 (Z.min max_chords_to_print (m + 1))) in
    Ok (ranges, good, ms ++ [Misclassified start stop] ++ details ++ top).
(* joint_model.py:1964-2034, the loop *)
Fixpoint classify_loop (chords : option (list Chord * list Z)) (l : list ((Z * Z) * list Q)) (st : Z * Z * list message)
  : res (Z * Z * list message) :=
  match l with
  | [] => Ok st
  | (range, probs) :: r => let! st := classify_range chords range probs st in classify_loop chords r st
  end.
(* joint_model.py:1942-2043 debug_chord_classifications; chords with their change indices, or None *)
Definition debug_chord_classifications (chords : option (list Chord * list Z)) (chord_ranges : list (Z * Z))
  (chord_classifications : list (list Q)) : res (list message) :=
  let! st := classify_loop chords (combine chord_ranges chord_classifications) (0, 0, []) in
  let '(ranges, good, ms) := st in
  match chords with
  | None => Ok ms
  | Some _ => let! a := accuracy 2 good ranges in Ok (ms ++ [a])
  end.
End Classifications.

(* ---- debug_key_transitions --------------------------------------------------------------- *)
(* what is looked at of a state: key, chord, state.prev_state.chord, state.prev_state.change_index (the input where
   its chord begins) *)
Record debug_state := mkDs { ds_key : Z; ds_chord : Z; ds_prev_chord : Z; ds_start : Z }.
(* The annotations: get_key_change_input_indices, the keys as numbers, get_chord_change_indices, the chords as
   numbers of the classifier's vocabulary *)
Record annotation := mkAnn { an_key_changes : list Z; an_keys : list Z; an_chord_changes : list Z; an_chords : list Z }.
(* joint_model.py:1441-1456: the key and the last of the chords taken as right at an index *)
Definition correct_at (an : annotation) (change_index : Z) : res (nat * Z * Z) :=
  let! new_key_index := bisect_left Z.ltb (an_key_changes an) change_index 0 in
  let! new_chord_index := bisect_left Z.ltb (an_chord_changes an) change_index 0 in
  let! correct_key := py_nth (an_keys an) (Z.of_nat new_key_index - 1) in
  let! here := (if (length (an_chord_changes an) <? new_chord_index)%nat
                then let! c := py_nth (an_chord_changes an) (Z.of_nat new_chord_index) in Ok (c =? change_index)
                else Ok false) in
  let! correct_chord :=
    (if here then
       let new_chord_index := if (new_chord_index =? length (an_chords an))%nat then Z.of_nat new_chord_index - 1 else Z.of_nat new_chord_index in
       py_nth (an_chords an) new_chord_index
     else py_nth (an_chords an) (Z.of_nat new_chord_index - 1)) in
  Ok (new_key_index, correct_key, correct_chord).
(* joint_model.py:1458, 1507-1510: whether the key changes at the index *)
Definition key_changes_here (an : annotation) (new_key_index : nat) (change_index : Z) : bool :=
  match nth_error (an_key_changes an) new_key_index with Some c => c =? change_index | None => false end.
(* joint_model.py:1485-1526, the loop for an annotated piece *)
Fixpoint transition_loop (key chord : Z) (changes : bool) (l : list (Q * debug_state)) (st : Z * Z * list message)
  : Z * Z * list message :=
  match l with
  | [] => st
  | (p, s) :: r =>
      let '(total, good, ms) := st in
      let st' :=
        if negb (key =? ds_key s) then st
        else if negb (chord =? ds_chord s) then st
        else if (if changes then q_ltb half p else q_ltb p half) then (total + 1, good + 1, ms)
        else (total + 1, good, ms ++ [StateProb (ds_key s) (ds_prev_chord s) (ds_chord s) p]) in
      transition_loop key chord changes r st'
  end.
(* joint_model.py:1419-1538 debug_key_transitions; the index is taken from the first state *)
Definition debug_key_transitions (an : option annotation) (probs : list Q) (states : list debug_state) : res (list message) :=
  match states with
  | [] => Ok []
  | s0 :: _ =>
      let change_index := ds_start s0 in
      match an with
      | None => Ok (map (fun x : Q * debug_state => StateProb (ds_key (snd x)) (ds_prev_chord (snd x)) (ds_chord (snd x)) (fst x)) (combine probs states))
      | Some an =>
          let! x := correct_at an change_index in
          let '(new_key_index, key, chord) := x in
          let changes := key_changes_here an new_key_index change_index in
          let first := if changes then KeyChangeHere change_index else NoKeyChangeHere change_index in
          let '(total, good, ms) := transition_loop key chord changes (combine probs states) (0, 0, []) in
          Ok (first :: ms ++ [if 0 <? total then Accuracy 3 good total else NoStates])
      end
  end.

(* ---- debug_chord_sequence_priors ----------------------------------------------------------- *)
Section Priors.
Variable argsort : list Q -> list Z.
Variable max_to_print max_chords_to_print : Z.
(* joint_model.py:1803-1867, the loop.  A state is given with np.exp of its prior; truth: the key, the previous
   chord and the next chord (as a number relative to the key) of the annotation *)
Fixpoint prior_loop (truth : option (Z * Z * Z)) (l : list (debug_state * list Q)) (st : Z * Z * list message) : res (Z * Z * list message) :=
  match l with
  | [] => Ok st
  | (s, prior) :: r =>
      let '(total, good, ms) := st in
      let skip := match truth with
                  | Some (key, prev, _) => negb (ds_prev_chord s =? prev) || negb (ds_key s =? key)
                  | None => false
                  end in
      if skip then prior_loop truth r st
      else
        let rankings := argsort prior in
        let! x := match truth with
                  | Some (_, _, next) =>
                      let! p := py_nth prior next in
                      let! rank := list_index rankings next in
                      Ok (rank, ms ++ [CorrectChord next p rank])
                  | None => Ok (max_chords_to_print, ms)
                  end in
        let '(rank, ms) := x in
        if match truth with Some _ => rank =? 0 | None => false end then prior_loop truth r (total + 1, good + 1, ms)
        else
          let! top := top_chords (match truth with Some (_, _, next) => [next] | None => [] end) prior 0
                                 (py_slice rankings 0 (Z.min max_to_print (rank + 1))) in
          prior_loop truth r (total + 1, good, ms ++ top)
  end.
(* joint_model.py:1710-1879 debug_chord_sequence_priors; relative: the chords of the annotation as numbers relative
   to their keys in the vocabulary of the chord sequence model *)
Definition debug_chord_sequence_priors (an : option (annotation * list Z)) (states : list (debug_state * list Q))
  : res (list message) :=
  match states with
  | [] => Ok []
  | s0 :: _ =>
      let change_index := ds_start (fst s0) in
      if change_index =? 0 then Ok []
      else
        match an with
        | None => let! st := prior_loop None states (0, 0, []) in Ok (snd st)
        | Some (an, relative) =>
            let! chord_index := bisect_left Z.ltb (an_chord_changes an) change_index 0 in
            if negb (match nth_error (an_chord_changes an) chord_index with Some c => c =? change_index | None => false end) then Ok []
            else
              let! key_index := bisect_left Z.ltb (an_key_changes an) change_index 0 in
              if key_changes_here an key_index change_index then Ok []
              else
                let! key := py_nth (an_keys an) (Z.of_nat key_index - 1) in
                let! next := py_nth relative (Z.of_nat chord_index) in
                let! prev := py_nth (py_slice (an_chords an) (Z.max 0 (Z.of_nat chord_index - 5)) (Z.of_nat chord_index)) (-1) in
                let! st := prior_loop (Some (key, prev, next)) states (0, 0, []) in
                let '(total, good, ms) := st in
                Ok (ms ++ [if 0 <? total then Accuracy 4 good total else NoStates])
        end
  end.
End Priors.

(* ---- debug_key_sequences ------------------------------------------------------------------ *)
Section Sequences.
Variable argsort : list Q -> list Z.
(* prev_key.get_key_change_one_hot_index(next_key), joint_model.py:1576-1578 *)
Variable encode_change : Z -> Z -> res Z.
Variable max_keys_to_print : Z.
(* the counters: total, total_chord_correct, total_correct, total_chord_correct_correct; the messages so far *)
Record key_counts := mkKc { kc_total : Z; kc_chord : Z; kc_good : Z; kc_chord_good : Z; kc_said : list message }.
(* joint_model.py:1618-1687, the loop.  A state is given with np.exp of its prior; truth: the key before the change,
   the change as a number, and the chord that begins there *)
Fixpoint sequence_loop (truth : option (Z * Z * Z)) (l : list (debug_state * list Q)) (st : key_counts) : res key_counts :=
  match l with
  | [] => Ok st
  | (s, prior) :: r =>
      if match truth with Some (key, _, _) => negb (key =? ds_key s) | None => false end then sequence_loop truth r st
      else
        let chord_right := match truth with Some (_, _, chord) => chord =? ds_chord s | None => false end in
        let st := mkKc (kc_total st + 1) (kc_chord st + (if chord_right then 1 else 0)) (kc_good st) (kc_chord_good st) (kc_said st) in
        let rankings := argsort prior in
        let! x := match truth with
                  | Some (_, change, _) =>
                      let! p := py_nth prior change in
                      let! rank := list_index rankings change in
                      Ok (rank, [CorrectKey change p rank])
                  | None => Ok (max_keys_to_print, [])
                  end in
        let '(rank, said) := x in
        if match truth with Some _ => rank =? 0 | None => false end
        then sequence_loop truth r (mkKc (kc_total st) (kc_chord st) (kc_good st + 1) (kc_chord_good st + (if chord_right then 1 else 0)) (kc_said st))
        else
          let! top := top_chords (match truth with Some (_, change, _) => [change] | None => [] end) prior 0
                                 (py_slice rankings 0 (Z.min max_keys_to_print (rank + 1))) in
          sequence_loop truth r (mkKc (kc_total st) (kc_chord st) (kc_good st) (kc_chord_good st)
                                      (kc_said st ++ KeyState (ds_key s) (ds_prev_chord s) (ds_chord s) :: said ++ top))
  end.
(* joint_model.py:1540-1708 debug_key_sequences *)
Definition debug_key_sequences (an : option annotation) (states : list (debug_state * list Q)) : res (list message) :=
  match states with
  | [] => Ok []
  | s0 :: _ =>
      let change_index := ds_start (fst s0) in
      match an with
      | None => let! st := sequence_loop None states (mkKc 0 0 0 0 []) in Ok (kc_said st)
      | Some an =>
          let! new_key_index := bisect_left Z.ltb (an_key_changes an) change_index 0 in
          let! new_chord_index := bisect_left Z.ltb (an_chord_changes an) change_index 0 in
          if negb (key_changes_here an new_key_index change_index) then Ok []
          else
            let! prev_key := py_nth (an_keys an) (Z.of_nat new_key_index - 1) in
            let! next_key := py_nth (an_keys an) (Z.of_nat new_key_index) in
            let! change := encode_change prev_key next_key in
            let! c := py_nth (an_chord_changes an) (Z.of_nat new_chord_index) in
            let! chord :=
              (if c =? change_index then
                 let new_chord_index := if (new_chord_index =? length (an_chords an))%nat then Z.of_nat new_chord_index - 1 else Z.of_nat new_chord_index in
                 let! _ := py_nth (an_chords an) (new_chord_index - 1) in
                 py_nth (an_chords an) new_chord_index
               else py_nth (an_chords an) (Z.of_nat new_chord_index - 1)) in
            let! st := sequence_loop (Some (prev_key, change, chord)) states (mkKc 0 0 0 0 []) in
            Ok (NextKeyHere change_index :: kc_said st
                ++ [if 0 <? kc_total st then Accuracy 5 (kc_good st) (kc_total st) else NoStates;
                    if 0 <? kc_chord st then Accuracy 6 (kc_chord_good st) (kc_chord st) else NoStates])
      end
  end.
End Sequences.

(* ---- debug_initial_chord_prior ------------------------------------------------------------- *)
(* joint_model.py:2045-2073 debug_initial_chord_prior; relative: the chords of the annotation as numbers relative to
   their keys in the vocabulary of the initial chord model.  Only called if there are annotations (928-937). *)
Definition debug_initial_chord_prior (argsort : list Q -> list Z) (relative : list Z) (icm_prior : list Q) : res (list message) :=
  let rankings := argsort icm_prior in
  let! chord := py_nth relative 0 in
  let! p := py_nth icm_prior chord in
  let! rank := list_index rankings chord in
  Ok [FirstChord chord p rank].
