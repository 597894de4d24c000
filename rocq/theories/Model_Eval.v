(* Evaluation of the inferred harmony: harmonic_inference/utils/eval_utils.py:298-628, and the
   table of labels: 631-713.
   A piece is a loaded score (Model_Piece) and its duration cache; the state is the result of the
   search (Model_Search).  Accuracies are rationals here, floats there. *)
From Coq Require Import QArith.
From Verif Require Import Model_Strings Model_Rhythm Model_Piece.
From Verif Require Export Model_Infer.
From Coq Require Import List.
Import ListNotations.
Close Scope Q_scope.
Open Scope Z_scope.

(* for x, start, end in zip(...): labels[start:end] = x *)
Definition fill_all (labels : list Z) (l : list (Z * (nat * nat))) : list Z :=
  fold_left (fun labels x => let '(v, (a, b)) := x in fill_slice labels (Z.of_nat a) (Z.of_nat b) v) l labels.

(* lines 327-336, 451-456, 556-565, 572-577: the true labels of n inputs.  index is get_one_hot_index of a
   chord or key; the last label reaches to the end. *)
Definition true_labels {A} (index : A -> res Z) (n : nat) (things : list A) (changes : list nat)
  : res (list Z) :=
  let! l := mapM (fun x => let '(c, r) := x in let! i := index c in Ok (i, r))
                 (combine things (combine changes (tl changes))) in
  let labels := fill_all (repeat 0 n) l in
  let! c := py_nth things (-1) in
  let! i := index c in
  let! a := py_nth changes (-1) in
  Ok (fill_slice labels (Z.of_nat a) (Z.of_nat n) i).

(* lines 338-341, 458-461, 567-570, 579-582: the labels of the state.  Storing None in an array of integers is a
   TypeError. *)
Definition estimated_labels (n : nat) (labels : list (option Z)) (changes : list nat) : res (list Z) :=
  let! l := mapM (fun x => match fst x with Some v => Ok (v, snd x) | None => Raise TypeError end)
                 (combine labels (combine (removelast changes) (tl changes))) in
  Ok (fill_all (repeat 0 n) l).

(* chord.get_one_hot_index(relative=False, use_inversion=True, pad=False); Key.get_one_hot_index
   (key.py:166-179) *)
Definition chord_index (c : pchord) : res Z := chord_one_hot (pc c) false true false NO_REDUCTION.
(* Key.get_one_hot_index: key.py:166-179 *)
Definition key_index (k : key_obj) : res Z := get_key_one_hot_index (k_rel_mode k) (k_rel k) (k_pt k).
(* piece.py:346-359 get_key_change_input_indices *)
Definition key_change_inputs (p : piece) : res (list nat) :=
  mapM (fun k => match nth_error (p_changes p) k with Some i => Ok i | None => Raise IndexError end) (p_key_changes p).

(* eval_utils.py:327-336: the gold chord of every input *)
Definition true_chords (p : piece) : res (list Z) :=
  true_labels chord_index (length (p_notes p)) (p_chords p) (p_changes p).
(* eval_utils.py:451-456: the gold key of every input *)
Definition true_keys (p : piece) : res (list Z) :=
  let! changes := key_change_inputs p in
  true_labels key_index (length (p_notes p)) (p_keys p) changes.
(* eval_utils.py:338-341: the estimated chord of every input *)
Definition estimated_chords (p : piece) (s : state) : res (list Z) :=
  let (chords, changes) := get_chords s in estimated_labels (length (p_notes p)) chords changes.
(* eval_utils.py:458-461: the estimated key of every input *)
Definition estimated_keys (p : piece) (s : state) : res (list Z) :=
  let (keys, changes) := get_keys s in estimated_labels (length (p_notes p)) (map Some keys) changes.

(* lines 375-422 get_chord_distance *)
Definition get_chord_distance (gold est : Z * chord_type * Z) (use_inversion : bool) (red : reduction) : Q :=
  let '(gt_root, gt_type, gt_inv) := gold in
  let '(est_root, est_type, est_inv) := est in
  let gt_inv := if use_inversion then gt_inv else 0 in
  let est_inv := if use_inversion then est_inv else 0 in
  if (gt_root =? est_root) && ct_eqb (red gt_type) (red est_type) && (gt_inv =? est_inv) then 0%Q else 1%Q.
(* lines 487-518 *)
Definition get_key_distance (gold est : Z * key_mode) (tonic_only : bool) : Q :=
  if tonic_only then if fst gold =? fst est then 0%Q else 1%Q
  else if (fst gold =? fst est) && km_eqb (snd gold) (snd est) then 0%Q else 1%Q.

(* 1.0 - get_chord_distance(..), lines 352-370 *)
Definition chord_similarity (pt : pitch_type) (ui : bool) (red : reduction) (est gold : Z) : res Q :=
  let! g := get_chord_from_one_hot_index gold pt true false false NO_REDUCTION in
  let! e := get_chord_from_one_hot_index est pt true false false NO_REDUCTION in
  Ok (1 - get_chord_distance g e ui red)%Q.
(* 1.0 - get_key_distance(..), lines 472-482 *)
Definition key_similarity (pt : pitch_type) (tonic_only : bool) (est gold : Z) : res Q :=
  let! g := get_key_from_one_hot_index gold pt false in
  let! e := get_key_from_one_hot_index est pt false in
  Ok (1 - get_key_distance g e tonic_only)%Q.

(* lines 343-370, 463-482, 584-626: the loop; inputs with duration 0 are skipped *)
Fixpoint weighted {A} (f : A -> res Q) (l : list (Q * A)) (acc : Q) : res Q :=
  match l with
  | [] => Ok acc
  | (d, x) :: r => if Qeq_bool d 0%Q then weighted f r acc
                   else let! s := f x in weighted f r (acc + s * d)%Q
  end.
(* accuracy / np.sum(durations): the durations are Fractions, so that 0 is a ZeroDivisionError *)
Definition average {A} (f : A -> res Q) (durs : list Q) (labels : list A) : res Q :=
  let! acc := weighted f (combine durs labels) 0%Q in
  let total := qsum durs in
  if Qeq_bool total 0%Q then Raise ZeroDivisionError else Ok (acc / total)%Q.

(* lines 298-372 *)
Definition evaluate_chords (p : piece) (durs : list Q) (s : state) (pt : pitch_type)
  (use_inversion : bool) (red : reduction) : res Q :=
  let! gold := true_chords p in
  let! est := estimated_chords p s in
  average (fun x => chord_similarity pt use_inversion red (fst x) (snd x)) durs (combine est gold).
(* lines 425-484 *)
Definition evaluate_keys (p : piece) (durs : list Q) (s : state) (pt : pitch_type) (tonic_only : bool) : res Q :=
  let! gold := true_keys p in
  let! est := estimated_keys p s in
  average (fun x => key_similarity pt tonic_only (fst x) (snd x)) durs (combine est gold).
(* lines 521-628 evaluate_chords_and_keys_jointly *)
Definition evaluate_jointly (p : piece) (durs : list Q) (s : state) (root_type tonic_type : pitch_type)
  (use_inversion : bool) (red : reduction) (tonic_only : bool) : res Q :=
  let! gold_c := true_chords p in
  let! est_c := estimated_chords p s in
  let! gold_k := true_keys p in
  let! est_k := estimated_keys p s in
  average (fun x => let '(c, k) := x : (Z * Z) * (Z * Z) in
             let! a := chord_similarity root_type use_inversion red (fst c) (snd c) in
             let! b := key_similarity tonic_type tonic_only (fst k) (snd k) in
             Ok (a * b)%Q)
          durs (combine (combine est_c gold_c) (combine est_k gold_k)).

(* ---- lines 631-713 get_annotation_df: a row is a text and the note whose position is given (the
   columns mc, mc_onset and mn_onset are computed from it: Model_Where) ---- *)
Fixpoint annotate {N} (prev : option (pystr * pystr)) (l : list (Q * N * (pystr * pystr)))
  : list (pystr * N) :=
  match l with
  | [] => []
  | (d, n, (key, chord)) :: r =>
      if Qeq_bool d 0%Q then annotate prev r else
      let same_key := match prev with Some (k, _) => str_eqb key k | None => false end in
      let same_chord := match prev with Some (_, c) => str_eqb chord c | None => false end in
      (if same_key then [] else [(key, n)]) ++ (if same_chord then [] else [(chord, n)])
      ++ annotate (Some (key, chord)) r
  end.
(* the texts are looked up input by input; only those of inputs with a duration are *)
Definition get_annotation (p : piece) (durs : list Q) (s : state) (root_type tonic_type : pitch_type)
  : res (list (pystr * note)) :=
  let! chords := estimated_chords p s in
  let! keys := estimated_keys p s in
  let! chord_list := get_chord_label_list root_type true false None false NO_REDUCTION in
  let! key_list := get_key_label_list tonic_type false None in
  let! texts := mapM (fun x => let '(d, (c, k)) := x : Q * (Z * Z) in
                       if Qeq_bool d 0%Q then Ok ([], []) else
                       let! ct := py_nth chord_list c in
                       let! kt := py_nth key_list k in
                       Ok (kt, ct)) (combine durs (combine chords keys)) in
  Ok (annotate None (combine (combine durs (p_notes p)) texts)).
