(* Tables written by test.py: harmonic_inference/utils/eval_utils.py:26-121 get_results_df,
   123-295 get_labels_df, 716-899 get_label_df.  Pieces, states and label arrays as in
   Model_Eval.v; a data frame is the list of its rows. *)
From Coq Require Import QArith String Ascii.
From Verif Require Import Model_Strings Model_Rhythm Model_Piece.
From Verif Require Export Model_Eval Model_Changes.
From Coq Require Import List.
Import ListNotations.
Close Scope Q_scope.
Open Scope Z_scope.

(* chord.py:115-144 Chord.to_pitch_type *)
Definition chord_to_pitch_type (c : chord) (pt : pitch_type) : res chord :=
  if pt_eqb pt (c_pt c) then Ok c
  else
    let! tonic := convert_pitch (c_tonic c) (c_pt c) pt in
    let! root := convert_pitch (c_root c) (c_pt c) pt in
    let! bass := convert_pitch (c_bass c) (c_pt c) pt in
    Ok {| c_root := root; c_bass := bass; c_tonic := tonic; c_mode := c_mode c;
          c_type := c_type c; c_inv := c_inv c; c_pt := pt |}.
(* key.py:78-107 Key.to_pitch_type *)
Definition key_to_pitch_type (k : key_obj) (pt : pitch_type) : res key_obj :=
  if pt_eqb pt (k_pt k) then Ok k
  else
    let! rel := convert_pitch (k_rel k) (k_pt k) pt in
    let! loc := convert_pitch (k_local k) (k_pt k) pt in
    let! glob := convert_pitch (k_global k) (k_pt k) pt in
    Ok {| k_rel := rel; k_local := loc; k_global := glob; k_rel_mode := k_rel_mode k;
          k_local_mode := k_local_mode k; k_global_mode := k_global_mode k; k_pt := pt |}.

(* get_pitch_from_string(get_pitch_string(p, from), to), also when the types are equal *)
Definition reread_pitch (p : Z) (from_pt to_pt : pitch_type) : res Z :=
  let! s := get_pitch_string p from_pt in get_pitch_from_string s to_pt.

(* ---- lines 26-121 get_results_df ---- *)
(* lines 57-66 *)
Definition gold_chord_index (pt : pitch_type) (c : pchord) : res Z :=
  let! c := chord_to_pitch_type (pc c) pt in chord_one_hot c false true false NO_REDUCTION.
(* lines 83-86 *)
Definition gold_key_index (pt : pitch_type) (k : key_obj) : res Z :=
  let! k := key_to_pitch_type k pt in key_index k.
(* lines 70-76 *)
Definition converted_chord (from_pt to_pt : pitch_type) (i : Z) : res Z :=
  let! (x, inv) := get_chord_from_one_hot_index i from_pt true false false NO_REDUCTION in
  let (root, t) := x : Z * chord_type in
  let! root := reread_pitch root from_pt to_pt in
  get_chord_one_hot_index t root to_pt inv true false false NO_REDUCTION.
(* lines 90-96 *)
Definition converted_key (from_pt to_pt : pitch_type) (i : Z) : res Z :=
  let! (tonic, m) := get_key_from_one_hot_index i from_pt false in
  let! tonic := reread_pitch tonic from_pt to_pt in
  get_key_one_hot_index m tonic to_pt.
(* lines 68-76, 88-96: as estimated_labels, with each label converted.  chord_list[None] is a
   TypeError. *)
Definition converted_labels (conv : Z -> res Z) (n : nat) (labels : list (option Z)) (changes : list nat)
  : res (list Z) :=
  let! l := mapM (fun x => match fst x with
                           | Some v => let! w := conv v in Ok (w, snd x)
                           | None => Raise TypeError
                           end)
                 (combine labels (combine (removelast changes) (tl changes))) in
  Ok (fill_all (repeat 0 n) l).

(* a row of the results, eval_utils.py:101-119 *)
Record result_row := mkRR {
  rr_gt_key : pystr; rr_gt_chord : pystr; rr_est_key : pystr; rr_est_chord : pystr; rr_dur : Q }.

(* lines 101-119 *)
Fixpoint result_rows (chord_list key_list : list pystr) (l : list (Q * ((Z * Z) * (Z * Z)))) : res (list result_row) :=
  match l with
  | [] => Ok []
  | (d, ((est_c, gt_c), (est_k, gt_k))) :: r =>
      if Qeq_bool d 0%Q then result_rows chord_list key_list r
      else
        let! gk := py_nth key_list gt_k in
        let! gc := py_nth chord_list gt_c in
        let! ek := py_nth key_list est_k in
        let! ec := py_nth chord_list est_c in
        let! rest := result_rows chord_list key_list r in
        Ok (mkRR gk gc ek ec d :: rest)
  end.

(* eval_utils.py:26-120 get_results_df *)
Definition get_results (p : piece) (durs : list Q) (s : state)
  (out_root out_tonic root_type tonic_type : pitch_type) : res (list result_row) :=
  let n := List.length (p_notes p) in
  let! gold_c := true_labels (gold_chord_index root_type) n (p_chords p) (p_changes p) in
  let (chords, changes) := get_chords s in
  let! est_c := converted_labels (converted_chord out_root root_type) n chords changes in
  let! key_changes := key_change_inputs p in
  let! gold_k := true_labels (gold_key_index tonic_type) n (p_keys p) key_changes in
  let (keys, kchanges) := get_keys s in
  let! est_k := converted_labels (converted_key out_tonic tonic_type) n (map Some keys) kchanges in
  let! chord_list := get_chord_label_list root_type true false None false NO_REDUCTION in
  let! key_list := get_key_label_list tonic_type false None in
  result_rows chord_list key_list
    (combine durs (combine (combine est_c gold_c) (combine est_k gold_k))).

(* ---- lines 716-899 get_label_df ---- *)
Inductive colour := Green | Yellow | Red.
(* a row: label ("--" for an estimate that goes on), the note whose position is given, colour *)
Definition label_row_out := (pystr * note * colour)%type.

(* lines 810-832; get_key_distance as in Model_Eval *)
Definition key_colour (pt : pitch_type) (gold est : Z) : res colour :=
  let! g := get_key_from_one_hot_index gold pt false in
  let! e := get_key_from_one_hot_index est pt false in
  Ok (if Qeq_bool (get_key_distance g e false) 0%Q then Green
      else if negb (Qeq_bool (get_key_distance g e true) 1%Q) then Yellow else Red).
(* lines 845-880 *)
Definition chord_colour (pt : pitch_type) (gold est : Z) : res colour :=
  let! g := get_chord_from_one_hot_index gold pt true false false NO_REDUCTION in
  let! e := get_chord_from_one_hot_index est pt true false false NO_REDUCTION in
  Ok (if Qeq_bool (get_chord_distance g e true NO_REDUCTION) 0%Q then Green
      else if negb (Qeq_bool (get_chord_distance g e false TRIAD_REDUCTION) 1%Q) then Yellow else Red).

(* lines 745-754 and 762-769: as true_labels over an array that starts as [init] *)
Definition true_labels_from {A} (init : Z) (index : A -> res Z) (n : nat) (things : list A) (changes : list nat)
  : res (list Z) :=
  let! l := mapM (fun x => let '(c, r) := x in let! i := index c in Ok (i, r))
                 (combine things (combine changes (tl changes))) in
  let labels := fill_all (repeat init n) l in
  let! c := py_nth things (-1) in
  let! i := index c in
  let! a := py_nth changes (-1) in
  Ok (fill_slice labels (Z.of_nat a) (Z.of_nat n) i).

(* the texts compared with those of the last input that lasts: gt chord, gt key, est chord, est key *)
Definition four := (pystr * pystr * pystr * pystr)%type.
(* lines 790-891 *)
Fixpoint label_rows {N} (root_type tonic_type : pitch_type) (chord_list key_list : list pystr)
  (prev : option four) (l : list (Q * N * ((Z * Z) * (Z * Z)))) : res (list (pystr * N * colour)) :=
  match l with
  | [] => Ok []
  | (d, nt, ((est_c, gt_c), (est_k, gt_k))) :: r =>
      if Qeq_bool d 0%Q then label_rows root_type tonic_type chord_list key_list prev r
      else
        let! gc := py_nth chord_list gt_c in
        let! gk := py_nth key_list gt_k in
        let! ec := py_nth chord_list est_c in
        let! ek := py_nth key_list est_k in
        let same (f : four -> pystr) (x : pystr) :=
          match prev with Some q => str_eqb x (f q) | None => false end in
        let same_gc := same (fun q => fst (fst (fst q))) gc in
        let same_gk := same (fun q => snd (fst (fst q))) gk in
        let same_ec := same (fun q => snd (fst q)) ec in
        let same_ek := same (fun q => snd q) ek in
        let! key_rows :=
          (if same_gk && same_ek then Ok []
           else let! c := key_colour tonic_type gt_k est_k in
                Ok [(if same_ek then L"--" else ek, nt, c)]) in
        let! chord_rows :=
          (if same_gc && same_ec then Ok []
           else let! c := chord_colour root_type gt_c est_c in
                Ok [(if same_ec then L"--" else ec, nt, c)]) in
        let! rest := label_rows root_type tonic_type chord_list key_list (Some (gc, gk, ec, ek)) r in
        Ok (key_rows ++ chord_rows ++ rest)
  end.

(* lines 716-899.  A loaded piece has lists of chords and keys (never None). *)
Definition get_label_table (p : piece) (durs : list Q) (s : state) (root_type tonic_type : pitch_type)
  : res (list label_row_out) :=
  let n := List.length (p_notes p) in
  let! gold_c := (match p_chords p with
                  | [] => Ok (repeat (-1) n)
                  | _ => true_labels_from (-1) chord_index n (p_chords p) (p_changes p) end) in
  let! est_c := estimated_chords p s in
  let! gold_k := (match p_keys p with [] => Ok (repeat (-1) n) | _ => true_keys p end) in
  let! est_k := estimated_keys p s in
  let! chord_list := get_chord_label_list root_type true false None false NO_REDUCTION in
  let! key_list := get_key_label_list tonic_type false None in
  label_rows root_type tonic_type chord_list key_list None
    (combine (combine durs (p_notes p)) (combine (combine est_c gold_c) (combine est_k gold_k))).

(* ---- lines 123-295 get_labels_df ---- *)
(* lines 184-214, one alteration.  int(orig), int(new): the texts are those of integers, which
   are given here (Model_Changes builds them with z_to_str). *)
Definition py_int_text (s : pystr) : res Z :=
  match DecimalString.NilZero.int_of_string (string_of_list_ascii s) with
  | Some d => Ok (Z.of_int d)
  | None => Raise ValueError
  end.
(* eval_utils.py:184-213 *)
Definition alteration_texts (tpc_c : Z) (e : pystr * pystr) : res (pystr * pystr) :=
  let (orig, new) := e in
  let! (orig_tpc, orig_midi) :=
    (match orig with
     | [] => Ok ([], [])
     | _ => let! o := py_int_text orig in
            let! m := reread_pitch o TPC MIDI in
            Ok (z_to_str (o - TPC_C + tpc_c), z_to_str m)
     end) in
  let! first := py_nth new 0 in
  let (prefix, new) := if Ascii.eqb first "+" then (L"+", py_slice new 1 (zlen new)) else ([], new) in
  let! n := py_int_text new in
  let! m := reread_pitch n TPC MIDI in
  Ok (orig_tpc ++ L":" ++ prefix ++ z_to_str (n - TPC_C + tpc_c),
      orig_midi ++ L":" ++ prefix ++ z_to_str m).
(* ";".join(l) *)
Definition join_semicolon (l : list pystr) : pystr :=
  match l with
  | [] => []
  | x :: r => x ++ concat (map (fun y => L";" ++ y) r)
  end.
(* lines 153-216 get_suspension_strings *)
Definition get_suspension_strings (tpc_c : Z) (c : pchord) : res (pystr * pystr) :=
  match pc_susp c with
  | None => Ok ([], [])
  | Some changes =>
      let! d := get_added_and_removed_pitches (c_root (pc c)) (c_type (pc c)) changes
                  (c_tonic (pc c)) (c_mode (pc c)) in
      let! l := mapM (alteration_texts tpc_c) d in
      Ok (join_semicolon (map fst l), join_semicolon (map snd l))
  end.

(* arr[a:b] = x for an array of objects *)
Definition fill_obj {A} (l : list A) (a b : nat) (x : A) : list A :=
  firstn a l ++ repeat x (Nat.min b (List.length l) - a) ++ skipn (Nat.max a (Nat.min b (List.length l))) l.

(* lines 221-244: chord indices and suspension texts of the inputs *)
Definition chord_columns (tpc_c : Z) (p : piece) : res (list Z * list (pystr * pystr)) :=
  let n := List.length (p_notes p) in
  let entry c := let! i := chord_index c in
                 let! s := get_suspension_strings tpc_c c in Ok (i, s) in
  let! l := mapM (fun x => let '(c, r) := x in let! e := entry c in Ok (e, r))
                 (combine (p_chords p) (combine (p_changes p) (tl (p_changes p)))) in
  let labels := fill_all (repeat 0 n) (map (fun x => (fst (fst x), snd x)) l) in
  let texts := fold_left (fun t x => let '((_, s), (a, b)) := x : (Z * (pystr * pystr)) * (nat * nat) in
                                     fill_obj t a b s) l (repeat ([], []) n) in
  let! c := py_nth (p_chords p) (-1) in
  let! i := chord_index c in
  let! a := py_nth (p_changes p) (-1) in
  let labels := fill_slice labels (Z.of_nat a) (Z.of_nat n) i in
  let! s := get_suspension_strings tpc_c c in
  Ok (labels, fill_obj texts a n s).

(* a row of the labels, eval_utils.py:254-295 *)
Record labels_row := mkLO {
  lo_root_tpc : Z; lo_root_midi : Z; lo_type : chord_type; lo_inv : Z;
  lo_susp_tpc : pystr; lo_susp_midi : pystr;
  lo_tonic_tpc : Z; lo_tonic_midi : Z; lo_mode : key_mode; lo_dur : Q; lo_note : note }.

(* lines 254-295.  chord_labels_list is the list of all (root, type, inversion). *)
Fixpoint labels_rows (tpc_c : Z) (l : list (Q * note * (Z * (pystr * pystr) * Z))) : res (list labels_row) :=
  match l with
  | [] => Ok []
  | (d, nt, (ci, (st, sm), ki)) :: r =>
      if Qeq_bool d 0%Q then labels_rows tpc_c r
      else
        let! (x, inv) := py_nth (chord_list TPC true false false NO_REDUCTION) ci in
        let (root, t) := x : Z * chord_type in
        let! (tonic, m) := py_nth (key_list TPC false) ki in
        let! root_midi := reread_pitch root TPC MIDI in
        let! tonic_midi := reread_pitch tonic TPC MIDI in
        let! rest := labels_rows tpc_c r in
        Ok (mkLO (root - TPC_C + tpc_c) root_midi t inv st sm (tonic - TPC_C + tpc_c) tonic_midi m d nt :: rest)
  end.
(* eval_utils.py:123-295 get_labels_df *)
Definition get_labels_table (p : piece) (durs : list Q) (tpc_c : Z) : res (list labels_row) :=
  let! (chord_labels, texts) := chord_columns tpc_c p in
  let! key_labels := true_keys p in
  labels_rows tpc_c
    (combine (combine durs (p_notes p)) (combine (combine chord_labels texts) key_labels)).
