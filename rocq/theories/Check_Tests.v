(* The unit tests of the project, /repo/tests/, run on the model.  They are tests, not proofs: they are here as evidence
   that the model is the code.  test_harmonic_utils.py and test_rhythmic_utils.py are complete; of test_corpus_utils.py
   test_get_notes_during_chord is left out, since the function it calls is no longer there; of test_piece.py the part of
   test_score_piece about the note vectors is left out. *)
From Coq Require Import QArith String Ascii.
From Verif Require Import PyBase Model_Types Model_Harmony Model_Strings Model_Rhythm Model_Corpus Model_Clean Model_Piece.
From Coq Require Import List.
Import ListNotations.
Close Scope Q_scope.
Open Scope Z_scope.

(* assert x == y *)
Definition is_z (x : res Z) (y : Z) : bool := match x with Ok z => z =? y | Raise _ => false end.
(* with pytest.raises(ValueError) *)
Definition value_error {A} (x : res A) : bool := match x with Raise ValueError => true | _ => false end.
(* assert x == y *)
Definition is_str (x : res pystr) (y : pystr) : bool := match x with Ok s => str_eqb s y | Raise _ => false end.
(* itertools.product *)
Definition every {A} (l : list A) (f : A -> bool) : bool := forallb f l.
(* the two pitch types *)
Definition pts := [MIDI; TPC].
(* accidental * count *)
Definition times (s : pystr) (n : Z) : pystr := List.concat (repeat s (Z.to_nat n)).
(* zip *)
Definition accs : list (pystr * Z) :=
  [(L"bbb", -3); (L"bb", -2); (L"b", -1); ([], 0); (L"#", 1); (L"##", 2); (L"###", 3)].

(* tests/test_harmonic_utils.py:12-36 *)
Example T_get_accidental_adjustment :
  every [(L"#", 1); (L"b", -1)] (fun a => every (zrange 0 10) (fun count => every [L"b"; L"B"; L"V"; L"1"] (fun root =>
    let ok (s : pystr) front := match get_accidental_adjustment s front with
                      | Ok (adj, out) => (adj =? count * snd a) && str_eqb out root | Raise _ => false end in
    ok (times (fst a) count ++ root) true && ok (root ++ times (fst a) count) false))) = true.
Proof. vm_compute. reflexivity. Qed.

(* tests/test_harmonic_utils.py:39-62 *)
Example T_transpose_chord_vector :
  let every_nth n len := map (fun i => if i mod n =? 0 then 1 else 0) (zrange 0 len) in
  every (zrange (-50) 50) (fun i =>
    match transpose_chord_vector (every_nth 2 12) i MIDI, transpose_chord_vector (every_nth 3 35) i TPC with
    | Ok a, Ok b =>
        every (zrange 0 12) (fun k => is_z (py_nth a ((k + i) mod 12)) (if k mod 2 =? 0 then 1 else 0)) &&
        every (zrange 0 35) (fun k => is_z (py_nth b k) (if (0 <=? k - i) && (k - i <? 35) && ((k - i) mod 3 =? 0) then 1 else 0))
    | _, _ => false
    end) = true.
Proof. vm_compute. reflexivity. Qed.

(* tests/test_harmonic_utils.py:65-124 *)
Definition tested_types := [Maj; Min; Dim; Aug; Min_Min7; Maj_Min7; Maj_Maj7; Min_Maj7; Dim7; Half_Dim7; Aug_Min7; Aug_Maj7].
(* 80-93 *)
Definition tested_midi : list (list Z) :=
  [[1; 0; 0; 0; 1; 0; 0; 1; 0; 0; 0; 0]; [1; 0; 0; 1; 0; 0; 0; 1; 0; 0; 0; 0]; [1; 0; 0; 1; 0; 0; 1; 0; 0; 0; 0; 0];
   [1; 0; 0; 0; 1; 0; 0; 0; 1; 0; 0; 0]; [1; 0; 0; 1; 0; 0; 0; 1; 0; 0; 1; 0]; [1; 0; 0; 0; 1; 0; 0; 1; 0; 0; 1; 0];
   [1; 0; 0; 0; 1; 0; 0; 1; 0; 0; 0; 1]; [1; 0; 0; 1; 0; 0; 0; 1; 0; 0; 0; 1]; [1; 0; 0; 1; 0; 0; 1; 0; 0; 1; 0; 0];
   [1; 0; 0; 1; 0; 0; 1; 0; 0; 0; 1; 0]; [1; 0; 0; 0; 1; 0; 0; 0; 1; 0; 1; 0]; [1; 0; 0; 0; 1; 0; 0; 0; 1; 0; 0; 1]].
(* 94-107 *)
Definition tested_tpc : list (list pystr) :=
  [[L"C"; L"E"; L"G"]; [L"C"; L"Eb"; L"G"]; [L"C"; L"Eb"; L"Gb"]; [L"C"; L"E"; L"G#"]; [L"C"; L"Eb"; L"G"; L"Bb"];
   [L"C"; L"E"; L"G"; L"Bb"]; [L"C"; L"E"; L"G"; L"B"]; [L"C"; L"Eb"; L"G"; L"B"]; [L"C"; L"Eb"; L"Gb"; L"Bbb"];
   [L"C"; L"Eb"; L"Gb"; L"Bb"]; [L"C"; L"E"; L"G#"; L"Bb"]; [L"C"; L"E"; L"G#"; L"B"]].
(* list equality *)
Definition zl_eqb (a b : list Z) : bool := (zlen a =? zlen b) && forallb (fun p => fst p =? snd p) (combine a b).
(* lines 108-124 *)
Example T_get_vector_from_chord_type :
  every (combine tested_types (combine tested_midi tested_tpc)) (fun x => let '(t, (midi, tpc)) := x in
    match get_vector_from_chord_type t MIDI None, get_vector_from_chord_type t TPC None,
          mapM (fun s => get_pitch_from_string s TPC) tpc with
    | Ok a, Ok b, Ok ps => zl_eqb a midi && (match set_ones (repeat 0 35) ps with Ok c => zl_eqb b c | Raise _ => false end)
    | _, _, _ => false
    end) = true.
Proof. vm_compute. reflexivity. Qed.

(* tests/test_harmonic_utils.py:130-133 and 152-155 *)
Definition tested_scales (m : key_mode) : list Z * list Z :=
  match m with
  | MAJOR => ([0; 2; 4; 5; 7; 9; 11], [0; 2; 4; -1; 1; 3; 5])
  | MINOR => ([0; 2; 3; 5; 7; 8; 10], [0; 2; -3; -1; 1; -4; -2])
  end.
(* the numerals *)
Definition numerals := [L"I"; L"II"; L"III"; L"IV"; L"V"; L"VI"; L"VII"].
(* the numbers *)
Definition numbers := [L"1"; L"2"; L"3"; L"4"; L"5"; L"6"; L"7"].
(* tests/test_harmonic_utils.py:127-146 *)
Example T_get_interval_from_numeral :
  every accs (fun a => every all_modes (fun m =>
    every (combine numerals (combine (fst (tested_scales m)) (snd (tested_scales m)))) (fun x => let '(num, (semi, tpc)) := x in
      is_z (get_interval_from_numeral (fst a ++ num) m MIDI) (semi + snd a) &&
      is_z (get_interval_from_numeral (fst a ++ num) m TPC) (tpc + snd a * ACCIDENTAL_ADJUSTMENT TPC)))) = true.
Proof. vm_compute. reflexivity. Qed.
(* tests/test_harmonic_utils.py:149-186 *)
Example T_get_interval_from_scale_degree :
  every accs (fun a => every all_modes (fun m => every [numerals; numbers] (fun names => every [true; false] (fun prefixed =>
    every (combine names (combine (fst (tested_scales m)) (snd (tested_scales m)))) (fun x => let '(num, (semi, tpc)) := x in
      let degree := if prefixed then fst a ++ num else num ++ fst a in
      is_z (get_interval_from_scale_degree degree prefixed m MIDI) (semi + snd a) &&
      is_z (get_interval_from_scale_degree degree prefixed m TPC) (tpc + snd a * ACCIDENTAL_ADJUSTMENT TPC)))))) = true.
Proof. vm_compute. reflexivity. Qed.

(* tests/test_harmonic_utils.py:189-194 *)
Example T_tpc_interval_to_midi_interval :
  every (zrange 0 (NUM_PITCHES TPC)) (fun tpc =>
    is_z (let! s := get_pitch_string tpc TPC in get_pitch_from_string s MIDI) (tpc_interval_to_midi_interval (tpc - TPC_C))) = true.
Proof. vm_compute. reflexivity. Qed.
(* tests/test_harmonic_utils.py:197-212 *)
Example T_transpose_pitch :
  every (zrange 0 12) (fun p => every (zrange (-50) 50) (fun i =>
    is_z (transpose_pitch p i MIDI) ((p + i) mod 12) &&
    (if (0 <=? p + i) && (p + i <? 35) then is_z (transpose_pitch p i TPC) (p + i) else value_error (transpose_pitch p i TPC)))) = true.
Proof. vm_compute. reflexivity. Qed.
(* tests/test_harmonic_utils.py:215-225 (None and pd.NA are the empty text of the model) *)
Example T_get_chord_inversion :
  every [(L"7", 0); (L"6", 1); (L"65", 1); (L"43", 2); (L"64", 2); (L"2", 3); ([], 0)]
        (fun x => is_z (get_chord_inversion (fst x)) (snd x)) && value_error (get_chord_inversion (L"Some nonsense")) = true.
Proof. vm_compute. reflexivity. Qed.
(* tests/test_harmonic_utils.py:228-246 *)
Example T_get_chord_string_conversion :
  every [(Maj, L"M"); (Min, L"m"); (Dim, L"o"); (Aug, L"+"); (Min_Min7, L"mm7"); (Maj_Min7, L"Mm7"); (Maj_Maj7, L"MM7");
         (Min_Maj7, L"mM7"); (Dim7, L"o7"); (Half_Dim7, L"%7"); (Aug_Min7, L"+7"); (Aug_Maj7, L"+M7")]
    (fun x => match get_chord_type_from_string (snd x) with Ok t => ct_eqb t (fst x) | Raise _ => false end
              && str_eqb (get_chord_string (fst x)) (snd x)) = true.
Proof. vm_compute. reflexivity. Qed.
(* tests/test_harmonic_utils.py:249-265 *)
Example T_get_pitch_from_string :
  every accs (fun a => every [(L"C", (0, 0)); (L"D", (2, 2)); (L"E", (4, 4)); (L"F", (5, -1)); (L"G", (7, 1)); (L"A", (9, 3)); (L"B", (11, 5))]
    (fun x => let '(p, (midi, tpc)) := x in let t := tpc + TPC_C + snd a * ACCIDENTAL_ADJUSTMENT TPC in
      is_z (get_pitch_from_string (p ++ fst a) MIDI) ((midi + snd a) mod 12) &&
      (if (0 <=? t) && (t <? 35) then is_z (get_pitch_from_string (p ++ fst a) TPC) t
       else value_error (get_pitch_from_string (p ++ fst a) TPC)))) = true.
Proof. vm_compute. reflexivity. Qed.
(* tests/test_harmonic_utils.py:268-288 *)
Definition letters := [L"F"; L"C"; L"G"; L"D"; L"A"; L"E"; L"B"].
(* lines 270-279 *)
Definition tpc_names : list pystr := flat_map (fun acc => map (fun x : pystr => x ++ acc) letters) [L"bb"; L"b"; []; L"#"; L"##"].
(* lines 280-288 *)
Example T_get_pitch_string :
  every (combine (zrange 0 35) tpc_names) (fun x => is_str (get_pitch_string (fst x) TPC) (snd x)) &&
  every (combine (zrange 0 12) [L"C"; L"C#"; L"D"; L"D#"; L"E"; L"F"; L"F#"; L"G"; L"G#"; L"A"; L"A#"; L"B"]) (fun x =>
    match get_pitch_string (fst x) MIDI with
    | Ok s => if (zlen (snd x) =? 1) then str_eqb s (snd x)
              else str_eqb (firstn 2 s) (snd x) && str_eqb (firstn 1 (skipn 2 s)) (L"/")
    | Raise _ => false end) = true.
Proof. vm_compute. reflexivity. Qed.

(* tests/test_harmonic_utils.py:291-318 *)
Definition strs_eqb (a b : list pystr) : bool := (zlen a =? zlen b) && forallb (fun p => str_eqb (fst p) (snd p)) (combine a b).
(* get_pitch_string for a pitch that has one *)
Definition pitch_name (p : Z) (pt : pitch_type) : pystr := match get_pitch_string p pt with Ok s => s | Raise _ => L"?" end.
(* the identity reduction *)
Definition id_red : reduction := fun t => t.
(* lines 291-318 *)
Example T_get_chord_label_list :
  every pts (fun pt =>
    match get_chord_label_list pt false false None false id_red, get_chord_label_list pt true false None false id_red with
    | Ok a, Ok b =>
        strs_eqb a (flat_map (fun t => map (fun p => pitch_name p pt ++ L":" ++ get_chord_string t) (zrange 0 (NUM_PITCHES pt))) all_chord_types) &&
        strs_eqb b (flat_map (fun t => flat_map (fun p => map (fun inv => pitch_name p pt ++ L":" ++ get_chord_string t ++ L", inv:" ++ z_to_str inv)
                     (zrange 0 (get_chord_inversion_count t))) (zrange 0 (NUM_PITCHES pt))) all_chord_types)
    | _, _ => false
    end) = true.
Proof. vm_compute. reflexivity. Qed.
(* tests/test_harmonic_utils.py:321-325 *)
Example T_get_chord_inversion_count :
  every all_chord_types (fun t => every pts (fun pt => match get_vector_from_chord_type t pt None with
    | Ok v => get_chord_inversion_count t =? fold_right Z.add 0 v | Raise _ => false end)) = true.
Proof. vm_compute. reflexivity. Qed.
(* tests/test_harmonic_utils.py:328-382 *)
Example T_get_chord_one_hot_index :
  every pts (fun pt =>
    match get_chord_label_list pt false false None false id_red, get_chord_label_list pt true false None false id_red with
    | Ok a, Ok b => every all_chord_types (fun t => every (zrange 0 (NUM_PITCHES pt)) (fun root => every (zrange 0 (get_chord_inversion_count t)) (fun inv =>
        is_str (let! i := get_chord_one_hot_index t root pt inv false false false id_red in py_nth a i) (pitch_name root pt ++ L":" ++ get_chord_string t) &&
        is_str (let! i := get_chord_one_hot_index t root pt inv true false false id_red in py_nth b i)
               (pitch_name root pt ++ L":" ++ get_chord_string t ++ L", inv:" ++ z_to_str inv))))
    | _, _ => false
    end) &&
  every pts (fun pt => value_error (get_chord_one_hot_index Maj (-1) pt 0 true false false id_red) &&
                       value_error (get_chord_one_hot_index Maj (NUM_PITCHES pt) pt 0 true false false id_red)) &&
  value_error (get_chord_one_hot_index Maj 0 TPC 3 true false false id_red) &&
  negb (value_error (get_chord_one_hot_index Maj 0 TPC 3 false false false id_red)) = true.
Proof. vm_compute. reflexivity. Qed.
(* tests/test_harmonic_utils.py:385-421 *)
Example T_key_labels :
  every pts (fun pt => match get_key_label_list pt false None with
    | Ok l =>
        let name m p := (match m with MINOR => str_lower (pitch_name p pt) | MAJOR => pitch_name p pt end) ++ L":" ++ mode_str m in
        strs_eqb l (flat_map (fun m => map (name m) (zrange 0 (NUM_PITCHES pt))) all_modes) &&
        every all_modes (fun m => every (zrange 0 (NUM_PITCHES pt)) (fun p => is_str (let! i := get_key_one_hot_index m p pt in py_nth l i) (name m p))) &&
        value_error (get_key_one_hot_index MAJOR (-1) pt) && value_error (get_key_one_hot_index MAJOR (NUM_PITCHES pt) pt)
    | Raise _ => false end) = true.
Proof. vm_compute. reflexivity. Qed.
(* tests/test_harmonic_utils.py:424-467 *)
Example T_absolute_to_relative :
  every pts (fun pt => every (zrange 0 (NUM_PITCHES pt)) (fun p => every (zrange 0 (NUM_PITCHES pt)) (fun tonic =>
    every [true; false] (fun change => every [true; false] (fun pad =>
      let target := p - tonic in
      match pt with
      | MIDI => is_z (absolute_to_relative p tonic MIDI change pad) (target mod 12)
      | TPC =>
          let (lo, hi) := if change then (MIN_KEY_CHANGE_INTERVAL_TPC, MAX_KEY_CHANGE_INTERVAL_TPC)
                          else if pad then (MIN_RELATIVE_TPC - RELATIVE_TPC_EXTRA, MAX_RELATIVE_TPC + RELATIVE_TPC_EXTRA)
                          else (MIN_RELATIVE_TPC, MAX_RELATIVE_TPC) in
          if (lo <=? target) && (target <? hi) then is_z (absolute_to_relative p tonic TPC change pad) (target - lo)
          else value_error (absolute_to_relative p tonic TPC change pad)
      end))))) = true.
Proof. vm_compute. reflexivity. Qed.
(* tests/test_harmonic_utils.py:470-478 *)
Example T_get_bass_note :
  every pts (fun pt => every all_chord_types (fun t => every (zrange 0 (get_chord_inversion_count t)) (fun inv => every (zrange 0 12) (fun up =>
    match get_bass_note t (up + C_of pt) inv pt false, (let! b := py_nth (CHORD_PITCHES pt t) inv in transpose_pitch b up pt) with
    | Ok a, Ok b => a =? b | _, _ => false end)))) = true.
Proof. vm_compute. reflexivity. Qed.

(* ---- tests/test_rhythmic_utils.py ---- *)
(* Fraction(n, d) *)
Local Notation "n // d" := (Qmake n d) (at level 55, no associativity).
(* assert x == y on fractions *)
Definition is_q (x : res Q) (y : Q) : bool := match x with Ok z => Qeq_bool z y | Raise _ => false end.
(* lines 10-16: the measures; [durs] are the durations, [redirect] changes "next" *)
Definition test_measures (durs : Z -> Q) (redirect : Z -> option Z) : table :=
  map (fun i => mkM i (durs i) (Qmult (inject_Z i) (1 // 50))
                    (match redirect i with Some n => NextMc n | None => if i =? 4 then NextNA else NextMc (i + 1) end)) (zrange 0 5).
(* the offset of measure i *)
Definition off_of (i : Z) : Q := Qmult (inject_Z i) (1 // 50).
(* both directions *)
Definition both_ways (s e : pos) (ms : table) (q : Q) : bool :=
  is_q (get_range_length s e ms) q && is_q (get_range_length e s ms) (Qopp q).
(* tests/test_rhythmic_utils.py:10-103 *)
Example T_get_range_length :
  every (zrange 0 5) (fun s => every (zrange s 5) (fun e => every (zrange 0 7) (fun sb => every (zrange (if s =? e then sb else 0) 6) (fun eb =>
    let start_beat := Qplus (Qmake sb 4) (1 // 2) in
    let end_beat := Qplus (Qmake eb 4) (1 // 2) in
    let a := (s, start_beat) : pos in let b := (e, end_beat) : pos in
    let ends (d : Q) := Qplus (Qminus d (Qminus start_beat (off_of s))) (Qminus end_beat (off_of e)) in
    let correct (d full : Q) := if s =? e then Qminus end_beat start_beat else Qplus (Qmult full (inject_Z (e - s - 1))) (ends d) in
    both_ways a b (test_measures (fun _ => 3 // 2) (fun _ => None)) (correct (3 // 2) (3 // 2)) &&
    both_ways a b (test_measures (fun i => if i =? s then 7 // 2 else if (s <? i) && (i <=? e) then 9 // 2 else 3 // 2) (fun _ => None))
              (correct (7 // 2) (9 // 2)) &&
    (if s <? e then
       both_ways a b (test_measures (fun _ => 3 // 2) (fun i => if i =? s then Some e else None)) (ends (3 // 2)) &&
       (if s =? 0 then true
        else both_ways a b (test_measures (fun _ => 3 // 2) (fun i => if i =? s then Some 0 else if i =? 0 then Some e else None))
                       (Qplus (3 // 2) (ends (3 // 2))))
     else true))))) = true.
Proof. vm_compute. reflexivity. Qed.
(* tests/test_rhythmic_utils.py:106-168 *)
Example T_get_rhythmic_info :
  let ms := test_measures (fun _ => 3 // 2) (fun _ => None) in
  every [2 // 5; 1 // 2; 3 // 2] (fun onset => every [0; 1] (fun mc => every [0 // 1; 1 // 2; 3 // 2] (fun dur =>
    every (zrange (mc + 1) 5) (fun end_mc => every (zrange 0 mc) (fun start_mc =>
      let s := (start_mc, (1 // 2)%Q) : pos in let e := (end_mc, (1 // 2)%Q) : pos in
      match get_range_length s e ms, get_range_length s (mc, onset) ms with
      | Ok len, Ok from =>
          let ok x := match x with
                      | Ok (on, off, d) => Qeq_bool on (Qdiv from len) && Qeq_bool d (Qdiv dur len) &&
                                           Qeq_bool off (Qplus (Qdiv from len) (Qdiv dur len))
                      | Raise _ => false end in
          ok (get_rhythmic_info (mc, onset) dur s e ms None) && ok (get_rhythmic_info (mc, onset) dur s e ms (Some len))
      | _, _ => false
      end))))) = true.
Proof. vm_compute. reflexivity. Qed.
(* tests/test_rhythmic_utils.py:171-191 *)
Example T_get_metrical_level_lengths :
  every (zrange 1 17) (fun num => every [1%positive; 2%positive; 4%positive; 8%positive; 16%positive; 32%positive] (fun denom =>
    let compound := (3 <? num) && (num mod 3 =? 0) in
    match get_metrical_level_lengths num (Zpos denom) with
    | Ok (m, b, sb) => Qeq_bool m (Qmake num denom) &&
        (if compound then Qeq_bool sb (1 // denom) && Qeq_bool b (Qmake 3 denom)
         else Qeq_bool b (1 // denom) && Qeq_bool sb (Qdiv (1 // denom) 2))
    | Raise _ => false
    end)) = true.
Proof. vm_compute. reflexivity. Qed.
(* offset % length == 0 *)
Definition divides (len off : Q) : bool := match frac_mod off len with Ok r => Qeq_bool r 0 | Raise _ => false end.
(* tests/test_rhythmic_utils.py:194-232 *)
Example T_get_metrical_level :
  every [3; 4; 12] (fun num => every [4; 8; 16] (fun denom =>
    match get_metrical_level_lengths num denom with
    | Ok (m, b, sb) =>
        every [1%positive; 2%positive; 4%positive; 6%positive; 8%positive; 16%positive; 32%positive; 64%positive] (fun od =>
          every (zrange 0 (1 + Z.pos od * num / denom)) (fun on =>
            let offset := Qmake on od in
            is_z (get_metrical_level 0%Q (num, denom)) 3 &&
            is_z (get_metrical_level offset (num, denom))
                 (if divides m offset then 3 else if divides b offset then 2 else if divides sb offset then 1 else 0))) &&
        is_z (get_metrical_level m (num, denom)) 3
    | Raise _ => false
    end)) = true.
Proof. vm_compute. reflexivity. Qed.

(* ---- tests/test_corpus_utils.py ---- *)
(* lines 10-67 *)
Definition rows_of (f : Z) (durs offs : list Q) (nexts : list (list Z)) : list crow :=
  map (fun x => let '(mc, (d, (o, n))) := x : Z * (Q * (Q * list Z)) in mkC f mc d o n) (combine (zrange 1 8) (combine durs (combine offs nexts))).
(* lines 10-67 *)
Definition test_rows : list crow :=
  rows_of 0 [1%Q; 1%Q; 1 // 2; 1%Q; 1 // 2; 1%Q; 1 // 2]%Q [0; 0; 0; 0; 0; 0; 0]%Q [[1; 2]; [3]; [4]; [5; 6]; [6]; [7]; [1; 2; 3; -1]] ++
  rows_of 1 [1 // 2; 1 // 2; 1 // 4; 1 // 2; 1 // 4; 1; 1 // 4]%Q [1 // 2; 1 // 2; 1 // 4; 1 // 2; 1 // 4; 0; 1 // 4]%Q
    [[1; 2]; [3]; [4]; [6; 5]; [6]; [7]; [1; 2; -1; 3]] ++
  rows_of 2 [1; 1; 1 // 2; 1; 1 // 2; 1; 1 // 2]%Q [0; 1 // 2; 1 // 4; 1 // 2; 1 // 4; 0; 1 // 2]%Q
    [[1; 2; 3]; [3]; [4]; [2; 5; 6]; [2; 6]; [7]; [1; 2; 3; -1]].
(* pd.NA is -1 *)
Definition next_z (r : frow) : Z := match m_next (snd r) with NextMc n => n | _ => -1 end.
(* tests/test_corpus_utils.py:74-99 *)
Example T_remove_repeats :
  (let! a := remove_repeats true test_rows in Ok (map next_z a)) = Ok [2; 3; 4; 6; 7; -1; 2; 3; 4; 6; 7; -1; 3; 4; 6; 7; -1] /\
  (let! a := remove_repeats false test_rows in Ok (map next_z a)) =
    Ok [2; 3; 4; 6; 6; 7; -1; 2; 3; 4; 6; 6; 7; -1; 3; 3; 4; 6; 6; 7; -1].
Proof. split; vm_compute; reflexivity. Qed.
(* a note *)
Definition simple_note (f i mc : Z) (on dur : Q) : tnote := mkN f i 60 mc on dur 0 0%Q 0 0 false None.
(* tests/test_corpus_utils.py:102-125 *)
Example T_remove_unmatched :
  let df := [simple_note 0 0 1 0 1; simple_note 0 1 5 0 1; simple_note 2 0 2 0 1; simple_note 2 1 3 0 1; simple_note 2 2 12 0 1] in
  (let! a := remove_repeats true test_rows in Ok (map nkey (remove_unmatched a df))) = Ok [(0, 0); (2, 1)] /\
  (let! a := remove_repeats false test_rows in Ok (map nkey (remove_unmatched a df))) = Ok [(0, 0); (0, 1); (2, 0); (2, 1)].
Proof. split; vm_compute; reflexivity. Qed.
(* equal fractions in lowest terms *)
Definition red3 (x : pos * pos * Q) : Z * Q * Q := (fst (snd (fst x)), Qred (snd (snd (fst x))), Qred (snd x)).
(* tests/test_corpus_utils.py:128-169: mc_next, onset_next and duration of the chords of files 0 and 2 *)
Example T_add_chord_metrical_data :
  let go f chords := let! a := remove_repeats false test_rows in let! l := chord_rows 20 (piece_table a f) chords in Ok (map red3 l) in
  go 0 [(1, 1 // 2); (1, 3 // 4); (2, 0%Q)] = Ok [(1, 3 // 4, 1 // 4); (2, 0%Q, 1 // 4); (7, 1 // 2, 4%Q)] /\
  go 2 [(2, 3 // 4); (2, 4 // 5); (5, 1 // 2)] = Ok [(2, 4 // 5, 1 // 20); (5, 1 // 2, 79 // 20); (7, 1%Q, 7 // 4)].
Proof. split; vm_compute; reflexivity. Qed.
(* tests/test_corpus_utils.py:172-312 *)
Example T_add_note_offsets :
  match remove_repeats true test_rows with
  | Ok a => every [(0, (1, 0%Q), (3 // 4)%Q, (1, (3 // 4)%Q)); (0, (1, (3 // 4)%Q), (1 // 4)%Q, (2, 0%Q)); (0, (1, 0%Q), 20%Q, (7, (31 // 2)%Q));
                   (1, (1, (1 // 2)%Q), (1 // 4)%Q, (1, (3 // 4)%Q)); (1, (1, (1 // 2)%Q), (1 // 2)%Q, (2, (1 // 2)%Q));
                   (1, (1, (1 // 2)%Q), (3 // 4)%Q, (2, (3 // 4)%Q)); (1, (1, (1 // 2)%Q), 20%Q, (7, (35 // 2)%Q))]
       (fun x => let '(f, p, dur, q) := x : Z * pos * Q * pos in let ms := piece_table a f in
          match add_note_offset 20 ms p dur with
          | Ok (mc, Some beat) => (mc =? fst q) && Qeq_bool beat (snd q) && is_q (get_range_length p q ms) dur
          | _ => false end)
  | Raise _ => false
  end = true.
Proof. vm_compute. reflexivity. Qed.

(* a DataFrame by columns *)
Definition notes_of (f : Z) (mc off_mc midi staff voice : list Z) (on dur off_beat : list Q) (grace : list bool) (tied : list (option Z)) : list tnote :=
  map (fun i => let z l := nth i l 0 in let q l := nth i l 0%Q in
         mkN f (Z.of_nat i) (z midi) (z mc) (q on) (q dur) (z off_mc) (q off_beat) (z staff) (z voice) (nth i grace false) (nth i tied None))
      (seq 0 (List.length mc)).
(* Int64 values *)
Definition T1 (l : list Z) : list (option Z) := map Some l.
(* tests/test_corpus_utils.py:404-468 *)
Definition tied_notes : list tnote :=
  notes_of 0 [0; 1; 2; 3; 4; 4; 5; 6; 7; 8; 8] [1; 2; 3; 4; 5; 5; 6; 6; 8; 9; 8] (repeat 40 11) (repeat 2 11)
    [0; 1; 1; 1; 1; 0; 1; 1; 0; 0; 0] (repeat 0%Q 11) (repeat 1%Q 5 ++ repeat (1 // 2) 5 ++ [0%Q]) (repeat 0%Q 7 ++ [1 // 2] ++ repeat 0%Q 3)
    (repeat false 10 ++ [true]) (T1 [1; 0; 0; 0; -1; 0; -1] ++ [None] ++ T1 [1; 0; -1]) ++
  notes_of 1 [0; 1; 1; 1; 1; 2; 2; 3; 4; 5] [1; 2; 2; 2; 2; 3; 3; 4; 5; 6] (repeat 40 5 ++ repeat 50 5) (repeat 0 10) (repeat 0 10)
    (repeat 0%Q 7 ++ repeat (1 // 2) 3) (repeat 1%Q 6 ++ [1 // 2] ++ repeat 1%Q 3) (repeat 0%Q 10) (repeat false 10)
    (T1 [1; -1; -1; -1; 1; -1; 1; -1; 1; -1]) ++
  notes_of 2 [0; 1; 1; 1; 2; 2; 3; 3] [1; 2; 2; 2; 3; 3; 4; 4] (repeat 50 8) [0; 1; 1; 1; 0; 1; 1; 1] [0; 1; 1; 1; 0; 1; 1; 1]
    (repeat 0%Q 8) (repeat 1%Q 8) (repeat 0%Q 8) (repeat false 8) (T1 [1; 0; 0; 0; 0; 0; -1; -1]) ++
  notes_of 3 [0; 0; 1; 2; 2; 3; 4; 4; 5] [1; 1; 2; 3; 3; 4; 5; 5; 6] (repeat 40 9) [0; 0; 0; 1; 1; 0; 1; 0; 0] [0; 0; 0; 1; 1; 0; 1; 0; 0]
    (repeat 0%Q 9) (repeat 2%Q 9) (repeat 0%Q 9) (repeat false 9) (T1 [1; 1; -1; 1; 1; -1; 1; 1; -1]).
(* lines 481-483: the same with every tie starting with 0 *)
Definition start_0 (n : tnote) : tnote :=
  if tied_is 1 n then mkN (n_file n) (n_id n) (n_midi n) (n_mc n) (n_on n) (n_dur n) (n_off_mc n) (n_off_beat n) (n_staff n) (n_voice n) (n_grace n) (Some 0)
  else n.
(* sort_index, within a file *)
Fixpoint insert_note (n : tnote) (l : list tnote) : list tnote :=
  match l with [] => [n] | m :: r => if n_id n <=? n_id m then n :: l else m :: insert_note n r end.
(* merged.loc[f]: index, offset_mc, offset_beat, duration, tied *)
Definition merged_of (notes : list tnote) (f : Z) : list (Z * Z * Q * Q * option Z) :=
  match merge_ties 50 (fun p => p) notes with
  | Ok l => map (fun n => (n_id n, n_off_mc n, Qred (n_off_beat n), Qred (n_dur n), n_tied n))
                (fold_right insert_note [] (filter (fun n => n_file n =? f) l))
  | Raise _ => []
  end.
(* tests/test_corpus_utils.py:477-579, with the rows of pd.merge in the order of the two tables: of the results that the
   test accepts for the notes that match each other in more than one way, these. *)
Example T_merge_ties :
  every [true; false] (fun begins_0 => let notes := if begins_0 then map start_0 tied_notes else tied_notes in
    let finished := if begins_0 then Some (-1) else None in let unfinished := Some (if begins_0 then 0 else 1) in
    let same f l := let m := merged_of notes f in (zlen m =? zlen l) &&
      forallb (fun p => let '((a, b, c, d, e), (a', b', c', d', e')) := p : (Z * Z * Q * Q * option Z) * (Z * Z * Q * Q * option Z) in
        (a =? a') && (b =? b') && Qeq_bool c c' && Qeq_bool d d' &&
        match e, e' with None, None => true | Some x, Some y => x =? y | _, _ => false end) (combine m l) in
    same 0 [(0, 6, 0%Q, 5%Q, finished); (4, 5, 0%Q, 1%Q, Some (-1)); (7, 6, 1 // 2, 1 // 2, None); (8, 9, 0%Q, 1%Q, unfinished);
            (10, 8, 0%Q, 0%Q, Some (-1))] &&
    same 1 [(0, 2, 0%Q, 2%Q, finished); (2, 2, 0%Q, 1%Q, Some (-1)); (3, 2, 0%Q, 1%Q, Some (-1)); (4, 2, 0%Q, 1%Q, unfinished);
            (5, 3, 0%Q, 1%Q, Some (-1)); (6, 3, 0%Q, 1 // 2, unfinished); (7, 4, 0%Q, 1%Q, Some (-1)); (8, 5, 0%Q, 1%Q, unfinished);
            (9, 6, 0%Q, 1%Q, Some (-1))] &&
    same 2 [(0, 4, 0%Q, 4%Q, finished); (2, 4, 0%Q, 3%Q, Some (-1)); (3, 2, 0%Q, 1%Q, Some 0)] &&
    same 3 [(0, 2, 0%Q, 4%Q, finished); (1, 1, 0%Q, 2%Q, unfinished); (3, 4, 0%Q, 4%Q, finished); (4, 3, 0%Q, 2%Q, unfinished);
            (6, 5, 0%Q, 2%Q, unfinished); (7, 6, 0%Q, 4%Q, finished)]) = true.
Proof. vm_compute. reflexivity. Qed.

(* ---- tests/test_piece.py ---- *)
(* 12/8 in the measures 0 to 9 *)
Definition ts_to (n mc : Z) : option (Z * Z) := if (0 <=? mc) && (mc <? n) then Some (12, 8) else None.
(* equal positions *)
Definition same_pos (a b : pos) : bool := (fst a =? fst b) && Qeq_bool (snd a) (snd b).
(* tests/test_piece.py:15-32 *)
Definition note_ok (pt : pitch_type) (r : note_row) : bool :=
  match note_from_series (ts_to 10) pt r with
  | Some n => pt_eqb (no_pt n) pt && (no_pitch n =? match pt with MIDI => nr_midi r mod 12 | TPC => nr_tpc r + TPC_C end) &&
              (no_octave n =? nr_midi r / 12) && same_pos (no_on n) (nr_on r) && same_pos (no_off n) (nr_off r) && Qeq_bool (no_dur n) (nr_dur r) &&
              is_z (get_metrical_level (snd (nr_on r)) (12, 8)) (no_on_level n) && is_z (get_metrical_level (snd (nr_off r)) (12, 8)) (no_off_level n)
  | None => false
  end.
(* [i * Fraction(1, 2) for i in range(3)] *)
Definition halves : list Q := [0%Q; 1 // 2; 1%Q].
(* tests/test_piece.py:14-71; the values of one column stay at the last one tried while the next is varied *)
Example T_note_from_series :
  every pts (fun pt =>
    every (zrange 0 127) (fun v => note_ok pt (mkNR v 5 (1, 1 // 2) (2, 3 // 4) (5 // 6))) &&
    every (zrange (-15) 15) (fun v => note_ok pt (mkNR 126 v (1, 1 // 2) (2, 3 // 4) (5 // 6))) &&
    every (zrange 0 3) (fun v => note_ok pt (mkNR 126 14 (v, 1 // 2) (2, 3 // 4) (5 // 6))) &&
    every halves (fun v => note_ok pt (mkNR 126 14 (2, v) (2, 3 // 4) (5 // 6))) &&
    every (zrange 0 3) (fun v => note_ok pt (mkNR 126 14 (2, 1%Q) (v, 3 // 4) (5 // 6))) &&
    every halves (fun v => note_ok pt (mkNR 126 14 (2, 1%Q) (2, v) (5 // 6))) &&
    every halves (fun v => note_ok pt (mkNR 126 14 (2, 1%Q) (2, 1%Q) v))) &&
  every [20; -16] (fun v => match note_from_series (ts_to 10) TPC (mkNR 126 v (2, 1%Q) (2, 1%Q) 1%Q) with None => true | Some _ => false end) = true.
Proof. vm_compute. reflexivity. Qed.

(* tests/test_piece.py:75-100 *)
Definition chord_ok (pt : pitch_type) (r : label_row) : bool :=
  match chord_from_series (ts_to 10) pt id_red true true r, key_from_series pt r with
  | Some c, Some k =>
      let root := match pt with MIDI => tpc_interval_to_midi_interval (lr_root r) | TPC => lr_root r end in
      pt_eqb (c_pt (pc c)) pt && match get_chord_type_from_string (lr_type r) with Ok t => ct_eqb t (c_type (pc c)) | Raise _ => false end &&
      is_z (get_chord_inversion (lr_figbass r)) (c_inv (pc c)) && same_pos (pc_on c) (lr_on r) && same_pos (pc_off c) (lr_off r) &&
      Qeq_bool (pc_dur c) (lr_dur r) &&
      is_z (get_metrical_level (snd (lr_on r)) (12, 8)) (pc_on_level c) && is_z (get_metrical_level (snd (lr_off r)) (12, 8)) (pc_off_level c) &&
      is_z (transpose_pitch (k_local k) root pt) (c_root (pc c)) &&
      is_z (get_bass_note (c_type (pc c)) (c_root (pc c)) (c_inv (pc c)) pt false) (c_bass (pc c))
  | _, _ => false
  end.
(* lines 102-120 *)
Definition test_row (numeral : option pystr) (root : Z) (t fig localkey : pystr) (rel : option pystr) (on off : pos) (dur : Q) : label_row :=
  mkLR numeral root t fig (L"A") false localkey true rel on off dur None.
(* a chord cannot be read *)
Definition no_chord (r : label_row) : bool :=
  every pts (fun pt => match chord_from_series (ts_to 10) pt id_red true true r with None => true | Some _ => false end).
(* tests/test_piece.py:74-167 *)
Example T_chord_from_series :
  let iii := Some (L"III") in
  every pts (fun pt =>
    every (zrange (-2) 2) (fun v => chord_ok pt (test_row iii v (L"M") [] (L"iii") None (1, 1 // 2) (2, 3 // 4) (5 // 6))) &&
    every (map fst STRING_TO_CHORD_TYPE) (fun v => chord_ok pt (test_row iii 1 v [] (L"iii") None (1, 1 // 2) (2, 3 // 4) (5 // 6))) &&
    every [L"7"; L"6"; L"65"; L"43"; L"64"; L"2"] (fun v => chord_ok pt (test_row iii 1 (L"Fr") v (L"iii") None (1, 1 // 2) (2, 3 // 4) (5 // 6))) &&
    every (zrange 0 3) (fun v => chord_ok pt (test_row iii 1 (L"Fr") (L"2") (L"iii") None (v, 1 // 2) (2, 3 // 4) (5 // 6))) &&
    every halves (fun v => chord_ok pt (test_row iii 1 (L"Fr") (L"2") (L"iii") None (2, v) (2, 3 // 4) (5 // 6))) &&
    every (zrange 0 3) (fun v => chord_ok pt (test_row iii 1 (L"Fr") (L"2") (L"iii") None (2, 1%Q) (v, 3 // 4) (5 // 6))) &&
    every halves (fun v => chord_ok pt (test_row iii 1 (L"Fr") (L"2") (L"iii") None (2, 1%Q) (2, v) (5 // 6))) &&
    every halves (fun v => chord_ok pt (test_row iii 1 (L"Fr") (L"2") (L"iii") None (2, 1%Q) (2, 1%Q) v))) &&
  no_chord (test_row (Some (L"@none")) 1 (L"Fr") (L"2") (L"iii") None (2, 1%Q) (2, 1%Q) 1%Q) &&
  no_chord (test_row None 1 (L"Fr") (L"2") (L"iii") None (2, 1%Q) (2, 1%Q) 1%Q) &&
  no_chord (test_row iii 1 (L"Fr") (L"2") (L"Error") None (2, 1%Q) (2, 1%Q) 1%Q) &&
  no_chord (test_row iii 1 (L"Fr") (L"2") (L"iii") (Some (L"Error")) (2, 1%Q) (2, 1%Q) 1%Q) = true.
Proof. vm_compute. reflexivity. Qed.

(* tests/test_piece.py:215-221 *)
Definition key_row (global : pystr) (gm : bool) (localkey : pystr) (lm : bool) (rel : option pystr) : label_row :=
  mkLR None 0 [] [] global gm localkey lm rel (0, 0%Q) (0, 0%Q) 0%Q None.
(* the local tonic in both pitch types *)
Definition local_tonics (r : label_row) : option (Z * Z) :=
  match key_from_series TPC r, key_from_series MIDI r with Some a, Some b => Some (k_local a, k_local b) | _, _ => None end.
(* tests/test_piece.py:170-312, except for what it says about localkey_is_minor, which the code does not read
   (C62_minor_refuted): the tonics *)
Example T_key_from_series :
  local_tonics (key_row (L"A") false (L"iii") true None) = Some (TPC_C + 7, 1) /\
  local_tonics (key_row (L"A") true (L"iii") true None) = Some (TPC_C, 0) /\
  local_tonics (key_row (L"A") true (L"iii") false None) = Some (TPC_C, 0) /\
  local_tonics (key_row (L"A") true (L"ii") false None) = Some (TPC_C + 5, 11) /\
  local_tonics (key_row (L"C") true (L"ii") false None) = Some (TPC_C + 2, 2) /\
  every [(MINOR, [L"I"; L"bII"; L"#III"; L"V"; L"bVI"; L"bVII"]); (MAJOR, [L"i"; L"bii"; L"#iii"; L"v"; L"bvi"; L"bvii"])] (fun x =>
    every (snd x) (fun symbol => every [1; 2; 3] (fun n => every pts (fun pt =>
      (* the modes of the local key and of the relative ones; here the local key has the case that the test relies on *)
      let other := match fst x with MINOR => MAJOR | MAJOR => MINOR end in
      let localkey := match fst x with MINOR => L"bv" | MAJOR => L"bV" end in
      match get_interval_from_numeral symbol (fst x) pt, get_interval_from_numeral symbol other pt,
            key_from_series pt (key_row (L"C") true localkey true None),
            key_from_series pt (key_row (L"C") true localkey true (Some (times (symbol ++ L"/") (n - 1) ++ symbol))) with
      | Ok i, Ok j, Some old, new =>
          let target := k_rel old + i + (n - 1) * j in
          match pt, new with
          | TPC, None => (target <? 0) || (35 <=? target)
          | TPC, Some k => k_rel k =? target
          | MIDI, Some k => k_rel k =? target mod 12
          | MIDI, None => false
          end
      | _, _, _, _ => false
      end)))) = true.
Proof. repeat split; vm_compute; reflexivity. Qed.

(* tests/test_piece.py:351-463: chords, keys and the indexes of their changes *)
Definition piece_notes : list note_row := map (fun i => mkNR 50 5 (i, 1 // 2) (i + 1, 1 // 2) 1%Q) (zrange 0 10).
(* lines 378-396; the null cells of the rows without a chord are never read *)
Definition piece_rows : list label_row :=
  map (fun x => let '(num, localkey, rel, mc, next) := x : pystr * pystr * option pystr * Z * Z in
         mkLR (Some num) 5 (L"M") [] (L"A") false localkey true rel (mc, 1 // 2) (next, 1 // 2) 2%Q None)
      [(L"III", L"iii", None, 0, 2); (L"III", L"iii", None, 2, 5); (L"@none", [], None, 4, 5); (L"III", L"III", None, 5, 6);
       (L"IV", L"III", Some (L"V"), 6, 8); (L"IV", L"I", Some (L"V"), 8, 10); (L"@none", [], None, 10, 12)].
(* lines 397-430 *)
Example T_score_piece :
  match get_score_piece (ts_to 20) id_red true true false piece_notes piece_rows,
        map (key_from_series TPC) [nth 0 piece_rows (key_row [] false [] false None); nth 5 piece_rows (key_row [] false [] false None)],
        map (chord_from_series (ts_to 20) TPC id_red true true) piece_rows with
  | Ok p, keys, [Some a; Some b; None; Some c; Some d; Some e; None] =>
      p_notes p = somes (map (note_from_series (ts_to 20) TPC) piece_notes) /\ List.length (p_notes p) = 10%nat /\
      p_chords p = [merge_with (merge_with (merge_with a b) c) d; e] /\
      map Some (p_keys p) = keys /\ p_changes p = [0; 8]%nat /\ p_key_changes p = [0; 1]%nat
  | _, _, _ => False
  end.
Proof. vm_compute. repeat split; reflexivity. Qed.

(* checkpoints-best/icm/initial_chord_prior.json: 1276 numbers for each mode, with "pitch_type": "PitchType.TPC",
   "inversions_present": true, "reduction_present": null *)
Example T_prior_length : get_chord_vector_length TPC true true true false id_red = 1276.
Proof. vm_compute. reflexivity. Qed.
