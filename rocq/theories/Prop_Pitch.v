(* C05-C12, C51: labels, spelling, accidentals, transposition, conversion, degrees, keys. *)
From Coq Require Import String Ascii.
From Verif Require Import Model_Strings Spec_Music Spec_Text Proof_Base Proof_Strings Proof_Labels Proof_Transpose.
From Coq Require Import List.
Import ListNotations.
Open Scope Z_scope.

(* C05.  [root_text_spec] (Spec_Text.v): an absolute root text is read back by
   get_pitch_from_string as the root; a relative one is the decimal interval, or - when a
   reference pitch is given and the transposed pitch exists - reads back as that pitch. *)
Theorem C05_chord_labels_aligned : forall pt ui rel rto pad red,
  exists labels,
    get_chord_label_list pt ui rel rto pad red = Ok labels
    /\ zlen labels = get_chord_vector_length pt true rel ui pad red
    /\ NoDup labels
    /\ forall i root t inv,
         0 <= i ->
         get_chord_from_one_hot_index i pt ui rel pad red = Ok (root, t, inv) ->
         exists root_text inv_text,
           nth_error labels (Z.to_nat i) =
             Some (root_text ++ ":"%char :: list_ascii_of_string (type_text t) ++
                   if ui then list_ascii_of_string ", inv:" ++ inv_text else [])
           /\ root_text_spec pt rel rto root root_text
           /\ is_decimal_of inv_text inv.
Proof. exact chord_labels_aligned. Qed.
Print Assumptions C05_chord_labels_aligned.
Theorem C05_key_labels_aligned : forall pt rel rto,
  exists labels,
    get_key_label_list pt rel rto = Ok labels
    /\ zlen labels = (if rel then get_key_change_vector_length pt true else 2 * pitch_count pt)
    /\ NoDup labels
    /\ forall i tonic m,
         0 <= i ->
         get_key_from_one_hot_index i pt rel = Ok (tonic, m) ->
         exists tonic_text,
           nth_error labels (Z.to_nat i) =
             Some (tonic_text ++ list_ascii_of_string
                     (match m with MAJOR => ":KeyMode.MAJOR" | MINOR => ":KeyMode.MINOR" end))
           /\ root_text_spec pt rel rto tonic tonic_text.
Proof. exact key_labels_aligned. Qed.
Print Assumptions C05_key_labels_aligned.
Example C05_ex :
  (let! l := get_chord_label_list TPC true true (Some 15) false NO_REDUCTION in py_nth l 85)
   = Ok (L"C##:M, inv:1")
  /\ (let! l := get_chord_label_list TPC true true (Some 30) false NO_REDUCTION in py_nth l 86)
   = Ok (L"14:M, inv:2")
  /\ (let! l := get_key_label_list TPC false None in py_nth l 48) = Ok (L"bb:KeyMode.MINOR").
Proof. vm_compute. auto. Qed.

(* C06 *)
Theorem C06_tpc_string_roundtrip : forall p,
  exists s, get_pitch_string p TPC = Ok s /\
    get_pitch_from_string s TPC = if (0 <=? p) && (p <? 35) then Ok p else Raise ValueError.
Proof. exact tpc_roundtrip. Qed.
Print Assumptions C06_tpc_string_roundtrip.
Theorem C06_midi_string_roundtrip : forall p,
  exists s, get_pitch_string p MIDI = Ok s /\ get_pitch_from_string s MIDI = Ok (p mod 12).
Proof. exact midi_roundtrip. Qed.
Print Assumptions C06_midi_string_roundtrip.
Theorem C06_tpc_spelling : forall c v sharps flats,
  letter_fifths c = Some v ->
  get_pitch_from_string (spelling c sharps flats) TPC =
  let p := 15 + v + 7 * (Z.of_nat sharps - Z.of_nat flats) in
  if (0 <=? p) && (p <? 35) then Ok p else Raise ValueError.
Proof. exact tpc_spelling. Qed.
Print Assumptions C06_tpc_spelling.
Theorem C06_midi_spelling : forall c v sharps flats,
  letter_fifths c = Some v ->
  get_pitch_from_string (spelling c sharps flats) MIDI =
  Ok ((7 * v + Z.of_nat sharps - Z.of_nat flats) mod 12).
Proof. exact midi_spelling. Qed.
Print Assumptions C06_midi_spelling.
Theorem C06_tpc_accepts_only_spellings : forall s p,
  get_pitch_from_string s TPC = Ok p ->
  exists c v sharps flats, letter_fifths c = Some v /\ s = spelling c sharps flats
    /\ p = 15 + v + 7 * (Z.of_nat sharps - Z.of_nat flats) /\ 0 <= p < 35.
Proof. exact tpc_accepted_is_spelling. Qed.
Print Assumptions C06_tpc_accepts_only_spellings.
Example C06_ex : get_pitch_string 5 TPC = Ok (L"Ebb") /\ get_pitch_from_string (L"Ebb") TPC = Ok 5
  /\ get_pitch_from_string (L"f###") TPC = Raise ValueError
  /\ get_pitch_from_string (L"bbb") TPC = Ok 6.
Proof. vm_compute. auto. Qed.

(* C07.  Complete description of the function at the front of a string: it consumes all
   flats (but never the last character), then all sharps. *)
Theorem C07_accidentals_ok : forall s a r,
  get_accidental_adjustment s true = Ok (a, r) ->
  exists flats sharps,
    (s = repeat "b"%char flats ++ repeat "#"%char sharps ++ r
     /\ (exists c t, r = c :: t /\ c <> "#"%char)
     /\ (sharps = 0%nat -> r = L"b" \/ exists c t, r = c :: t /\ c <> "b"%char))
    /\ a = Z.of_nat sharps - Z.of_nat flats.
Proof. exact front_adjust_inv. Qed.
Print Assumptions C07_accidentals_ok.
Theorem C07_accidentals_complete : forall s flats sharps r,
  (s = repeat "b"%char flats ++ repeat "#"%char sharps ++ r
   /\ (exists c t, r = c :: t /\ c <> "#"%char)
   /\ (sharps = 0%nat -> r = L"b" \/ exists c t, r = c :: t /\ c <> "b"%char)) ->
  get_accidental_adjustment s true = Ok (Z.of_nat sharps - Z.of_nat flats, r).
Proof. exact front_adjust_ok. Qed.
Print Assumptions C07_accidentals_complete.
Theorem C07_back_is_mirror : forall s,
  get_accidental_adjustment s false =
  match get_accidental_adjustment (rev s) true with
  | Ok (a, r) => Ok (a, rev r)
  | Raise e => Raise e
  end.
Proof. exact back_adjust_rev. Qed.
Print Assumptions C07_back_is_mirror.
(* Findings: strings made of accidentals only (with a sharp last, or empty) raise IndexError
   instead of being rejected cleanly, and a flat behind a sharp is left in place. *)
Theorem C07_errors : forall s e,
  get_accidental_adjustment s true = Raise e ->
  e = IndexError /\ exists flats sharps,
     s = repeat "b"%char flats ++ repeat "#"%char sharps /\ (flats = 0%nat \/ sharps <> 0%nat).
Proof. exact front_adjust_error. Qed.
Print Assumptions C07_errors.
Theorem C07_no_accidental_left_refuted : exists s a t,
  get_accidental_adjustment s true = Ok (a, "b"%char :: t) /\ t <> [].
Proof. exists (L"#bIII"), 1, (L"III"). split; [reflexivity|discriminate]. Qed.
Print Assumptions C07_no_accidental_left_refuted.
Example C07_ex : get_accidental_adjustment (L"bbVII") true = Ok (-2, L"VII")
  /\ get_accidental_adjustment (L"b") true = Ok (0, L"b")
  /\ get_accidental_adjustment (L"bb##") true = Raise IndexError
  /\ get_accidental_adjustment (L"Bbb") false = Ok (-2, L"B").
Proof. vm_compute. auto. Qed.

(* C08 *)
Theorem C08_transpose_compose : forall pt p a b q,
  transpose_pitch p a pt = Ok q -> transpose_pitch q b pt = transpose_pitch p (a + b) pt.
Proof. exact transpose_compose. Qed.
Print Assumptions C08_transpose_compose.
Theorem C08_transpose_identity : forall pt p,
  0 <= p < pitch_count pt -> transpose_pitch p 0 pt = Ok p.
Proof. exact transpose_zero. Qed.
Print Assumptions C08_transpose_identity.
Theorem C08_transpose_inverse : forall pt p a q,
  0 <= p < pitch_count pt -> transpose_pitch p a pt = Ok q -> transpose_pitch q (- a) pt = Ok p.
Proof. exact transpose_undo. Qed.
Print Assumptions C08_transpose_inverse.
Theorem C08_transpose_value : forall pt p i,
  transpose_pitch p i pt =
  match pt with
  | MIDI => Ok ((p + i) mod 12)
  | TPC => if (0 <=? p + i) && (p + i <? 35) then Ok (p + i) else Raise ValueError
  end.
Proof. exact transpose_pitch_eq. Qed.
Print Assumptions C08_transpose_value.
Theorem C08_midi_octave_irrelevant : forall p a k l,
  transpose_pitch (p + 12 * k) (a + 12 * l) MIDI = transpose_pitch p a MIDI.
Proof. exact transpose_midi_octave. Qed.
Print Assumptions C08_midi_octave_irrelevant.
Theorem C08_vector_moves : forall pt v interval,
  exists w, transpose_chord_vector v interval pt = Ok w
    /\ List.length w = List.length v
    /\ forall p, 0 <= p < zlen v -> nth (Z.to_nat p) w 0 = moved pt v interval p.
Proof. exact transpose_vector_spec. Qed.
Print Assumptions C08_vector_moves.
(* the presence vector of a chord holds exactly the chord's members that exist *)
Theorem C08_chord_vector : forall t pt root,
  exists w, get_vector_from_chord_type t pt (Some root) = Ok w
    /\ zlen w = pitch_count pt
    /\ forall p, 0 <= p < pitch_count pt ->
       (nth (Z.to_nat p) w 0 = 1 /\
          exists f, In f (chord_fifths t) /\
             match pt with TPC => p = root + f /\ 0 <= 15 + f < 35
                         | MIDI => p = (root + 7 * f) mod 12 end)
       \/ (nth (Z.to_nat p) w 0 = 0 /\
          forall f, In f (chord_fifths t) ->
             match pt with TPC => p <> root + f | MIDI => p <> (root + 7 * f) mod 12 end).
Proof. exact chord_vector_spec. Qed.
Print Assumptions C08_chord_vector.
Theorem C08_bass_note : forall t root inv pt modulo,
  get_bass_note t root inv pt modulo =
  let n := positions t in
  let i := if modulo then inv mod n else inv in
  match nth_error (chord_fifths t) (Z.to_nat (if i <? 0 then i + n else i)) with
  | Some f =>
      if (i <? - n) || (n <=? i) then Raise IndexError
      else match pt with
           | MIDI => Ok ((root + 7 * f) mod 12)
           | TPC => if (0 <=? root + f) && (root + f <? 35) then Ok (root + f) else Raise ValueError
           end
  | None => Raise IndexError
  end.
Proof. exact bass_note_spec. Qed.
Print Assumptions C08_bass_note.
Example C08_ex : transpose_pitch 30 7 TPC = Raise ValueError /\ transpose_pitch 10 7 MIDI = Ok 5
  /\ transpose_chord_vector [1;0;0;1;0] 2 TPC = Ok [0;0;1;0;0]
  /\ transpose_chord_vector [1;0;0;1;0] 2 MIDI = Ok [1;0;1;0;0]
  /\ get_bass_note Maj_Min7 16 3 TPC false = Ok 14.
Proof. vm_compute. auto. Qed.

(* C09 *)
Theorem C09_relative_value : forall pitch tonic pt kc pad,
  absolute_to_relative pitch tonic pt kc pad =
  let pad := pad && negb kc in
  let lo := lowest_root pt true pad in
  let r := relative_pitch pt pitch tonic in
  if (lo <=? r) && (r <? lo + root_count pt true pad) then Ok (r - lo) else Raise ValueError.
Proof. exact a2r_spec. Qed.
Print Assumptions C09_relative_value.
Theorem C09_relative_in_range : forall pitch tonic pt kc pad r,
  absolute_to_relative pitch tonic pt kc pad = Ok r ->
  0 <= r < root_count pt true (pad && negb kc).
Proof. exact a2r_range. Qed.
Print Assumptions C09_relative_in_range.
Theorem C09_relative_injective : forall p q tonic pt kc pad r,
  0 <= p < pitch_count pt -> 0 <= q < pitch_count pt ->
  absolute_to_relative p tonic pt kc pad = Ok r ->
  absolute_to_relative q tonic pt kc pad = Ok r -> p = q.
Proof. exact a2r_injective. Qed.
Print Assumptions C09_relative_injective.
Theorem C09_transposition_invariant : forall p tonic a pt kc pad,
  absolute_to_relative (p + a) (tonic + a) pt kc pad = absolute_to_relative p tonic pt kc pad.
Proof. exact a2r_transpose. Qed.
Print Assumptions C09_transposition_invariant.
Example C09_ex : absolute_to_relative 30 15 TPC false false = Raise ValueError
  /\ absolute_to_relative 30 15 TPC false true = Ok 34 /\ absolute_to_relative 3 5 MIDI false false = Ok 10.
Proof. vm_compute. auto. Qed.

(* C10 *)
Theorem C10_tpc_to_midi : forall p, convert_pitch p TPC MIDI = Ok ((7 * (p - 15)) mod 12).
Proof. exact tpc_to_midi. Qed.
Print Assumptions C10_tpc_to_midi.
Theorem C10_enharmonic_classes : forall p q a b,
  convert_pitch p TPC MIDI = Ok a -> convert_pitch q TPC MIDI = Ok b ->
  (a = b <-> (p - q) mod 12 = 0).
Proof. exact convert_collision. Qed.
Print Assumptions C10_enharmonic_classes.
(* Finding: MIDI -> TPC raises KeyError on every black key; on white keys the round trip is
   the identity. *)
Theorem C10_midi_tpc_midi_partial : forall p, 0 <= p < 12 ->
  (white_key p = true -> exists q, convert_pitch p MIDI TPC = Ok q /\ 0 <= q < 35
      /\ convert_pitch q TPC MIDI = Ok p)
  /\ (white_key p = false -> convert_pitch p MIDI TPC = Raise KeyError).
Proof. exact midi_to_tpc_white. Qed.
Print Assumptions C10_midi_tpc_midi_partial.
Theorem C10_midi_tpc_midi_refuted : exists p,
  0 <= p < 12 /\ convert_pitch p MIDI TPC = Raise KeyError.
Proof. exists 1. split; [split; [discriminate|reflexivity]|vm_compute; reflexivity]. Qed.
Print Assumptions C10_midi_tpc_midi_refuted.
(* an interval in fifths converts to the interval between the converted pitches *)
Theorem C10_intervals : forall p q a b, convert_pitch p TPC MIDI = Ok a -> convert_pitch q TPC MIDI = Ok b ->
  0 <= tpc_interval_to_midi_interval (p - q) < 12
  /\ (b + tpc_interval_to_midi_interval (p - q)) mod 12 = a.
Proof.
  intros p q a b Ha Hb. rewrite tpc_to_midi in Ha, Hb. apply Ok_inj in Ha, Hb. subst a b.
  unfold tpc_interval_to_midi_interval. change (NUM_PITCHES MIDI) with 12. change TPC_INTERVAL_SEMITONES with 7.
  split; [apply Z.mod_pos_bound; reflexivity|]. rewrite <- Zplus_mod. f_equal. ring.
Qed.
Print Assumptions C10_intervals.
Example C10_ex : convert_pitch 21 TPC MIDI = Ok 6 /\ convert_pitch 9 TPC MIDI = Ok 6
  /\ convert_pitch 7 MIDI TPC = Ok 16
  /\ tpc_interval_to_midi_interval (9 - 21) = 0 /\ tpc_interval_to_midi_interval (11 - 15) = 8.
Proof. vm_compute. auto. Qed.

(* C11 *)
Theorem C11_degree_roundtrip_tpc : forall i m,
  exists s, get_scale_degree_from_interval i m TPC = Ok s
    /\ get_interval_from_scale_degree s true m TPC = Ok i.
Proof. exact degree_roundtrip_tpc. Qed.
Print Assumptions C11_degree_roundtrip_tpc.
Theorem C11_degree_roundtrip_midi : forall i m,
  exists s, get_scale_degree_from_interval i m MIDI = Ok s
    /\ get_interval_from_scale_degree s true m MIDI = Ok (i mod 12).
Proof. exact degree_roundtrip_midi. Qed.
Print Assumptions C11_degree_roundtrip_midi.
(* the text is a numeral that denotes the interval *)
Theorem C11_degree_text : forall i m,
  exists n, get_scale_degree_from_interval i m TPC = Ok (numeral_text n)
    /\ numeral_ok n = true /\ n_minor n = false /\ numeral_fifths m n = i.
Proof. exact scale_degree_tpc. Qed.
Print Assumptions C11_degree_text.
Theorem C11_numeral_interval : forall n m pt,
  numeral_ok n = true ->
  get_interval_from_numeral (numeral_text n) m pt =
  Ok (match pt with TPC => numeral_fifths m n | MIDI => numeral_semitones m n end).
Proof. exact numeral_interval. Qed.
Print Assumptions C11_numeral_interval.
Example C11_ex : get_scale_degree_from_interval (-6) MAJOR TPC = Ok (L"bV")
  /\ get_interval_from_scale_degree (L"bV") true MAJOR TPC = Ok (-6)
  /\ get_scale_degree_from_interval 1 MINOR MIDI = Ok (L"#I").
Proof. vm_compute. auto. Qed.

(* C12 *)
Theorem C12_applied_keys : forall pt path tonic mode,
  path <> [] -> forallb numeral_ok path = true ->
  decode_relative_keys (path_text path) tonic mode pt =
  match resolve_path pt path (tonic, mode) with Some k => Ok k | None => Raise ValueError end.
Proof. exact decode_relative_keys_spec. Qed.
Print Assumptions C12_applied_keys.
Theorem C12_empty_path_rejected : forall tonic mode pt,
  decode_relative_keys [] tonic mode pt = Raise IndexError.
Proof. exact decode_relative_keys_empty. Qed.
Print Assumptions C12_empty_path_rejected.
Definition V := {| n_acc := 0; n_degree := 5; n_minor := false |}.
Definition bvi := {| n_acc := -1; n_degree := 6; n_minor := true |}.
Example C12_ex : path_text [V; bvi] = L"V/bvi"
  /\ decode_relative_keys (L"V/bvi") 15 MAJOR TPC = Ok (12, MAJOR)
  /\ resolve_path TPC [V; bvi] (15, MAJOR) = Some (12, MAJOR).
Proof. vm_compute. auto. Qed.

(* C51, first half: a change string is split without loss into tokens, each consisting of
   non-digits followed by one digit (or '1' and one more character); the only failure is
   IndexError, exactly when digits run out before the string ends.
   [change_token] is defined in Spec_Text.v. *)
Theorem C51_changes_split : forall s,
  match split_changes_into_list s with
  | Ok toks => concat toks = s /\ Forall change_token toks
  | Raise e => e = IndexError /\ exists good rest, s = good ++ rest /\ rest <> []
                 /\ Forall (fun d => char_is_digit d = false) rest
  end.
Proof. exact split_changes_spec. Qed.
Print Assumptions C51_changes_split.
Example C51_ex : split_changes_into_list (L"#42+b613") = Ok [L"#4"; L"2"; L"+b6"; L"13"]
  /\ split_changes_into_list (L"4+") = Raise IndexError.
Proof. vm_compute. auto. Qed.
