(* C01-C04: chord, key and key-change indices. *)
From Verif Require Import Model_Harmony Spec_Music Proof_Codec Proof_CodecSpec.
Open Scope Z_scope.

(* C01: decoding an index under the same options gives back root, reduced type, inversion.
   (A relative root is passed to the encoder counted from the lowest root of the vocabulary.) *)
Theorem C01_chord_index_roundtrip : forall t root pt inv ui rel pad red i,
  get_chord_one_hot_index t root pt inv ui rel pad red = Ok i ->
  get_chord_from_one_hot_index i pt ui rel pad red
  = Ok (root + lowest_root pt rel pad, red t, if ui then inv else 0).
Proof. exact roundtrip_s. Qed.
Print Assumptions C01_chord_index_roundtrip.
Example C01_ex : get_chord_one_hot_index Half_Dim7 33 TPC 2 true true true TRIAD_REDUCTION = Ok 335
  /\ get_chord_from_one_hot_index 335 TPC true true true TRIAD_REDUCTION = Ok (14, Dim, 2).
Proof. vm_compute. auto. Qed.

(* C01 at the level of Chord objects: root given absolutely or relative to the chord's key. *)
Theorem C01_chord_object_roundtrip : forall c rel ui pad red i,
  chord_one_hot c rel ui pad red = Ok i ->
  get_chord_from_one_hot_index i (c_pt c) ui rel pad red
  = Ok (if rel then relative_pitch (c_pt c) (c_root c) (c_tonic c) else c_root c,
        red (c_type c), if ui then c_inv c else 0).
Proof. exact chord_object_s. Qed.
Print Assumptions C01_chord_object_roundtrip.
Definition ex_chord := {| c_root := 16; c_bass := 20; c_tonic := 15; c_mode := MAJOR;
                          c_type := Maj_Min7; c_inv := 1; c_pt := TPC |}.
Example C01_obj_ex : exists i, chord_one_hot ex_chord true true true NO_REDUCTION = Ok i
  /\ get_chord_from_one_hot_index i TPC true true true NO_REDUCTION = Ok (1, Maj_Min7, 1).
Proof. eexists. vm_compute. split; reflexivity. Qed.

(* Finding: the default values of the `pad` argument differ (Chord.get_one_hot_index: True,
   get_chord_from_one_hot_index: False), so with default arguments and relative=True the
   decoded chord is a different one. *)
Theorem C01_default_pad_refuted : exists c i root t inv,
  chord_one_hot c true true true NO_REDUCTION = Ok i
  /\ get_chord_from_one_hot_index i (c_pt c) true true false NO_REDUCTION = Ok (root, t, inv)
  /\ root <> relative_pitch (c_pt c) (c_root c) (c_tonic c).
Proof.
  exists ex_chord. do 4 eexists. split; [vm_compute; reflexivity|].
  split; [vm_compute; reflexivity|]. vm_compute. discriminate.
Qed.
Print Assumptions C01_default_pad_refuted.

(* C02: indices are exactly 0 .. vector length - 1. *)
Theorem C02_index_in_range : forall t root pt inv ui rel pad red i,
  get_chord_one_hot_index t root pt inv ui rel pad red = Ok i ->
  0 <= i < get_chord_vector_length pt true rel ui pad red.
Proof. exact encode_range. Qed.
Print Assumptions C02_index_in_range.

Theorem C02_index_surjective : forall i pt ui rel pad red,
  0 <= i < get_chord_vector_length pt true rel ui pad red ->
  exists root t inv,
    get_chord_from_one_hot_index i pt ui rel pad red = Ok (root, t, inv)
    /\ (exists u, red u = t)
    /\ lowest_root pt rel pad <= root < lowest_root pt rel pad + root_count pt rel pad
    /\ 0 <= inv < (if ui then positions t else 1)
    /\ forall u, red u = t ->
       get_chord_one_hot_index u (root - lowest_root pt rel pad) pt inv ui rel pad red = Ok i.
Proof. exact decode_encode_s. Qed.
Print Assumptions C02_index_surjective.
Example C02_ex : get_chord_vector_length TPC true false true false NO_REDUCTION = 1540
  /\ get_chord_vector_length MIDI true true false false TRIAD_REDUCTION = 48
  /\ get_chord_vector_length TPC true true true true NO_REDUCTION = 1716.
Proof. vm_compute. auto. Qed.

(* C03: exact acceptance of the encoder; the only exception is ValueError. *)
Theorem C03_encoder_rejects_exactly : forall t root pt inv ui rel pad red,
  (get_chord_one_hot_index t root pt inv ui rel pad red = Raise ValueError
   /\ (root < 0 \/ root_count pt rel pad <= root
       \/ (ui = true /\ (inv < 0 \/ positions (red t) <= inv))))
  \/ (exists i, get_chord_one_hot_index t root pt inv ui rel pad red = Ok i
      /\ 0 <= root < root_count pt rel pad
      /\ (ui = true -> 0 <= inv < positions (red t))).
Proof. exact rejects_s. Qed.
Print Assumptions C03_encoder_rejects_exactly.
Example C03_ex : get_chord_one_hot_index Maj 0 MIDI 3 true false false NO_REDUCTION = Raise ValueError
  /\ is_ok (get_chord_one_hot_index Dim7 0 MIDI 3 true false false NO_REDUCTION) = true
  /\ get_chord_one_hot_index Dim7 0 MIDI 3 true false false TRIAD_REDUCTION = Raise ValueError.
Proof. vm_compute. auto. Qed.

(* C04: keys. *)
Theorem C04_key_roundtrip : forall m tonic pt i,
  get_key_one_hot_index m tonic pt = Ok i ->
  get_key_from_one_hot_index i pt false = Ok (tonic, m) /\ 0 <= i < 2 * pitch_count pt.
Proof. exact key_roundtrip_s. Qed.
Print Assumptions C04_key_roundtrip.

Theorem C04_key_inverse : forall i pt,
  0 <= i < 2 * pitch_count pt ->
  exists tonic m, get_key_from_one_hot_index i pt false = Ok (tonic, m)
    /\ get_key_one_hot_index m tonic pt = Ok i.
Proof. exact key_inverse_s. Qed.
Print Assumptions C04_key_inverse.

Theorem C04_key_rejects_exactly : forall m tonic pt,
  (get_key_one_hot_index m tonic pt = Raise ValueError /\ ~ (0 <= tonic < pitch_count pt))
  \/ (exists i, get_key_one_hot_index m tonic pt = Ok i /\ 0 <= tonic < pitch_count pt).
Proof. exact key_rejects_s. Qed.
Print Assumptions C04_key_rejects_exactly.

(* Key changes: the index of a key change names, in the joint model's relative key labels and
   in the key decoder, the interval that leads from the old tonic to the new one. *)
Theorem C04_key_change_label : forall tonic pt next_tonic next_mode i,
  key_change_one_hot tonic pt next_tonic next_mode = Ok i ->
  0 <= i < get_key_change_vector_length pt true /\
  exists interval,
    py_nth (relative_key_labels pt) i = Ok (next_mode, interval)
    /\ get_key_from_one_hot_index i pt true = Ok (interval, next_mode)
    /\ match pt with
       | TPC => next_tonic = tonic + interval
       | MIDI => next_tonic mod 12 = (tonic + interval) mod 12 /\ 0 <= interval < 12
       end.
Proof. exact key_change_label. Qed.
Print Assumptions C04_key_change_label.

Theorem C04_key_change_accepts : forall tonic pt next_tonic next_mode,
  (exists i, key_change_one_hot tonic pt next_tonic next_mode = Ok i) <->
  (pt = TPC -> -14 <= next_tonic - tonic < 15).
Proof. exact key_change_accepts. Qed.
Print Assumptions C04_key_change_accepts.

Theorem C04_label_count : forall pt,
  zlen (relative_key_labels pt) = get_key_change_vector_length pt true.
Proof. exact relative_key_labels_length. Qed.
Print Assumptions C04_label_count.
Example C04_ex : get_key_one_hot_index MINOR 18 TPC = Ok 53
  /\ get_key_from_one_hot_index 53 TPC false = Ok (18, MINOR)
  /\ key_change_one_hot 15 TPC 18 MINOR = Ok 46
  /\ py_nth (relative_key_labels TPC) 46 = Ok (MINOR, 3).
Proof. vm_compute. auto. Qed.
