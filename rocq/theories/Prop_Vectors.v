(* C13-C16: reduction and decoding of chord and note vectors. *)
From Verif Require Import Model_Vectors Spec_Music Proof_Base Proof_Codec Proof_CodecSpec Proof_Vectors.
Open Scope Z_scope.

(* ---- C13 ---- *)
(* Indices of chords (type, root, inversion) encoded with reduction rp and inversions ip. *)
Theorem C13_reduce_after_is_reduce_before : forall pt ip rp rel pad red ui
    (chords : list (chord_type * Z * Z)) is,
  mapM (fun c => let '(t, root, inv) := c in get_chord_one_hot_index t root pt inv ip rel pad rp) chords = Ok is ->
  reduce_chord_one_hots is pad pt ip rp rel red ui
  = mapM (fun c => let '(t, root, inv) := c in
            get_chord_one_hot_index (rp t) root pt (if ip then inv else 0) ui rel pad red) chords.
Proof.
  intros pt ip rp rel pad red ui chords. unfold reduce_chord_one_hots.
  induction chords as [|[[t root] inv] l IH]; intros is H; cbn [mapM] in *.
  - apply Ok_inj in H. subst. reflexivity.
  - destruct (get_chord_one_hot_index t root pt inv ip rel pad rp) as [i|] eqn:E; [|discriminate]. cbn [bind] in H.
    destruct (mapM _ l) as [js|] eqn:El; [|discriminate]. cbn [bind] in H. apply Ok_inj in H. subst is.
    cbn [mapM]. rewrite (reduce_one_of_encode _ _ _ _ _ _ _ _ _ red ui E). rewrite (IH js eq_refl). reflexivity.
Qed.
Print Assumptions C13_reduce_after_is_reduce_before.

Theorem C13_identity : forall pt ip rp rel pad is, (forall u, rp (rp u) = rp u) ->
  Forall (fun i => 0 <= i < get_chord_vector_length pt true rel ip pad rp) is ->
  reduce_chord_one_hots is pad pt ip rp rel rp ip = Ok is.
Proof.
  intros pt ip rp rel pad is Hid H. unfold reduce_chord_one_hots. induction H as [|i is Hi _ IH]; [reflexivity|].
  cbn [mapM]. rewrite reduce_one_identity by assumption. cbn [bind]. rewrite IH. reflexivity.
Qed.
Print Assumptions C13_identity.

(* every in-range index is covered by the first theorem *)
Theorem C13_all_indices : forall pt ip rp rel pad i, 0 <= i < get_chord_vector_length pt true rel ip pad rp ->
  exists t root inv, get_chord_one_hot_index t root pt inv ip rel pad rp = Ok i.
Proof.
  intros pt ip rp rel pad i H. destruct (decode_encode_s i pt ip rel pad rp H) as (root & t & inv & _ & (u & Hu) & _ & _ & He).
  exists u, (root - lowest_root pt rel pad), inv. apply He, Hu.
Qed.
Print Assumptions C13_all_indices.

(* Finding: a seventh chord in third inversion has no index in a triad vocabulary with
   inversions; the function raises ValueError for the whole list. *)
Theorem C13_total_refuted : exists i, 0 <= i < get_chord_vector_length TPC true true true false NO_REDUCTION
  /\ reduce_chord_one_hots [0; i] false TPC true NO_REDUCTION true TRIAD_REDUCTION true = Raise ValueError.
Proof. exists 827. vm_compute. split; [split; [discriminate|reflexivity]|reflexivity]. Qed.
Print Assumptions C13_total_refuted.

Example C13_example : get_chord_one_hot_index Maj_Min7 3 TPC 2 true true false NO_REDUCTION = Ok 478
  /\ reduce_chord_one_hots [478; 0] false TPC true NO_REDUCTION true TRIAD_REDUCTION false = Ok [3; 0]
  /\ reduce_chord_one_hots [478; 0] false TPC true NO_REDUCTION true TRIAD_REDUCTION true = Ok [11; 0].
Proof. vm_compute. auto. Qed.

(* the triad reduction keeps the lowest three notes of the chord *)
Theorem C13_triads : forall t, chord_fifths (TRIAD_REDUCTION t) = firstn 3 (chord_fifths t)
  /\ TRIAD_REDUCTION (TRIAD_REDUCTION t) = TRIAD_REDUCTION t.
Proof. destruct t; split; reflexivity. Qed.
Print Assumptions C13_triads.

(* ---- C14 ---- *)
(* Missing for the full claim: types the reduction maps to themselves lose their type. *)
Theorem C14_reduce_types_partial : forall pt pad red cs rt vs pto,
  cs <> [] -> Forall (fun c => fields_ok c /\ c_pt (fc c) = pt /\ red (c_type (fc c)) <> c_type (fc c)) cs ->
  mapM (fun c => to_vec c rt pad NO_REDUCTION) cs = Ok vs -> (pto = None \/ pto = Some pt) ->
  reduce_chord_types vs (Some red) pad pto = mapM (fun c => to_vec c rt pad red) cs
  /\ exists ws, mapM (fun c => to_vec c rt pad red) cs = Ok ws.
Proof.
  intros pt pad red cs rt vs pto Hne Hall Hvs Hpto. split.
  - destruct cs as [|c cs]; [contradiction|]. pose proof Hvs as Hvs'. cbn [mapM] in Hvs'.
    destruct (to_vec c rt pad NO_REDUCTION) as [v|] eqn:Ev; [|discriminate]. cbn [bind] in Hvs'.
    destruct (mapM _ cs) as [ws|]; [|discriminate]. cbn [bind] in Hvs'. apply Ok_inj in Hvs'. subst vs.
    inversion Hall as [|? ? (Hf & Hpt & _) _]; subst.
    destruct (tensor_pt c cs rt pad _ v ws _ Hf eq_refl Ev) as (T1 & T2 & _).
    unfold reduce_chord_types.
    assert (Et : tensor_pitch_type (v :: ws) pad pto = Ok (c_pt (fc c))) by (destruct Hpto as [-> | ->]; assumption).
    rewrite Et. cbn [bind]. apply (mapM_rows (fun c => to_vec c rt pad NO_REDUCTION)); [exact Hvs|].
    intros a w Ha Hw. rewrite Forall_forall in Hall. destruct (Hall a Ha) as (Hfa & Hpa & Hra).
    destruct (to_vec_other a rt pad _ w red Hw) as (w' & Hw'). rewrite Hw'. rewrite <- Hpa.
    exact (reduce_row_to_vec a rt pad red w w' Hfa Hra Hw Hw').
  - clear -Hvs. revert vs Hvs. induction cs as [|c cs IH]; intros vs H; cbn [mapM] in *; [eexists; reflexivity|].
    destruct (to_vec c rt pad NO_REDUCTION) as [v|] eqn:E; [|discriminate]. cbn [bind] in H.
    destruct (mapM (fun c => to_vec c rt pad NO_REDUCTION) cs) as [ws|]; [|discriminate].
    destruct (IH ws eq_refl) as (xs & ->). destruct (to_vec_other c rt pad _ v red E) as (w & ->). eexists. reflexivity.
Qed.
Print Assumptions C14_reduce_types_partial.

(* Finding: a chord whose type the reduction keeps (every triad under TRIAD_REDUCTION, every
   chord under NO_REDUCTION) is left without any chord type and can no longer be decoded. *)
Theorem C14_kept_types_refuted : forall c rt pad red v, fields_ok c -> red (c_type (fc c)) = c_type (fc c) ->
  to_vec c rt pad NO_REDUCTION = Ok v ->
  exists v', reduce_chord_types [v] (Some red) pad None = Ok [v']
    /\ decode_chord_vector v' pad (Some (c_pt (fc c))) = Raise IndexError.
Proof.
  intros c rt pad red v Hf He Hv. destruct (reduce_row_fixed c rt pad red v Hf He Hv) as (v' & Hr & Hd).
  exists v'. split; [|exact Hd]. destruct (tensor_pt c [] rt pad _ v [] _ Hf eq_refl Hv) as (T1 & _).
  unfold reduce_chord_types. rewrite T1. cbn [bind mapM]. rewrite Hr. reflexivity.
Qed.
Print Assumptions C14_kept_types_refuted.

(* Removing inversions: the result is the vector of the same chord with inversion 0 — and
   the old bass note, which is the part of the claim that fails. *)
Theorem C14_remove_inversions_partial : forall c rt pad red v pto, fields_ok c -> to_vec c rt pad red = Ok v ->
  (pto = None \/ pto = Some (c_pt (fc c))) ->
  exists v', remove_chord_inversions [v] pad pto = Ok [v']
   /\ to_vec {| fc := {| c_root := c_root (fc c); c_bass := c_bass (fc c); c_tonic := c_tonic (fc c);
                         c_mode := c_mode (fc c); c_type := c_type (fc c); c_inv := 0; c_pt := c_pt (fc c) |};
                fc_onset_level := fc_onset_level c; fc_offset_level := fc_offset_level c;
                fc_duration := fc_duration c |} rt pad red = Ok v'.
Proof.
  intros c rt pad red v pto Hf Hv Hpto. destruct (remove_row_decode c rt pad red v Hf Hv) as (v' & Hr & Hd).
  exists v'. split; [|exact Hd]. destruct (tensor_pt c [] rt pad _ v [] _ Hf eq_refl Hv) as (T1 & T2 & _).
  unfold remove_chord_inversions.
  assert (Et : tensor_pitch_type [v] pad pto = Ok (c_pt (fc c))) by (destruct Hpto as [-> | ->]; assumption).
  rewrite Et. cbn [bind mapM]. rewrite Hr. reflexivity.
Qed.
Print Assumptions C14_remove_inversions_partial.

Definition ex_full : full_chord := {|
  fc := {| c_root := 16; c_bass := 20; c_tonic := 15; c_mode := MAJOR; c_type := Maj_Min7; c_inv := 1; c_pt := TPC |};
  fc_onset_level := 2; fc_offset_level := 3; fc_duration := 1 |}.
Theorem C14_bass_refuted : exists v v' d, to_vec ex_full None false NO_REDUCTION = Ok v
  /\ remove_chord_inversions [v] false None = Ok [v'] /\ decode_chord_vector v' false None = Ok d
  /\ d_inv d = 0 /\ d_bass d <> d_root d.
Proof.
  eexists _, _, _. split; [vm_compute; reflexivity|]. split; [vm_compute; reflexivity|].
  split; [vm_compute; reflexivity|]. split; [reflexivity|vm_compute; discriminate].
Qed.
Print Assumptions C14_bass_refuted.
Example C14_example : fields_ok ex_full /\ TRIAD_REDUCTION (c_type (fc ex_full)) <> c_type (fc ex_full)
  /\ is_ok (to_vec ex_full None true NO_REDUCTION) = true.
Proof. split; [vm_compute; repeat split; discriminate|]. split; [discriminate|reflexivity]. Qed.

(* ---- C15 ---- *)
Theorem C15_chord_vector_roundtrip : forall c rt pad red v pto, to_vec c rt pad red = Ok v ->
  0 <= c_inv (fc c) -> 0 <= fc_onset_level c -> 0 <= fc_offset_level c ->
  pto = None \/ pto = Some (c_pt (fc c)) ->
  let tonic := match rt with None => c_tonic (fc c) | Some (t, _) => t end in
  let mode := match rt with None => c_mode (fc c) | Some (_, m) => m end in
  decode_chord_vector v pad pto = Ok {|
    d_root := relative_pitch (c_pt (fc c)) (c_root (fc c)) tonic;
    d_bass := relative_pitch (c_pt (fc c)) (c_bass (fc c)) tonic;
    d_mode := mode; d_type := red (c_type (fc c)); d_inv := c_inv (fc c);
    d_onset_level := fc_onset_level c; d_offset_level := fc_offset_level c; d_pt := c_pt (fc c) |}
  /\ zlen v = get_chord_vector_length (c_pt (fc c)) false true true pad NO_REDUCTION
  /\ py_nth v (-2) = Ok (fc_duration c).
Proof. exact to_vec_decode. Qed.
Print Assumptions C15_chord_vector_roundtrip.

Theorem C15_accepts : forall c rt pad red,
  0 <= c_inv (fc c) < 4 -> 0 <= fc_onset_level c < 4 -> 0 <= fc_offset_level c < 4 ->
  let tonic := match rt with None => c_tonic (fc c) | Some (t, _) => t end in
  (exists v, to_vec c rt pad red = Ok v) <->
  (c_pt (fc c) = TPC -> forall p, p = c_root (fc c) \/ p = c_bass (fc c) ->
     (if pad then -19 else -14) <= p - tonic < (if pad then 20 else 15)).
Proof.
  intros c rt pad red H1 H2 H3 tonic. split.
  - intros (v & Hv) Hpt p Hp.
    destruct (to_vec_blocks _ _ _ _ _ Hv ltac:(lia) ltac:(lia) ltac:(lia)) as (ir & ib & Er & Eb & _).
    fold tonic in Er, Eb. rewrite Hpt in Er, Eb.
    destruct (abs_rel_ok _ _ _ _ _ Er) as [Br Rr]. destruct (abs_rel_ok _ _ _ _ _ Eb) as [Bb Rb].
    cbn [relative_pitch decode_num_pitches] in *. unfold MAX_RELATIVE_TPC, MIN_RELATIVE_TPC, RELATIVE_TPC_EXTRA in *.
    destruct Hp as [-> | ->]; destruct pad; cbn [lowest_root] in *; lia.
  - intros H.
    assert (Ha : forall p, p = c_root (fc c) \/ p = c_bass (fc c) ->
       exists i, absolute_to_relative p tonic (c_pt (fc c)) false pad = Ok i /\ 0 <= i < decode_num_pitches (c_pt (fc c)) pad).
    { intros p Hp. destruct (absolute_to_relative p tonic (c_pt (fc c)) false pad) as [i|e] eqn:E.
      - exists i. split; [reflexivity|]. exact (proj1 (abs_rel_ok _ _ _ _ _ E)).
      - exfalso. unfold absolute_to_relative in E. destruct (c_pt (fc c)); [|discriminate].
        specialize (H eq_refl p Hp). unfold MAX_RELATIVE_TPC, MIN_RELATIVE_TPC, RELATIVE_TPC_EXTRA in E.
        destruct pad; cbn [andb negb] in E; (destruct (_ || _) eqn:Eo; [|discriminate]);
          apply orb_true_iff in Eo as [Eo|Eo]; [apply Z.ltb_lt in Eo|apply Z.leb_le in Eo|apply Z.ltb_lt in Eo|apply Z.leb_le in Eo]; lia. }
    destruct (Ha _ (or_introl eq_refl)) as (ir & Er & Br). destruct (Ha _ (or_intror eq_refl)) as (ib & Eb & Bb).
    assert (Ho : forall n i, 0 <= i < n -> exists w, one_hot_vec n i = Ok w).
    { intros n i Hi. unfold one_hot_vec. rewrite py_upd_pos; [eexists; reflexivity|]. unfold zlen. rewrite repeat_length. lia. }
    unfold to_vec. fold tonic. rewrite num_pitches_cases, Er. cbn [bind].
    destruct (Ho _ ir Br) as (v1 & ->). cbn [bind].
    destruct (Ho (zlen all_chord_types) (ct_value (red (c_type (fc c))))) as (v2 & ->); [exact (ct_value_bound _)|]. cbn [bind].
    rewrite Eb. cbn [bind]. destruct (Ho _ ib Bb) as (v3 & ->). cbn [bind].
    destruct (Ho 4 _ H1) as (v4 & ->). cbn [bind]. destruct (Ho 4 _ H2) as (v5 & ->). cbn [bind].
    destruct (Ho 4 _ H3) as (v6 & ->). cbn [bind]. eexists. reflexivity.
Qed.
Print Assumptions C15_accepts.

Example C15_example : exists v, to_vec ex_full (Some (14, MINOR)) true TRIAD_REDUCTION = Ok v
  /\ decode_chord_vector v true None = Ok {| d_root := 2; d_bass := 6; d_mode := MINOR; d_type := Maj; d_inv := 1;
       d_onset_level := 2; d_offset_level := 3; d_pt := TPC |}.
Proof. eexists. split; vm_compute; reflexivity. Qed.

(* ---- C16 ---- *)
(* Missing for the full claim: a transposed pitch outside the range is not refused. *)
Theorem C16_transpose_partial : forall x v interval pto, note_to_vec x = Ok v ->
  0 <= nv_pitch x -> 0 <= nv_pitch x + interval < pitch_count (nv_pt x) ->
  pto = None \/ pto = Some (nv_pt x) ->
  transpose_note_vector v interval pto
  = note_to_vec {| nv_pitch := nv_pitch x + interval; nv_octave := nv_octave x; nv_onset_level := nv_onset_level x;
       nv_offset_level := nv_offset_level x; nv_metrical := nv_metrical x; nv_durations := nv_durations x;
       nv_is_min := nv_is_min x; nv_relative_octave := nv_relative_octave x; nv_height := nv_height x;
       nv_relative_height := nv_relative_height x; nv_pt := nv_pt x |}.
Proof.
  intros x v interval pto H Hp Hq Hpto. unfold note_to_vec in *.
  cbn [nv_pitch nv_octave nv_onset_level nv_offset_level nv_metrical nv_durations nv_is_min nv_relative_octave nv_height nv_relative_height nv_pt].
  assert (Hn : pitch_count (nv_pt x) = NUM_PITCHES (nv_pt x)) by (destruct (nv_pt x); reflexivity). rewrite Hn in Hq.
  destruct (one_hot_vec (NUM_PITCHES (nv_pt x)) (nv_pitch x)) as [v1|] eqn:E1; [|discriminate]. cbn [bind] in H.
  apply one_hot_ok in E1 as (Hlt & -> & _); [|exact Hp|lia].
  assert (E1' : one_hot_vec (NUM_PITCHES (nv_pt x)) (nv_pitch x + interval)
     = Ok (hot (Z.to_nat (NUM_PITCHES (nv_pt x))) (Z.to_nat (nv_pitch x + interval)))).
  { unfold one_hot_vec. rewrite py_upd_pos by (unfold zlen; rewrite repeat_length; lia).
    rewrite upd_repeat by lia. reflexivity. }
  rewrite E1'. cbn [bind].
  assert (Hl : forall n i w, 0 <= n -> one_hot_vec n i = Ok w -> zlen w = n).
  { intros n i w Hn' Hw. unfold one_hot_vec, py_upd in Hw. destruct (_ || _) in Hw; [discriminate|]. apply Ok_inj in Hw. subst w.
    unfold zlen. rewrite upd_nat_length, repeat_length. lia. }
  destruct (one_hot_vec num_octaves (nv_octave x)) as [v2|] eqn:E2; [|discriminate]. cbn [bind] in *.
  destruct (one_hot_vec 4 (nv_onset_level x)) as [v3|] eqn:E3; [|discriminate]. cbn [bind] in *.
  destruct (one_hot_vec 4 (nv_offset_level x)) as [v4|] eqn:E4; [|discriminate]. cbn [bind] in *.
  destruct (one_hot_vec num_octaves (nv_relative_octave x)) as [v5|] eqn:E5; [|discriminate]. cbn [bind] in *.
  destruct (nv_metrical x) as [[m1 m2] m3]. destruct (nv_durations x) as [d1 d2].
  apply Ok_inj in H. subst v.
  apply note_transpose_ok; try assumption; [lia|].
  apply Hl in E2; [|vm_compute; discriminate]. apply Hl in E3; [|lia]. apply Hl in E4; [|lia]. apply Hl in E5; [|vm_compute; discriminate].
  rewrite !zlen_app, E2, E3, E4, E5. unfold zlen. cbn [length]. lia.
Qed.
Print Assumptions C16_transpose_partial.

Definition ex_note : note_vec_in := {| nv_pitch := 10; nv_octave := 4; nv_onset_level := 3; nv_offset_level := 0;
  nv_metrical := (0, 0, 0); nv_durations := (0, 0); nv_is_min := false; nv_relative_octave := 2;
  nv_height := 0; nv_relative_height := 0; nv_pt := MIDI |}.
(* Finding: a transposition out of range is accepted; upwards it sets the entry of an octave
   next to the real one, downwards it overwrites entries at the end of the vector. *)
Theorem C16_refuses_refuted : exists v w, note_to_vec ex_note = Ok v
  /\ transpose_note_vector v 5 None = Ok w /\ py_slice w 0 12 = repeat 0 12 /\ zsum (py_slice w 12 22) = 2
  /\ exists w', transpose_note_vector v (-11) None = Ok w' /\ py_slice w' 0 12 = repeat 0 12 /\ py_nth w' (-1) = Ok 1.
Proof.
  eexists _, _. split; [vm_compute; reflexivity|]. split; [vm_compute; reflexivity|].
  split; [vm_compute; reflexivity|]. split; [vm_compute; reflexivity|].
  eexists. split; [vm_compute; reflexivity|]. split; vm_compute; reflexivity.
Qed.
Print Assumptions C16_refuses_refuted.

(* Finding: decode_note_vector rejects every input. *)
Theorem C16_decode_note_refuted : forall v p, decode_note_vector v <> Ok p.
Proof. exact decode_note_always_raises. Qed.
Print Assumptions C16_decode_note_refuted.

Example C16_example : exists v, note_to_vec ex_note = Ok v /\ 0 <= nv_pitch ex_note + -3 < pitch_count MIDI
  /\ decode_note_vector v = Raise ValueError.
Proof. eexists. split; [vm_compute; reflexivity|]. split; [vm_compute; split; congruence|vm_compute; reflexivity]. Qed.
