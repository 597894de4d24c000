(* Properties C65 and C68: transposed training items and pitch-based targets. *)
From Coq Require Import QArith Permutation Lia.
From Verif Require Import Spec_Music Proof_Base Proof_Codec Proof_CodecSpec Proof_Vectors Proof_Transpose Spec_Dataset Proof_Dataset Proof_KeySeq Prop_Vectors Prop_Pitch Model_Search.
Import ListNotations.
Close Scope Q_scope.
Open Scope Z_scope.

(* ---- C65: transpositions ---- *)
(* the indexes are the pairs of an item and a transposition *)
Theorem C65_index : forall lo hi n, lo <= hi ->
  (forall item, 0 <= item < ccd_len lo hi n ->
     let (k, tr) := ccd_index lo hi item in 0 <= k < n /\ lo <= tr <= hi)
  /\ (forall k tr, 0 <= k < n -> lo <= tr <= hi ->
        exists item, 0 <= item < ccd_len lo hi n /\ ccd_index lo hi item = (k, tr)
          /\ forall item', ccd_index lo hi item' = (k, tr) -> item' = item).
Proof.
  intros lo hi n H. unfold ccd_len, ccd_index, num_transpositions. set (m := hi - lo + 1). assert (Hm : 0 < m) by (unfold m; lia).
  split.
  - intros item Hi. assert (B := Z.mod_pos_bound item m Hm). split; [|unfold m in *; lia]. split.
    + apply Z.div_pos; lia.
    + apply Z.div_lt_upper_bound; lia.
  - intros k tr Hk Ht. assert (Hr : 0 <= tr - lo < m) by (unfold m; lia). exists (k * m + (tr - lo)).
    assert (Ed : (k * m + (tr - lo)) / m = k) by (rewrite Z.add_comm, Z.div_add by lia; rewrite Z.div_small by lia; lia).
    assert (Em : (k * m + (tr - lo)) mod m = tr - lo) by (rewrite Z.add_comm, Z.mod_add by lia; apply Z.mod_small; lia).
    split; [nia|]. split; [rewrite Ed, Em; f_equal; lia|]. intros item' E. injection E as E1 E2.
    rewrite (Z.div_mod item' m) by lia. rewrite E1. replace (item' mod m) with (tr - lo) by lia. lia.
Qed.
Print Assumptions C65_index.
Example C65_index_ex : map (ccd_index (-1) 1) [0; 1; 2; 3; 4; 5] = [(0, -1); (0, 0); (0, 1); (1, -1); (1, 0); (1, 1)].
Proof. reflexivity. Qed.

Lemma transpose_rows_ok pt tr notes : forall rows extra,
  Forall2 (fun x r => match x with
     | Some n => nv_pt n = pt /\ 0 <= nv_pitch n /\ 0 <= nv_pitch n + tr < pitch_count pt /\ note_to_vec n = Ok r /\ zsum r <> 0
     | None => zsum r = 0 end) notes rows ->
  exists rows', transpose_rows pt tr (rows ++ extra) (length rows) = Ok (rows' ++ extra)
    /\ Forall2 (fun xr r' => match fst xr with Some n => note_to_vec (shifted n tr) = Ok r' | None => r' = snd xr end) (combine notes rows) rows'.
Proof.
  intros rows extra F. unfold transpose_rows. rewrite skipn_app, skipn_all, Nat.sub_diag. cbn [skipn app].
  rewrite firstn_app, firstn_all, Nat.sub_diag. cbn [firstn]. rewrite app_nil_r.
  assert (A : exists rows', mapM (fun v => if zsum v =? 0 then Ok v else transpose_note_vector v tr (Some pt)) rows = Ok rows'
    /\ Forall2 (fun xr r' => match fst xr with Some n => note_to_vec (shifted n tr) = Ok r' | None => r' = snd xr end) (combine notes rows) rows').
  { induction F as [|x r notes rows Hx F (rows' & E & F2)]; [exists []; split; [reflexivity|constructor]|]. cbn [mapM combine].
    destruct x as [n|].
    - destruct Hx as (H1 & H2 & H3 & H4 & H5). destruct (Z.eqb_spec (zsum r) 0); [congruence|]. subst pt.
      rewrite (C16_transpose_partial n r tr (Some (nv_pt n)) H4 H2 H3 (or_intror eq_refl)). fold (shifted n tr).
      assert (Hok : exists r', note_to_vec (shifted n tr) = Ok r').
      { unfold note_to_vec in *. cbn [shifted nv_pitch nv_octave nv_onset_level nv_offset_level nv_metrical nv_durations nv_is_min nv_relative_octave nv_height nv_relative_height nv_pt].
        apply bind_ok in H4 as (v1 & _ & H4).
        assert (Hv : exists w, one_hot_vec (NUM_PITCHES (nv_pt n)) (nv_pitch n + tr) = Ok w).
        { unfold one_hot_vec. rewrite py_upd_pos; [eexists; reflexivity|]. unfold zlen. rewrite repeat_length. destruct (nv_pt n); cbn in *; lia. }
        destruct Hv as (w & ->). cbn [bind]. apply bind_ok in H4 as (v2 & -> & H4). apply bind_ok in H4 as (v3 & -> & H4). apply bind_ok in H4 as (v4 & -> & H4).
        apply bind_ok in H4 as (v5 & -> & H4). cbn [bind]. destruct (nv_metrical n) as [[m1 m2] m3]. destruct (nv_durations n). eexists. reflexivity. }
      destruct Hok as (r' & Er). rewrite Er. cbn [bind]. rewrite E. cbn [bind]. exists (r' :: rows'). split; [reflexivity|]. constructor; [exact Er|exact F2].
    - rewrite Hx. cbn [Z.eqb bind]. rewrite E. cbn [bind]. exists (r :: rows'). split; [reflexivity|]. constructor; [reflexivity|exact F2]. }
  destruct A as (rows' & E & F2). exists rows'. rewrite E. split; [reflexivity|exact F2].
Qed.

(* Missing: notes that the transposition moves out of the range are not refused (see below). *)
Theorem C65_items_partial : forall pt red ui tr t root inv i0 target notes rows extra,
  (forall u, red (red u) = red u) ->
  get_chord_one_hot_index t root pt inv true false false NO_REDUCTION = Ok i0 ->
  (* the chord has a place in the reduced vocabulary *)
  get_chord_one_hot_index t root pt inv ui false false red = Ok target ->
  Forall2 (fun x r => match x with
     | Some n => nv_pt n = pt /\ 0 <= nv_pitch n /\ 0 <= nv_pitch n + tr < pitch_count pt /\ note_to_vec n = Ok r /\ zsum r <> 0
     | None => zsum r = 0 end) notes rows ->
  let inv' := if ui then inv else 0 in
  let fits := 0 <= root + tr < pitch_count pt
     /\ (pt = TPC -> forall f, nth_error (chord_fifths (red t)) (Z.to_nat inv') = Some f -> 0 <= root + tr + f < 35) in
  exists d, ccd_reduce pt red ui tr (rows ++ extra) (length rows) i0 = Ok d
    /\ (~ fits -> refused d)
    /\ (fits ->
        get_chord_from_one_hot_index (ci_target d) pt ui false false red = Ok (root + tr, red t, inv')
        /\ ci_length d = Z.of_nat (length rows) /\ ci_root d = root + tr
        /\ (exists f, nth_error (chord_fifths (red t)) (Z.to_nat inv') = Some f
              /\ ci_bass d = match pt with TPC => root + tr + f | MIDI => (root + tr + 7 * f) mod 12 end)
        /\ get_vector_from_chord_type (red t) pt (Some (root + tr)) = Ok (ci_pitches d)
        /\ exists rows', ci_inputs d = rows' ++ extra
             /\ Forall2 (fun xr r' => match fst xr with Some n => note_to_vec (shifted n tr) = Ok r' | None => r' = snd xr end)
                        (combine notes rows) rows').
Proof.
  intros pt red ui tr t root inv i0 target notes rows extra Hid E0 E1 F inv' fits.
  assert (Hred : reduce_chord_one_hots [i0] false pt true NO_REDUCTION false red ui = Ok [target]).
  { rewrite (C13_reduce_after_is_reduce_before pt true NO_REDUCTION false false red ui [(t, root, inv)] [i0]).
    - cbn [mapM]. replace (NO_REDUCTION t) with t by reflexivity. rewrite E1. reflexivity.
    - cbn [mapM]. rewrite E0. reflexivity. }
  assert (Hdec := roundtrip_s _ _ _ _ _ _ _ _ _ E1). assert (Hlow : lowest_root pt false false = 0) by (destruct pt; reflexivity).
  rewrite Hlow, Z.add_0_r in Hdec. fold inv' in Hdec.
  assert (Hcount : root_count pt false false = pitch_count pt) by (destruct pt; reflexivity).
  assert (Hroot : 0 <= root < pitch_count pt /\ (ui = true -> 0 <= inv < positions (red t))).
  { destruct (rejects_s t root pt inv ui false false red) as [[E _]|(i & _ & H1 & H2)]; [congruence|]. rewrite Hcount in H1. auto. }
  destruct Hroot as [Hroot Hinv].
  assert (Hpos : positions (red t) = zlen (chord_fifths (red t))) by (destruct (red t); reflexivity).
  assert (Hinv' : 0 <= inv' < positions (red t)).
  { unfold inv'. destruct ui; [auto|]. destruct (red t); cbn; lia. }
  destruct (nth_error (chord_fifths (red t)) (Z.to_nat inv')) as [f|] eqn:Ef; [|exfalso; apply nth_error_None in Ef; rewrite Hpos in Hinv'; unfold zlen in Hinv'; lia].
  unfold ccd_reduce. rewrite Hred. cbn [bind]. unfold hget at 1. cbn [nth_error bind].
  (* the intermediate targets of the new index *)
  assert (Hmid : forall i r', 0 <= r' < pitch_count pt -> get_chord_from_one_hot_index i pt ui false false red = Ok (r', red t, inv') ->
    exists pitches, get_vector_from_chord_type (red t) pt (Some r') = Ok pitches
      /\ intermediate_targets pt red ui i =
         if match pt with TPC => (0 <=? r' + f) && (r' + f <? 35) | MIDI => true end
         then Ok (r', match pt with TPC => r' + f | MIDI => (r' + 7 * f) mod 12 end, pitches) else Raise ValueError).
  { intros i r' Hr' Hi. destruct (chord_vector_spec (red t) pt r') as (w & Ew & _). exists w. split; [exact Ew|].
    unfold intermediate_targets. rewrite Hi. cbn [bind]. rewrite bass_note_spec. cbv zeta.
    replace (inv' <? 0) with false by (symmetry; apply Z.ltb_ge; lia). rewrite Ef.
    replace (inv' <? - positions (red t)) with false by (symmetry; apply Z.ltb_ge; lia).
    replace (positions (red t) <=? inv') with false by (symmetry; apply Z.leb_gt; lia). cbn [orb].
    destruct pt; [|rewrite Ew; reflexivity]. destruct ((0 <=? r' + f) && (r' + f <? 35)); [|reflexivity]. cbn [bind]. rewrite Ew. reflexivity. }
  set (body := let! (target, rows) := _ in _).
  assert (Hbody : (body = Raise ValueError /\ ~ fits) \/ (exists i rows' pitches, fits /\ get_chord_from_one_hot_index i pt ui false false red = Ok (root + tr, red t, inv')
     /\ body = Ok (mkCI (rows' ++ extra) (Z.of_nat (length rows)) i (root + tr) (match pt with TPC => root + tr + f | MIDI => (root + tr + 7 * f) mod 12 end) pitches)
     /\ get_vector_from_chord_type (red t) pt (Some (root + tr)) = Ok pitches
     /\ Forall2 (fun xr r' => match fst xr with Some n => note_to_vec (shifted n tr) = Ok r' | None => r' = snd xr end) (combine notes rows) rows')).
  { assert (Hstep : (~ (0 <= root + tr < pitch_count pt) /\ body = Raise ValueError)
       \/ (0 <= root + tr < pitch_count pt /\ exists i rows', get_chord_from_one_hot_index i pt ui false false red = Ok (root + tr, red t, inv')
           /\ body = (let! (rb, pitches) := intermediate_targets pt red ui i in let (root, bass) := rb : Z * Z in Ok (mkCI (rows' ++ extra) (Z.of_nat (length rows)) i root bass pitches))
           /\ Forall2 (fun xr r' => match fst xr with Some n => note_to_vec (shifted n tr) = Ok r' | None => r' = snd xr end) (combine notes rows) rows')).
    { destruct (Z.eqb_spec tr 0) as [->|Hne].
      - right. rewrite Z.add_0_r. split; [exact Hroot|]. exists target, rows. split; [exact Hdec|]. split; [reflexivity|].
        clear - F. induction F as [|x r notes rows Hx F IH]; [constructor|]. cbn [combine]. constructor; [|exact IH]. cbn [fst snd]. destruct x as [n|]; [|reflexivity].
        destruct Hx as (_ & _ & _ & Hx & _). rewrite <- Hx. unfold shifted. rewrite Z.add_0_r. now destruct n.
      - unfold body. rewrite Hdec. cbn [bind].
        destruct (rejects_s (red t) (root + tr) pt inv' ui false false red) as [[E Hc]|(i & E & Hr & _)].
        + left. rewrite E. split; [|reflexivity]. rewrite Hcount in Hc. rewrite Hid in Hc. destruct Hc as [Hc|[Hc|[Hu Hc]]]; [lia|lia|]. rewrite Hu in *. lia.
        + right. rewrite Hcount in Hr. split; [exact Hr|]. destruct (transpose_rows_ok pt tr notes rows extra F) as (rows' & Et & F').
          assert (Hdi := roundtrip_s _ _ _ _ _ _ _ _ _ E). rewrite Hlow, Z.add_0_r, Hid in Hdi.
          exists i, rows'. split; [rewrite Hdi; unfold inv'; destruct ui; reflexivity|]. rewrite E. cbn [bind]. rewrite Et. cbn [bind]. split; [reflexivity|exact F']. }
    destruct Hstep as [[Hn Eb]|(Hr & i & rows' & Ei & Eb & F')].
    - left. split; [exact Eb|]. intros [H _]. contradiction.
    - destruct (Hmid i (root + tr) Hr Ei) as (pitches & Ep & Em). rewrite Em in Eb.
      destruct (match pt with TPC => (0 <=? root + tr + f) && (root + tr + f <? 35) | MIDI => true end) eqn:Ec.
      + right. cbn [bind] in Eb. exists i, rows', pitches. split; [|auto]. split; [exact Hr|]. intros -> f' Hf'. replace f' with f by congruence. apply andb_prop in Ec as [H1 H2].
        apply Z.leb_le in H1. apply Z.ltb_lt in H2. lia.
      + left. split; [exact Eb|]. intros [_ H]. destruct pt; [|discriminate]. specialize (H eq_refl f eq_refl). apply andb_false_iff in Ec as [H1|H1]; [apply Z.leb_gt in H1|apply Z.ltb_ge in H1]; lia. }
  clearbody body. destruct Hbody as [[-> Hn]|(i & rows' & pitches & Hf & Hi & -> & Hp & F')].
  - eexists. split; [reflexivity|]. split; [|intros H; contradiction]. intros _. unfold refused. cbn [ci_target ci_length ci_root ci_bass ci_inputs].
    repeat (split; [reflexivity|]). apply Forall_map, Forall_forall. intros r _. apply Forall_map, Forall_forall. auto.
  - eexists. split; [reflexivity|]. split; [intros H; contradiction|]. intros _. cbn [ci_target ci_length ci_root ci_bass ci_pitches ci_inputs].
    split; [exact Hi|]. split; [reflexivity|]. split; [reflexivity|]. split; [exists f; auto|]. split; [exact Hp|]. exists rows'. auto.
Qed.
Print Assumptions C65_items_partial.
(* a seventh chord over its notes, one fifth up; a blank row in the window; padding *)
Definition note65 (p : Z) : note_vec_in :=
  {| nv_pitch := p; nv_octave := 4; nv_onset_level := 3; nv_offset_level := 0; nv_metrical := (0, 0, 0); nv_durations := (0, 0);
     nv_is_min := false; nv_relative_octave := 2; nv_height := 0; nv_relative_height := 0; nv_pt := TPC |}.
Definition vec65 (p : Z) : list Z := match note_to_vec (note65 p) with Ok v => v | Raise _ => [] end.
Example C65_items_ex : exists i0 target,
  get_chord_one_hot_index Maj_Min7 16 TPC 1 true false false NO_REDUCTION = Ok i0
  /\ get_chord_one_hot_index Maj_Min7 16 TPC 1 true false false TRIAD_REDUCTION = Ok target
  /\ Forall2 (fun x r => match x with
     | Some n => nv_pt n = TPC /\ 0 <= nv_pitch n /\ 0 <= nv_pitch n + 1 < pitch_count TPC /\ note_to_vec n = Ok r /\ zsum r <> 0
     | None => zsum r = 0 end) [None; Some (note65 20); Some (note65 16)] [zeros 5; vec65 20; vec65 16].
Proof.
  eexists _, _. split; [vm_compute; reflexivity|]. split; [vm_compute; reflexivity|].
  constructor; [reflexivity|]. constructor; [|constructor; [|constructor]];
    (split; [reflexivity|]; split; [vm_compute; discriminate|]; split; [vm_compute; split; [discriminate|reflexivity]|]; split; [vm_compute; reflexivity|vm_compute; discriminate]).
Qed.
(* Finding: a note that the transposition moves below or above the pitches is not refused.  The item
   keeps its target and length, but the note has no pitch any more. *)
Theorem C65_notes_refuted : exists i0 d r, get_chord_one_hot_index Maj 16 TPC 0 true false false NO_REDUCTION = Ok i0
  /\ ccd_reduce TPC NO_REDUCTION true 10 [vec65 16; vec65 28] 2 i0 = Ok d
  /\ ci_target d <> -1 /\ nth_error (ci_inputs d) 1 = Some r /\ firstn 35 r = repeat 0 35.
Proof.
  eexists _, _, _. split; [vm_compute; reflexivity|]. split; [vm_compute; reflexivity|]. split; [vm_compute; discriminate|].
  split; [vm_compute; reflexivity|vm_compute; reflexivity].
Qed.
Print Assumptions C65_notes_refuted.
(* Finding: MIDI pitch classes have no end, but every transposition of the root past B or below C
   marks the item as unusable. *)
Theorem C65_midi_refuted : forall red ui tr t root inv i0 target notes rows extra,
  (forall u, red (red u) = red u) ->
  get_chord_one_hot_index t root MIDI inv true false false NO_REDUCTION = Ok i0 ->
  get_chord_one_hot_index t root MIDI inv ui false false red = Ok target ->
  Forall2 (fun x r => match x with
     | Some n => nv_pt n = MIDI /\ 0 <= nv_pitch n /\ 0 <= nv_pitch n + tr < 12 /\ note_to_vec n = Ok r /\ zsum r <> 0
     | None => zsum r = 0 end) notes rows ->
  root + tr < 0 \/ 12 <= root + tr ->
  exists d, ccd_reduce MIDI red ui tr (rows ++ extra) (length rows) i0 = Ok d /\ refused d.
Proof.
  intros red ui tr t root inv i0 target notes rows extra Hid E0 E1 F H.
  destruct (C65_items_partial MIDI red ui tr t root inv i0 target notes rows extra Hid E0 E1 F) as (d & Ed & Hr & _).
  exists d. split; [exact Ed|]. apply Hr. intros [Hf _]. cbn in Hf. lia.
Qed.
Print Assumptions C65_midi_refuted.

(* ---- C68: pitch-based targets of the chord sequence model ---- *)
(* the pitches of the relative vocabulary: -14..14, or the twelve pitch classes *)
Definition rel_pitches (pt : pitch_type) : Z := match pt with TPC => 29 | MIDI => 12 end.
Lemma decode_root_range i pt ui red root t inv : get_chord_from_one_hot_index i pt ui true false red = Ok (root, t, inv) ->
  0 <= i < get_chord_vector_length pt true true ui false red ->
  lowest_root pt true false <= root < lowest_root pt true false + root_count pt true false.
Proof.
  intros H Hi. destruct (decode_encode_s i pt ui true false red Hi) as (r & u & v & E & _ & Hr & _). rewrite H in E. apply Ok_inj in E. injection E as <- _ _. exact Hr.
Qed.
Lemma pitch_row_cases pt red ui target root t inv : get_chord_from_one_hot_index target pt ui true false red = Ok (root, t, inv) ->
  exists v, get_vector_from_chord_type t pt (Some (match pt with TPC => root + 14 | MIDI => root end)) = Ok v
    /\ pitch_row pt red ui target = if zsum (py_slice v (rel_pitches pt) (zlen v)) =? 0 then Ok (py_slice v 0 (rel_pitches pt)) else Raise AssertionError.
Proof.
  intros H. destruct (chord_vector_spec t pt (match pt with TPC => root + 14 | MIDI => root end)) as (v & Ev & _). exists v. split; [exact Ev|].
  unfold pitch_row. rewrite H. cbn [bind]. destruct pt.
  - replace (root - MIN_RELATIVE_TPC) with (root + 14) by (unfold MIN_RELATIVE_TPC; lia). rewrite Ev. reflexivity.
  - rewrite Ev. reflexivity.
Qed.
Theorem C68_row : forall pt red ui target root t inv w,
  get_chord_from_one_hot_index target pt ui true false red = Ok (root, t, inv) -> pitch_row pt red ui target = Ok w ->
  zlen w = rel_pitches pt
  /\ forall p, 0 <= p < rel_pitches pt ->
     let sounds := exists f, In f (chord_fifths t) /\ match pt with TPC => p - 14 = root + f | MIDI => p = (root + 7 * f) mod 12 end in
     (nth (Z.to_nat p) w 0 = 1 /\ sounds) \/ (nth (Z.to_nat p) w 0 = 0 /\ ~ sounds).
Proof.
  intros pt red ui target root t inv w H Hw. destruct (pitch_row_cases _ _ _ _ _ _ _ H) as (v & Ev & E). rewrite E in Hw. clear E H.
  destruct (zsum _ =? 0) in Hw; [|discriminate]. apply Ok_inj in Hw.
  destruct (chord_vector_spec t pt (match pt with TPC => root + 14 | MIDI => root end)) as (v' & Ev' & Hl & Hv). rewrite Ev in Ev'. apply Ok_inj in Ev'. subst v'.
  assert (Hle : rel_pitches pt <= pitch_count pt) by (destruct pt; vm_compute; discriminate).
  assert (H0 : 0 <= rel_pitches pt) by (destruct pt; vm_compute; discriminate).
  rewrite py_slice_full_prefix in Hw by exact H0. subst w.
  split. { unfold zlen in *. rewrite firstn_length. lia. }
  intros p Hp sounds.
  assert (En : nth (Z.to_nat p) (firstn (Z.to_nat (rel_pitches pt)) v) 0 = nth (Z.to_nat p) v 0).
  { rewrite <- (firstn_skipn (Z.to_nat (rel_pitches pt)) v) at 2. rewrite app_nth1; [reflexivity|]. rewrite firstn_length. unfold zlen in Hl. lia. }
  rewrite En. destruct (Hv p ltac:(lia)) as [[H1 (f & Hf & Hp2)]|[H1 Hn]].
  - left. split; [exact H1|]. exists f. split; [exact Hf|]. destruct pt; [lia|exact Hp2].
  - right. split; [exact H1|]. intros (f & Hf & Hp2). specialize (Hn f Hf). destruct pt; [lia|contradiction].
Qed.
Print Assumptions C68_row.

(* for MIDI there is always a row; otherwise there is one if no pitch of the chord is above 14 *)
Definition row_fits (t : chord_type) (r : Z) : bool :=
  match get_vector_from_chord_type t TPC (Some (r + 14)) with
  | Ok v => Bool.eqb (zsum (py_slice v 29 (zlen v)) =? 0) (forallb (fun f => r + f <=? 14) (chord_fifths t))
  | Raise _ => false end.
Lemma row_fits_all : forall t r, -14 <= r < 15 -> row_fits t r = true.
Proof.
  intros t r Hr. assert (A : forallb (fun t => forallb (row_fits t) (zrange (-14) 15)) all_chord_types = true) by (vm_compute; reflexivity).
  rewrite forallb_forall in A. specialize (A t ltac:(destruct t; cbn; tauto)). rewrite forallb_forall in A. apply A.
  apply in_zrange. lia.
Qed.
Theorem C68_accepts : forall pt red ui target root t inv, get_chord_from_one_hot_index target pt ui true false red = Ok (root, t, inv) ->
  0 <= target < get_chord_vector_length pt true true ui false red ->
  (is_ok (pitch_row pt red ui target) = true <-> (pt = TPC -> forall f, In f (chord_fifths t) -> root + f <= 14)).
Proof.
  intros pt red ui target root t inv H Hi. assert (Hr := decode_root_range _ _ _ _ _ _ _ H Hi).
  destruct (pitch_row_cases _ _ _ _ _ _ _ H) as (v & Ev & ->). destruct pt.
  - cbn [lowest_root root_count] in Hr. assert (Hf := row_fits_all t root ltac:(lia)). unfold row_fits in Hf. rewrite Ev in Hf.
    apply Bool.eqb_prop in Hf. cbn [rel_pitches]. rewrite Hf. destruct (forallb _ (chord_fifths t)) eqn:Ea.
    + split; [|reflexivity]. intros _ _ f Hin. rewrite forallb_forall in Ea. specialize (Ea f Hin). apply Z.leb_le in Ea. exact Ea.
    + split; [discriminate|]. intros Hall. exfalso. assert (Et : forallb (fun f => root + f <=? 14) (chord_fifths t) = true).
      { apply forallb_forall. intros f Hin. apply Z.leb_le. now apply Hall. }
      congruence.
  - split; [discriminate|]. intros _. destruct (chord_vector_spec t MIDI root) as (v' & Ev' & Hl & _). cbn [rel_pitches]. 
    assert (v' = v) by (rewrite Ev in Ev'; apply Ok_inj in Ev'; congruence). subst v'. cbn [pitch_count] in Hl. rewrite Hl.
    replace (py_slice v 12 12) with (@nil Z); [reflexivity|]. rewrite py_slice_spec by lia. rewrite Z.sub_diag. reflexivity.
Qed.
Print Assumptions C68_accepts.

Lemma py_nth_last (l : list Z) d x : py_nth l (-1) = Ok x -> x = last l d.
Proof.
  unfold py_nth. destruct (Nat.eq_dec (length l) 0) as [E|E]; [destruct l; discriminate|]. cbn [Z.ltb Z.compare].
  assert (Hl : l <> []) by (intros ->; cbn in E; lia). assert (L := Proof_KeySeq.last_nth l d Hl).
  destruct (_ || _); [discriminate|]. unfold zlen. replace (Z.to_nat (-1 + Z.of_nat (length l))) with (length l - 1)%nat by lia.
  rewrite L. intros H. apply Ok_inj in H. congruence.
Qed.
(* Rows of an item: the first chord and chords at key changes are not measured, nor is the padding *)
Theorem C68_targets : forall pt red ui targets inputs len rows,
  pitch_targets pt red ui targets inputs len = Ok rows -> (len <= length targets)%nat -> length inputs = length targets ->
  length rows = length targets
  /\ forall i target r w, nth_error targets i = Some target -> nth_error inputs i = Some r -> nth_error rows i = Some w ->
       if (1 <=? i)%nat && (i <? len)%nat && negb (last r 0 =? 1)
       then pitch_row pt red ui target = Ok w
       else w = repeat (-100) (Z.to_nat (rel_pitches pt)).
Proof.
  intros pt red ui targets inputs len rows H Hl Hi. unfold pitch_targets in H.
  replace (match pt with TPC => MAX_RELATIVE_TPC - MIN_RELATIVE_TPC | MIDI => NUM_PITCHES MIDI end) with (rel_pitches pt) in H by (destruct pt; reflexivity).
  set (blank := repeat (-100) (Z.to_nat (rel_pitches pt))) in *. apply bind_ok in H as (mid & Em & H). apply Ok_inj in H. apply mapM_forall2 in Em.
  assert (Lm : length mid = (len - 1)%nat).
  { rewrite <- (Forall2_len _ _ _ Em), combine_length. unfold Model_Dataset.between. rewrite !firstn_length, !skipn_length. lia. }
  destruct targets as [|t0 targets].
  { cbn in Hl. destruct mid; [|cbn in Lm; lia]. cbn in H. subst rows. split; [reflexivity|]. intros [|i] target r w Ht; discriminate. }
  cbn [map firstn length] in H. cbn [app] in H. replace (S (length targets) - 1 - length mid)%nat with (length targets - length mid)%nat in H by lia. cbn [length] in Hl.
  subst rows. split; [cbn [length]; rewrite app_length, repeat_length; lia|].
  intros [|i] target r w Ht Hr Hw; cbn [nth_error] in Ht, Hw.
  { cbn. congruence. }
  cbn [Nat.leb andb]. destruct (Nat.lt_ge_cases i (length mid)) as [Hlt|Hge].
  - replace (S i <? len)%nat with true by (symmetry; apply Nat.ltb_lt; lia). cbn [andb]. rewrite nth_error_app1 in Hw by exact Hlt.
    destruct (forall2_nth_r _ _ _ Em i w Hw) as ([tg r'] & Hc & Hx). apply Proof_KeySeq.nth_combine in Hc as [Hc1 Hc2].
    unfold Model_Dataset.between in Hc1, Hc2. rewrite Proof_KeySeq.nth_firstn in Hc1 by lia. rewrite (@Proof_KeySeq.nth_firstn (list Z)) in Hc2 by lia. cbn [skipn] in Hc1. rewrite Ht in Hc1. injection Hc1 as <-.
    destruct inputs as [|r0 inputs]; [discriminate|]. cbn [skipn] in Hc2. cbn [nth_error] in Hr. rewrite Hr in Hc2. injection Hc2 as <-. cbn [fst snd] in Hx.
    apply bind_ok in Hx as (flag & Ef & Hx).
    assert (Efl : flag = last r 0).
    { now apply py_nth_last. }
    subst flag. destruct (last r 0 =? 1); cbn [negb]; [apply Ok_inj in Hx; congruence|exact Hx].
  - replace (S i <? len)%nat with false by (symmetry; apply Nat.ltb_ge; lia). cbn [andb]. rewrite nth_error_app2 in Hw by exact Hge.
    apply nth_error_In, repeat_spec in Hw. exact Hw.
Qed.
Print Assumptions C68_targets.

(* What the search makes of a pitch-based output: the vector it compares with is the row the model
   was trained with for MIDI, but never for spelled pitches, where training counts from -14 and the
   search from 0. *)
Definition vectors_differ (t : chord_type) (r : Z) : bool :=
  match get_vector_from_chord_type t TPC (Some (r + 14)), get_vector_from_chord_type t TPC (Some r) with
  | Ok w, Ok v => negb (zsum (py_slice w 29 (zlen w)) =? 0) || negb (if list_eq_dec Z.eq_dec (py_slice w 0 29) (py_slice v 0 29) then true else false)
  | _, _ => false end.
Lemma vectors_differ_all : forall t r, -14 <= r < 15 -> vectors_differ t r = true.
Proof.
  intros t r Hr. assert (A : forallb (fun t => forallb (vectors_differ t) (zrange (-14) 15)) all_chord_types = true) by (vm_compute; reflexivity).
  rewrite forallb_forall in A. specialize (A t ltac:(destruct t; cbn; tauto)). rewrite forallb_forall in A. apply A.
  apply in_zrange. lia.
Qed.
Lemma search_vector cpt kpt durs levels ui red s p i target w : st_prev s = Some p -> st_change p <> 0%nat ->
  relative_chord_index cpt kpt durs levels s = Ok i ->
  reduce_chord_one_hots [i] false cpt true NO_REDUCTION true red ui = Ok [target] ->
  pitch_row cpt red ui target = Ok w ->
  exists root t inv v, get_chord_from_one_hot_index target cpt ui true false red = Ok (root, t, inv)
    /\ get_vector_from_chord_type t cpt (Some root) = Ok v
    /\ forall olog s', add_csm_prior cpt kpt durs levels true ui red olog s = Ok s' ->
         st_csm s' = Some (olog (st_prior s) (py_slice v 0 (rel_pitches cpt)) * (Z.of_nat (st_change s) - Z.of_nat (st_change p))).
Proof.
  intros Hp Hc Hi Ht Hw. assert (Ht1 : reduce_one_hot false cpt true NO_REDUCTION true red ui i = Ok target).
  { unfold reduce_chord_one_hots in Ht. cbn [mapM] in Ht. apply bind_ok in Ht as (x & Ex & Ht). apply Ok_inj in Ht. injection Ht as <-. exact Ex. }
  unfold pitch_row in Hw. apply bind_ok in Hw as ([[root t] inv] & Ed & _).
  destruct (chord_vector_spec t cpt root) as (v & Ev & _). exists root, t, inv, v. split; [exact Ed|]. split; [exact Ev|].
  intros olog s' H. unfold add_csm_prior in H. unfold the_prev in H. rewrite Hp in H. cbn [bind] in H.
  destruct (Nat.eqb_spec (st_change p) 0) as [|_]; [contradiction|]. rewrite Hi in H. cbn [bind] in H. rewrite Ht1 in H. cbn [bind andb negb] in H.
  rewrite Ed in H. cbn [bind] in H. rewrite Ev in H. cbn [bind] in H.
  replace (match cpt with TPC => MAX_RELATIVE_TPC - MIN_RELATIVE_TPC | MIDI => NUM_PITCHES MIDI end) with (rel_pitches cpt) in H by (destruct cpt; reflexivity).
  destruct (zlen (py_slice v 0 (rel_pitches cpt)) =? zlen (st_prior s)); [|discriminate]. cbn [bind] in H. apply Ok_inj in H. subst s'. reflexivity.
Qed.
Theorem C68_inference_midi : forall kpt durs levels ui red s p i target w,
  st_prev s = Some p -> st_change p <> 0%nat -> relative_chord_index MIDI kpt durs levels s = Ok i ->
  reduce_chord_one_hots [i] false MIDI true NO_REDUCTION true red ui = Ok [target] -> pitch_row MIDI red ui target = Ok w ->
  forall olog s', add_csm_prior MIDI kpt durs levels true ui red olog s = Ok s' ->
    st_csm s' = Some (olog (st_prior s) w * (Z.of_nat (st_change s) - Z.of_nat (st_change p))).
Proof.
  intros kpt durs levels ui red s p i target w Hp Hc Hi Ht Hw olog s' H.
  destruct (search_vector MIDI kpt durs levels ui red s p i target w Hp Hc Hi Ht Hw) as (root & t & inv & v & Ed & Ev & Hs).
  destruct (pitch_row_cases _ _ _ _ _ _ _ Ed) as (v' & Ev' & E). rewrite E in Hw. destruct (_ =? 0) in Hw; [|discriminate]. apply Ok_inj in Hw. subst w.
  rewrite Ev in Ev'. apply Ok_inj in Ev'. subst v'. exact (Hs olog s' H).
Qed.
Print Assumptions C68_inference_midi.
Theorem C68_inference_refuted : forall kpt durs levels ui red s p i target w,
  st_prev s = Some p -> st_change p <> 0%nat -> relative_chord_index TPC kpt durs levels s = Ok i ->
  reduce_chord_one_hots [i] false TPC true NO_REDUCTION true red ui = Ok [target] -> pitch_row TPC red ui target = Ok w ->
  exists v, v <> w /\ forall olog s', add_csm_prior TPC kpt durs levels true ui red olog s = Ok s' ->
    st_csm s' = Some (olog (st_prior s) v * (Z.of_nat (st_change s) - Z.of_nat (st_change p))).
Proof.
  intros kpt durs levels ui red s p i target w Hp Hc Hi Ht Hw.
  destruct (search_vector TPC kpt durs levels ui red s p i target w Hp Hc Hi Ht Hw) as (root & t & inv & v & Ed & Ev & Hs).
  exists (py_slice v 0 29). split; [|exact Hs]. destruct (pitch_row_cases _ _ _ _ _ _ _ Ed) as (v' & Ev' & E). rewrite E in Hw. clear E. cbn [rel_pitches] in Hw.
  destruct (zsum (py_slice v' 29 (zlen v')) =? 0) eqn:Ez; [|discriminate]. apply Ok_inj in Hw. subst w.
  assert (Ht1 : reduce_one_hot false TPC true NO_REDUCTION true red ui i = Ok target).
  { unfold reduce_chord_one_hots in Ht. cbn [mapM] in Ht. apply bind_ok in Ht as (x & Ex & Ht). apply Ok_inj in Ht. injection Ht as <-. exact Ex. }
  unfold reduce_one_hot in Ht1. apply bind_ok in Ht1 as ([[r1 t1] i1] & _ & Ht1). apply bind_ok in Ht1 as (r2 & _ & Ht1).
  apply encode_range in Ht1. assert (Hr := decode_root_range _ _ _ _ _ _ _ Ed Ht1). cbn [lowest_root root_count] in Hr.
  assert (D := vectors_differ_all t root ltac:(lia)). unfold vectors_differ in D. rewrite Ev, Ev', Ez in D. cbn [negb orb] in D.
  destruct (list_eq_dec Z.eq_dec (py_slice v' 0 29) (py_slice v 0 29)); [discriminate|]. congruence.
Qed.
Print Assumptions C68_inference_refuted.

(* the triad on the fifth above the local tonic *)
Example C68_ex : get_chord_from_one_hot_index 45 TPC true true false NO_REDUCTION = Ok (1, Maj, 0)
  /\ pitch_row TPC NO_REDUCTION true 45 = Ok (repeat 0 15 ++ [1; 1; 0; 0; 1] ++ repeat 0 9)
  /\ pitch_targets TPC NO_REDUCTION true [42; 45; 45; 45] [[0; 0]; [1; 0]; [1; 1]; [0; 0]] 3
     = Ok [repeat (-100) 29; repeat 0 15 ++ [1; 1; 0; 0; 1] ++ repeat 0 9; repeat (-100) 29; repeat (-100) 29].
Proof. vm_compute. repeat split; reflexivity. Qed.
(* Finding: a chord with a pitch above 14 stops the item, one with a pitch below -14 loses it. *)
Theorem C68_lost_refuted : exists target root t inv w f,
  0 <= target < get_chord_vector_length TPC true true true false NO_REDUCTION
  /\ get_chord_from_one_hot_index target TPC true true false NO_REDUCTION = Ok (root, t, inv)
  /\ pitch_row TPC NO_REDUCTION true target = Ok w /\ In f (chord_fifths t) /\ root + f < -14
  /\ zsum w < Z.of_nat (length (chord_fifths t)).
Proof.
  exists 174, (-14), Dim, 0. eexists. exists (-6). repeat split; try (vm_compute; (reflexivity || discriminate)). cbn. tauto.
Qed.
Print Assumptions C68_lost_refuted.

(* G major, then G major again in C major, as states of the search *)
Definition state68 (pt : pitch_type) : res state :=
  let! c := get_chord_one_hot_index Maj (match pt with TPC => TPC_C + 1 | MIDI => 7 end) pt 0 true false false NO_REDUCTION in
  let! k := get_key_one_hot_index MAJOR (match pt with TPC => TPC_C | MIDI => 0 end) pt in
  let p0 := mkState None k 0 0 None None [] false None None None in
  let p := mkState (Some c) k 1 0 (Some p0) None [] false None None None in
  Ok (mkState (Some c) k 3 0 (Some p) None (repeat 0 (Z.to_nat (rel_pitches pt))) false None None None).
Definition run68 (pt : pitch_type) : res (Z * row * option Z) :=
  let! s := state68 pt in
  let! i := relative_chord_index pt pt [1; 1; 1] [3; 2; 2; 3] s in
  let! w := pitch_row pt NO_REDUCTION true i in
  let! s' := add_csm_prior pt pt [1; 1; 1] [3; 2; 2; 3] true true NO_REDUCTION (fun _ v => if list_eq_dec Z.eq_dec v w then 5 else 3) s in
  Ok (i, w, st_csm s').
Example C68_inference_ex : exists w w', run68 TPC = Ok (45, w, Some 6) /\ run68 MIDI = Ok (21, w', Some 10).
Proof. eexists. eexists. split; vm_compute; reflexivity. Qed.
