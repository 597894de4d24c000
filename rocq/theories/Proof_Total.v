(* The search runs to its end: every call it makes returns. *)
From Verif Require Import Spec_Total Spec_Beam Proof_Base Proof_Codec Proof_CodecSpec Proof_Vectors Proof_Transpose Proof_Heap Proof_Beam Proof_Search.
From Coq Require Import Permutation.
Open Scope Z_scope.

Lemma mapM_returns {A B} (f : A -> res B) l : (forall a, In a l -> exists b, f a = Ok b) -> exists ls, mapM f l = Ok ls.
Proof.
  induction l as [|a l IH]; intros H; [exists []; reflexivity|]. cbn [mapM].
  destruct (H a (or_introl eq_refl)) as (b & ->). destruct IH as (ls & E); [intros x Hx; apply H; right; exact Hx|].
  cbn [bind]. rewrite E. eexists. reflexivity.
Qed.

Lemma pick_in o forced a b c : pick o (forced_set forced a b) = Some c -> In c forced /\ c <> -1.
Proof.
  unfold pick, forced_set. intros H. apply nth_error_In in H. apply nodup_In, filter_In in H as [H Hn].
  apply py_slice_in in H. apply negb_true_iff, Z.eqb_neq in Hn. auto.
Qed.

(* ---- labels ---- *)
Lemma chord_count_len pt : zlen (chord_labels pt) = chord_count pt.
Proof. destruct pt; vm_compute; reflexivity. Qed.
Lemma key_count_len pt : zlen (key_labels pt) = key_count pt.
Proof. destruct pt; vm_compute; reflexivity. Qed.
Lemma key_change_count_len pt : zlen (relative_key_labels pt) = key_change_count pt.
Proof. destruct pt; vm_compute; reflexivity. Qed.

Lemma chord_label pt c : 0 <= c < chord_count pt -> exists root t inv, py_nth (chord_labels pt) c = Ok (root, t, inv)
  /\ 0 <= root < pitch_count pt /\ 0 <= inv < positions t.
Proof.
  intros H. destruct (decode_encode_s c pt true false false NO_REDUCTION) as (root & t & inv & E & _ & Hr & Hi & _).
  { replace (get_chord_vector_length pt true false true false NO_REDUCTION) with (chord_count pt) by (destruct pt; vm_compute; reflexivity). exact H. }
  exists root, t, inv. split; [exact E|]. split; [|exact Hi]. destruct pt; cbn in Hr |- *; lia.
Qed.
Lemma key_label pt k : 0 <= k < key_count pt -> exists tonic mode, py_nth (key_labels pt) k = Ok (tonic, mode) /\ 0 <= tonic < pitch_count pt.
Proof.
  intros H. destruct (key_inverse_s k pt H) as (tonic & m & E & E2). exists tonic, m. split; [exact E|].
  destruct (key_rejects_s m tonic pt) as [[E3 _]|(i & _ & Hr)]; [congruence|exact Hr].
Qed.

Definition good (pt : pitch_type) (c : Z) : Prop := 0 <= c < chord_count pt /\ playable pt c.
Lemma chord_notes_ok pt c : good pt c -> exists root t inv bass, chord_notes pt c = Ok (root, t, inv, bass)
  /\ py_nth (chord_labels pt) c = Ok (root, t, inv) /\ get_bass_note t root inv pt false = Ok bass
  /\ 0 <= root < pitch_count pt /\ 0 <= bass < pitch_count pt /\ 0 <= inv < positions t.
Proof.
  intros [Hc Hp]. destruct (chord_label pt c Hc) as (root & t & inv & E & Hr & Hi).
  assert (Hb : exists bass, get_bass_note t root inv pt false = Ok bass /\ 0 <= bass < pitch_count pt).
  { rewrite bass_note_spec. cbv zeta. replace (inv <? 0) with false by (symmetry; apply Z.ltb_ge; lia).
    assert (Hl : length (chord_fifths t) = Z.to_nat (positions t)) by (destruct t; reflexivity).
    destruct (nth_error (chord_fifths t) (Z.to_nat inv)) as [f|] eqn:Ef; [|apply nth_error_None in Ef; lia].
    replace ((inv <? - positions t) || (positions t <=? inv)) with false by (symmetry; apply orb_false_iff; split; [apply Z.ltb_ge|apply Z.leb_gt]; lia).
    destruct pt.
    - specialize (Hp eq_refl root t inv f E Ef).
      replace ((0 <=? root + f) && (root + f <? 35)) with true by (symmetry; apply andb_true_iff; split; [apply Z.leb_le|apply Z.ltb_lt]; lia).
      eexists. split; [reflexivity|]. exact Hp.
    - eexists. split; [reflexivity|]. apply Z.mod_pos_bound. reflexivity. }
  destruct Hb as (bass & Eb & Hb). exists root, t, inv, bass. unfold chord_notes. rewrite E. cbn [bind]. rewrite Eb.
  split; [reflexivity|]. auto.
Qed.

(* root and bass lie in the wider range used for the inputs of the key models *)
Definition wide (root bass tonic : Z) : Prop := -19 <= root - tonic < 20 /\ -19 <= bass - tonic < 20.

Section Total.
Variables (g : search_cfg) (o : oracle) (pd : piece_data) (ranges : list range_data).
Let pt := g_cpt g.
Let n := length (p_durs pd).
Hypothesis Htypes : g_cpt g = g_kpt g.
Hypothesis Hbeam : 1 <= g_beam_size g.
Hypothesis Hpiece : p_durs pd <> [].
Hypothesis Hlevels : length (p_levels pd) = S n /\ forall l, In l (p_levels pd) -> 0 <= l < 4.
Hypothesis Hforced_k : length (p_forced_k pd) = n /\ forall k, In k (p_forced_k pd) -> k = -1 \/ 0 <= k < key_count (g_kpt g).
Hypothesis Hforced_c : forall c, In c (p_forced_c pd) -> c <> -1 -> good pt c.
Hypothesis Hranges : forall r, In r ranges -> (r_start r < r_end r <= n)%nat.
Hypothesis Hrow : forall r, In r ranges -> zlen (r_prior r) = chord_count pt.
Hypothesis Horder : forall r, In r ranges -> Permutation (r_order r) (zrange 0 (chord_count pt)).
Hypothesis Hplay : forall r c, In r ranges -> In c (py_slice (r_order r) 0 (r_max r)) \/ In c (py_slice (r_order r) 0 2) -> playable pt c.
Hypothesis Hksm : forall step l i, zlen (o_ksm o step l i) = key_change_count (g_kpt g).
Hypothesis Hicm : forall m, zlen (o_icm o m) = 44 * root_count pt true false.
Hypothesis Hcsm : forall step l i, zlen (o_csm o step l i)
     = if g_pitch_based g then root_count pt true false
       else get_chord_vector_length pt true true (g_use_inv g) false (g_red g).
Hypothesis Hsort : forall l, Permutation (o_argsort o l) (zrange 0 (zlen l)).
Hypothesis Hinv : g_use_inv g = true -> forall t, positions t <= positions (g_red g t).

Lemma order_good r c : In r ranges -> In c (py_slice (r_order r) 0 (r_max r)) \/ In c (py_slice (r_order r) 0 2) -> good pt c.
Proof.
  intros Hr Hc. split; [|exact (Hplay r c Hr Hc)].
  assert (Hi : In c (r_order r)) by (destruct Hc as [Hc|Hc]; exact (py_slice_in _ _ _ _ Hc)).
  apply (Permutation_in _ (Horder r Hr)) in Hi. apply in_zrange in Hi. lia.
Qed.
Lemma chord_ok_good s r c : In r ranges -> chord_ok o pd s r c -> good pt c.
Proof.
  intros Hr Hc. unfold chord_ok in Hc. destruct (pick o _) as [f|] eqn:E.
  - subst f. apply pick_in in E as [E1 E2]. exact (Hforced_c c E1 E2).
  - exact (order_good r c Hr Hc).
Qed.

(* ---- what is known of the states ---- *)
Record sound (s : state) : Prop := {
  so_key : 0 <= st_key s < key_count (g_kpt g);
  so_chord : forall c, st_chord s = Some c -> good pt c;
  so_prev : forall p, st_prev s = Some p -> 0 <= st_key p < key_count (g_kpt g)
      /\ exists c root t inv bass tonic mode, st_chord s = Some c /\ chord_notes pt c = Ok (root, t, inv, bass)
         /\ py_nth (key_labels (g_kpt g)) (st_key p) = Ok (tonic, mode) /\ wide root bass tonic
}.

Lemma same_sound s s' : sound s -> st_chord s' = st_chord s -> st_key s' = st_key s -> st_prev s' = st_prev s -> sound s'.
Proof. intros [H1 H2 H3] E1 E2 E3. constructor; rewrite ?E1, ?E2, ?E3; assumption. Qed.
Lemma ready_sound s0 s : ready o s0 s -> sound s0 -> sound s.
Proof. intros [[_ ->]|[_ (l & i & _ & ->)]] H; [exact H|]. now apply (same_sound s0). Qed.

Lemma initial_sound k keys s : initial_keys g pd = Ok keys -> In k keys -> initial_state g o k = Ok s -> sound s.
Proof.
  intros Ek Hk Es. destruct (initial_facts g o pd k keys s Ek Hk Es) as (ks & k' & tonic & mode & Ek' & Hk' & El & ->).
  constructor; cbn [st_key st_chord st_prev]; [|discriminate|discriminate].
  unfold initial_keys in Ek'. apply bind_ok in Ek' as (f & Ef & Ek'). apply Ok_inj in Ek'. subst ks. apply hget_nth in Ef.
  destruct (Z.eqb_spec f (-1)) as [->|Hf].
  - apply in_zrange in Hk'. rewrite key_count_len in Hk'. lia.
  - destruct Hk' as [<-|[]]. destruct (proj2 Hforced_k f (nth_error_In _ _ Ef)); [contradiction|assumption].
Qed.

Lemma branch_sound s r m : In r ranges -> sound s -> branch_rel g o pd s r m -> sound m.
Proof.
  intros Hr Hs (c & pr & Hc & _ & [[Ec H]|[_ H]]).
  - unfold rejoin, the_chord in H. rewrite Ec in H. cbn [bind] in H. apply bind_ok in H as ([[[root t] inv] bass] & En & H).
    apply bind_ok in H as (p & Ep & H). apply bind_ok in H as ([tonic mode] & Ek & H). apply bind_ok in H as (h & _ & H).
    apply Ok_inj in H. subst m. unfold the_prev in Ep. destruct (st_prev s) as [p'|] eqn:Ep'; [|discriminate]. apply Ok_inj in Ep. subst p'.
    destruct Hs as [Hk Hch Hp]. destruct (Hp p Ep') as [Hkp Hw]. rewrite Ec in Hch, Hw.
    constructor; cbn [st_key st_chord st_prev]; [exact Hkp|exact Hch|]. intros q [= <-]. split; [exact Hkp|exact Hw].
  - unfold chord_transition in H. apply bind_ok in H as ([[[root t] inv] bass] & En & H).
    apply bind_ok in H as ([tonic mode] & Ek & H). destruct (outside _ _ _ _) eqn:Eo; [apply Ok_inj in H; discriminate|].
    apply bind_ok in H as (h & _ & H). apply Ok_inj in H. injection H as <-.
    constructor; cbn [st_key st_chord st_prev]; [exact (so_key _ Hs)| |].
    + intros c' [= <-]. exact (chord_ok_good s r c Hr Hc).
    + intros q [= <-]. split; [exact (so_key _ Hs)|]. exists c, root, t, inv, bass, tonic, mode.
      split; [reflexivity|]. split; [exact En|]. split; [exact Ek|]. exact (outside_inside _ _ _ _ Eo).
Qed.
Lemma keep_fields prob m m' : keep_rel g o pd prob m m' -> st_chord m' = st_chord m /\ st_key m' = st_key m /\ st_prev m' = st_prev m
  /\ st_change m' = st_change m /\ st_must m' = st_must m /\ st_prior m' = st_prior m /\ st_must m = false.
Proof.
  intros (p & _ & [[Hf ->]|[Hf ->]]); repeat (split; [reflexivity|]); unfold key_flags in Hf; destruct (pick o _).
  - destruct (st_key m =? z); [|discriminate]. injection Hf as Hf. now apply negb_true_iff.
  - injection Hf as _ Hf. apply andb_true_iff in Hf as [_ Hf]. now apply negb_true_iff.
  - destruct (st_key m =? z); discriminate.
  - injection Hf as _ Hf. apply andb_true_iff in Hf as [_ Hf]. now apply negb_true_iff.
Qed.
Lemma change_fields prob m m' : change_rel g o pd prob m m' -> st_chord m' = st_chord m /\ st_key m' = st_key m /\ st_prev m' = st_prev m
  /\ st_change m' = st_change m.
Proof.
  intros (p & _ & [[_ ->]|[_ (c & H & ->)]]); [auto|]. unfold copy_state in H. apply bind_ok in H as (h & _ & H). apply Ok_inj in H. subst c. auto.
Qed.
Lemma key_sound m f : sound m -> key_rel g o pd m f -> sound f.
Proof.
  intros Hs (step & l & i & _ & p & key & lp & rid & md & iv & x0 & Ep & _ & _ & _ & _ & Hk & _ & _ & H). unfold key_transition in H.
  apply bind_ok in H as (c & _ & H). apply bind_ok in H as ([[root t] inv] & _ & H). apply bind_ok in H as (bass & _ & H).
  apply bind_ok in H as ([tonic md1] & _ & H). destruct (outside _ _ _ _); [apply Ok_inj in H; discriminate|].
  apply bind_ok in H as (h & _ & H). apply bind_ok in H as (q & _ & H). apply Ok_inj in H. injection H as <-.
  rewrite key_count_len in Hk. constructor; cbn [st_key st_chord st_prev]; [exact Hk|exact (so_chord _ Hs)|exact (so_prev _ Hs)].
Qed.

Theorem derived_sound f : derived g o pd ranges f -> sound f.
Proof.
  induction 1 as [k keys s Ek Hk Es|s0 s r m prob m' f Hd IH Hrd Hr Er Hb Hp Hkr Hc|s0 s r m prob m' f Hd IH Hrd Hr Er Hb Hp Hcr Hkr].
  - exact (initial_sound _ _ _ Ek Hk Es).
  - apply (ready_sound _ _ Hrd) in IH. apply (branch_sound _ _ _ Hr IH) in Hb. destruct (keep_fields _ _ _ Hkr) as (E1 & E2 & E3 & _).
    apply (same_sound _ m') in Hb; try assumption. destruct (csm_fields g o pd m' f Hc) as (x & ->). now apply (same_sound m').
  - apply (ready_sound _ _ Hrd) in IH. apply (branch_sound _ _ _ Hr IH) in Hb. destruct (change_fields _ _ _ Hcr) as (E1 & E2 & E3 & _).
    apply (same_sound _ m') in Hb; try assumption. exact (key_sound _ _ Hb Hkr).
Qed.

(* ---- inputs of the networks ---- *)
Lemma a2r_ok p tonic (pad : bool) : (pt = TPC -> if pad then -19 <= p - tonic < 20 else -14 <= p - tonic < 15) ->
  exists i, absolute_to_relative p tonic pt false pad = Ok i.
Proof.
  intros H. rewrite a2r_spec. cbv zeta. destruct pt.
  - specialize (H eq_refl). destruct pad; cbn [andb negb lowest_root root_count relative_pitch];
      (destruct (_ && _) eqn:E; [eexists; reflexivity|apply andb_false_iff in E as [E|E]; [apply Z.leb_gt in E|apply Z.ltb_ge in E]; lia]).
  - assert (Hb := Z.mod_pos_bound (p - tonic) 12 ltac:(lia)). destruct pad; cbn [andb negb lowest_root root_count relative_pitch];
      (destruct (_ && _) eqn:E; [eexists; reflexivity|apply andb_false_iff in E as [E|E]; [apply Z.leb_gt in E|apply Z.ltb_ge in E]; lia]).
Qed.
Lemma one_hot_vec_ok k i : 0 <= i < k -> exists v, one_hot_vec k i = Ok v.
Proof. intros H. unfold one_hot_vec. rewrite py_upd_pos; [eexists; reflexivity|]. rewrite zlen_repeat. lia. Qed.

Lemma to_vec_ok c (pad : bool) : c_pt (fc c) = pt ->
  (pt = TPC -> (if pad then wide else inside) (c_root (fc c)) (c_bass (fc c)) (c_tonic (fc c))) ->
  0 <= c_inv (fc c) < 4 -> 0 <= fc_onset_level c < 4 -> 0 <= fc_offset_level c < 4 ->
  exists v, to_vec c None pad NO_REDUCTION = Ok v.
Proof.
  intros Ept Hw Hi Hon Hoff. unfold to_vec. cbv zeta. rewrite Ept.
  change (match pt with TPC => MAX_RELATIVE_TPC - MIN_RELATIVE_TPC + (if pad then 2 * RELATIVE_TPC_EXTRA else 0) | MIDI => NUM_PITCHES MIDI end)
    with (decode_num_pitches pt pad).
  assert (Hrb : (pt = TPC -> if pad then -19 <= c_root (fc c) - c_tonic (fc c) < 20 else -14 <= c_root (fc c) - c_tonic (fc c) < 15)
     /\ (pt = TPC -> if pad then -19 <= c_bass (fc c) - c_tonic (fc c) < 20 else -14 <= c_bass (fc c) - c_tonic (fc c) < 15)).
  { split; intros E; specialize (Hw E); destruct pad; destruct Hw; assumption. }
  destruct Hrb as [Hr Hb]. destruct (a2r_ok _ _ _ Hr) as (i & Ei). destruct (a2r_ok _ _ _ Hb) as (j & Ej).
  rewrite Ei. cbn [bind]. destruct (one_hot_vec_ok _ _ (proj1 (abs_rel_ok _ _ _ _ _ Ei))) as (v1 & ->). cbn [bind].
  destruct (one_hot_vec_ok _ _ (ct_value_bound (NO_REDUCTION (c_type (fc c))))) as (v2 & E2).
  change (zlen all_chord_types) with 12. rewrite E2. cbn [bind]. rewrite Ej. cbn [bind].
  destruct (one_hot_vec_ok _ _ (proj1 (abs_rel_ok _ _ _ _ _ Ej))) as (v3 & ->). cbn [bind].
  destruct (one_hot_vec_ok 4 _ Hi) as (v4 & ->). cbn [bind]. destruct (one_hot_vec_ok 4 _ Hon) as (v5 & ->). cbn [bind].
  destruct (one_hot_vec_ok 4 _ Hoff) as (v6 & ->). cbn [bind]. eexists. reflexivity.
Qed.

Lemma key_change_vector_ok t0 t1 m1 : exists v, key_change_vector pt t0 t1 m1 = Ok v.
Proof.
  unfold key_change_vector. cbv zeta. set (len := get_key_change_vector_length pt false).
  assert (Hlen : len = root_count pt true false + 2) by (subst len; destruct pt; reflexivity).
  assert (Hroots : 12 <= root_count pt true false) by (destruct pt; vm_compute; discriminate).
  set (v0 := repeat 0 (Z.to_nat len)). assert (Hv0 : zlen v0 = len) by (unfold v0; rewrite zlen_repeat; lia).
  assert (H : exists v, match absolute_to_relative t1 t0 pt true false with
            | Ok i => py_upd v0 i 1 | Raise ValueError => Ok v0 | Raise e => Raise e end = Ok v /\ zlen v = len).
  { rewrite a2r_spec. cbv zeta. cbn [andb negb]. destruct (_ && _) eqn:E; [|exists v0; auto].
    apply andb_true_iff in E as [E1 E2]. apply Z.leb_le in E1. apply Z.ltb_lt in E2. rewrite py_upd_pos by lia.
    eexists. split; [reflexivity|]. unfold zlen in *. rewrite upd_nat_length. exact Hv0. }
  destruct H as (v & -> & Hv). cbn [bind]. unfold py_upd. rewrite Hv.
  assert (Hm : -2 + mode_value m1 < 0 /\ -2 <= -2 + mode_value m1) by (destruct m1; vm_compute; split; congruence).
  replace (-2 + mode_value m1 <? 0) with true by (symmetry; apply Z.ltb_lt; lia).
  destruct (_ || _) eqn:E; [|eexists; reflexivity]. apply orb_true_iff in E as [E|E]; [apply Z.ltb_lt in E|apply Z.leb_le in E]; lia.
Qed.

Lemma state_key_ok k : 0 <= k < key_count (g_kpt g) -> exists tonic mode, py_nth (key_labels (g_kpt g)) k = Ok (tonic, mode).
Proof. intros H. destruct (key_label _ _ H) as (t & m & E & _). eauto. Qed.

Lemma key_part_ok s : sound s -> exists v, key_part (g_cpt g) (g_kpt g) s = Ok v.
Proof.
  intros Hs. unfold key_part. destruct (st_prev s) as [p|] eqn:Ep; [|eexists; reflexivity].
  destruct (st_key p =? st_key s); [eexists; reflexivity|]. unfold state_key.
  destruct (state_key_ok _ (proj1 (so_prev _ Hs p Ep))) as (t0 & m0 & ->). cbn [bind].
  destruct (state_key_ok _ (so_key _ Hs)) as (t1 & m1 & ->). cbn [bind].
  destruct (key_change_vector_ok t0 t1 m1) as (v & E). change (g_cpt g) with pt. rewrite E. eexists. reflexivity.
Qed.

Lemma level_ok i : (i <= n)%nat -> exists l, py_nth (p_levels pd) (Z.of_nat i) = Ok l /\ 0 <= l < 4.
Proof.
  intros H. destruct Hlevels as [Hl Hv]. destruct (py_nth_in_range (p_levels pd) (Z.of_nat i)) as (l & E & En); [unfold zlen; lia|].
  exists l. split; [exact E|]. apply Hv. exact (nth_error_In _ _ En).
Qed.

(* a state with a predecessor, its chord and key known *)
Definition placed (s : state) : Prop := sound s /\ (exists p, st_prev s = Some p /\ (st_change p <= n)%nat) /\ (st_change s <= n)%nat
  /\ exists c, st_chord s = Some c.
Lemma state_chord_ok s : placed s -> exists c, state_chord (g_cpt g) (g_kpt g) (p_durs pd) (p_levels pd) s = Ok c
  /\ c_pt (fc c) = pt /\ 0 <= c_inv (fc c) < positions (c_type (fc c)) /\ 0 <= fc_onset_level c < 4 /\ 0 <= fc_offset_level c < 4
  /\ exists ch mode, st_chord s = Some ch /\ chord_notes pt ch = Ok (c_root (fc c), c_type (fc c), c_inv (fc c), c_bass (fc c))
     /\ py_nth (key_labels (g_kpt g)) (st_key s) = Ok (c_tonic (fc c), mode).
Proof.
  intros (Hs & (p & Ep & Hp) & Hc & c & Ec). unfold state_chord, state_key, the_chord, the_prev. rewrite Ec, Ep.
  destruct (state_key_ok _ (so_key _ Hs)) as (tonic & mode & Ek). rewrite Ek. cbn [bind].
  destruct (chord_notes_ok pt c (so_chord _ Hs c Ec)) as (root & t & inv & bass & En & _ & _ & _ & _ & Hi). change (g_cpt g) with pt. rewrite En. cbn [bind].
  destruct (level_ok _ Hp) as (on & -> & Hon). cbn [bind]. destruct (level_ok _ Hc) as (off & -> & Hoff). cbn [bind].
  eexists. split; [reflexivity|]. cbn [fc c_pt c_inv c_type c_root c_bass c_tonic fc_onset_level fc_offset_level].
  split; [reflexivity|]. split; [exact Hi|]. split; [exact Hon|]. split; [exact Hoff|]. exists c, mode. auto.
Qed.
Definition at_home (pad : bool) (s : state) : Prop :=
  exists c root t inv bass tonic mode, st_chord s = Some c /\ chord_notes pt c = Ok (root, t, inv, bass)
   /\ py_nth (key_labels (g_kpt g)) (st_key s) = Ok (tonic, mode) /\ (if pad then wide else inside) root bass tonic.
Lemma vec_ok s (pad : bool) : placed s -> at_home pad s ->
  exists c v, state_chord (g_cpt g) (g_kpt g) (p_durs pd) (p_levels pd) s = Ok c /\ to_vec c None pad NO_REDUCTION = Ok v.
Proof.
  intros Hp (c & root & t & inv & bass & tonic & mode & Ec & En & Ek & Hw).
  destruct (state_chord_ok s Hp) as (fcd & E & Ept & Hi & Hon & Hoff & ch & md & Ech & Ench & Ekch).
  rewrite Ec in Ech. injection Ech as <-. rewrite En in Ench. apply Ok_inj in Ench. injection Ench as E1 E2 E3 E4.
  rewrite Ek in Ekch. apply Ok_inj in Ekch. injection Ekch as E5 E6.
  exists fcd. destruct (to_vec_ok fcd pad Ept) as (v & Ev); [intros _; congruence| |exact Hon|exact Hoff|exists v; auto].
  assert (positions (c_type (fc fcd)) <= 4) by (unfold positions; destruct (is_triad _); lia). lia.
Qed.
Lemma ktm_input_ok s : placed s -> at_home true s -> exists v, ktm_input (g_cpt g) (g_kpt g) (p_durs pd) (p_levels pd) s = Ok v.
Proof.
  intros Hp Hh. unfold ktm_input. destruct (key_part_ok s (proj1 Hp)) as (k & ->). cbn [bind].
  destruct (vec_ok s true Hp Hh) as (c & v & -> & Ev). cbn [bind]. rewrite Ev. eexists. reflexivity.
Qed.
Lemma csm_input_ok s : placed s -> at_home false s -> exists v, csm_input (g_cpt g) (g_kpt g) (p_durs pd) (p_levels pd) s = Ok v.
Proof.
  intros Hp Hh. unfold csm_input. destruct (key_part_ok s (proj1 Hp)) as (k & ->). cbn [bind].
  destruct (vec_ok s false Hp Hh) as (c & v & -> & Ev). cbn [bind]. rewrite Ev. eexists. reflexivity.
Qed.
Lemma home_wide s : at_home false s -> at_home true s.
Proof.
  intros (c & root & t & inv & bass & tonic & mode & H1 & H2 & H3 & [H4 H5]). exists c, root, t, inv, bass, tonic, mode.
  unfold wide. repeat split; try assumption; lia.
Qed.

Lemma derived_bound f : derived g o pd ranges f -> (st_change f <= n)%nat.
Proof.
  intros [k keys s Ek Hk Es|s0 s r m prob m' f' Hd Hrd Hr Er Hb Hp Hkr Hc|s0 s r m prob m' f' Hd Hrd Hr Er Hb Hp Hcr Hkr].
  - destruct (initial_facts g o pd k keys s Ek Hk Es) as (ks & k' & tonic & mode & _ & _ & _ & ->). cbn [st_change]. lia.
  - rewrite (csm_change g o pd _ _ Hc), (keep_change g o pd _ _ _ Hkr), (branch_change g o pd _ _ _ Hb). apply (Hranges r Hr).
  - rewrite (key_change g o pd _ _ Hkr), (change_change g o pd _ _ _ Hcr), (branch_change g o pd _ _ _ Hb). apply (Hranges r Hr).
Qed.
Notation rderived := (rderived g o pd ranges).
Notation linked := (linked g o pd ranges).
Notation link := (link g o pd ranges).
Notation fresh := (fresh g o pd ranges).
Notation has_hash := (has_hash g).
Definition linked_of f (H : derived g o pd ranges f) : linked f := derived_linked g o pd ranges Hranges f H.

Lemma rderived_sound p : rderived p -> sound p.
Proof. intros (p0 & Hd & Hr). exact (ready_sound _ _ Hr (derived_sound _ Hd)). Qed.
Lemma rderived_bound p : rderived p -> (st_change p <= n)%nat.
Proof. intros (p0 & Hd & Hr). rewrite (ready_change _ _ _ Hr). exact (derived_bound _ Hd). Qed.
Lemma rderived_hash p : rderived p -> has_hash p.
Proof. intros (p0 & Hd & Hr). exact (ready_has_hash g o _ _ Hr (linked_has_hash g o pd ranges _ (linked_of _ Hd))). Qed.
(* what is known of a state on the beam that is not an initial one *)
Lemma rderived_linked p : rderived p -> st_prev p <> None -> exists q, rderived q /\ link q p.
Proof.
  intros (p0 & Hd & Hr) Hp. destruct (linked_of p0 Hd) as [Hi|(q & Hq & Hl)].
  - rewrite (ready_prev _ _ _ Hr) in Hp. destruct Hi as (ks & k' & tonic & mode & _ & _ & _ & ->). contradiction.
  - exists q. split; [exact Hq|]. exact (ready_link g o pd ranges _ _ _ Hr Hl).
Qed.
Lemma link_placed q p : rderived q -> sound p -> (st_change p <= n)%nat -> link q p -> placed p /\ at_home false p.
Proof.
  intros Hq Hs Hb Hl. assert (Hn := lk_notes _ _ _ _ _ _ Hl Htypes). destruct Hn as (c & root & t & inv & bass & tonic & mode & H1 & H2 & H3 & H4).
  split.
  - split; [exact Hs|]. split; [exists q; split; [exact (lk_prev _ _ _ _ _ _ Hl)|exact (rderived_bound _ Hq)]|]. split; [exact Hb|]. exists c. exact H1.
  - exists c, root, t, inv, bass, tonic, mode. auto.
Qed.
Lemma rderived_placed p : rderived p -> st_prev p <> None -> placed p /\ at_home false p.
Proof.
  intros Hr Hp. destruct (rderived_linked p Hr Hp) as (q & Hq & Hl).
  exact (link_placed q p Hq (rderived_sound _ Hr) (rderived_bound _ Hr) Hl).
Qed.
Lemma link_later q p : link q p -> (st_change q < st_change p)%nat.
Proof. exact (link_chg0 g o pd ranges q p). Qed.

Lemma ksm_input_eq stop s : ksm_input (g_cpt g) (g_kpt g) (p_durs pd) (p_levels pd) stop s =
  let! v := ktm_input (g_cpt g) (g_kpt g) (p_durs pd) (p_levels pd) s in
  match st_prev s with
  | None => Ok [v]
  | Some p => match st_prev p with
      | None => Ok [v]
      | Some _ => if stop s then Ok [v] else let! vs := ksm_input (g_cpt g) (g_kpt g) (p_durs pd) (p_levels pd) stop p in Ok (v :: vs)
      end
  end.
Proof. destruct s; reflexivity. Qed.
Lemma ksm_input_from stop s p : placed s -> at_home true s -> st_prev s = Some p ->
  (st_prev p <> None -> exists v, ksm_input (g_cpt g) (g_kpt g) (p_durs pd) (p_levels pd) stop p = Ok v) ->
  exists v, ksm_input (g_cpt g) (g_kpt g) (p_durs pd) (p_levels pd) stop s = Ok v.
Proof.
  intros Hp Hh Ep Hrec. rewrite ksm_input_eq. destruct (ktm_input_ok s Hp Hh) as (v & ->). cbn [bind]. rewrite Ep.
  destruct (st_prev p) as [q|]; [|eexists; reflexivity]. destruct (stop s); [eexists; reflexivity|].
  destruct Hrec as (vs & ->); [discriminate|]. eexists. reflexivity.
Qed.
Lemma ksm_input_past stop : forall d p, sdepth p = d -> rderived p -> st_prev p <> None ->
  exists v, ksm_input (g_cpt g) (g_kpt g) (p_durs pd) (p_levels pd) stop p = Ok v.
Proof.
  induction d as [d IH] using lt_wf_ind. intros p Ed Hr Hp. destruct (rderived_linked p Hr Hp) as (q & Hq & Hl).
  destruct (rderived_placed p Hr Hp) as [Hpl Hh]. apply (ksm_input_from stop p q Hpl (home_wide _ Hh) (lk_prev _ _ _ _ _ _ Hl)).
  intros Hqp. apply (IH (sdepth q)); [|reflexivity|exact Hq|exact Hqp]. rewrite <- Ed, (sdepth_eq p), (lk_prev _ _ _ _ _ _ Hl). lia.
Qed.
Lemma ksm_input_ok stop s p : placed s -> at_home true s -> st_prev s = Some p -> rderived p ->
  exists v, ksm_input (g_cpt g) (g_kpt g) (p_durs pd) (p_levels pd) stop s = Ok v.
Proof. intros H1 H2 H3 H4. apply (ksm_input_from stop s p H1 H2 H3). intros H5. exact (ksm_input_past stop _ p eq_refl H4 H5). Qed.

(* ---- transitions ---- *)
Lemma make_hash_ok hl p key chord : has_hash p -> (hl = None <-> g_hash_length g = None) -> exists h, make_hash hl (Some p) key chord = Ok h.
Proof.
  unfold Proof_Search.has_hash, make_hash. intros Hp Hn. destruct hl; [|eexists; reflexivity]. destruct (g_hash_length g).
  - destruct Hp as (h & ->). eexists. reflexivity.
  - destruct Hn as [_ Hn]. specialize (Hn eq_refl). discriminate.
Qed.
Lemma chord_transition_ok s c e lp : sound s -> has_hash s -> good pt c -> exists x, chord_transition (g_cpt g) (g_kpt g) s c e lp = Ok x.
Proof.
  intros Hs Hh Hc. unfold chord_transition, state_key. destruct (chord_notes_ok pt c Hc) as (root & t & inv & bass & En & _).
  change (g_cpt g) with pt. rewrite En. cbn [bind]. destruct (state_key_ok _ (so_key _ Hs)) as (tonic & mode & ->). cbn [bind].
  destruct (outside _ _ _ _); [eexists; reflexivity|].
  destruct (make_hash_ok (hash_len s) s (st_key s) (Some c) Hh (hash_len_iff g s Hh)) as (h & ->). eexists. reflexivity.
Qed.
Lemma rejoin_ok s c e lp : rderived s -> st_chord s = Some c -> exists x, rejoin (g_cpt g) (g_kpt g) s e lp = Ok x.
Proof.
  intros Hr Ec. assert (Hs := rderived_sound s Hr). assert (Hh := rderived_hash s Hr).
  assert (Hp : st_prev s <> None).
  { intros E. destruct Hr as (s0 & Hd & Hr). destruct (linked_of s0 Hd) as [Hi|(q & Hq & Hl)].
    - rewrite (ready_chord _ _ _ Hr) in Ec. destruct Hi as (ks & k' & tonic & mode & _ & _ & _ & ->). discriminate.
    - rewrite (ready_prev _ _ _ Hr), (lk_prev _ _ _ _ _ _ Hl) in E. discriminate. }
  destruct (rderived_linked s Hr Hp) as (q & Hq & Hl). assert (Eq := lk_prev _ _ _ _ _ _ Hl).
  unfold rejoin, the_chord, the_prev. rewrite Ec, Eq. cbn [bind]. destruct (chord_notes_ok pt c (so_chord _ Hs c Ec)) as (root & t & inv & bass & En & _).
  change (g_cpt g) with pt. rewrite En. cbn [bind]. destruct (state_key_ok _ (so_key _ (rderived_sound _ Hq))) as (tonic & mode & ->). cbn [bind].
  destruct (make_hash_ok (hash_len s) q (st_key q) (Some c) (rderived_hash q Hq) (hash_len_iff g s Hh)) as (h & ->). eexists. reflexivity.
Qed.
Lemma key_transition_ok m p key lp : sound m -> (exists c, st_chord m = Some c) -> st_prev m = Some p -> has_hash p ->
  (hash_len m = None <-> g_hash_length g = None) -> 0 <= key < key_count (g_kpt g) ->
  exists x, key_transition (g_cpt g) (g_kpt g) m key lp = Ok x.
Proof.
  intros Hs (c & Ec) Ep Hh Hl Hk. unfold key_transition, the_chord, the_prev. rewrite Ec, Ep. cbn [bind].
  destruct (chord_notes_ok pt c (so_chord _ Hs c Ec)) as (root & t & inv & bass & _ & El & Eb & _). change (g_cpt g) with pt. rewrite El. cbn [bind].
  rewrite <- Htypes. change (g_cpt g) with pt. rewrite Eb. cbn [bind]. unfold pt. rewrite Htypes. destruct (state_key_ok _ Hk) as (tonic & mode & ->). cbn [bind].
  destruct (outside _ _ _ _); [eexists; reflexivity|].
  destruct (make_hash_ok (hash_len m) p key (Some c) Hh Hl) as (h & ->). cbn [bind]. eexists. reflexivity.
Qed.

(* ---- beams ---- *)
Notation sinv := (sinv g o pd ranges).
Lemma slot_of k sr idx : sinv k sr -> (k <= idx <= n)%nat -> exists b, hget (sr_beams sr) idx = Ok b /\ slot_ok g sr idx b.
Proof.
  intros [HL HS HD] Hi. destruct (nth_error (sr_beams sr) idx) as [b|] eqn:Eb; [|apply nth_error_None in Eb; fold n in HL; lia].
  exists b. split; [apply hget_nth; exact Eb|exact (HS idx b (proj1 Hi) Eb)].
Qed.
Lemma fits_ok k sr idx s ch : sinv k sr -> (k <= idx <= n)%nat -> exists x, fits sr idx s ch = Ok x.
Proof.
  intros Hi Hk. destruct (slot_of k sr idx Hi Hk) as (b & E & seen & B & Hb & _). unfold fits. rewrite E. cbn [bind].
  exact (ab_fits_ok _ _ _ _ _ Hb).
Qed.
Lemma fits_ok' k sr step idx s ch : sinv k sr -> (k <= idx <= n)%nat -> exists x, (if (step =? 0)%nat then Ok true else fits sr idx s ch) = Ok x.
Proof. intros Hi Hk. destruct (step =? 0)%nat; [eexists; reflexivity|]. exact (fits_ok k sr idx s ch Hi Hk). Qed.

Lemma branch_chords_ok k sr s r : sinv k sr -> rderived s -> In r ranges -> (k <= r_end r)%nat ->
  forall chords, (forall c, In c chords -> good pt c) -> exists l, branch_chords g sr k s r chords = Ok l.
Proof.
  intros Hi Hs Hr Hk. induction chords as [|c rest IH]; intros Hc; cbn [branch_chords]; [eexists; reflexivity|].
  destruct IH as (more & Em); [intros x Hx; apply Hc; right; exact Hx|]. specialize (Hc c (or_introl eq_refl)).
  destruct (py_nth_in_range (r_prior r) c) as (p & Ep & _); [rewrite (Hrow r Hr); apply Hc|]. rewrite Ep. cbn [bind].
  assert (Hn : exists x, (if match st_chord s with Some c' => c =? c' | None => false end then
           let! m := rejoin (g_cpt g) (g_kpt g) s (r_end r) (r_log r + p * (Z.of_nat (r_end r) - Z.of_nat k) + r_rejoin r) in Ok (Some m)
         else chord_transition (g_cpt g) (g_kpt g) s c (r_end r) (r_log r + p * (Z.of_nat (r_end r) - Z.of_nat k))) = Ok x).
  { destruct (match st_chord s with Some c' => c =? c' | None => false end) eqn:E.
    - destruct (st_chord s) as [c'|] eqn:Ec; [|discriminate]. destruct (rejoin_ok s c' (r_end r) (r_log r + p * (Z.of_nat (r_end r) - Z.of_nat k) + r_rejoin r) Hs Ec) as (x & ->).
      eexists. reflexivity.
    - exact (chord_transition_ok s c _ _ (rderived_sound _ Hs) (rderived_hash _ Hs) Hc). }
  destruct Hn as (x & ->). cbn [bind]. destruct x as [m|]; [|exists more; exact Em].
  destruct (fits_ok' k sr k (r_end r) m false Hi) as (ok & ->); [destruct (Hranges r Hr); lia|]. cbn [bind].
  destruct ok; [|eexists; reflexivity]. rewrite Em. eexists. reflexivity.
Qed.

Lemma order_head r : In r ranges -> exists c, hget (r_order r) 0 = Ok c.
Proof.
  intros Hr. assert (Hp := Horder r Hr). apply Permutation_length in Hp. unfold hget. destruct (r_order r) as [|c l]; [|eexists; reflexivity].
  cbn [length] in Hp. assert (E := zlen_zrange 0 (chord_count pt)). unfold zlen in E. rewrite <- Hp in E. unfold chord_count in E. destruct pt; cbn in E; lia.
Qed.

Lemma branch_range_ok k sr s r : sinv k sr -> rderived s -> In r ranges -> (k <= r_end r)%nat ->
  exists l, branch_range g o pd sr k s r = Ok l.
Proof.
  intros Hi Hs Hr Hk. assert (Hb : (k <= r_end r <= n)%nat) by (destruct (Hranges r Hr); lia).
  destruct (slot_of k sr (r_end r) Hi Hb) as (b & Eb & seen & B & Hbi & _). unfold branch_range. rewrite Eb. cbn [bind].
  assert (Hq : exists q, (if negb (k =? 0)%nat && (0 <? ab_len b) then
       let! top := hget (ab_heap b) 0 in Ok (st_logp s + r_log r <=? s_score top) else Ok false) = Ok q).
  { destruct (negb (k =? 0)%nat && (0 <? ab_len b)) eqn:E; [|eexists; reflexivity]. apply andb_true_iff in E as [_ E]. apply Z.ltb_lt in E.
    destruct (ab_list_ok _ _ _ Hbi) as [_ EL]. rewrite EL in E.
    destruct (ab_heap_ok _ _ _ Hbi) as (top & -> & _); [|eexists; reflexivity]. intros En. clear -E En. subst B. unfold zlen in E. cbn in E. lia. }
  destruct Hq as (q & ->). cbn [bind]. destruct q; [eexists; reflexivity|]. destruct (order_head r Hr) as (c0 & E0).
  assert (Hm : exists mi, (if r_max r =? 1 then let! c := hget (r_order r) 0 in
       Ok (if match st_chord s with Some c' => c =? c' | None => false end then 2 else r_max r) else Ok (r_max r)) = Ok mi /\ (mi = r_max r \/ mi = 2)).
  { destruct (r_max r =? 1); [|eexists; split; [reflexivity|left; reflexivity]]. rewrite E0. cbn [bind].
    eexists. split; [reflexivity|]. destruct (match st_chord s with Some c' => c0 =? c' | None => false end); auto. }
  destruct Hm as (mi & -> & Hmi). cbn [bind]. destruct (pick o _) as [f|] eqn:Ep.
  - rewrite E0. cbn [bind]. apply (branch_chords_ok k sr s r Hi Hs Hr Hk). intros c [<-|[]]. apply pick_in in Ep as [E1 E2]. exact (Hforced_c f E1 E2).
  - apply (branch_chords_ok k sr s r Hi Hs Hr Hk). intros c Hc. apply (order_good r c Hr). destruct Hmi as [->| ->]; auto.
Qed.

(* a state just built in step k *)
Record built (k : nat) (m : state) : Prop := {
  bu_placed : placed m; bu_home : at_home true m;
  bu_fresh : exists p, rderived p /\ fresh p m;
  bu_change : (k <= st_change m <= n)%nat
}.
Lemma branch_built k s0 s r m : derived g o pd ranges s0 -> ready o s0 s -> In r ranges -> r_start r = st_change s -> st_change s = k ->
  branch_rel g o pd s r m -> built k m.
Proof.
  intros Hd Hrd Hr Er Hk Hb. destruct (branch_fresh g o pd ranges Hranges s0 s r m Hd (linked_of _ Hd) Hrd Hr Er Hb) as (p & Hp & Hf).
  assert (Hs : sound m) by (apply (branch_sound s r m Hr); [exact (ready_sound _ _ Hrd (derived_sound _ Hd))|exact Hb]).
  assert (Hc := branch_change g o pd _ _ _ Hb). assert (Hrr := Hranges r Hr).
  destruct Hf as [Fp Fk Fpr Frd Fx (c & root & t & inv & bass & tonic & mode & F1 & F2 & F3 & F4) Fh Fc].
  constructor.
  - split; [exact Hs|]. split; [exists p; split; [exact Fp|exact (rderived_bound _ Hp)]|]. split; [lia|]. exists c. exact F1.
  - destruct (so_prev _ Hs p Fp) as (_ & c' & root' & t' & inv' & bass' & tonic' & mode' & G1 & G2 & G3 & G4).
    rewrite <- Fk in G3. exists c', root', t', inv', bass', tonic', mode'. auto.
  - exists p. split; [exact Hp|]. constructor; try assumption. exists c, root, t, inv, bass, tonic, mode. auto.
  - lia.
Qed.

Lemma key_change_probs_ok k l : (forall m, In m l -> built k m) -> exists x, key_change_probs g o pd k l = Ok x.
Proof.
  intros H. unfold key_change_probs. destruct (mapM_returns (ktm_input (g_cpt g) (g_kpt g) (p_durs pd) (p_levels pd)) l) as (x & E).
  - intros m Hm. destruct (H m Hm) as [H1 H2 _ _]. exact (ktm_input_ok m H1 H2).
  - cbv zeta. rewrite E. eexists. reflexivity.
Qed.

Lemma copy_state_ok k m : built k m -> exists c, copy_state m = Ok c.
Proof.
  intros [_ _ (p & Hp & Hf) _]. unfold copy_state. rewrite (fr_prev _ _ _ _ _ _ Hf).
  assert (Hh : has_hash m).
  { assert (Fh := fr_hash _ _ _ _ _ _ Hf). unfold Proof_Search.has_hash. unfold hash_link in Fh. destruct (g_hash_length g); [destruct Fh as (h & _ & E); eexists; exact E|tauto]. }
  destruct (make_hash_ok (hash_len m) p (st_key m) (st_chord m) (rderived_hash p Hp) (hash_len_iff g m Hh)) as (h & ->). eexists. reflexivity.
Qed.
Lemma key_branch_ok k sr prob m : sinv k sr -> built k m -> exists x, key_branch g o pd sr k prob m = Ok x.
Proof.
  intros Hi Hb. destruct (bu_fresh _ _ Hb) as (p & Hp & Hf). unfold key_branch, the_prev. rewrite (fr_prev _ _ _ _ _ _ Hf). cbn [bind]. cbv zeta.
  match goal with |- exists x, (let (_, _) := ?e in _) = _ => destruct e as [cc cn] end.
  assert (Hcs : exists cs, (if cc && cn then copy_state m else Ok m) = Ok cs /\ st_change cs = st_change m).
  { destruct (cc && cn); [|eexists; split; reflexivity]. destruct (copy_state_ok k m Hb) as (c & E). exists c. split; [exact E|].
    unfold copy_state in E. apply bind_ok in E as (h & _ & E). apply Ok_inj in E. subst c. reflexivity. }
  destruct Hcs as (cs & -> & Ecs). cbn [bind]. assert (Hc := bu_change _ _ Hb).
  assert (Hfit : forall x ch, st_change x = st_change m -> exists ok, (if (k =? 0)%nat then Ok true else fits sr (st_change x) x ch) = Ok ok).
  { intros x ch Ex. apply (fits_ok' k); [exact Hi|rewrite Ex; exact Hc]. }
  destruct cc, cn.
  - destruct (Hfit (add_ktm cs (o_log o prob * (Z.of_nat (st_change m) - Z.of_nat (st_change p)))) false Ecs) as (ok & ->). cbn [bind].
    destruct (Hfit m true eq_refl) as (ok' & ->). eexists. reflexivity.
  - destruct (Hfit (add_ktm cs (o_log o prob * (Z.of_nat (st_change m) - Z.of_nat (st_change p)))) false Ecs) as (ok & ->). eexists. reflexivity.
  - destruct (Hfit (add_ktm cs (o_log o (o_one o - prob) * (Z.of_nat (st_change m) - Z.of_nat (st_change p)))) true Ecs) as (ok & ->). eexists. reflexivity.
  - eexists. reflexivity.
Qed.
Lemma key_branch_all_ok k sr : sinv k sr -> forall l, (forall p m, In (p, m) l -> built k m) -> exists x, key_branch_all g o pd sr k l = Ok x.
Proof.
  intros Hi. induction l as [|[p m] l IH]; intros H; cbn [key_branch_all]; [eexists; reflexivity|].
  destruct (key_branch_ok k sr p m Hi (H p m (or_introl eq_refl))) as ([a b] & ->). cbn [bind].
  destruct IH as ([a' b'] & ->); [intros q x Hx; exact (H q x (or_intror Hx))|]. eexists. reflexivity.
Qed.

(* ---- key changes ---- *)
Record branching (k : nat) (m : state) : Prop := {
  br_placed : placed m; br_home : at_home true m;
  br_prev : exists p, st_prev m = Some p /\ rderived p;
  br_hash : hash_len m = None <-> g_hash_length g = None
}.
Lemma change_branching k prob m m' : built k m -> change_rel g o pd prob m m' -> branching k m'.
Proof.
  intros Hb Hc. destruct (change_fields _ _ _ Hc) as (E1 & E2 & E3 & E4). destruct Hb as [(Hs & Hpr & Hch & Hcc) Hh (p & Hp & Hf) Hk].
  assert (Hhm : has_hash m).
  { assert (Fh := fr_hash _ _ _ _ _ _ Hf). unfold Proof_Search.has_hash. unfold hash_link in Fh. destruct (g_hash_length g); [destruct Fh as (h & _ & E); eexists; exact E|tauto]. }
  constructor.
  - split; [exact (same_sound _ _ Hs E1 E2 E3)|]. rewrite E1, E3, E4. auto.
  - unfold at_home. rewrite E1, E2. exact Hh.
  - exists p. rewrite E3. split; [exact (fr_prev _ _ _ _ _ _ Hf)|exact Hp].
  - destruct Hc as (p' & Ep' & [[_ ->]|[_ (c & H & ->)]]); [exact (hash_len_iff g m Hhm)|].
    unfold copy_state in H. apply bind_ok in H as (h & Eh & H). apply Ok_inj in H. subst c. unfold hash_len at 1. cbn [add_ktm st_hash].
    rewrite (fr_prev _ _ _ _ _ _ Hf) in Eh. pose proof (make_hash_link g p _ _ _ _ (rderived_hash p Hp) Eh (hash_len_iff g m Hhm)) as Hl.
    destruct (g_hash_length g); [destruct Hl as (h0 & _ & ->); split; discriminate|destruct Hl as [_ ->]; tauto].
Qed.

Lemma key_loop_ok k m lps mi forced : branching k m -> zlen lps = key_change_count (g_kpt g) ->
  forall order c, (forall r, In r order -> 0 <= r < key_change_count (g_kpt g)) -> exists l, key_loop g m lps mi forced order c = Ok l.
Proof.
  intros Hb Hl. assert (Hs : sound m) by apply Hb. destruct (br_prev _ _ Hb) as (p & Ep & Hp).
  induction order as [|rid rest IH]; intros c Ho; cbn [key_loop]; [eexists; reflexivity|].
  assert (Hr := Ho rid (or_introl eq_refl)). assert (IH' : forall c, exists l, key_loop g m lps mi forced rest c = Ok l).
  { intros c'. apply IH. intros r Hr'. apply Ho. right. exact Hr'. }
  destruct (py_nth_in_range (relative_key_labels (g_kpt g)) rid) as ([mode interval] & -> & _); [rewrite key_change_count_len; exact Hr|]. cbn [bind].
  unfold state_key. destruct (state_key_ok _ (so_key _ Hs)) as (t0 & m0 & ->). cbn [bind]. cbv zeta.
  set (tonic := match g_kpt g with TPC => t0 + interval | MIDI => (t0 + interval) mod 12 end).
  destruct (match g_kpt g with TPC => (tonic <? 0) || (NUM_PITCHES TPC <=? tonic) | MIDI => false end) eqn:Eo; [exact (IH' c)|].
  assert (Ht : 0 <= tonic < pitch_count (g_kpt g)).
  { subst tonic. destruct (g_kpt g).
    - apply orb_false_iff in Eo as [E1 E2]. apply Z.ltb_ge in E1. apply Z.leb_gt in E2. cbn in E2 |- *. lia.
    - apply Z.mod_pos_bound. reflexivity. }
  clearbody tonic. destruct (key_rejects_s mode tonic (g_kpt g)) as [[_ Hn]|(key & Ekey & _)]; [contradiction|]. rewrite Ekey. cbn [bind].
  destruct (match forced with Some f => negb (f =? key) | None => false end); [exact (IH' c)|].
  destruct (key =? st_key m); [exact (IH' c)|]. unfold the_prev. rewrite Ep. cbn [bind].
  destruct (py_nth_in_range lps rid) as (lp & -> & _); [rewrite Hl; exact Hr|]. cbn [bind].
  destruct (key_transition_ok m p key (lp * g_ksm_exp g * (Z.of_nat (st_change m) - Z.of_nat (st_change p))) Hs) as (x & ->).
  { destruct (br_placed _ _ Hb) as (_ & _ & _ & Hc). exact Hc. }
  { exact Ep. } { exact (rderived_hash p Hp). } { exact (br_hash _ _ Hb). } { exact (proj2 (key_roundtrip_s _ _ _ _ Ekey)). }
  cbn [bind]. destruct x as [ns|].
  - match goal with |- exists l, (if ?b then _ else _) = _ => destruct b end; [eexists; reflexivity|]. destruct (IH' (c + 1)) as (more & ->). eexists. reflexivity.
  - destruct (match forced with Some f => f =? key | None => false end); [eexists; reflexivity|exact (IH' c)].
Qed.

Lemma take_along_ok l order : (forall i, In i order -> 0 <= i < zlen l) -> exists x, take_along l order = Ok x.
Proof. intros H. apply mapM_returns. intros i Hi. destruct (py_nth_in_range l i (H i Hi)) as (a & E & _). eauto. Qed.

Lemma key_change_one_ok k step l i m : branching k m -> exists x, key_change_one g o pd step l i m = Ok x.
Proof.
  intros Hb. unfold key_change_one. cbv zeta. set (lps := o_ksm o step l i).
  assert (Hl : zlen lps = key_change_count (g_kpt g)) by apply Hksm.
  assert (Ho : forall r, In r (o_argsort o lps) -> 0 <= r < key_change_count (g_kpt g)).
  { intros r Hr. apply (Permutation_in _ (Hsort lps)) in Hr. apply in_zrange in Hr. lia. }
  destruct (take_along_ok (map (o_exp o) lps) (o_argsort o lps)) as (x & ->).
  { intros r Hr. rewrite zlen_map, Hl. exact (Ho r Hr). }
  cbn [bind]. destruct (br_prev _ _ Hb) as (p & Ep & _). unfold the_prev. rewrite Ep. cbn [bind].
  exact (key_loop_ok k m lps _ _ Hb Hl _ _ Ho).
Qed.
Lemma ksm_inputs_ok k step l : (forall m, In m l -> branching k m) -> exists x, ksm_inputs g o pd step l = Ok x.
Proof.
  intros H. unfold ksm_inputs. destruct (mapM_returns (ksm_input (g_cpt g) (g_kpt g) (p_durs pd) (p_levels pd) (o_stop o step)) l) as (x & E).
  - intros m Hm. destruct (H m Hm) as [H1 H2 (p & Ep & Hp) _]. exact (ksm_input_ok _ m p H1 H2 Ep Hp).
  - cbv zeta. rewrite E. eexists. reflexivity.
Qed.
Lemma key_change_states_ok k step l : (forall m, In m l -> branching k m) -> exists x, key_change_states g o pd step l = Ok x.
Proof.
  intros H. unfold key_change_states. destruct (ksm_inputs_ok k step l H) as (u & ->). cbn [bind].
  destruct (mapM_returns (fun x => x) (mapi (key_change_one g o pd step l) 0 l)) as (ls & ->).
  - intros x Hx. apply in_mapi in Hx as (j & m & Em & ->). exact (key_change_one_ok k _ _ _ m (H m (nth_error_In _ _ Em))).
  - eexists. reflexivity.
Qed.

(* ---- the charge of the chord sequence model ---- *)
Lemma rderived_first p : rderived p -> (st_change p = 0%nat <-> st_prev p = None).
Proof.
  intros Hp. split; intros H.
  - destruct (st_prev p) as [q|] eqn:E; [|reflexivity]. destruct (rderived_linked p Hp) as (q' & _ & Hl); [rewrite E; discriminate|].
    apply link_later in Hl. lia.
  - destruct Hp as (p0 & Hd & Hr). destruct (linked_of p0 Hd) as [Hi|(q & Hq & Hl)].
    + rewrite (ready_init g o pd _ _ Hr Hi). destruct Hi as (ks & k' & tonic & mode & _ & _ & _ & ->). reflexivity.
    + rewrite (ready_prev _ _ _ Hr), (lk_prev _ _ _ _ _ _ Hl) in H. discriminate.
Qed.

Lemma add_csm_prior_ok k prob m m' : built k m -> keep_rel g o pd prob m m' ->
  exists f, add_csm_prior (g_cpt g) (g_kpt g) (p_durs pd) (p_levels pd) (g_pitch_based g) (g_use_inv g) (g_red g) (o_pitch_log o) m' = Ok f.
Proof.
  intros Hb Hk. destruct (keep_fields _ _ _ Hk) as (E1 & E2 & E3 & E4 & _ & E6 & Hmust).
  destruct Hb as [(Hs & Hpr & Hch & Hcc) Hh (p & Hp & Hf) _]. assert (Ep := fr_prev _ _ _ _ _ _ Hf).
  destruct (fr_must _ _ _ _ _ _ Hf) as (c & root & t & inv & bass & tonic & mode & F1 & F2 & F3 & F4). specialize (F4 Hmust).
  assert (Hplaced : placed m') by (split; [exact (same_sound _ _ Hs E1 E2 E3)|]; rewrite E1, E3, E4; auto).
  destruct (state_chord_ok m' Hplaced) as (fcd & Efc & Ept & Hi & _ & _ & ch & md & Ech & Ench & Ekch).
  rewrite E1, F1 in Ech. injection Ech as <-. change (g_cpt g) with pt in F2. rewrite F2 in Ench. apply Ok_inj in Ench. injection Ench as G1 G2 G3 G4.
  rewrite E2, F3 in Ekch. apply Ok_inj in Ekch. injection Ekch as G5 _.
  unfold add_csm_prior, the_prev. rewrite E3, Ep. cbn [bind]. cbv zeta. unfold relative_chord_index. rewrite Efc. cbn [bind]. unfold chord_one_hot.
  rewrite Ept. destruct (a2r_ok (c_root (fc fcd)) (c_tonic (fc fcd)) false) as (rr & Err); [intros _; rewrite <- G1, <- G5; apply F4|]. rewrite Err. cbn [bind].
  assert (Hrr := abs_rel_ok _ _ _ _ _ Err). destruct Hrr as [Hrr _]. replace (decode_num_pitches pt false) with (root_count pt true false) in Hrr by (destruct pt; reflexivity).
  destruct (rejects_s (c_type (fc fcd)) rr pt (c_inv (fc fcd)) true true false NO_REDUCTION) as [[_ Hbad]|(idx0 & Ei0 & _)].
  { exfalso. unfold NO_REDUCTION in Hbad. lia. }
  rewrite Ei0. cbn [bind]. change (g_cpt g) with pt. rewrite (reduce_one_of_encode _ _ _ _ _ _ _ _ _ _ _ Ei0).
  set (first := (st_change p =? 0)%nat). set (red := if first then NO_REDUCTION else g_red g). set (ui := if first then true else g_use_inv g).
  assert (Hui : ui = true -> forall u, positions u <= positions (red u)).
  { unfold ui, red. destruct first; [intros _ u; unfold NO_REDUCTION; lia|exact Hinv]. }
  change (NO_REDUCTION (c_type (fc fcd))) with (c_type (fc fcd)).
  destruct (rejects_s (c_type (fc fcd)) rr pt (c_inv (fc fcd)) ui true false red) as [[_ Hbad]|(idx & Ei & _)].
  { exfalso. destruct Hbad as [Hbad|[Hbad|[Hu Hbad]]]; [lia|lia|]. specialize (Hui Hu (c_type (fc fcd))). lia. }
  rewrite Ei. cbn [bind]. assert (Hidx := encode_range _ _ _ _ _ _ _ _ _ Ei). assert (Hprior : st_prior m' = st_prior p) by (rewrite E6; exact (fr_prior _ _ _ _ _ _ Hf)).
  rewrite Hprior. assert (Hfirst := rderived_first p Hp).
  assert (Hlen : zlen (st_prior p) = if first then 44 * root_count pt true false else if g_pitch_based g then root_count pt true false
       else get_chord_vector_length pt true true (g_use_inv g) false (g_red g)).
  { destruct (fr_ready _ _ _ _ _ _ Hf) as [(Hn & tn & md' & _ & ->)|(Hn & l & i & p0 & _ & _ & ->)].
    - apply Hfirst in Hn. unfold first. rewrite Hn. apply Hicm.
    - unfold first. destruct (Nat.eqb_spec (st_change p) 0) as [E|_]; [apply Hfirst in E; contradiction|]. apply Hcsm. }
  destruct (g_pitch_based g && negb first) eqn:Epb.
  - apply andb_true_iff in Epb as [Epb Hnf]. apply negb_true_iff in Hnf.
    rewrite (roundtrip_s _ _ _ _ _ _ _ _ _ Ei). cbn [bind].
    destruct (chord_vector_spec (red (c_type (fc fcd))) pt (rr + lowest_root pt true false)) as (v & -> & Hv & _). cbn [bind].
    replace (zlen (py_slice v 0 match pt with TPC => MAX_RELATIVE_TPC - MIN_RELATIVE_TPC | MIDI => NUM_PITCHES MIDI end) =? zlen (st_prior p)) with true; [eexists; reflexivity|].
    symmetry. apply Z.eqb_eq. rewrite Hlen, Hnf, Epb.
    rewrite py_slice_spec by (rewrite ?Hv; destruct pt; vm_compute; repeat split; discriminate).
    unfold zlen in *. rewrite firstn_length, skipn_length. destruct pt; cbn in *; lia.
  - destruct (py_nth_in_range (st_prior p) idx) as (x & -> & _); [|eexists; reflexivity]. rewrite Hlen.
    unfold ui, red in Hidx. destruct first.
    + replace (44 * root_count pt true false) with (get_chord_vector_length pt true true true false NO_REDUCTION) by (destruct pt; vm_compute; reflexivity). exact Hidx.
    + rewrite andb_true_r in Epb. rewrite Epb. exact Hidx.
Qed.

(* ---- one step ---- *)
Lemma beam_content_ok k sr b : sinv k sr -> (k <= n)%nat -> nth_error (sr_beams sr) k = Some b -> exists l, beam_content sr b = Ok l.
Proof.
  intros [HL HS HD] Hk Eb. destruct (HS k b (le_n k) Eb) as (seen & B & Hb & _ & _ & _ & HB). unfold beam_content.
  rewrite (proj1 (ab_list_ok _ _ _ Hb)). cbn [bind]. apply mapM_returns. intros x Hx. destruct (HB x Hx) as (s & E & _). exists s. apply hget_nth. exact E.
Qed.
Lemma run_csm_ok k l : (forall s, In s l -> rderived s /\ st_prev s <> None) -> exists l', run_csm g o pd k l = Ok l'.
Proof.
  intros H. unfold run_csm. destruct (mapM_returns (csm_input (g_cpt g) (g_kpt g) (p_durs pd) (p_levels pd)) l) as (x & E).
  - intros s Hs. destruct (H s Hs) as [Hr Hp]. destruct (rderived_placed s Hr Hp) as [H1 H2]. exact (csm_input_ok s H1 H2).
  - cbv zeta. rewrite E. eexists. reflexivity.
Qed.
Lemma derived_rderived s : derived g o pd ranges s -> st_change s = 0%nat -> rderived s.
Proof. intros H E. exists s. split; [exact H|]. left. auto. Qed.

Theorem step_total k sr : (k < n)%nat -> sinv k sr -> exists sr', search_step g o pd ranges sr k = Ok sr'.
Proof.
  intros Hk Hi. destruct (slot_of k sr k Hi) as (cur & Ecur & _); [lia|]. unfold search_step. rewrite Ecur. cbn [bind]. apply hget_nth in Ecur.
  destruct (ab_len cur =? 0); [eexists; reflexivity|]. destruct (beam_content_ok k sr cur Hi) as (states & Est); [lia|exact Ecur|]. rewrite Est. cbn [bind].
  assert (Hst : exists states', (if (k =? 0)%nat then Ok states else run_csm g o pd k states) = Ok states'
     /\ forall s', In s' states' -> exists s, derived g o pd ranges s /\ ready o s s' /\ st_change s' = k).
  { destruct (Nat.eqb_spec k 0) as [->|Hk0].
    - exists states. split; [reflexivity|]. intros s' Hs'. destruct (content_inv g o pd ranges _ _ _ _ Hi Ecur Est s' Hs') as [Hd Hc].
      exists s'. split; [exact Hd|]. split; [left; auto|exact Hc].
    - assert (Hall : forall s, In s states -> derived g o pd ranges s /\ st_change s = k) by (intros s Hs; exact (content_inv g o pd ranges _ _ _ _ Hi Ecur Est s Hs)).
      destruct (mapM_returns (csm_input (g_cpt g) (g_kpt g) (p_durs pd) (p_levels pd)) states) as (x & E).
      { intros s Hs. destruct (Hall s Hs) as [Hd Hc]. destruct (linked_of s Hd) as [Hin|(q & Hq & Hl)].
        - destruct Hin as (ks & k' & tonic & mode & _ & _ & _ & ->). cbn in Hc. congruence.
        - destruct (link_placed q s Hq (derived_sound _ Hd) (derived_bound _ Hd) Hl) as [H1 H2]. exact (csm_input_ok s H1 H2). }
      unfold run_csm. cbv zeta. rewrite E. cbn [bind]. eexists. split; [reflexivity|]. intros s' Hs'.
      apply in_mapi in Hs' as (j & s & Ej & ->). destruct (Hall s (nth_error_In _ _ Ej)) as [Hd Hc]. exists s. split; [exact Hd|]. split; [|exact Hc].
      right. split; [congruence|]. exists states, j. split; [exact Ej|]. rewrite Hc. reflexivity. }
  destruct Hst as (states' & -> & Hst). cbn [bind]. cbv zeta.
  set (here := filter (fun r => (r_start r =? k)%nat) ranges).
  assert (Hhere : forall r, In r here -> In r ranges /\ r_start r = k) by (intros r Hr; apply filter_In in Hr as [H1 H2]; apply Nat.eqb_eq in H2; auto).
  destruct (mapM_returns (fun x => branch_range g o pd sr k (fst x) (snd x)) (list_prod states' here)) as (branched & Ebr).
  { intros [s r] Hsr. apply in_prod_iff in Hsr as [Hs Hr]. destruct (Hhere r Hr) as [Hr1 Hr2]. destruct (Hst s Hs) as (s0 & Hd & Hrd & _). cbn [fst snd].
    apply (branch_range_ok k sr s r Hi); [exists s0; auto|exact Hr1|]. destruct (Hranges r Hr1). lia. }
  rewrite Ebr. cbn [bind].
  assert (Hbuilt : forall m, In m (concat branched) -> built k m /\ exists s0 s r, derived g o pd ranges s0 /\ ready o s0 s /\ In r ranges
      /\ r_start r = st_change s /\ branch_rel g o pd s r m /\ (k < st_change m <= n)%nat).
  { intros m Hm. destruct (mapM_id_in _ _ _ _ Ebr Hm) as ([s r] & b & Hsr & Eb & Hb). cbn [fst snd] in Eb.
    apply in_prod_iff in Hsr as [Hs Hr]. destruct (Hhere r Hr) as [Hr1 Hr2]. destruct (Hst s Hs) as (s0 & Hd & Hrd & Hc).
    assert (Hb' := branch_range_rel _ _ _ _ _ _ _ _ Hc Eb m Hb). split; [exact (branch_built k s0 s r m Hd Hrd Hr1 ltac:(congruence) Hc Hb')|].
    exists s0, s, r. repeat (split; [solve [assumption|congruence]|]). rewrite (branch_change g o pd _ _ _ Hb'). destruct (Hranges r Hr1). lia. }
  destruct (key_change_probs_ok k (concat branched)) as (probs & Epr); [intros m Hm; apply Hbuilt; exact Hm|]. rewrite Epr. cbn [bind].
  assert (Hpm : forall p m, In (p, m) (combine probs (concat branched)) -> In m (concat branched) /\ prob_ok o m p)
    by (intros p m Hm; exact (key_change_probs_rel g o pd _ _ _ Epr p m Hm)).
  destruct (key_branch_all_ok k sr Hi (combine probs (concat branched))) as ([to_ksm to_csm] & Ekb).
  { intros p m Hm. apply Hbuilt. apply (Hpm p m Hm). }
  rewrite Ekb. cbn [bind]. destruct (key_branch_all_rel g o pd _ _ _ _ _ Ekb) as [HA HB].
  destruct (key_change_states_ok k k to_ksm) as (changed & Ech).
  { intros m Hm. destruct (HA m Hm) as (prob & m0 & Hm0 & Hcr). apply (change_branching k prob m0 m); [|exact Hcr]. apply Hbuilt. apply (Hpm _ _ Hm0). }
  rewrite Ech. cbn [bind].
  assert (Hch : forall f, In f changed -> derived g o pd ranges f /\ (k < st_change f <= n)%nat).
  { intros f Hf. destruct (key_change_states_rel g o pd _ _ _ Ech f Hf) as (m & Hm & Hkr). destruct (HA m Hm) as (prob & m0 & Hm0 & Hcr).
    destruct (Hpm _ _ Hm0) as [Hin Hpo]. destruct (Hbuilt m0 Hin) as (_ & s0 & s & r & Hd & Hrd & Hr & Er & Hb & Hc).
    split; [exact (d_change g o pd ranges s0 s r m0 prob m f Hd Hrd Hr Er Hb Hpo Hcr Hkr)|].
    rewrite (key_change g o pd _ _ Hkr), (change_change g o pd _ _ _ Hcr). exact Hc. }
  assert (Hchb : forall f, In f changed -> branching k f).
  { intros f Hf. destruct (Hch f Hf) as [Hd Hc]. destruct (linked_of f Hd) as [Hin|(q & Hq & Hl)].
    - destruct Hin as (ks & k' & tonic & mode & _ & _ & _ & ->). cbn in Hc. lia.
    - destruct (link_placed q f Hq (derived_sound _ Hd) (derived_bound _ Hd) Hl) as [H1 H2]. constructor; [exact H1|exact (home_wide _ H2)| |].
      + exists q. split; [exact (lk_prev _ _ _ _ _ _ Hl)|exact Hq].
      + exact (hash_len_iff g f (linked_has_hash g o pd ranges f (linked_of f Hd))). }
  destruct (mapM_returns (ktm_input (g_cpt g) (g_kpt g) (p_durs pd) (p_levels pd)) changed) as (u1 & Eu1).
  { intros f Hf. destruct (Hchb f Hf) as [H1 H2 _ _]. exact (ktm_input_ok f H1 H2). }
  rewrite Eu1. cbn [bind]. destruct (ksm_inputs_ok k k changed Hchb) as (u2 & ->). cbn [bind].
  destruct (add_all_inv g o pd ranges k changed sr Hi) as (sr1 & E1 & Hi1 & _ & _).
  { intros s Hs. destruct (Hch s Hs) as [Hd Hc]. split; [exact Hd|]. fold n. lia. }
  rewrite E1. cbn [bind].
  destruct (mapM_returns (add_csm_prior (g_cpt g) (g_kpt g) (p_durs pd) (p_levels pd) (g_pitch_based g) (g_use_inv g) (g_red g) (o_pitch_log o)) to_csm) as (fin & Efin).
  { intros m Hm. destruct (HB m Hm) as (prob & m0 & Hm0 & Hkr). apply (add_csm_prior_ok k prob m0 m); [|exact Hkr]. apply Hbuilt. apply (Hpm _ _ Hm0). }
  rewrite Efin. cbn [bind].
  destruct (add_all_inv g o pd ranges k fin sr1 Hi1) as (sr2 & E2 & Hi2 & _ & _).
  { intros f Hf. destruct (mapM_in _ _ _ _ Efin Hf) as (m & Hm & Hcsm'). destruct (HB m Hm) as (prob & m0 & Hm0 & Hkr).
    destruct (Hpm _ _ Hm0) as [Hin Hpo]. destruct (Hbuilt m0 Hin) as (_ & s0 & s & r & Hd & Hrd & Hr & Er & Hb & Hc).
    split; [exact (d_keep g o pd ranges s0 s r m0 prob m f Hd Hrd Hr Er Hb Hpo Hkr Hcsm')|].
    rewrite (csm_change g o pd m f Hcsm'), (keep_change g o pd _ _ _ Hkr). fold n. lia. }
  rewrite E2. cbn [bind]. destruct (slot_of k sr2 k Hi2) as (cur2 & -> & _); [lia|]. eexists. reflexivity.
Qed.

Lemma loop_total d : forall k sr, (k + d <= n)%nat -> sinv k sr -> exists sr', search_loop g o pd ranges sr (seq k d) = Ok sr'.
Proof.
  induction d as [|d IH]; intros k sr Hk Hi; cbn [seq search_loop]; [eexists; reflexivity|].
  destruct (step_total k sr ltac:(lia) Hi) as (sr1 & E). rewrite E. cbn [bind].
  apply IH; [lia|]. exact (step_inv g o pd ranges Hranges k sr sr1 ltac:(fold n; lia) Hi E).
Qed.

Lemma add_initial_total keys : initial_keys g pd = Ok keys -> (forall k, In k keys -> 0 <= k < key_count (g_kpt g)) ->
  forall l sr, incl l keys -> sinv 0 sr -> exists sr', add_initial g o sr l = Ok sr'.
Proof.
  intros Ek Hkeys. induction l as [|k l IH]; intros sr Hl Hi; cbn [add_initial]; [eexists; reflexivity|].
  assert (Hs : exists s, initial_state g o k = Ok s).
  { unfold initial_state. destruct (state_key_ok k (Hkeys k (Hl k (or_introl eq_refl)))) as (t & m & E). cbv zeta. rewrite E. cbn [bind].
    unfold make_hash. destruct (g_hash_length g); eexists; reflexivity. }
  destruct Hs as (s & Es). rewrite Es. cbn [bind].
  assert (Hc : st_change s = 0%nat) by (destruct (initial_facts g o pd k keys s Ek (Hl k (or_introl eq_refl)) Es) as (ks & k' & tn & md & _ & _ & _ & ->); reflexivity).
  destruct (add_state_inv g o pd ranges 0 sr 0 s true Hi) as (sr1 & E1 & Hi1 & _); [|lia|lia|exact Hc|].
  { exact (d_init g o pd ranges k keys s Ek (Hl k (or_introl eq_refl)) Es). }
  rewrite E1. cbn [bind]. apply (IH sr1); [|exact Hi1]. intros x Hx. apply Hl. right. exact Hx.
Qed.

Lemma empty_inv : sinv 0 {| sr_beams := repeat (new_any (g_hash_length g) (g_beam_size g)) (S n); sr_store := [] |}.
Proof.
  constructor; cbn [sr_beams sr_store].
  - apply repeat_length.
  - intros idx b _ Eb. apply nth_error_In, repeat_spec in Eb. subst b. exists [], []. cbn [sr_store].
    split; [apply new_any_inv; exact Hbeam|]. split; [unfold new_any; destruct (g_hash_length g); reflexivity|].
    split; [split; [intros _; rewrite zlen_nil; lia|intros s []]|]. split; intros x [].
  - intros s [].
Qed.
Lemma initial_keys_total : exists keys, initial_keys g pd = Ok keys /\ forall k, In k keys -> 0 <= k < key_count (g_kpt g).
Proof.
  unfold initial_keys. destruct Hforced_k as [Hl Hk]. destruct (p_forced_k pd) as [|f fs]; [exfalso; apply Hpiece; unfold n in Hl; destruct (p_durs pd); [reflexivity|discriminate]|].
  cbn [hget nth_error bind]. eexists. split; [reflexivity|]. intros k Hin. destruct (Z.eqb_spec f (-1)) as [->|Hf].
  - apply in_zrange in Hin. rewrite key_count_len in Hin. lia.
  - destruct Hin as [<-|[]]. destruct (Hk f (or_introl eq_refl)); [contradiction|assumption].
Qed.
Theorem run_search_total : exists sr, run_search g o pd ranges = Ok sr.
Proof.
  unfold run_search. cbv zeta. destruct initial_keys_total as (keys & Ek & Hkeys). rewrite Ek. cbn [bind].
  destruct (add_initial_total keys Ek Hkeys keys _ (incl_refl _) empty_inv) as (sr0 & E0). fold n. rewrite E0. cbn [bind].
  apply (loop_total n 0 sr0); [lia|]. exact (add_initial_inv g o pd ranges keys Ek keys _ _ (incl_refl _) empty_inv E0).
Qed.
End Total.
