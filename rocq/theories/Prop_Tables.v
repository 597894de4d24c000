(* C71-C73: the tables of results and labels. *)
From Coq Require Import QArith Lqa String Ascii Lia ZArith.
From Verif Require Import Model_Strings Model_Rhythm Model_Piece Model_Tables Spec_Music Spec_Text Spec_Piece Spec_Search Spec_Eval Spec_Changes Spec_Tables.
From Verif Require Import Proof_Base Proof_Strings Proof_Infer Proof_Eval Prop_Codec Prop_Pitch Prop_Piece Prop_Eval Prop_Changes Proof_Tables.
From Coq Require Import List.
Import ListNotations.
Close Scope Q_scope.
Open Scope Z_scope.

(* C71: a row for each input that lasts, with the texts of the chord and key in force and of
   the estimated chord and key, said in the type asked for. *)
Theorem C71_results : forall p durs s out_root out_tonic root_type tonic_type rows,
  length durs = length (p_notes p) -> covered p -> keyed p ->
  (let (chords, changes) := get_chords s in segmentation chords changes (length (p_notes p))) ->
  (let (keys, changes) := get_keys s in segmentation keys changes (length (p_notes p))) ->
  get_results p durs s out_root out_tonic root_type tonic_type = Ok rows ->
  Forall2 (fun i r => nth_error durs i = Some (rr_dur r) /\
    (exists c e r1 r0 r2 t inv, chord_in_force p i c /\
       labelled (fst (get_chords s)) (snd (get_chords s)) i (Some e) /\
       said_as TPC root_type (c_root (pc c)) r1 /\
       chord_text root_type r1 (c_type (pc c)) (c_inv (pc c)) (rr_gt_chord r) /\
       get_chord_from_one_hot_index e out_root true false false NO_REDUCTION = Ok (r0, t, inv) /\
       said_as out_root root_type r0 r2 /\ chord_text root_type r2 t inv (rr_est_chord r) /\
       (rr_gt_chord r = rr_est_chord r <-> r1 = r2 /\ c_type (pc c) = t /\ c_inv (pc c) = inv)) /\
    (exists k f t1 t0 t2 m, key_in_force p i k /\
       labelled (fst (get_keys s)) (snd (get_keys s)) i f /\
       said_as TPC tonic_type (k_rel k) t1 /\ key_says tonic_type t1 (k_rel_mode k) (rr_gt_key r) /\
       get_key_from_one_hot_index f out_tonic false = Ok (t0, m) /\
       said_as out_tonic tonic_type t0 t2 /\ key_says tonic_type t2 m (rr_est_key r) /\
       (rr_gt_key r = rr_est_key r <-> t1 = t2 /\ k_rel_mode k = m)))
  (sounding durs) rows.
Proof.
  intros p durs s ort ott rt tt rows L C K Sc Sk H. unfold get_results in H.
  apply bind_ok in H. destruct H as (gc & Gc & H). destruct (get_chords s) as [chords changes]. cbn [fst snd].
  apply bind_ok in H. destruct H as (ec & Ec & H). apply bind_ok in H. destruct H as (inputs & Ei & H).
  apply bind_ok in H. destruct H as (gk & Gk & H). destruct (get_keys s) as [keys kchanges]. cbn [fst snd].
  apply bind_ok in H. destruct H as (ek & Ek & H). apply bind_ok in H. destruct H as (cl & Hcl & H).
  apply bind_ok in H. destruct H as (kl & Hkl & H).
  destruct (C05_chord_labels_aligned rt true false None false NO_REDUCTION) as (cl' & X1 & _ & Nc & _).
  rewrite Hcl in X1. apply Ok_inj in X1. subst cl'.
  destruct (C05_key_labels_aligned tt false None) as (kl' & X2 & _ & Nk & _).
  rewrite Hkl in X2. apply Ok_inj in X2. subst kl'.
  assert (La : length durs = length (combine (combine ec gc) (combine ek gk))).
  { rewrite !combine_length, (converted_length _ _ _ _ _ Ec), (converted_length _ _ _ _ _ Ek), (true_length _ _ _ _ _ Gc), (true_length _ _ _ _ _ Gk). lia. }
  pose proof (sounding_nth durs _ La) as F1. apply result_rows_spec in H.
  destruct (key_inputs p inputs C K Ei) as (Fi & Lki & Ki0 & Kmono).
  assert (Nch : p_chords p <> []).
  { destruct C as (Lc & C0 & _). destruct (p_chords p); [|discriminate]. destruct (p_changes p); [discriminate C0|discriminate Lc]. }
  assert (Nke : p_keys p <> []).
  { destruct K as (Lc & C0 & _). destruct (p_keys p); [|discriminate]. destruct (p_key_changes p); [discriminate C0|discriminate Lc]. }
  remember (filter lasts (combine durs (combine (combine ec gc) (combine ek gk)))) as mid. clear Heqmid.
  revert rows H. induction F1 as [|i [d [[e g] [ek0 gk0]]] l1 l2 [Hd Hx] F1 IH]; intros rows H.
  { inversion H. constructor. }
  inversion H as [|x r l3 rows' P H' E1 E2]; subst. cbn in P. destruct P as (Ed & P1 & P2 & P3 & P4).
  subst d. constructor; [|exact (IH rows' H')].
  clear IH H H'. cbn [fst snd] in Hd, Hx. split; [exact Hd|].
  apply nth_combine_some in Hx. destruct Hx as [Hc Hk]. apply nth_combine_some in Hc, Hk.
  destruct Hc as [He Hg]. destruct Hk as [Hek Hgk].
  assert (Hi : (i < length (p_notes p))%nat) by (rewrite <- L; apply nth_error_Some; congruence).
  split.
  - destruct (chord_force p i C Nch) as (c & Fc).
    destruct (true_nth _ _ _ _ _ i c Gc) as (v & Hv & Hv'); [apply C|apply C|exact Hi|exact Fc|].
    rewrite Hg in Hv'. apply Some_inj in Hv'. subst v.
    destruct (labelled_exists chords changes _ i Sc Hi) as (lb & Lb).
    assert (Hs : exists v, lb = Some v).
    { destruct lb as [v|]; [eauto|]. exfalso. destruct Lb as (k & a & b & Hk & Ha & Hb & _).
      unfold converted_labels in Ec. apply bind_ok in Ec. destruct Ec as (lx & M & _). apply mapM_ok in M.
      assert (Hk' : nth_error (combine chords (combine (removelast changes) (tl changes))) k = Some (None, (a, b))).
      { apply nth_combine_some. split; [exact Hk|]. apply nth_combine_some. split.
        - rewrite removelast_firstn_len. rewrite Proof_Paths.nth_error_firstn_lt; [exact Ha|].
          assert (k < length chords)%nat by (apply nth_error_Some; congruence). destruct Sc as (Lx & _). lia.
        - destruct changes; [destruct k; discriminate Ha|]. exact Hb. }
      destruct (Forall2_nth _ _ _ _ _ M Hk') as (y & _ & Y). discriminate Y. }
    destruct Hs as (v & ->).
    destruct (converted_nth _ _ _ _ _ i v Ec Sc Lb) as (w & Hw & Hw'). rewrite He in Hw'. apply Some_inj in Hw'. subst w.
    destruct (gold_chord_spec _ _ _ Hv) as (B1 & r1 & S1 & D1).
    destruct (converted_chord_spec _ _ _ _ Hw) as (B2 & r0 & r2 & t & inv & D0 & S2 & D2).
    assert (Ept : c_pt (pc c) = TPC).
    { destruct C as (_ & _ & _ & Fp). rewrite Forall_forall in Fp. apply Fp. destruct Fc as (a1 & a2 & a3 & Ea & _).
      apply (in_combine_r (p_changes p) _ a2). rewrite Ea. apply in_elt. }
    rewrite Ept in S1. exists c, v, r1, r0, r2, t, inv.
    split; [exact Fc|]. split; [exact Lb|]. split; [exact S1|]. split; [exact (chord_text_of _ _ _ _ _ _ _ Hcl B1 D1 P2)|].
    split; [exact D0|]. split; [exact S2|]. split; [exact (chord_text_of _ _ _ _ _ _ _ Hcl B2 D2 P4)|].
    rewrite (nodup_texts cl g e _ _ Nc B1 B2 P2 P4). split.
    + intros ->. rewrite D1 in D2. apply Ok_inj in D2. injection D2 as -> -> ->. auto.
    + intros (Q1 & Q2 & Q3). rewrite Q1, Q2, Q3 in D1. apply chord_index_back in D1, D2; [|assumption..]. congruence.
  - destruct (force_exists (combine inputs (p_keys p)) i) as (k & Fk).
    { destruct (p_keys p); [now destruct Nke|]. destruct inputs; [discriminate Lki|]. discriminate. }
    { intros c x H. apply nth_combine_some in H. destruct H as [H _]. rewrite Ki0 in H. apply Some_inj in H. lia. }
    { now apply combine_mono. }
    destruct (true_nth _ _ _ _ _ i k Gk Lki Kmono Hi Fk) as (v & Hv & Hv').
    rewrite Hgk in Hv'. apply Some_inj in Hv'. subst v.
    assert (Sk' : segmentation (map Some keys) kchanges (length (p_notes p))).
    { destruct Sk as (A1 & A2). unfold segmentation. rewrite map_length. split; [exact A1|exact A2]. }
    destruct (labelled_exists keys kchanges _ i Sk Hi) as (f & Lf).
    assert (Lf' : labelled (map Some keys) kchanges i (Some f)).
    { destruct Lf as (k0 & a & b & Hk & R). exists k0, a, b. split; [|exact R]. now rewrite nth_error_map, Hk. }
    destruct (converted_nth _ _ _ _ _ i f Ek Sk' Lf') as (w & Hw & Hw'). rewrite Hek in Hw'. apply Some_inj in Hw'. subst w.
    destruct (gold_key_spec _ _ _ Hv) as (B1 & t1 & S1 & D1).
    destruct (converted_key_spec _ _ _ _ Hw) as (B2 & t0 & t2 & m & D0 & S2 & D2).
    assert (Ept : k_pt k = TPC).
    { destruct K as (_ & _ & _ & Fp). rewrite Forall_forall in Fp. apply Fp. destruct Fk as (a1 & a2 & a3 & Ea & _).
      apply (in_combine_r inputs _ a2). rewrite Ea. apply in_elt. }
    rewrite Ept in S1. exists k, f, t1, t0, t2, m.
    split; [exists inputs; split; [exact Fi|exact Fk]|]. split; [exact Lf|]. split; [exact S1|].
    split; [exact (key_text_of _ _ _ _ _ _ Hkl B1 D1 P1)|]. split; [exact D0|]. split; [exact S2|].
    split; [exact (key_text_of _ _ _ _ _ _ Hkl B2 D2 P3)|].
    rewrite (nodup_texts kl gk0 ek0 _ _ Nk B1 B2 P1 P3). split.
    + intros ->. rewrite D1 in D2. apply Ok_inj in D2. injection D2 as -> ->. auto.
    + intros (Q1 & Q2). rewrite Q1, Q2 in D1. apply key_index_back in D1, D2; [|assumption..]. congruence.
Qed.
Print Assumptions C71_results.

(* The accuracies of C40 can be read off the table: the time of the rows whose texts agree. *)
Definition agree_chord (r : result_row) : bool := str_eqb (rr_gt_chord r) (rr_est_chord r).
Definition agree_key (r : result_row) : bool := str_eqb (rr_gt_key r) (rr_est_key r).
Lemma forall2_rows {A B} (P R : A -> B -> Prop) l1 l2 : (forall x y, P x y -> R x y) -> Forall2 P l1 l2 -> Forall2 R l1 l2.
Proof. intros H. induction 1; constructor; auto. Qed.
Lemma not_zero : forall durs k i, In i (sounding_from k durs) -> forall d, nth_error durs (i - k) = Some d -> ~ (d == 0)%Q.
Proof.
  induction durs as [|x durs IH]; intros k i I d Hd; [destruct I|]. cbn [sounding_from] in I.
  assert (R : In i (sounding_from (S k) durs) -> ~ (d == 0)%Q).
  { intros J. pose proof (sounding_ge _ _ _ J). replace (i - k)%nat with (S (i - S k)) in Hd by lia. exact (IH (S k) i J d Hd). }
  destruct (Qeq_bool x 0) eqn:E; [exact (R I)|]. destruct I as [<-|I]; [|exact (R I)].
  rewrite Nat.sub_diag in Hd. apply Some_inj in Hd. subst x. intros Z0. apply Qeq_bool_iff in Z0. congruence.
Qed.
Lemma forall2_in {A B} (P : A -> B -> Prop) l1 l2 : Forall2 P l1 l2 -> Forall2 (fun x y => In x l1 /\ P x y) l1 l2.
Proof.
  induction 1 as [|x y l1 l2 H F IH]; constructor; [split; [now left|exact H]|].
  eapply forall2_rows; [|exact IH]. intros a b [I Hab]. split; [now right|exact Hab].
Qed.
Lemma bool_iff (a b : bool) (P : Prop) : (a = true <-> P) -> (b = true <-> P) -> a = b.
Proof. destruct a, b; intuition congruence. Qed.
Theorem C71_accuracy : forall p durs s rows,
  length durs = length (p_notes p) -> covered p -> keyed p ->
  (let (chords, changes) := get_chords s in segmentation chords changes (length (p_notes p))) ->
  (let (keys, changes) := get_keys s in segmentation keys changes (length (p_notes p))) ->
  get_results p durs s TPC TPC TPC TPC = Ok rows ->
  (total durs == row_time rr_dur (fun _ => true) rows)%Q /\
  (forall acc, evaluate_chords p durs s TPC true NO_REDUCTION = Ok acc ->
     (acc * total durs == row_time rr_dur agree_chord rows)%Q) /\
  (forall acc, evaluate_keys p durs s TPC false = Ok acc ->
     (acc * total durs == row_time rr_dur agree_key rows)%Q) /\
  (forall acc, evaluate_jointly p durs s TPC TPC true NO_REDUCTION false = Ok acc ->
     (acc * total durs == row_time rr_dur (fun r => agree_chord r && agree_key r) rows)%Q).
Proof.
  intros p durs s rows L C K Sc Sk H. pose proof (C71_results _ _ _ _ _ _ _ _ L C K Sc Sk H) as F.
  apply forall2_in in F. split; [|split; [|split]].
  - assert (T : (total durs == marked_time durs (repeat true (length durs)))%Q).
    { clear. induction durs as [|d durs IH]; [reflexivity|]. cbn. fold (total durs). now rewrite IH. }
    rewrite T. apply (row_time_marked _ _ durs _ rows 0); [now rewrite repeat_length|].
    eapply forall2_rows; [|exact F]. intros i r (_ & Hd & _). rewrite Nat.sub_0_r. split; [exact Hd|].
    intros b Hb. apply nth_error_In, repeat_spec in Hb. now symmetry.
  - intros acc E. destruct (C40_chords _ _ _ _ _ _ L C Sc E) as (flags & Lf & _ & M & X). rewrite M.
    apply (row_time_marked _ _ durs flags rows 0 Lf). eapply forall2_rows; [|exact F].
    intros i r (I & Hd & (c & e & r1 & r0 & r2 & t & inv & Fc & Le & S1 & _ & D & S2 & _ & Ag) & _).
    rewrite Nat.sub_0_r. split; [exact Hd|]. intros b Hb. cbn [said_as] in S1, S2. subst r1 r2.
    assert (Dz : ~ (rr_dur r == 0)%Q) by (apply (not_zero durs 0 i I); rewrite Nat.sub_0_r; exact Hd).
    destruct (X i _ c e Hd Dz Fc Le) as (b' & est & Hb' & D' & Y). rewrite Hb in Hb'. apply Some_inj in Hb'. subst b'.
    rewrite D in D'. apply Ok_inj in D'. subst est. cbn [right_chord] in Y. unfold NO_REDUCTION in Y.
    apply (bool_iff _ _ (c_root (pc c) = r0 /\ c_type (pc c) = t /\ c_inv (pc c) = inv)); [|tauto].
    unfold agree_chord. rewrite str_eqb_eq. exact Ag.
  - intros acc E. destruct (C40_keys _ _ _ _ _ L C K Sk E) as (flags & Lf & _ & M & X). rewrite M.
    apply (row_time_marked _ _ durs flags rows 0 Lf). eapply forall2_rows; [|exact F].
    intros i r (I & Hd & _ & (k & f & t1 & t0 & t2 & m & Fk & Lk & S1 & _ & D & S2 & _ & Ag)).
    rewrite Nat.sub_0_r. split; [exact Hd|]. intros b Hb. cbn [said_as] in S1, S2. subst t1 t2.
    assert (Dz : ~ (rr_dur r == 0)%Q) by (apply (not_zero durs 0 i I); rewrite Nat.sub_0_r; exact Hd).
    destruct (X i _ k f Hd Dz Fk Lk) as (b' & est & Hb' & D' & Y). rewrite Hb in Hb'. apply Some_inj in Hb'. subst b'.
    rewrite D in D'. apply Ok_inj in D'. subst est. unfold right_key in Y. cbn [fst snd] in Y.
    apply (bool_iff _ _ (k_rel k = t0 /\ k_rel_mode k = m)); [|tauto].
    unfold agree_key. rewrite str_eqb_eq. exact Ag.
  - intros acc E. destruct (C40_joint _ _ _ _ _ _ _ L C K Sc Sk E) as (flags & Lf & _ & M & X). rewrite M.
    apply (row_time_marked _ _ durs flags rows 0 Lf). eapply forall2_rows; [|exact F].
    intros i r (I & Hd & (c & e & r1 & r0 & r2 & t & inv & Fc & Le & S1 & _ & D & S2 & _ & Ag) &
      (k & f & t1 & t0 & t2 & m & Fk & Lk & T1 & _ & Dk & T2 & _ & Agk)).
    rewrite Nat.sub_0_r. split; [exact Hd|]. intros b Hb. cbn [said_as] in S1, S2, T1, T2. subst r1 r2 t1 t2.
    assert (Dz : ~ (rr_dur r == 0)%Q) by (apply (not_zero durs 0 i I); rewrite Nat.sub_0_r; exact Hd).
    destruct (X i _ c k e f Hd Dz Fc Fk Le Lk) as (b' & est & estk & Hb' & D' & Dk' & Y).
    rewrite Hb in Hb'. apply Some_inj in Hb'. subst b'.
    rewrite D in D'. apply Ok_inj in D'. subst est. rewrite Dk in Dk'. apply Ok_inj in Dk'. subst estk.
    unfold right_key in Y. cbn [fst snd right_chord] in Y. unfold NO_REDUCTION in Y.
    apply (bool_iff _ _ ((c_root (pc c) = r0 /\ c_type (pc c) = t /\ c_inv (pc c) = inv) /\ k_rel k = t0 /\ k_rel_mode k = m)); [|tauto].
    unfold agree_chord, agree_key. rewrite andb_true_iff, !str_eqb_eq, Ag, Agk. tauto.
Qed.
Print Assumptions C71_accuracy.

(* The table is written for every loaded piece and every valid analysis, unless the estimate has
   MIDI pitches and the table should have spelled ones. *)
Lemma reread_total from to p : ~ (from = MIDI /\ to = TPC) -> 0 <= p < pitch_count from ->
  exists q, reread_pitch p from to = Ok q /\ 0 <= q < pitch_count to.
Proof.
  intros N Hp. unfold reread_pitch. destruct from, to.
  - destruct (C06_tpc_string_roundtrip p) as (s & E & R). rewrite E. cbn [bind]. cbn in Hp.
    exists p. split; [|exact Hp]. rewrite R. now replace ((0 <=? p) && (p <? 35)) with true by lia.
  - pose proof (C10_tpc_to_midi p) as T. unfold convert_pitch in T. cbn [pt_eqb] in T. rewrite T. eexists. split; [reflexivity|].
    apply Z.mod_pos_bound. reflexivity.
  - exfalso. apply N. auto.
  - destruct (C06_midi_string_roundtrip p) as (s & E & R). rewrite E. cbn [bind]. rewrite R. eexists. split; [reflexivity|].
    apply Z.mod_pos_bound. reflexivity.
Qed.
Lemma converted_total conv hi n labels changes : 0 < hi ->
  Forall (fun x => exists e w, x = Some e /\ conv e = Ok w /\ 0 <= w < hi) labels ->
  exists arr, converted_labels conv n labels changes = Ok arr /\ Forall (fun i => 0 <= i < hi) arr.
Proof.
  intros Hh F. unfold converted_labels. rewrite Forall_forall in F.
  match goal with |- context[mapM ?f ?l] => destruct (mapM_total f l) as (r & M) end.
  { apply Forall_forall. intros [c x] I0. apply in_combine_l in I0. destruct (F c I0) as (e & w & -> & E & _).
    cbn [fst snd]. rewrite E. cbn. eauto. }
  rewrite M. cbn [bind]. eexists. split; [reflexivity|].
  apply fill_forall; [apply Forall_forall; intros x I0; apply repeat_spec in I0; lia|].
  apply mapM_ok in M. apply Forall_forall. intros y Iy. apply In_nth_error in Iy. destruct Iy as (j & Hj).
  destruct (Forall2_nth_r _ _ _ _ _ M Hj) as ([c x] & Hx & E). apply nth_error_In, in_combine_l in Hx.
  destruct (F c Hx) as (e & w & -> & Ew & B). cbn [fst snd] in E. rewrite Ew in E. apply Ok_inj in E. subst y. exact B.
Qed.
Lemma result_rows_total cl kl : forall l,
  Forall (fun x => let '(d, ((ec, gc), (ek, gk))) := x : Q * ((Z * Z) * (Z * Z)) in
    0 <= ec < zlen cl /\ 0 <= gc < zlen cl /\ 0 <= ek < zlen kl /\ 0 <= gk < zlen kl) l ->
  exists rows, result_rows cl kl l = Ok rows.
Proof.
  induction 1 as [|[d [[ec gc] [ek gk]]] l (A & B & C & D) F (rows & IH)]; [exists []; reflexivity|].
  cbn [result_rows]. destruct (Qeq_bool d 0); [eauto|].
  destruct (py_nth_total kl gk ltac:(lia)) as (? & ->). destruct (py_nth_total cl gc ltac:(lia)) as (? & ->).
  destruct (py_nth_total kl ek ltac:(lia)) as (? & ->). destruct (py_nth_total cl ec ltac:(lia)) as (? & ->).
  cbn [bind]. rewrite IH. cbn. eauto.
Qed.
Lemma pos_types rt tt : 0 < get_chord_vector_length rt true false true false NO_REDUCTION /\ 0 < 2 * pitch_count tt.
Proof. destruct rt, tt; vm_compute; auto. Qed.
Lemma chord_count pt t : positions (NO_REDUCTION t) = zlen (CHORD_PITCHES pt t).
Proof. destruct pt, t; reflexivity. Qed.
Theorem C71_defined : forall ts red ui ur us note_rows rows p durs s out_root out_tonic root_type tonic_type,
  get_score_piece ts red ui ur us note_rows rows = Ok p ->
  Forall (fun k => 0 <= k_rel k < 35) (p_keys p) ->
  ~ (out_root = MIDI /\ root_type = TPC) -> ~ (out_tonic = MIDI /\ tonic_type = TPC) ->
  Forall (fun c => exists e, c = Some e /\ 0 <= e < get_chord_vector_length out_root true false true false NO_REDUCTION)
    (fst (get_chords s)) ->
  Forall (fun k => 0 <= k < 2 * pitch_count out_tonic) (fst (get_keys s)) ->
  exists table, get_results p durs s out_root out_tonic root_type tonic_type = Ok table.
Proof.
  intros ts red ui ur us note_rows rows p durs s ort ott rt tt H Hk Nr Nt Hsc Hsk.
  destruct (loaded_facts _ _ _ _ _ _ _ _ H) as (L & Nn & F & Lk & K0 & Inc & Kb & Fk).
  destruct (pos_types rt tt) as [Pr Pt0].
  assert (Conv : forall q pt, exists a, convert_pitch q TPC pt = Ok a /\ (pt = MIDI -> 0 <= a < 12) /\ (pt = TPC -> a = q)).
  { intros q [|]; [exists q; split; [reflexivity|split; [discriminate|reflexivity]]|].
    rewrite C10_tpc_to_midi. eexists. split; [reflexivity|]. split; [|discriminate]. intros _. apply Z.mod_pos_bound. reflexivity. }
  destruct (true_total (gold_chord_index rt) (get_chord_vector_length rt true false true false NO_REDUCTION)
    (length (p_notes p)) (p_chords p) (p_changes p)) as (gc & Gc & Rgc); [exact Pr| |exact Nn|exact L|].
  { revert F. apply Forall_impl. intros c (Pt & Rt & Iv). unfold gold_chord_index, chord_to_pitch_type. rewrite Pt.
    assert (X : forall c', c_pt c' = rt -> 0 <= c_root c' < pitch_count rt -> c_type c' = c_type (pc c) -> c_inv c' = c_inv (pc c) ->
      exists i, chord_one_hot c' false true false NO_REDUCTION = Ok i /\
        0 <= i < get_chord_vector_length rt true false true false NO_REDUCTION).
    { intros c' E1 E2 E3 E4. unfold chord_one_hot. cbn [bind]. rewrite E1, E3, E4.
      destruct (C03_encoder_rejects_exactly (c_type (pc c)) (c_root c') rt (c_inv (pc c)) true false false NO_REDUCTION)
        as [[_ B]|(i & E & _)].
      - exfalso. rewrite count_root, (chord_count TPC) in B. lia.
      - exists i. split; [exact E|]. apply C02_index_in_range in E. exact E. }
    destruct (pt_eqb rt TPC) eqn:Et.
    - apply same_pt in Et. subst rt. cbn [bind]. apply X; auto.
    - destruct rt; [discriminate Et|]. destruct (Conv (c_tonic (pc c)) MIDI) as (a1 & -> & _).
      destruct (Conv (c_root (pc c)) MIDI) as (a2 & -> & B2 & _). destruct (Conv (c_bass (pc c)) MIDI) as (a3 & -> & _).
      cbn [bind]. apply X; cbn [c_pt c_root c_type c_inv]; auto. }
  destruct (mapM_total (fun k => match nth_error (p_changes p) k with Some i => Ok i | None => Raise IndexError end)
    (p_key_changes p)) as (inputs & Ei).
  { revert Kb. apply Forall_impl. intros j Hj. destruct (nth_error (p_changes p) j) eqn:E; [eauto|].
    apply nth_error_None in E. lia. }
  destruct (true_total (gold_key_index tt) (2 * pitch_count tt) (length (p_notes p)) (p_keys p) inputs) as (gk & Gk & Rgk).
  { exact Pt0. }
  { rewrite Forall_forall in Hk, Fk |- *. intros k I0. unfold gold_key_index, key_to_pitch_type, key_index. rewrite (Fk k I0).
    assert (X : forall k', k_pt k' = tt -> 0 <= k_rel k' < pitch_count tt ->
      exists i, get_key_one_hot_index (k_rel_mode k') (k_rel k') (k_pt k') = Ok i /\ 0 <= i < 2 * pitch_count tt).
    { intros k' E1 E2. rewrite E1. destruct (C04_key_rejects_exactly (k_rel_mode k') (k_rel k') tt) as [[_ B]|(i & E & _)].
      - exfalso. now apply B.
      - exists i. split; [exact E|]. apply C04_key_roundtrip in E. apply E. }
    destruct (pt_eqb tt TPC) eqn:Et.
    - apply same_pt in Et. subst tt. cbn [bind]. apply X; [apply (Fk k I0)|]. apply (Hk k I0).
    - destruct tt; [discriminate Et|]. destruct (Conv (k_rel k) MIDI) as (a1 & -> & B1 & _).
      destruct (Conv (k_local k) MIDI) as (a2 & -> & _). destruct (Conv (k_global k) MIDI) as (a3 & -> & _).
      cbn [bind]. apply X; cbn [k_pt k_rel]; auto. }
  { intros X. rewrite X in Lk. destruct (p_key_changes p); [discriminate K0|discriminate Lk]. }
  { apply mapM_ok in Ei. apply Forall2_len in Ei. lia. }
  unfold get_results, key_change_inputs. rewrite Gc, Ei. cbn [bind].
  destruct (get_chords s) as [chords changes]. destruct (get_keys s) as [keys kchanges]. cbn [fst snd] in *.
  destruct (converted_total (converted_chord ort rt) (get_chord_vector_length rt true false true false NO_REDUCTION)
    (length (p_notes p)) chords changes Pr) as (ec & Ec & Rec).
  { revert Hsc. apply Forall_impl. intros x (e & -> & Be).
    destruct (C02_index_surjective e ort true false false NO_REDUCTION Be) as (root & t & inv & D & _ & Br & Bi & _).
    rewrite low_root, count_root in Br. destruct (reread_total ort rt root Nr) as (q & Eq & Bq); [lia|].
    destruct (C03_encoder_rejects_exactly t q rt inv true false false NO_REDUCTION) as [[_ B]|(i & E & _)].
    - exfalso. rewrite count_root in B. unfold NO_REDUCTION in B. lia.
    - exists e, i. split; [reflexivity|]. unfold converted_chord. rewrite D. cbn [bind]. rewrite Eq. cbn [bind].
      split; [exact E|]. apply C02_index_in_range in E. exact E. }
  rewrite Ec. cbn [bind]. rewrite Gk. cbn [bind].
  destruct (converted_total (converted_key ott tt) (2 * pitch_count tt)
    (length (p_notes p)) (map Some keys) kchanges Pt0) as (ek & Ek & Rek).
  { apply Forall_forall. intros x I0. apply in_map_iff in I0. destruct I0 as (e & <- & I0).
    rewrite Forall_forall in Hsk. pose proof (Hsk e I0) as Be. destruct (C04_key_inverse e ott Be) as (tonic & m & D & Enc).
    assert (Bt : 0 <= tonic < pitch_count ott) by (destruct (C04_key_rejects_exactly m tonic ott) as [[X _]|(i & _ & B)]; [congruence|exact B]).
    destruct (reread_total ott tt tonic Nt Bt) as (q & Eq & Bq).
    destruct (C04_key_rejects_exactly m q tt) as [[_ B]|(i & E & _)]; [now exfalso|].
    exists e, i. split; [reflexivity|]. unfold converted_key. rewrite D. cbn [bind]. rewrite Eq. cbn [bind].
    split; [exact E|]. apply C04_key_roundtrip in E. apply E. }
  rewrite Ek. cbn [bind].
  destruct (C05_chord_labels_aligned rt true false None false NO_REDUCTION) as (cl & -> & Lcl & _).
  destruct (C05_key_labels_aligned tt false None) as (kl & -> & Lkl & _). cbn [bind].
  apply result_rows_total. apply Forall_forall. intros [d [[e g] [e' g']]] I0. apply in_combine_r in I0.
  pose proof (in_combine_l _ _ _ _ I0) as I1. pose proof (in_combine_r _ _ _ _ I0) as I2.
  rewrite Forall_forall in Rgc, Rgk, Rec, Rek. rewrite Lcl, Lkl.
  split; [apply Rec; exact (in_combine_l _ _ _ _ I1)|]. split; [apply Rgc; exact (in_combine_r _ _ _ _ I1)|].
  split; [apply Rek; exact (in_combine_l _ _ _ _ I2)|apply Rgk; exact (in_combine_r _ _ _ _ I2)].
Qed.
Print Assumptions C71_defined.

(* An analysis with MIDI pitches cannot be tabled with spelled ones as soon as a root is a black key. *)
Theorem C71_black_key_refuted : exists p,
  get_score_piece ts44 (fun t => t) true false false notes1 rows1 = Ok p /\
  get_chord_from_one_hot_index 3 MIDI true false false NO_REDUCTION = Ok (1, Maj, 0) /\
  get_results p durs1 (states [(6%nat, 3, 0)]) MIDI MIDI TPC TPC = Raise KeyError.
Proof. eexists. split; [vm_compute; reflexivity|]. split; vm_compute; reflexivity. Qed.
Print Assumptions C71_black_key_refuted.
Example C71_example : exists rows, get_results p1 durs1 s1 TPC TPC MIDI TPC = Ok rows /\
  map (fun r => (rr_gt_chord r, rr_est_chord r, rr_dur r)) rows =
    [(L"C:M, inv:0", L"C:M, inv:0", 1#2); (L"C:M, inv:1", L"C:M, inv:0", 1#2); (L"G:Mm7, inv:1", L"G:Mm7, inv:1", 3#4);
     (L"G:M, inv:0", L"G:M, inv:0", 1#4); (L"D:M, inv:0", L"G:M, inv:0", 1)]%Q /\
  sounding durs1 = [0; 1; 3; 4; 5]%nat.
Proof. eexists. split; [vm_compute; reflexivity|]. split; vm_compute; reflexivity. Qed.

(* C73: the table of coloured labels. *)
Theorem C73_labels : forall p durs s rows,
  length durs = length (p_notes p) -> covered p -> keyed p ->
  (let (chords, changes) := get_chords s in segmentation chords changes (length (p_notes p))) ->
  (let (keys, changes) := get_keys s in segmentation keys changes (length (p_notes p))) ->
  Forall (fun c => exists e, c = Some e /\ 0 <= e < 1540) (fst (get_chords s)) ->
  Forall (fun k => 0 <= k < 70) (fst (get_keys s)) ->
  get_label_table p durs s TPC TPC = Ok rows ->
  exists hs, Forall2 (heard_at p s) (sounding durs) hs /\ written None hs rows.
Proof.
  intros p durs s rows L C K Sc Sk Pc Pk H. unfold get_label_table in H.
  assert (Nch : p_chords p <> []).
  { destruct C as (Lc & C0 & _). destruct (p_chords p); [|discriminate]. destruct (p_changes p); [discriminate C0|discriminate Lc]. }
  assert (Nke : p_keys p <> []).
  { destruct K as (Lc & C0 & _). destruct (p_keys p); [|discriminate]. destruct (p_key_changes p); [discriminate C0|discriminate Lc]. }
  apply bind_ok in H. destruct H as (gc & Gc & H). apply bind_ok in H. destruct H as (ec & Ec & H).
  apply bind_ok in H. destruct H as (gk & Gk & H). apply bind_ok in H. destruct H as (ek & Ek & H).
  apply bind_ok in H. destruct H as (cl & Hcl & H). apply bind_ok in H. destruct H as (kl & Hkl & H).
  assert (Gc' : true_labels_from (-1) chord_index (length (p_notes p)) (p_chords p) (p_changes p) = Ok gc).
  { destruct (p_chords p); [now destruct Nch|exact Gc]. }
  assert (Gk' : true_keys p = Ok gk) by (destruct (p_keys p) eqn:X; [now destruct Nke|exact Gk]).
  clear Gc Gk.
  assert (Lgc := true_length_from _ _ _ _ _ _ Gc').
  assert (Lec : length ec = length (p_notes p)).
  { unfold estimated_chords in Ec. destruct (get_chords s). exact (estimated_length _ _ _ _ Ec). }
  assert (Lek : length ek = length (p_notes p)).
  { unfold estimated_keys in Ek. destruct (get_keys s). exact (estimated_length _ _ _ _ Ek). }
  assert (Lgk : length gk = length (p_notes p)).
  { unfold true_keys in Gk'. apply bind_ok in Gk'. destruct Gk' as (kc & _ & G). exact (true_length _ _ _ _ _ G). }
  set (arr := combine (combine ec gc) (combine ek gk)) in *.
  assert (Larr : length arr = length (p_notes p)) by (unfold arr; rewrite !combine_length; lia).
  set (l := combine (combine durs (p_notes p)) arr) in *.
  (* the items that last *)
  assert (X : exists hs, Forall2 (heard_at p s) (sounding durs) hs /\ Forall2 item_of (filter lasts2 l) hs).
  { assert (Y : forall i, (i < length (p_notes p))%nat -> forall x, nth_error l i = Some x ->
      exists h, heard_at p s i h /\ item_of x h).
    { intros i Hi [[d nt] [[e g] [f g']]] Hx. unfold l, arr in Hx.
      apply nth_combine_some in Hx. destruct Hx as [Hn Hx]. apply nth_combine_some in Hn. destruct Hn as [_ Hn].
      apply nth_combine_some in Hx. destruct Hx as [Hc Hk]. apply nth_combine_some in Hc, Hk.
      destruct Hc as [He Hg]. destruct Hk as [Hf Hg'].
      destruct (chord_force p i C Nch) as (c & Fc).
      destruct (true_nth_from _ _ _ _ _ _ i c Gc') as (v & Hv & Hv'); [apply C|apply C|exact Hi|exact Fc|].
      rewrite Hg in Hv'. apply Some_inj in Hv'. subst v. unfold chord_index in Hv.
      assert (Ept : c_pt (pc c) = TPC).
      { destruct C as (_ & _ & _ & Fp). rewrite Forall_forall in Fp. apply Fp. destruct Fc as (a1 & a2 & a3 & Ea & _).
        apply (in_combine_r (p_changes p) _ a2). rewrite Ea. apply in_elt. }
      pose proof Hv as Hr. unfold chord_one_hot in Hr. cbn [bind] in Hr. apply C02_index_in_range in Hr.
      apply C01_chord_object_roundtrip in Hv. rewrite Ept in Hv. cbn beta iota in Hv. unfold NO_REDUCTION at 2 in Hv.
      destruct (key_case p s gk ek i Gk' Ek C K Sk Hi) as (A1 & A2 & k & f' & Fk & Lf).
      destruct (A1 k Fk) as (g2 & Hg2 & D2). rewrite Hg' in Hg2. apply Some_inj in Hg2. subst g2.
      rewrite (A2 f' Lf) in Hf. apply Some_inj in Hf. subst f'.
      assert (Bf : 0 <= f < 70).
      { rewrite Forall_forall in Pk. apply Pk. destruct Lf as (j & a & b & Hj & _). exact (nth_error_In _ _ Hj). }
      assert (Bg' : 0 <= g').
      { unfold true_keys in Gk'. apply bind_ok in Gk'. destruct Gk' as (inputs & Ei & Gk'').
        destruct (key_inputs p inputs C K Ei) as (Fi & Lki & Ki0 & Kmono).
        destruct (force_exists (combine inputs (p_keys p)) i) as (k' & Fk').
        { destruct (p_keys p); [now destruct Nke|]. destruct inputs; [discriminate Lki|]. discriminate. }
        { intros c0 x H0. apply nth_combine_some in H0. destruct H0 as [H0 _]. rewrite Ki0 in H0. apply Some_inj in H0. lia. }
        { now apply combine_mono. }
        destruct (true_nth _ _ _ _ _ i k' Gk'' Lki Kmono Hi Fk') as (v & Hv1 & Hv2).
        rewrite Hg' in Hv2. apply Some_inj in Hv2. subst v. unfold key_index in Hv1. apply C04_key_roundtrip in Hv1. lia. }
      destruct (labelled_exists (fst (get_chords s)) (snd (get_chords s)) (length (p_notes p)) i) as (lb & Lb);
        [destruct (get_chords s); exact Sc|exact Hi|].
      assert (Blb : exists e', lb = Some e' /\ 0 <= e' < 1540).
      { rewrite Forall_forall in Pc. apply Pc. destruct Lb as (j & a & b & Hj & _). exact (nth_error_In _ _ Hj). }
      destruct Blb as (e' & -> & Be).
      assert (Ee : nth_error ec i = Some e').
      { unfold estimated_chords in Ec. destruct (get_chords s) as [chords changes]. cbn [fst snd] in *.
        exact (estimated_nth _ _ _ _ _ _ Ec Sc Lb). }
      rewrite He in Ee. apply Some_inj in Ee. subst e'.
      destruct (C02_index_surjective e TPC true false false NO_REDUCTION Be) as (r2 & t2 & i2 & De & _).
      destruct (C04_key_inverse f TPC Bf) as (t3 & m3 & Df & _).
      exists (mkHeard nt (c_root (pc c), c_type (pc c), c_inv (pc c)) (r2, t2, i2) (k_rel k, k_rel_mode k) (t3, m3)).
      split.
      - unfold heard_at. cbn [h_note h_chord h_est h_key h_est_key]. split; [exact Hn|].
        split; [exists c; auto|]. split; [exists k; auto|]. split; [exists e; auto|exists f; auto].
      - cbn [item_of h_note h_chord h_est h_key h_est_key]. split; [reflexivity|]. split; [lia|]. split; [lia|]. split; [lia|].
        split; [lia|]. auto. }
    assert (Ed : map (fun x => fst (fst x)) l = durs).
    { unfold l. rewrite <- (map_map fst fst). rewrite map_fst_combine by (rewrite combine_length; lia).
      apply map_fst_combine. exact L. }
    pose proof (sounding_items (fun x : Q * note * ((Z * Z) * (Z * Z)) => fst (fst x)) l) as F. rewrite Ed in F.
    change (fun x : Q * note * (Z * Z * (Z * Z)) => negb (Qeq_bool (fst (fst x)) 0)) with lasts2 in F.
    clear -F Y L. assert (Ll : forall i x, nth_error l i = Some x -> (i < length (p_notes p))%nat).
    { intros i x H. assert (i < length l)%nat by (apply nth_error_Some; congruence). unfold l in *. rewrite !combine_length in *. lia. }
    generalize dependent (filter lasts2 l). generalize dependent (sounding durs). intros l1 l2 F.
    induction F as [|i x l1 l2 Hx F (hs & F1 & F2)]; [exists []; split; constructor|].
    destruct (Y i (Ll i x Hx) x Hx) as (h & H1 & H2). exists (h :: hs). split; constructor; assumption. }
  destruct X as (hs & F1 & F2). exists hs. split; [exact F1|].
  exact (label_rows_spec cl kl Hcl Hkl l hs None None rows F2 I H).
Qed.
Print Assumptions C73_labels.
Definition s3 := states [(2%nat, 45, 15); (4%nat, 625, 50); (6%nat, 52, 16)].
Example C73_example : exists rows, get_label_table p1 durs1 s3 TPC TPC = Ok rows /\
  map (fun r => (fst (fst r), no_on (snd (fst r)), snd r)) rows =
    [(L"C:KeyMode.MAJOR", (0, 0%Q), Green); (L"C:M, inv:0", (0, 0%Q), Green); (L"--", (0, (1#2)%Q), Yellow);
     (L"c:KeyMode.MINOR", (1, 0%Q), Yellow); (L"G:Mm7, inv:1", (1, 0%Q), Green);
     (L"G:KeyMode.MAJOR", (1, (3#4)%Q), Green); (L"D:M, inv:1", (1, (3#4)%Q), Red); (L"--", (2, 0%Q), Yellow)].
Proof. eexists. split; vm_compute; reflexivity. Qed.

(* Notes before the first label are compared with the last chord of the list of labels (B with two
   sharps, augmented major seventh, third inversion): any other chord is marked as wrong there. *)
Definition first_chord_colour (r : res (list label_row_out)) : option colour :=
  match r with Ok (_ :: (_, _, c) :: _) => Some c | _ => None end.
Theorem C73_pickup_refuted : exists p n c,
  get_score_piece ts44 (fun t => t) true false false notes1 rows_late = Ok p /\
  nth_error (p_notes p) 0 = Some n /\ nth_error (p_chords p) 0 = Some c /\ before (no_on n) (pc_on c) /\
  first_chord_colour (get_label_table p durs1 (s_late 1539) TPC TPC) = Some Green /\
  forall first, 0 <= first < 105 ->
    first_chord_colour (get_label_table p durs1 (s_late first) TPC TPC) = Some Red.
Proof.
  exists p_late. eexists. eexists. split; [vm_compute; reflexivity|]. split; [vm_compute; reflexivity|].
  split; [vm_compute; reflexivity|]. split; [vm_compute; auto|]. split; [vm_compute; reflexivity|].
  assert (X : forallb (fun f => match first_chord_colour (get_label_table p_late durs1 (s_late f) TPC TPC) with
                                | Some Red => true | _ => false end) (zrange 0 105) = true)
    by (vm_compute; reflexivity).
  intros first Hf. rewrite forallb_forall in X. specialize (X first). rewrite in_zrange in X. specialize (X Hf).
  destruct (first_chord_colour _) as [[]|]; congruence || discriminate X.
Qed.
Print Assumptions C73_pickup_refuted.

(* The table is written for every loaded piece and every valid analysis. *)
Lemma true_total_from {A} (init : Z) (index : A -> res Z) (P : Z -> Prop) n (things : list A) changes :
  P init -> Forall (fun x => exists i, index x = Ok i /\ P i) things -> things <> [] -> length changes = length things ->
  exists arr, true_labels_from init index n things changes = Ok arr /\ Forall P arr.
Proof.
  intros Hh F Nn L. unfold true_labels_from.
  destruct (mapM_total (fun x : A * (nat * nat) => let '(c, r) := x in let! i := index c in Ok (i, r))
    (combine things (combine changes (tl changes)))) as (l & M).
  { apply Forall_forall. intros [c r] I0. apply in_combine_l in I0. rewrite Forall_forall in F.
    destruct (F c I0) as (i & E & _). rewrite E. cbn. eauto. }
  rewrite M. cbn [bind]. destruct (py_last_total things Nn) as (c & Ec & Ic). rewrite Ec. cbn [bind].
  rewrite Forall_forall in F. destruct (F c Ic) as (i & Ei & Pi). rewrite Ei. cbn [bind].
  destruct (py_last_total changes) as (a & Ea & _); [destruct changes; [destruct things; [now destruct Nn|discriminate L]|discriminate]|].
  rewrite Ea. cbn [bind]. eexists. split; [reflexivity|].
  apply (fill_forall P [(i, (a, n))]); [|constructor; [exact Pi|constructor]].
  apply fill_forall; [apply Forall_forall; intros x I0; apply repeat_spec in I0; now subst|].
  apply mapM_ok in M. apply Forall_forall. intros y Iy. apply In_nth_error in Iy. destruct Iy as (j & Hj).
  destruct (Forall2_nth_r _ _ _ _ _ M Hj) as ([c' x] & Hx & E). apply nth_error_In, in_combine_l in Hx.
  destruct (F c' Hx) as (w & Ew & B). rewrite Ew in E. cbn in E. apply Ok_inj in E. subst y. exact B.
Qed.
Lemma label_rows_total cl kl : zlen cl = 1540 -> zlen kl = 70 -> forall l prev,
  Forall (fun x => let '(_, ((ec, gc), (ek, gk))) := x : Q * note * ((Z * Z) * (Z * Z)) in
    0 <= ec < 1540 /\ -1 <= gc < 1540 /\ 0 <= ek < 70 /\ -1 <= gk < 70) l ->
  exists rows, label_rows TPC TPC cl kl prev l = Ok rows.
Proof.
  intros Lc Lk l. induction l as [|[[d nt] [[ec gc] [ek gk]]] l IH]; intros prev F; [exists []; reflexivity|].
  inversion F as [|? ? P0 F' E0]; subst. cbn in P0. destruct P0 as (A & B & C & D). cbn [label_rows]. destruct (Qeq_bool d 0); [apply IH; exact F'|].
  destruct (py_nth_total cl gc ltac:(lia)) as (tgc & ->). destruct (py_nth_total kl gk ltac:(lia)) as (tgk & ->).
  destruct (py_nth_total cl ec ltac:(lia)) as (tec & ->). destruct (py_nth_total kl ek ltac:(lia)) as (tek & ->).
  cbn [bind].
  assert (Zc : zlen (chord_list TPC true false false NO_REDUCTION) = 1540) by (vm_compute; reflexivity).
  assert (Zk : zlen (key_list TPC false) = 70) by (vm_compute; reflexivity).
  assert (Kc : exists c, key_colour TPC gk ek = Ok c).
  { unfold key_colour, get_key_from_one_hot_index.
    destruct (py_nth_total (key_list TPC false) gk ltac:(lia)) as (x & ->).
    destruct (py_nth_total (key_list TPC false) ek ltac:(lia)) as (y & ->). cbn [bind]. eauto. }
  assert (Cc : exists c, chord_colour TPC gc ec = Ok c).
  { unfold chord_colour, get_chord_from_one_hot_index.
    destruct (py_nth_total (chord_list TPC true false false NO_REDUCTION) gc ltac:(lia)) as (x & ->).
    destruct (py_nth_total (chord_list TPC true false false NO_REDUCTION) ec ltac:(lia)) as (y & ->). cbn [bind]. eauto. }
  destruct Kc as (c1 & ->). destruct Cc as (c2 & ->). destruct (IH (Some (tgc, tgk, tec, tek)) F') as (rows & ->).
  cbn [bind]. repeat match goal with |- context[if ?b then Ok [] else _] => destruct b end; cbn [bind]; eauto.
Qed.
Theorem C73_defined : forall ts red ui ur us note_rows rows p durs s,
  get_score_piece ts red ui ur us note_rows rows = Ok p ->
  Forall (fun k => 0 <= k_rel k < 35) (p_keys p) ->
  Forall (fun c => exists e, c = Some e /\ 0 <= e < 1540) (fst (get_chords s)) ->
  Forall (fun k => 0 <= k < 70) (fst (get_keys s)) ->
  exists table, get_label_table p durs s TPC TPC = Ok table.
Proof.
  intros ts red ui ur us note_rows rows p durs s H Hk Hsc Hsk.
  destruct (loaded_facts _ _ _ _ _ _ _ _ H) as (L & Nn & F & Lk & K0 & Inc & Kb & Fk).
  destruct (true_total_from (-1) chord_index (fun i => -1 <= i < 1540) (length (p_notes p)) (p_chords p) (p_changes p)) as (gc & Gc & Rgc);
    [lia| |exact Nn|exact L|].
  { revert F. apply Forall_impl. intros c (Pt & Rt & Iv). unfold chord_index, chord_one_hot. cbn [bind]. rewrite Pt.
    destruct (C03_encoder_rejects_exactly (c_type (pc c)) (c_root (pc c)) TPC (c_inv (pc c)) true false false NO_REDUCTION)
      as [[_ B]|(i & E & _)].
    - exfalso. rewrite count_root, (chord_count TPC) in B. cbn [pitch_count] in B. lia.
    - exists i. split; [exact E|]. apply C02_index_in_range in E.
      change (get_chord_vector_length TPC true false true false NO_REDUCTION) with 1540 in E. lia. }
  destruct (mapM_total (fun k => match nth_error (p_changes p) k with Some i => Ok i | None => Raise IndexError end)
    (p_key_changes p)) as (inputs & Ei).
  { revert Kb. apply Forall_impl. intros j Hj. destruct (nth_error (p_changes p) j) eqn:E; [eauto|].
    apply nth_error_None in E. lia. }
  assert (Nk : p_keys p <> []).
  { intros X. rewrite X in Lk. destruct (p_key_changes p); [discriminate K0|discriminate Lk]. }
  destruct (true_total key_index 70 (length (p_notes p)) (p_keys p) inputs) as (gk & Gk & Rgk).
  { lia. }
  { rewrite Forall_forall in Hk, Fk |- *. intros k I0. unfold key_index. rewrite (Fk k I0).
    destruct (C04_key_rejects_exactly (k_rel_mode k) (k_rel k) TPC) as [[_ B]|(i & E & _)].
    - exfalso. apply B. apply (Hk k I0).
    - exists i. split; [exact E|]. apply C04_key_roundtrip in E. apply E. }
  { exact Nk. }
  { apply mapM_ok in Ei. apply Forall2_len in Ei. lia. }
  assert (Ec : exists ec, estimated_chords p s = Ok ec /\ Forall (fun i => 0 <= i < 1540) ec).
  { unfold estimated_chords. destruct (get_chords s) as [chords changes]. apply estimated_total; [lia|exact Hsc]. }
  assert (Ek : exists ek, estimated_keys p s = Ok ek /\ Forall (fun i => 0 <= i < 70) ek).
  { unfold estimated_keys. destruct (get_keys s) as [keys changes]. apply estimated_total; [lia|].
    apply Forall_forall. intros x I0. apply in_map_iff in I0. destruct I0 as (k & <- & I0).
    exists k. cbn [fst] in Hsk. rewrite Forall_forall in Hsk. auto. }
  destruct Ec as (ec & Ec & Rec). destruct Ek as (ek & Ek & Rek).
  assert (Gk' : true_keys p = Ok gk) by (unfold true_keys, key_change_inputs; rewrite Ei; exact Gk).
  unfold get_label_table. rewrite Ec, Ek, Gk'.
  replace (match p_chords p with [] => Ok (repeat (-1) (length (p_notes p))) | _ => _ end) with (Ok gc)
    by (rewrite <- Gc; destruct (p_chords p); [now destruct Nn|reflexivity]).
  replace (match p_keys p with [] => Ok (repeat (-1) (length (p_notes p))) | _ => Ok gk end) with (Ok gk)
    by (destruct (p_keys p); [now destruct Nk|reflexivity]).
  cbn [bind].
  destruct (C05_chord_labels_aligned TPC true false None false NO_REDUCTION) as (cl & -> & Lcl & _).
  destruct (C05_key_labels_aligned TPC false None) as (kl & -> & Lkl & _). cbn [bind].
  apply label_rows_total; [exact Lcl|exact Lkl|]. apply Forall_forall. intros [d [[e g] [e' g']]] I0. apply in_combine_r in I0.
  pose proof (in_combine_l _ _ _ _ I0) as I1. pose proof (in_combine_r _ _ _ _ I0) as I2.
  rewrite Forall_forall in Rgc, Rgk, Rec, Rek.
  pose proof (Rec _ (in_combine_l _ _ _ _ I1)). pose proof (Rgc _ (in_combine_r _ _ _ _ I1)).
  pose proof (Rek _ (in_combine_l _ _ _ _ I2)). pose proof (Rgk _ (in_combine_r _ _ _ _ I2)). lia.
Qed.
Print Assumptions C73_defined.

(* C72: the table of labels. *)
Theorem C72_labels : forall p durs tpc_c rows,
  length durs = length (p_notes p) -> covered p -> keyed p ->
  get_labels_table p durs tpc_c = Ok rows ->
  Forall2 (fun i r => nth_error durs i = Some (lo_dur r) /\ nth_error (p_notes p) i = Some (lo_note r) /\
    (exists c, chord_in_force p i c /\ lo_type r = c_type (pc c) /\ lo_inv r = c_inv (pc c) /\
       lo_root_tpc r = c_root (pc c) - 15 + tpc_c /\ said_as TPC MIDI (c_root (pc c)) (lo_root_midi r) /\
       get_suspension_strings tpc_c c = Ok (lo_susp_tpc r, lo_susp_midi r)) /\
    (exists k, key_in_force p i k /\ lo_mode r = k_rel_mode k /\
       lo_tonic_tpc r = k_rel k - 15 + tpc_c /\ said_as TPC MIDI (k_rel k) (lo_tonic_midi r)))
  (sounding durs) rows.
Proof.
  intros p durs tpc_c rows L C K H. unfold get_labels_table in H.
  assert (Nch : p_chords p <> []).
  { destruct C as (Lc & C0 & _). destruct (p_chords p); [|discriminate]. destruct (p_changes p); [discriminate C0|discriminate Lc]. }
  assert (Nke : p_keys p <> []).
  { destruct K as (Lc & C0 & _). destruct (p_keys p); [|discriminate]. destruct (p_key_changes p); [discriminate C0|discriminate Lc]. }
  apply bind_ok in H. destruct H as ([labels texts] & Hc & H). apply bind_ok in H. destruct H as (gk & Gk & H).
  destruct (columns_spec _ _ _ _ Hc) as (Gc & Lt & Ht). apply labels_rows_spec in H.
  unfold true_keys in Gk. apply bind_ok in Gk. destruct Gk as (inputs & Ei & Gk).
  destruct (key_inputs p inputs C K Ei) as (Fi & Lki & Ki0 & Kmono).
  set (l := combine (combine durs (p_notes p)) (combine (combine labels texts) gk)) in *.
  assert (Ll : length labels = length (p_notes p)) by exact (true_length _ _ _ _ _ Gc).
  assert (Lk : length gk = length (p_notes p)) by exact (true_length _ _ _ _ _ Gk).
  assert (Ed : map (fun x => fst (fst x)) l = durs).
  { unfold l. rewrite <- (map_map fst fst). rewrite map_fst_combine by (rewrite !combine_length; lia).
    apply map_fst_combine. exact L. }
  pose proof (sounding_items (fun x : Q * note * (Z * (pystr * pystr) * Z) => fst (fst x)) l) as F. rewrite Ed in F.
  change (fun x : Q * note * (Z * (pystr * pystr) * Z) => negb (Qeq_bool (fst (fst x)) 0)) with lasts3 in F.
  clear Ed. revert rows H. generalize dependent (filter lasts3 l). generalize (sounding durs). intros l1 l2 F.
  induction F as [|i [[d nt] [[ci st] ki]] l1 l2 Hx F IH]; intros rows H; [inversion H; constructor|].
  inversion H as [|x r l3 rows' P H' E1 E2]; subst. constructor; [|exact (IH rows' H')]. clear IH H H'.
  cbn in P. destruct P as (-> & -> & -> & root & tonic & D1 & D2 & R1 & R2 & T1 & T2).
  unfold l in Hx. apply nth_combine_some in Hx. destruct Hx as [Hn Hx]. apply nth_combine_some in Hn. destruct Hn as [Hd Hn].
  apply nth_combine_some in Hx. destruct Hx as [Hx Hk]. apply nth_combine_some in Hx. destruct Hx as [Hg Hs].
  assert (Hi : (i < length (p_notes p))%nat) by (apply nth_error_Some; congruence).
  split; [exact Hd|]. split; [exact Hn|]. split.
  - destruct (chord_force p i C Nch) as (c & Fc). exists c. split; [exact Fc|].
    destruct (true_nth _ _ _ _ _ i c Gc) as (v & Hv & Hv'); [apply C|apply C|exact Hi|exact Fc|].
    rewrite Hg in Hv'. apply Some_inj in Hv'. subst v. unfold chord_index in Hv. apply C01_chord_object_roundtrip in Hv.
    assert (Ept : c_pt (pc c) = TPC).
    { destruct C as (_ & _ & _ & Fp). rewrite Forall_forall in Fp. apply Fp. destruct Fc as (a1 & a2 & a3 & Ea & _).
      apply (in_combine_r (p_changes p) _ a2). rewrite Ea. apply in_elt. }
    rewrite Ept in Hv. rewrite Hv in D1. apply Ok_inj in D1. unfold NO_REDUCTION in D1. injection D1 as Q1 Q2 Q3. rewrite <- Q1 in *.
    split; [now symmetry|]. split; [now symmetry|]. split; [exact R1|]. split; [exact R2|].
    destruct (Ht i c) as (s & Es & Ns); [apply C|apply C|exact Hi|exact Fc|]. rewrite Hs in Ns. apply Some_inj in Ns. congruence.
  - destruct (force_exists (combine inputs (p_keys p)) i) as (k & Fk).
    { destruct (p_keys p); [now destruct Nke|]. destruct inputs; [discriminate Lki|]. discriminate. }
    { intros c x H. apply nth_combine_some in H. destruct H as [H _]. rewrite Ki0 in H. apply Some_inj in H. lia. }
    { now apply combine_mono. }
    exists k. split; [exists inputs; split; [exact Fi|exact Fk]|].
    destruct (true_nth _ _ _ _ _ i k Gk Lki Kmono Hi Fk) as (v & Hv & Hv').
    rewrite Hk in Hv'. apply Some_inj in Hv'. subst v.
    assert (Ept : k_pt k = TPC).
    { destruct K as (_ & _ & _ & Fp). rewrite Forall_forall in Fp. apply Fp. destruct Fk as (a1 & a2 & a3 & Ea & _).
      apply (in_combine_r inputs _ a2). rewrite Ea. apply in_elt. }
    unfold key_index in Hv. rewrite Ept in Hv. apply C04_key_roundtrip in Hv. destruct Hv as [Hv _].
    rewrite Hv in D2. apply Ok_inj in D2. injection D2 as Q1 Q2. rewrite <- Q1 in *. auto.
Qed.
Print Assumptions C72_labels.

(* The alterations of a chord, as texts with the numbers for C chosen by the caller and as MIDI pitches. *)
Lemma semicolons_eq : forall l, join_semicolon l = semicolons l.
Proof.
  intros [|x l]; [reflexivity|]. revert x. induction l as [|y l IH]; intros x; [cbn; now rewrite app_nil_r|].
  change (semicolons (x :: y :: l)) with (x ++ L";" ++ semicolons (y :: l)). rewrite <- IH. reflexivity.
Qed.
Lemma last_value_in {V} k (v : V) : forall l, last_value k l = Some v -> In (k, v) l.
Proof.
  induction l as [|[k' w] l IH]; intros H; [discriminate H|]. cbn in H. destruct (last_value k l) as [x|] eqn:E.
  - apply Some_inj in H. subst x. right. now apply IH.
  - destruct (list_eq_dec ascii_dec k k') as [->|]; [|discriminate H]. apply Some_inj in H. subst w. now left.
Qed.
Lemma reread_midi p : reread_pitch p TPC MIDI = Ok ((7 * (p - 15)) mod 12).
Proof. pose proof (C10_tpc_to_midi p) as T. unfold convert_pitch in T. cbn [pt_eqb] in T. exact T. Qed.
Lemma alteration_spec tpc_c root t tonic m c e : change_entry root t tonic m c e ->
  exists x y, alteration_texts tpc_c e = Ok (x, y) /\ says_alteration (fun p => p - 15 + tpc_c) e x /\
    says_alteration (fun p => (7 * (p - 15)) mod 12) e y.
Proof.
  intros [(n & s & _ & Ds & Es) Ho]. destruct e as [orig new]. cbn [fst snd] in *.
  assert (O : orig = [] \/ exists o, is_decimal_of orig o).
  { destruct (replaces c) as [up|]; [|now left]. destruct (_ && _ && _) in Ho; [left; apply Ho|]. right. destruct Ho as (o & _ & D). eauto. }
  clear Ho. unfold alteration_texts.
  set (plus := if 8 <=? c_num c then L"+" else []) in *.
  assert (Hp : plus = [] \/ plus = L"+") by (unfold plus; destruct (8 <=? c_num c); auto).
  assert (N : forall (A B : pystr), (let! first := py_nth new 0 in
      let (prefix, new) := if Ascii.eqb first "+" then (L"+", py_slice new 1 (zlen new)) else ([], new) in
      let! n := py_int_text new in
      let! m := reread_pitch n TPC MIDI in
      Ok (A ++ L":" ++ prefix ++ z_to_str (n - TPC_C + tpc_c), B ++ L":" ++ prefix ++ z_to_str m))
    = Ok (A ++ L":" ++ plus ++ z_to_str (n - 15 + tpc_c), B ++ L":" ++ plus ++ z_to_str ((7 * (n - 15)) mod 12))).
  { intros A B. destruct Hp as [Hp|Hp]; rewrite Hp in *; clear Hp; subst new.
    - destruct (decimal_head _ _ Ds) as (c0 & r & E & Q). cbn [app].
      rewrite (py_nth_pos s 0 c0) by (lia || (rewrite E; reflexivity)). cbn [bind]. rewrite Q.
      rewrite (int_text _ _ Ds). cbn [bind]. rewrite reread_midi. reflexivity.
    - change (L"+" ++ s) with ("+"%char :: s). rewrite (py_nth_pos ("+"%char :: s) 0 "+"%char) by (lia || reflexivity). cbn [bind].
      change (Ascii.eqb "+" "+") with true. cbv iota.
      assert (E : py_slice ("+"%char :: s) 1 (zlen ("+"%char :: s)) = s).
      { rewrite py_slice_spec by (try lia; apply zlen_nonneg). unfold zlen. cbn [length skipn].
        change (Z.to_nat 1) with 1%nat. cbn [skipn]. rewrite firstn_all2 by lia. reflexivity. }
      rewrite E, (int_text _ _ Ds). cbn [bind]. rewrite reread_midi. reflexivity. }
  destruct O as [->|(o & Do)].
  - cbn [bind]. rewrite N. do 2 eexists. split; [reflexivity|].
    split; [exists [], plus, (z_to_str (n - 15 + tpc_c)), s, n|exists [], plus, (z_to_str ((7 * (n - 15)) mod 12)), s, n];
      (split; [reflexivity|]; split; [exact Hp|]; split; [exact Es|]; split; [exact Ds|]; split; [apply Proof_Labels.z_to_str_decimal|]; left; auto).
  - destruct (decimal_head _ _ Do) as (c0 & r & E & _). destruct orig as [|c1 r1]; [discriminate E|]. clear E. rewrite (int_text _ _ Do). cbn [bind].
    rewrite reread_midi. cbn [bind]. rewrite N. do 2 eexists. split; [reflexivity|].
    split; [exists (z_to_str (o - TPC_C + tpc_c)), plus, (z_to_str (n - 15 + tpc_c)), s, n|exists (z_to_str ((7 * (o - 15)) mod 12)), plus, (z_to_str ((7 * (n - 15)) mod 12)), s, n];
      (split; [reflexivity|]; split; [exact Hp|]; split; [exact Es|]; split; [exact Ds|]; split; [apply Proof_Labels.z_to_str_decimal|]; right;
       exists o; split; [exact Do|apply Proof_Labels.z_to_str_decimal]).
Qed.
Theorem C72_alterations : forall tpc_c c cs,
  pc_susp c = Some (concat (map change_text cs)) -> Forall change_ok cs -> Forall (has_tone (c_type (pc c))) cs ->
  (forall f, In f (chord_fifths (c_type (pc c))) -> 0 <= c_root (pc c) + f < 35) ->
  exists d ts ms,
    get_added_and_removed_pitches (c_root (pc c)) (c_type (pc c)) (concat (map change_text cs))
      (c_tonic (pc c)) (c_mode (pc c)) = Ok d /\
    get_suspension_strings tpc_c c = Ok (semicolons ts, semicolons ms) /\
    Forall2 (says_alteration (fun p => p - 15 + tpc_c)) d ts /\
    Forall2 (says_alteration (fun p => (7 * (p - 15)) mod 12)) d ms.
Proof.
  intros tpc_c c cs Hs Ok1 Ok2 Hf. destruct (C51_alterations _ _ (c_tonic (pc c)) (c_mode (pc c)) cs Ok1 Ok2 Hf) as (d & entries & E & F & Nd & Lk).
  assert (W : Forall (fun e => exists x y, alteration_texts tpc_c e = Ok (x, y) /\ says_alteration (fun p => p - 15 + tpc_c) e x /\
    says_alteration (fun p => (7 * (p - 15)) mod 12) e y) d).
  { apply Forall_forall. intros [k v] I0.
    assert (L : str_lookup k d = Some v).
    { clear -Nd I0. induction d as [|[k' w] d IH]; [destruct I0|]. cbn [map fst] in Nd. inversion Nd as [|? ? Ni Nd' E]; subst.
      cbn [str_lookup]. destruct I0 as [I0|I0].
      - injection I0 as -> ->. now rewrite str_eqb_refl.
      - destruct (str_eqb k k') eqn:Q; [|now apply IH]. apply str_eqb_eq in Q. subst k'. exfalso. apply Ni.
        apply in_map_iff. exists (k, v). auto. }
    rewrite Lk in L. apply last_value_in in L. apply In_nth_error in L. destruct L as (j & Hj).
    destruct (Forall2_nth_r _ _ _ _ _ F Hj) as (ch & _ & Ce). exact (alteration_spec _ _ _ _ _ _ _ Ce). }
  assert (X : exists l, mapM (alteration_texts tpc_c) d = Ok l /\
    Forall2 (says_alteration (fun p => p - 15 + tpc_c)) d (map fst l) /\ Forall2 (says_alteration (fun p => (7 * (p - 15)) mod 12)) d (map snd l)).
  { clear -W. induction W as [|e d (x & y & E & S1 & S2) W (l & M & F1 & F2)]; [exists []; repeat split; constructor|].
    exists ((x, y) :: l). cbn [mapM]. rewrite E, M. split; [reflexivity|]. split; constructor; assumption. }
  destruct X as (l & M & F1 & F2). exists d, (map fst l), (map snd l). split; [exact E|]. split; [|auto].
  unfold get_suspension_strings. rewrite Hs, E. cbn [bind]. rewrite M. cbn [bind]. now rewrite !semicolons_eq.
Qed.
Print Assumptions C72_alterations.
Theorem C72_no_alterations : forall tpc_c c, pc_susp c = None -> get_suspension_strings tpc_c c = Ok ([], []).
Proof. intros tpc_c c H. unfold get_suspension_strings. now rewrite H. Qed.
Print Assumptions C72_no_alterations.

(* The table is written for every loaded piece whose alterations can be said. *)
Lemma labels_rows_total tpc_c : forall l,
  Forall (fun x => let '(_, (ci, _, ki)) := x : Q * note * (Z * (pystr * pystr) * Z) in 0 <= ci < 1540 /\ 0 <= ki < 70) l ->
  exists rows, labels_rows tpc_c l = Ok rows.
Proof.
  induction l as [|[[d nt] [[ci [st sm]] ki]] l IH]; intros F; [exists []; reflexivity|].
  inversion F as [|? ? P0 F' E0]; subst. cbn in P0. destruct P0 as (A & B). cbn [labels_rows].
  destruct (IH F') as (rows & ->). destruct (Qeq_bool d 0); [eauto|].
  assert (Zc : zlen (chord_list TPC true false false NO_REDUCTION) = 1540) by (vm_compute; reflexivity).
  assert (Zk : zlen (key_list TPC false) = 70) by (vm_compute; reflexivity).
  destruct (py_nth_total (chord_list TPC true false false NO_REDUCTION) ci ltac:(lia)) as ([[root t] inv] & ->).
  destruct (py_nth_total (key_list TPC false) ki ltac:(lia)) as ([tonic m] & ->). cbn [bind].
  rewrite !reread_midi. cbn [bind]. eauto.
Qed.
Theorem C72_defined : forall ts red ui ur us note_rows rows p durs tpc_c,
  get_score_piece ts red ui ur us note_rows rows = Ok p ->
  Forall (fun k => 0 <= k_rel k < 35) (p_keys p) ->
  Forall (fun c => exists s, get_suspension_strings tpc_c c = Ok s) (p_chords p) ->
  exists table, get_labels_table p durs tpc_c = Ok table.
Proof.
  intros ts red ui ur us note_rows rows p durs tpc_c H Hk Hs.
  destruct (loaded_facts _ _ _ _ _ _ _ _ H) as (L & Nn & F & Lk & K0 & Inc & Kb & Fk).
  assert (Ix : Forall (fun c => exists i, chord_index c = Ok i /\ 0 <= i < 1540) (p_chords p)).
  { revert F. apply Forall_impl. intros c (Pt & Rt & Iv). unfold chord_index, chord_one_hot. cbn [bind]. rewrite Pt.
    destruct (C03_encoder_rejects_exactly (c_type (pc c)) (c_root (pc c)) TPC (c_inv (pc c)) true false false NO_REDUCTION)
      as [[_ B]|(i & E & _)].
    - exfalso. rewrite count_root, (chord_count TPC) in B. cbn [pitch_count] in B. lia.
    - exists i. split; [exact E|]. apply C02_index_in_range in E. exact E. }
  destruct (mapM_total (fun k => match nth_error (p_changes p) k with Some i => Ok i | None => Raise IndexError end)
    (p_key_changes p)) as (inputs & Ei).
  { revert Kb. apply Forall_impl. intros j Hj. destruct (nth_error (p_changes p) j) eqn:E; [eauto|].
    apply nth_error_None in E. lia. }
  destruct (true_total key_index 70 (length (p_notes p)) (p_keys p) inputs) as (gk & Gk & Rgk).
  { lia. }
  { rewrite Forall_forall in Hk, Fk |- *. intros k I0. unfold key_index. rewrite (Fk k I0).
    destruct (C04_key_rejects_exactly (k_rel_mode k) (k_rel k) TPC) as [[_ B]|(i & E & _)].
    - exfalso. apply B. apply (Hk k I0).
    - exists i. split; [exact E|]. apply C04_key_roundtrip in E. apply E. }
  { intros X. rewrite X in Lk. destruct (p_key_changes p); [discriminate K0|discriminate Lk]. }
  { apply mapM_ok in Ei. apply Forall2_len in Ei. lia. }
  destruct (true_total chord_index 1540 (length (p_notes p)) (p_chords p) (p_changes p)) as (gc & Gc & Rgc);
    [lia|exact Ix|exact Nn|exact L|].
  assert (Cl : exists texts, chord_columns tpc_c p = Ok (gc, texts)).
  { unfold chord_columns. cbn zeta. rewrite Forall_forall in Ix, Hs.
    match goal with |- context[mapM ?f ?l] => destruct (mapM_total f l) as (r & M) end.
    { apply Forall_forall. intros [c x] I0. apply in_combine_l in I0. destruct (Ix c I0) as (i & E & _). destruct (Hs c I0) as (s & Es).
      rewrite E, Es. cbn. eauto. }
    rewrite M. cbn [bind]. unfold true_labels in Gc. apply bind_ok in Gc. destruct Gc as (l1 & M1 & Gc).
    assert (M2 : mapM (fun x : pchord * (nat * nat) => let '(c, r) := x in let! i := chord_index c in Ok (i, r))
      (combine (p_chords p) (combine (p_changes p) (tl (p_changes p)))) = Ok (map (fun x => (fst (fst x), snd x)) r)).
    { eapply mapM_proj; [|exact M]. intros [c r0] y E. apply bind_ok in E. destruct E as (e & Ee & E). apply Ok_inj in E. subst y.
      apply bind_ok in Ee. destruct Ee as (i & Ei' & Ee). apply bind_ok in Ee. destruct Ee as (s & Es & Ee). apply Ok_inj in Ee. subst e.
      rewrite Ei'. reflexivity. }
    rewrite M2 in M1. apply Ok_inj in M1. subst l1.
    apply bind_ok in Gc. destruct Gc as (c & Ec & Gc). rewrite Ec. cbn [bind].
    apply bind_ok in Gc. destruct Gc as (i & Ei' & Gc). rewrite Ei'. cbn [bind].
    apply bind_ok in Gc. destruct Gc as (a & Ea & Gc). rewrite Ea. cbn [bind]. apply Ok_inj in Gc. subst gc.
    destruct (py_last_total (p_chords p) Nn) as (c' & Ec' & Ic). rewrite Ec in Ec'. apply Ok_inj in Ec'. subst c'.
    destruct (Hs c Ic) as (s & ->). cbn [bind]. eauto. }
  destruct Cl as (texts & Cl). unfold get_labels_table. rewrite Cl. cbn [bind].
  assert (Gk' : true_keys p = Ok gk) by (unfold true_keys, key_change_inputs; rewrite Ei; exact Gk).
  rewrite Gk'. cbn [bind]. apply labels_rows_total. apply Forall_forall. intros [d [[c s] k]] I0. apply in_combine_r in I0.
  pose proof (in_combine_l _ _ _ _ I0) as I1. pose proof (in_combine_r _ _ _ _ I0) as I2. apply in_combine_l in I1.
  rewrite Forall_forall in Rgc, Rgk. auto.
Qed.
Print Assumptions C72_defined.

Definition rows_susp : list label_row :=
  [mkLR (Some (L"I")) 0 (L"M") [] (L"C") false (L"I") false None (0, 0%Q) (0, (1#2)%Q) (1#2)%Q (Some (L"4"));
   mkLR (Some (L"V")) 1 (L"Mm7") [] (L"C") false (L"I") false None (0, (1#2)%Q) (3, 0%Q) (5#2)%Q (Some (L"#49"))].
Example C72_example : exists p rows, get_score_piece ts44 (fun t => t) true false true notes1 rows_susp = Ok p /\
  get_labels_table p durs1 0 = Ok rows /\
  map (fun r => (lo_root_tpc r, lo_root_midi r, lo_susp_tpc r, lo_susp_midi r, lo_tonic_midi r, no_on (lo_note r))) rows =
    [(0, 0, L"4:-1", L"4:5", 0, (0, 0%Q)); (1, 7, L"2:7;:+3", L"2:1;:+9", 0, (0, (1#2)%Q));
     (1, 7, L"2:7;:+3", L"2:1;:+9", 0, (1, 0%Q)); (1, 7, L"2:7;:+3", L"2:1;:+9", 0, (1, (3#4)%Q));
     (1, 7, L"2:7;:+3", L"2:1;:+9", 0, (2, 0%Q))].
Proof. do 2 eexists. split; [vm_compute; reflexivity|]. split; [vm_compute; reflexivity|vm_compute; reflexivity]. Qed.

(* A note before the first label has no chord, but its row has one: F with three flats, major. *)
Theorem C72_pickup_refuted : exists p r rows,
  get_score_piece ts44 (fun t => t) true false false notes1 rows_late = Ok p /\
  (forall c, ~ chord_in_force p 0 c) /\
  get_labels_table p durs1 15 = Ok (r :: rows) /\ nth_error (p_notes p) 0 = Some (lo_note r) /\
  lo_root_tpc r = 0 /\ lo_type r = Maj /\ lo_tonic_tpc r = 0 /\ lo_mode r = MAJOR.
Proof.
  exists p_late. do 2 eexists. split; [vm_compute; reflexivity|]. split.
  - intros c (l1 & a & l2 & E & Ha & _).
    assert (X : Forall (fun x => (0 < fst x)%nat) (combine (p_changes p_late) (p_chords p_late))).
    { apply Forall_forall. intros [a0 c0] I0. apply in_combine_l in I0. vm_compute in I0. cbn.
      repeat (destruct I0 as [<-|I0]; [lia|]). destruct I0. }
    rewrite E in X. apply Forall_app in X. destruct X as [_ X]. inversion X as [|? ? X0 _]. cbn in X0. lia.
  - split; [vm_compute; reflexivity|]. split; [vm_compute; reflexivity|]. cbn. auto.
Qed.
Print Assumptions C72_pickup_refuted.
