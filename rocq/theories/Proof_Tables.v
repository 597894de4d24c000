(* Proofs about Model_Tables.v. *)
From Coq Require Import QArith Lqa String Ascii Lia ZArith.
From Verif Require Import Model_Strings Model_Rhythm Model_Piece Model_Tables Spec_Music Spec_Text Spec_Piece Spec_Search Spec_Eval Spec_Tables.
From Verif Require Import Proof_Base Proof_Strings Proof_Labels Proof_Transpose Proof_Infer Proof_Eval Prop_Codec Prop_Pitch Prop_Eval.
From Coq Require Import List.
Import ListNotations.
Close Scope Q_scope.
Open Scope Z_scope.

Definition lasts {A} (x : Q * A) : bool := negb (Qeq_bool (fst x) 0%Q).

Lemma sounding_combine {A} : forall durs (l : list A) k, length durs = length l ->
  Forall2 (fun i x => (k <= i)%nat /\ nth_error (combine durs l) (i - k) = Some x)
    (sounding_from k durs) (filter lasts (combine durs l)).
Proof.
  induction durs as [|d durs IH]; intros [|x l] k E; try discriminate E; [constructor|].
  cbn [sounding_from combine filter]. unfold lasts at 1. cbn [fst].
  assert (R : Forall2 (fun i y => (k <= i)%nat /\ nth_error ((d, x) :: combine durs l) (i - k) = Some y)
     (sounding_from (S k) durs) (filter lasts (combine durs l))).
  { specialize (IH l (S k) ltac:(injection E; auto)). clear -IH. induction IH as [|i y l1 l2 [H1 H2] F IH]; constructor; [|exact IH].
    split; [lia|]. replace (i - k)%nat with (S (i - S k)) by lia. exact H2. }
  destruct (Qeq_bool d 0); cbn [negb]; [exact R|]. constructor; [|exact R].
  split; [lia|]. rewrite Nat.sub_diag. reflexivity.
Qed.
Lemma sounding_nth {A} durs (l : list A) : length durs = length l ->
  Forall2 (fun i x => nth_error durs i = Some (fst x) /\ nth_error l i = Some (snd x))
    (sounding durs) (filter lasts (combine durs l)).
Proof.
  intros E. pose proof (sounding_combine durs l 0 E) as F. unfold sounding.
  clear E. induction F as [|i [d x] l1 l2 [_ H] F IH]; constructor; [|exact IH].
  rewrite Nat.sub_0_r in H. apply nth_combine_some in H. exact H.
Qed.

(* ---- pitches ---- *)
Lemma reread_spec p from to q : reread_pitch p from to = Ok q -> said_as from to p q.
Proof.
  unfold reread_pitch. intros H. destruct from, to; cbn [said_as].
  - destruct (tpc_string_spells p) as (c & v & sh & fl & E & Hc & Ep & _). rewrite E in H. cbn [bind] in H.
    rewrite (tpc_spelling c v) in H by exact Hc. cbn zeta in H. rewrite <- Ep in H.
    destruct (_ && _) in H; [apply Ok_inj in H; congruence|discriminate].
  - pose proof (tpc_to_midi p) as T. unfold convert_pitch in T. cbn [pt_eqb] in T. rewrite T in H. apply Ok_inj in H. congruence.
  - assert (Hm : 0 <= p mod 12 < 12) by (apply Z.mod_pos_bound; lia).
    assert (E : get_pitch_string p MIDI = get_pitch_string (p mod 12) MIDI).
    { cbn [get_pitch_string NUM_PITCHES]. rewrite Z.mod_mod by lia. reflexivity. }
    rewrite E in H. destruct (C10_midi_tpc_midi_partial (p mod 12) Hm) as [W B].
    unfold convert_pitch in W, B. cbn [pt_eqb] in W, B.
    destruct (white_key (p mod 12)).
    + destruct (W eq_refl) as (q' & E' & Hq & Eb). rewrite E' in H. apply Ok_inj in H. subst q'. split; [exact Hq|].
      pose proof (tpc_to_midi q) as T. unfold convert_pitch in T. cbn [pt_eqb] in T. rewrite T in Eb. apply Ok_inj in Eb. exact Eb.
    + rewrite (B eq_refl) in H. discriminate.
  - assert (Hm : 0 <= p mod 12 < 12) by (apply Z.mod_pos_bound; lia).
    assert (E : get_pitch_string p MIDI = get_pitch_string (p mod 12) MIDI).
    { cbn [get_pitch_string NUM_PITCHES]. rewrite Z.mod_mod by lia. reflexivity. }
    rewrite E in H. apply twelve in Hm.
    destruct Hm as [X|[X|[X|[X|[X|[X|[X|[X|[X|[X|[X|X]]]]]]]]]]]; rewrite X in *; vm_compute in H; apply Ok_inj in H; congruence.
Qed.
Lemma convert_spec p from to q : from <> to -> convert_pitch p from to = Ok q -> said_as from to p q.
Proof.
  intros N H. apply reread_spec. unfold convert_pitch in H. destruct from, to; try congruence; exact H.
Qed.

(* ---- indices and texts ---- *)
Lemma chord_text_of pt labels i root t inv x : get_chord_label_list pt true false None false NO_REDUCTION = Ok labels ->
  0 <= i -> get_chord_from_one_hot_index i pt true false false NO_REDUCTION = Ok (root, t, inv) ->
  py_nth labels i = Ok x -> chord_text pt root t inv x.
Proof.
  intros El Hi Ed Ex. destruct (C05_chord_labels_aligned pt true false None false NO_REDUCTION) as (labels' & El' & _ & _ & A).
  rewrite El in El'. apply Ok_inj in El'. subst labels'.
  destruct (A i root t inv Hi Ed) as (rt & it & E & R & D).
  rewrite (py_nth_pos labels i _ Hi E) in Ex. apply Ok_inj in Ex. subst x.
  exists rt, it. split; [reflexivity|]. split; [exact R|exact D].
Qed.
Lemma key_text_of pt labels i tonic m x : get_key_label_list pt false None = Ok labels ->
  0 <= i -> get_key_from_one_hot_index i pt false = Ok (tonic, m) ->
  py_nth labels i = Ok x -> key_says pt tonic m x.
Proof.
  intros El Hi Ed Ex. destruct (C05_key_labels_aligned pt false None) as (labels' & El' & _ & _ & A).
  rewrite El in El'. apply Ok_inj in El'. subst labels'.
  destruct (A i tonic m Hi Ed) as (tt & E & R).
  rewrite (py_nth_pos labels i _ Hi E) in Ex. apply Ok_inj in Ex. subst x.
  exists tt. split; [destruct m; reflexivity|exact R].
Qed.

Lemma same_pt a b : pt_eqb a b = true -> a = b.
Proof. destruct a, b; cbn; congruence. Qed.
Lemma same_said pt p : 0 <= p < pitch_count pt -> said_as pt pt p p.
Proof. intros H. destruct pt; cbn [said_as]; [reflexivity|]. symmetry. apply Z.mod_small. exact H. Qed.
Lemma count_root pt : root_count pt false false = pitch_count pt.
Proof. destruct pt; reflexivity. Qed.
Lemma low_root pt : lowest_root pt false false = 0.
Proof. destruct pt; reflexivity. Qed.

Lemma gold_chord_spec pt c i : gold_chord_index pt c = Ok i ->
  0 <= i /\ exists root, said_as (c_pt (pc c)) pt (c_root (pc c)) root /\
    get_chord_from_one_hot_index i pt true false false NO_REDUCTION = Ok (root, c_type (pc c), c_inv (pc c)).
Proof.
  intros H. unfold gold_chord_index in H. apply bind_ok in H. destruct H as (c' & Hc & H).
  pose proof H as H0. unfold chord_one_hot in H0. cbn [bind] in H0.
  pose proof (C02_index_in_range _ _ _ _ _ _ _ _ _ H0) as R.
  split; [lia|]. apply C01_chord_object_roundtrip in H. unfold chord_to_pitch_type in Hc.
  destruct (C03_encoder_rejects_exactly (c_type c') (c_root c') (c_pt c') (c_inv c') true false false NO_REDUCTION)
    as [[X _]|(j & _ & B & _)]; [congruence|]. rewrite count_root in B.
  destruct (pt_eqb pt (c_pt (pc c))) eqn:E.
  - apply Ok_inj in Hc. subst c'. apply same_pt in E. subst pt. exists (c_root (pc c)).
    split; [apply same_said; exact B|exact H].
  - apply bind_ok in Hc. destruct Hc as (tn & _ & Hc). apply bind_ok in Hc. destruct Hc as (rt & Hr & Hc).
    apply bind_ok in Hc. destruct Hc as (bs & _ & Hc). apply Ok_inj in Hc. subst c'. cbn [c_pt c_root c_type c_inv] in *.
    exists rt. split; [|exact H]. apply convert_spec; [|exact Hr]. intros X. rewrite X in E. destruct pt; discriminate E.
Qed.
Lemma gold_key_spec pt k i : gold_key_index pt k = Ok i ->
  0 <= i /\ exists tonic, said_as (k_pt k) pt (k_rel k) tonic /\
    get_key_from_one_hot_index i pt false = Ok (tonic, k_rel_mode k).
Proof.
  intros H. unfold gold_key_index in H. apply bind_ok in H. destruct H as (k' & Hk & H).
  unfold key_index in H. destruct (C04_key_roundtrip _ _ _ _ H) as [D R]. split; [lia|].
  destruct (C04_key_rejects_exactly (k_rel_mode k') (k_rel k') (k_pt k')) as [[X _]|(j & _ & B)]; [congruence|].
  unfold key_to_pitch_type in Hk. destruct (pt_eqb pt (k_pt k)) eqn:E.
  - apply Ok_inj in Hk. subst k'. apply same_pt in E. subst pt. exists (k_rel k). split; [apply same_said; exact B|exact D].
  - apply bind_ok in Hk. destruct Hk as (t1 & H1 & Hk). apply bind_ok in Hk. destruct Hk as (t2 & _ & Hk).
    apply bind_ok in Hk. destruct Hk as (t3 & _ & Hk). apply Ok_inj in Hk. subst k'. cbn [k_pt k_rel k_rel_mode] in *.
    exists t1. split; [|exact D]. apply convert_spec; [|exact H1]. intros X. rewrite X in E. destruct pt; discriminate E.
Qed.
Lemma converted_chord_spec from to i j : converted_chord from to i = Ok j ->
  0 <= j /\ exists r0 root t inv, get_chord_from_one_hot_index i from true false false NO_REDUCTION = Ok (r0, t, inv) /\
    said_as from to r0 root /\ get_chord_from_one_hot_index j to true false false NO_REDUCTION = Ok (root, t, inv).
Proof.
  intros H. unfold converted_chord in H. apply bind_ok in H. destruct H as ([[r0 t] inv] & D & H).
  apply bind_ok in H. destruct H as (root & R & H). pose proof (C02_index_in_range _ _ _ _ _ _ _ _ _ H) as B.
  split; [lia|]. apply C01_chord_index_roundtrip in H. rewrite low_root, Z.add_0_r in H.
  exists r0, root, t, inv. split; [exact D|]. split; [apply reread_spec; exact R|exact H].
Qed.
Lemma converted_key_spec from to i j : converted_key from to i = Ok j ->
  0 <= j /\ exists t0 tonic m, get_key_from_one_hot_index i from false = Ok (t0, m) /\
    said_as from to t0 tonic /\ get_key_from_one_hot_index j to false = Ok (tonic, m).
Proof.
  intros H. unfold converted_key in H. apply bind_ok in H. destruct H as ([t0 m] & D & H).
  apply bind_ok in H. destruct H as (tonic & R & H). destruct (C04_key_roundtrip _ _ _ _ H) as [E B].
  split; [lia|]. exists t0, tonic, m. split; [exact D|]. split; [apply reread_spec; exact R|exact E].
Qed.

(* ---- arrays ---- *)
Lemma converted_nth conv n labels changes arr i e :
  converted_labels conv n labels changes = Ok arr -> segmentation labels changes n ->
  labelled labels changes i (Some e) -> exists w, conv e = Ok w /\ nth_error arr i = Some w.
Proof.
  intros E Sg (k & a & b & Hk & Ha & Hb & Hi).
  unfold converted_labels in E. apply bind_ok in E. destruct E as (l & M & E). apply Ok_inj in E. subst arr.
  assert (L2 : length changes = S (length labels)) by apply Sg.
  set (cc := combine (removelast changes) (tl changes)) in *.
  assert (Lc : length cc = length labels).
  { subst cc. destruct changes as [|c0 changes]; [discriminate L2|]. cbn [tl]. rewrite combine_length.
    assert (X : length (removelast (c0 :: changes)) = length changes).
    { rewrite removelast_firstn_len, firstn_length. cbn [length]. lia. }
    rewrite X. cbn in L2. lia. }
  (* the list of converted labels *)
  assert (W : exists ws, Forall2 (fun lb w => exists v, lb = Some v /\ conv v = Ok w) labels ws /\ l = combine ws cc).
  { clear Sg Hk Ha Hb Hi L2. clearbody cc. revert cc l Lc M. clear. 
    induction labels as [|lb labels IH]; intros cc l Lc M; (destruct cc as [|c cc]; [|try discriminate Lc]).
    - cbn in M. apply Ok_inj in M. subst l. exists []. split; [constructor|reflexivity].
    - discriminate Lc.
    - cbn [combine mapM fst snd] in M. apply bind_ok in M. destruct M as (x & Hx & M).
      apply bind_ok in M. destruct M as (l' & Hl & M). apply Ok_inj in M. subst l.
      destruct lb as [v|]; [|discriminate Hx]. apply bind_ok in Hx. destruct Hx as (w & Hw & Hx). apply Ok_inj in Hx. subst x.
      destruct (IH cc l' ltac:(cbn in Lc; lia) Hl) as (ws & F & El). exists (w :: ws).
      split; [constructor; [eauto|exact F]|]. cbn. now rewrite El. }
  destruct W as (ws & F & El).
  assert (Ew : estimated_labels n (map Some ws) changes = Ok (fill_all (repeat 0 n) l)).
  { unfold estimated_labels. fold cc. replace (mapM _ _) with (Ok l); [reflexivity|].
    subst l. clear. revert ws. generalize cc. clear.
    intros cc ws. revert cc. induction ws as [|w ws IH]; intros [|c cc]; try reflexivity.
    cbn [map combine mapM]. rewrite <- IH. reflexivity. }
  destruct (Forall2_nth _ _ _ k _ F Hk) as (w & Hw & v & Ev & Cv). apply Some_inj in Ev. subst v.
  exists w. split; [exact Cv|]. eapply estimated_nth; [exact Ew| |].
  - destruct Sg as (A1 & A2). pose proof (Forall2_len _ _ _ F) as Lw. unfold segmentation. rewrite map_length, <- Lw. split; [exact A1|exact A2].
  - exists k, a, b. split; [|auto]. rewrite nth_error_map, Hw. reflexivity.
Qed.
Lemma converted_length conv n labels changes arr : converted_labels conv n labels changes = Ok arr -> length arr = n.
Proof.
  intros E. unfold converted_labels in E. apply bind_ok in E. destruct E as (l & M & E). apply Ok_inj in E. subst arr.
  now rewrite fill_all_length, repeat_length.
Qed.

(* ---- rows ---- *)
Lemma result_rows_spec cl kl : forall l rows, result_rows cl kl l = Ok rows ->
  Forall2 (fun x r => let '(d, ((ec, gc), (ek, gk))) := x in
    rr_dur r = d /\ py_nth kl gk = Ok (rr_gt_key r) /\ py_nth cl gc = Ok (rr_gt_chord r) /\
    py_nth kl ek = Ok (rr_est_key r) /\ py_nth cl ec = Ok (rr_est_chord r)) (filter lasts l) rows.
Proof.
  induction l as [|[d [[ec gc] [ek gk]]] l IH]; intros rows H; cbn [result_rows] in H.
  - apply Ok_inj in H. subst. constructor.
  - cbn [filter]. unfold lasts at 1. cbn [fst]. destruct (Qeq_bool d 0); cbn [negb]; [exact (IH rows H)|].
    apply bind_ok in H. destruct H as (a & Ha & H). apply bind_ok in H. destruct H as (b & Hb & H).
    apply bind_ok in H. destruct H as (c & Hc & H). apply bind_ok in H. destruct H as (e & He & H).
    apply bind_ok in H. destruct H as (rest & Hr & H). apply Ok_inj in H. subst rows.
    constructor; [cbn; auto|exact (IH rest Hr)].
Qed.

(* time of the rows *)
Lemma sounding_ge : forall durs k i, In i (sounding_from k durs) -> (k <= i)%nat.
Proof.
  induction durs as [|d durs IH]; intros k i H; [destruct H|]. cbn [sounding_from] in H.
  destruct (Qeq_bool d 0); [apply IH in H; lia|]. destruct H as [<-|H]; [lia|]. apply IH in H. lia.
Qed.
Lemma row_time_marked {A} (dur : A -> Q) test : forall durs flags rows k, length flags = length durs ->
  Forall2 (fun i r => nth_error durs (i - k) = Some (dur r) /\ forall b, nth_error flags (i - k) = Some b -> test r = b)
    (sounding_from k durs) rows ->
  (marked_time durs flags == row_time dur test rows)%Q.
Proof.
  induction durs as [|d durs IH]; intros [|b flags] rows k L F; try discriminate L.
  - inversion F. reflexivity.
  - cbn [sounding_from] in F. cbn [marked_time].
    assert (Sh : forall rows, Forall2 (fun i r => nth_error (d :: durs) (i - k) = Some (dur r) /\
        forall b0, nth_error (b :: flags) (i - k) = Some b0 -> test r = b0) (sounding_from (S k) durs) rows ->
      (marked_time durs flags == row_time dur test rows)%Q).
    { intros rows' F'. apply (IH flags rows' (S k)); [now injection L|].
      assert (G : forall i, In i (sounding_from (S k) durs) -> (S k <= i)%nat) by (intros i; apply sounding_ge).
      revert G. clear -F'. induction F' as [|i r l1 l2 [H1 H2] F IH]; intros G; constructor.
      - assert (S k <= i)%nat by (apply G; now left). replace (i - k)%nat with (S (i - S k)) in * by lia. auto.
      - apply IH. intros j I. apply G. now right. }
    destruct (Qeq_bool d 0) eqn:D.
    + apply Qeq_bool_iff in D. rewrite <- (Sh rows F). destruct b; [rewrite D|]; ring.
    + inversion F as [|i r l1 l2 [H1 H2] F' E1 E2]; subst. rewrite Nat.sub_diag in *. cbn in H1. apply Some_inj in H1.
      specialize (H2 b eq_refl). cbn [row_time]. rewrite H2, H1, (Sh l2 F'). reflexivity.
Qed.

(* labels are distinct *)
Lemma chord_index_back pt i root t inv : 0 <= i -> get_chord_from_one_hot_index i pt true false false NO_REDUCTION = Ok (root, t, inv) ->
  get_chord_one_hot_index t root pt inv true false false NO_REDUCTION = Ok i.
Proof.
  intros Hi D. assert (R : i < get_chord_vector_length pt true false true false NO_REDUCTION).
  { destruct (Z_lt_ge_dec i (get_chord_vector_length pt true false true false NO_REDUCTION)) as [X|X]; [exact X|exfalso].
    unfold get_chord_from_one_hot_index in D. rewrite py_nth_out in D; [discriminate D|]. 
    right. assert (Z0 : zlen (chord_list pt true false false NO_REDUCTION) = get_chord_vector_length pt true false true false NO_REDUCTION)
      by (destruct pt; vm_compute; reflexivity).
    lia. }
  destruct (C02_index_surjective i pt true false false NO_REDUCTION (conj Hi R)) as (root' & t' & inv' & D' & _ & _ & _ & Enc).
  rewrite D in D'. apply Ok_inj in D'. injection D' as <- <- <-.
  specialize (Enc t eq_refl). rewrite low_root, Z.sub_0_r in Enc. exact Enc.
Qed.
Lemma key_index_back pt i tonic m : 0 <= i -> get_key_from_one_hot_index i pt false = Ok (tonic, m) ->
  get_key_one_hot_index m tonic pt = Ok i.
Proof.
  intros Hi D. assert (R : i < 2 * pitch_count pt).
  { destruct (Z_lt_ge_dec i (2 * pitch_count pt)) as [X|X]; [exact X|exfalso].
    unfold get_key_from_one_hot_index in D. rewrite py_nth_out in D; [discriminate D|].
    right. assert (Z0 : zlen (key_list pt false) = 2 * pitch_count pt) by (destruct pt; vm_compute; reflexivity). lia. }
  destruct (C04_key_inverse i pt (conj Hi R)) as (tonic' & m' & D' & Enc).
  rewrite D in D'. apply Ok_inj in D'. injection D' as <- <-. exact Enc.
Qed.
Lemma nodup_texts {A} (l : list A) i j x y : NoDup l -> 0 <= i -> 0 <= j -> py_nth l i = Ok x -> py_nth l j = Ok y ->
  x = y <-> i = j.
Proof.
  intros N Hi Hj Hx Hy. split; [intros <-|intros <-; congruence].
  apply py_nth_ok_inv in Hx. apply py_nth_ok_inv in Hy.
  assert (E : Z.to_nat i = Z.to_nat j); [|lia].
  destruct Hx as [[_ Hx]|[? _]]; [|lia]. destruct Hy as [[_ Hy]|[? _]]; [|lia].
  rewrite NoDup_nth_error in N. apply N; [|congruence]. apply nth_error_Some. congruence.
Qed.

(* ---- get_label_df ---- *)
Lemma true_nth_from {A} (init : Z) (index : A -> res Z) n (things : list A) changes arr i x :
  true_labels_from init index n things changes = Ok arr -> length changes = length things ->
  non_decreasing (map Z.of_nat changes) -> (i < n)%nat ->
  last_up_to (combine changes things) i x ->
  exists v, index x = Ok v /\ nth_error arr i = Some v.
Proof.
  intros E L Mono Hi (l1 & c & l2 & Ec & Hc & Hl). unfold true_labels_from in E.
  apply bind_ok in E. destruct E as (l & M & E). apply mapM_ok in M.
  apply bind_ok in E. destruct E as (last & Hlast & E).
  apply bind_ok in E. destruct E as (v & Hv & E).
  apply bind_ok in E. destruct E as (a & Ha & E). apply Ok_inj in E. subst arr.
  assert (N : nth_error (combine changes things) (length l1) = Some (c, x)).
  { rewrite Ec, nth_error_app2, Nat.sub_diag by lia. reflexivity. }
  apply nth_combine_some in N. destruct N as [Nc Nx].
  assert (Lt : length things = (length l1 + S (length l2))%nat).
  { pose proof (f_equal (@length _) Ec) as X. rewrite combine_length, app_length in X. cbn in X. lia. }
  set (k := length l1) in *.
  assert (Llast : nth_error things (length things - 1) = Some last).
  { unfold py_nth, zlen in Hlast. cbn [Z.ltb Z.compare] in Hlast.
    destruct ((-1 + Z.of_nat (length things) <? 0) || (Z.of_nat (length things) <=? -1 + Z.of_nat (length things))) eqn:Q;
      [discriminate Hlast|].
    replace (Z.to_nat (-1 + Z.of_nat (length things))) with (length things - 1)%nat in Hlast by lia.
    destruct (nth_error things (length things - 1)); [|discriminate Hlast]. now apply Ok_inj in Hlast; subst. }
  assert (La : nth_error changes (length things - 1) = Some a).
  { unfold py_nth, zlen in Ha. cbn [Z.ltb Z.compare] in Ha. rewrite L in Ha.
    destruct ((-1 + Z.of_nat (length things) <? 0) || (Z.of_nat (length things) <=? -1 + Z.of_nat (length things))) eqn:Q;
      [discriminate Ha|].
    replace (Z.to_nat (-1 + Z.of_nat (length things))) with (length things - 1)%nat in Ha by lia.
    destruct (nth_error changes (length things - 1)); [|discriminate Ha]. now apply Ok_inj in Ha; subst. }
  rewrite nth_error_fill by lia. rewrite fill_all_length, repeat_length.
  destruct l2 as [|[c2 y2] l2].
  - replace (length things - 1)%nat with k in * by (cbn in Lt; lia).
    rewrite Nx in Llast. apply Some_inj in Llast. subst last. rewrite Nc in La. apply Some_inj in La. subst a.
    exists v. split; [exact Hv|].
    replace ((Z.of_nat c <=? Z.of_nat i) && (Z.of_nat i <? Z.of_nat n) && (i <? n)%nat) with true by lia. reflexivity.
  - assert (N2 : nth_error (combine changes things) (S k) = Some (c2, y2)).
    { rewrite Ec, nth_error_app2 by (unfold k; lia). replace (S k - length l1)%nat with 1%nat by (unfold k; lia). reflexivity. }
    apply nth_combine_some in N2. destruct N2 as [Nc2 _].
    assert (Hc2 := Hl _ (or_introl eq_refl)). cbn in Hc2.
    assert (Ha2 : (c2 <= a)%nat).
    { apply (nat_mono changes Mono (S k) (length things - 1 - S k)%nat); [exact Nc2|].
      replace (S k + (length things - 1 - S k))%nat with (length things - 1)%nat by (cbn in Lt; lia). exact La. }
    replace ((Z.of_nat a <=? Z.of_nat i) && (Z.of_nat i <? Z.of_nat n) && (i <? n)%nat) with false by lia.
    assert (Hk : nth_error (combine things (combine changes (tl changes))) k = Some (x, (c, c2))).
    { apply nth_combine_some. split; [exact Nx|]. apply nth_combine_some. split; [exact Nc|].
      destruct changes; [destruct k; discriminate Nc|]. exact Nc2. }
    destruct (Forall2_nth _ _ _ _ _ M Hk) as (y & Hy & Ey). cbn in Ey.
    apply bind_ok in Ey. destruct Ey as (w & Hw & Ey). apply Ok_inj in Ey. subst y.
    exists w. split; [exact Hw|].
    destruct (nth_error_split _ _ Hy) as (m1 & m2 & -> & Lk).
    rewrite (fill_all_hit i m1 (w, (c, c2)) m2); [reflexivity|now rewrite repeat_length|unfold covers; cbn; lia|].
    intros y I C. apply In_nth_error in I. destruct I as (m & Hm).
    destruct (Forall2_nth_r _ _ _ (k + S m)%nat y M) as (z & Hz & Ez).
    { rewrite nth_error_app2 by lia. rewrite Lk. replace (k + S m - k)%nat with (S m) by lia. exact Hm. }
    destruct z as [o [a' b']]. apply nth_combine_some in Hz. destruct Hz as [_ Hz].
    apply nth_combine_some in Hz. destruct Hz as [Hz _].
    apply bind_ok in Ez. destruct Ez as (u & _ & Ez). apply Ok_inj in Ez. subst y. unfold covers in C. cbn in C.
    assert ((c2 <= a')%nat); [|lia].
    apply (nat_mono changes Mono (S k) m); [exact Nc2|]. replace (S k + m)%nat with (k + S m)%nat by lia. exact Hz.
Qed.
Lemma true_length_from {A} (init : Z) (index : A -> res Z) n (things : list A) changes arr :
  true_labels_from init index n things changes = Ok arr -> length arr = n.
Proof.
  intros E. unfold true_labels_from in E. apply bind_ok in E. destruct E as (l & M & E).
  apply bind_ok in E. destruct E as (last & Hlast & E).
  apply bind_ok in E. destruct E as (v & Hv & E).
  apply bind_ok in E. destruct E as (a & Ha & E). apply Ok_inj in E. subst arr.
  now rewrite fill_length, fill_all_length, repeat_length.
Qed.
Lemma key_colour_spec g e kg ke c : get_key_from_one_hot_index g TPC false = Ok kg -> get_key_from_one_hot_index e TPC false = Ok ke ->
  key_colour TPC g e = Ok c -> key_verdict kg ke c.
Proof.
  intros G E H. unfold key_colour in H. rewrite G, E in H. cbn [bind] in H. apply Ok_inj in H. subst c.
  destruct kg as [t1 m1], ke as [t2 m2]. unfold get_key_distance. cbn [fst snd].
  destruct (t1 =? t2) eqn:A; cbn [andb].
  - apply Z.eqb_eq in A. subst t2. destruct (km_eqb m1 m2) eqn:B.
    + apply km_eqb_iff in B. subst. reflexivity.
    + cbn. split; [|reflexivity]. intros X. injection X as <-. destruct m1; discriminate B.
  - cbn. intros X. apply Z.eqb_eq in X. congruence.
Qed.
Lemma chord_colour_spec g e kg ke c : get_chord_from_one_hot_index g TPC true false false NO_REDUCTION = Ok kg ->
  get_chord_from_one_hot_index e TPC true false false NO_REDUCTION = Ok ke ->
  chord_colour TPC g e = Ok c -> chord_verdict kg ke c.
Proof.
  intros G E H. unfold chord_colour in H. rewrite G, E in H. cbn [bind] in H. apply Ok_inj in H. subst c. clear G E.
  destruct kg as [[r1 t1] i1], ke as [[r2 t2] i2]. unfold get_chord_distance.
  destruct (r1 =? r2) eqn:A; cbn [andb].
  - apply Z.eqb_eq in A. subst r2. unfold NO_REDUCTION.
    destruct (ct_eqb t1 t2 && (i1 =? i2)) eqn:B.
    + apply andb_true_iff in B. destruct B as [B1 B2]. apply ct_eqb_iff in B1. apply Z.eqb_eq in B2. subst. reflexivity.
    + assert (N : (r1, t1, i1) <> (r1, t2, i2)).
      { intros X. injection X as <- <-. rewrite Z.eqb_refl, andb_true_r in B. destruct t1; discriminate B. }
      destruct (ct_eqb (TRIAD_REDUCTION t1) (TRIAD_REDUCTION t2)) eqn:T; cbn.
      * apply ct_eqb_iff in T. auto.
      * intros (_ & X). apply ct_eqb_iff in X. congruence.
  - cbn. intros (X & _). apply Z.eqb_eq in X. congruence.
Qed.

(* the values behind the texts compared *)
Section Rows.
Variables (cl kl : list pystr).
Hypothesis Hcl : get_chord_label_list TPC true false None false NO_REDUCTION = Ok cl.
Hypothesis Hkl : get_key_label_list TPC false None = Ok kl.
Definition says (ch : Z * chord_type * Z) (s : pystr) : Prop :=
  exists i, 0 <= i /\ get_chord_from_one_hot_index i TPC true false false NO_REDUCTION = Ok ch /\ py_nth cl i = Ok s.
Definition says_key (k : Z * key_mode) (s : pystr) : Prop :=
  exists i, 0 <= i /\ get_key_from_one_hot_index i TPC false = Ok k /\ py_nth kl i = Ok s.
Lemma says_inj a b s t : says a s -> says b t -> (s = t <-> a = b).
Proof using Hcl.
  intros (i & Hi & Di & Si) (j & Hj & Dj & Sj).
  destruct (C05_chord_labels_aligned TPC true false None false NO_REDUCTION) as (cl' & X & _ & N & _).
  rewrite Hcl in X. apply Ok_inj in X. subst cl'. rewrite (nodup_texts cl i j _ _ N Hi Hj Si Sj).
  split; [intros ->; congruence|]. intros ->. destruct b as [[r t'] v]. apply chord_index_back in Di, Dj; [|assumption..]. congruence.
Qed.
Lemma says_key_inj a b s t : says_key a s -> says_key b t -> (s = t <-> a = b).
Proof using Hkl.
  intros (i & Hi & Di & Si) (j & Hj & Dj & Sj).
  destruct (C05_key_labels_aligned TPC false None) as (kl' & X & _ & N & _).
  rewrite Hkl in X. apply Ok_inj in X. subst kl'. rewrite (nodup_texts kl i j _ _ N Hi Hj Si Sj).
  split; [intros ->; congruence|]. intros ->. destruct b as [r t']. apply key_index_back in Di, Dj; [|assumption..]. congruence.
Qed.
Definition same_as (prev : option four) (h : option heard) : Prop :=
  match prev, h with
  | None, None => True
  | Some (gc, gk, ec, ek), Some h => says (h_chord h) gc /\ says_key (h_key h) gk /\ says (h_est h) ec /\ says_key (h_est_key h) ek
  | _, _ => False
  end.
Definition item_of (x : Q * note * ((Z * Z) * (Z * Z))) (h : heard) : Prop :=
  let '(d, nt, ((ec, gc), (ek, gk))) := x in
  nt = h_note h /\ 0 <= ec /\ 0 <= gc /\ 0 <= ek /\ 0 <= gk /\
  get_chord_from_one_hot_index gc TPC true false false NO_REDUCTION = Ok (h_chord h) /\
  get_chord_from_one_hot_index ec TPC true false false NO_REDUCTION = Ok (h_est h) /\
  get_key_from_one_hot_index gk TPC false = Ok (h_key h) /\
  get_key_from_one_hot_index ek TPC false = Ok (h_est_key h).
Definition lasts2 (x : Q * note * ((Z * Z) * (Z * Z))) : bool := negb (Qeq_bool (fst (fst x)) 0%Q).

Lemma label_rows_spec : forall l hs prev ph rows, Forall2 item_of (filter lasts2 l) hs -> same_as prev ph ->
  label_rows TPC TPC cl kl prev l = Ok rows -> written ph hs rows.
Proof using Hcl Hkl.
  induction l as [|[[d nt] [[ec gc] [ek gk]]] l IH]; intros hs prev ph rows F Sm H; cbn [label_rows] in H.
  - cbn in F. inversion F. subst. apply Ok_inj in H. subst. constructor.
  - cbn [filter] in F. unfold lasts2 at 1 in F. cbn [fst] in F. destruct (Qeq_bool d 0); cbn [negb] in F; [exact (IH hs prev ph rows F Sm H)|].
    inversion F as [|x h l1 hs' I F' E1 E2]; subst. cbn in I. destruct I as (-> & B1 & B2 & B3 & B4 & D1 & D2 & D3 & D4).
    apply bind_ok in H. destruct H as (tgc & H1 & H). apply bind_ok in H. destruct H as (tgk & H2 & H).
    apply bind_ok in H. destruct H as (tec & H3 & H). apply bind_ok in H. destruct H as (tek & H4 & H).
    assert (W1 : says (h_chord h) tgc) by (exists gc; auto). assert (W2 : says_key (h_key h) tgk) by (exists gk; auto).
    assert (W3 : says (h_est h) tec) by (exists ec; auto). assert (W4 : says_key (h_est_key h) tek) by (exists ek; auto).
    apply bind_ok in H. destruct H as (krows & Hk & H). apply bind_ok in H. destruct H as (crows & Hc & H).
    apply bind_ok in H. destruct H as (rest & Hr & H). apply Ok_inj in H. subst rows.
    assert (T : forall (f : four -> pystr) (g : heard -> Z * chord_type * Z) x,
      (forall q h', same_as (Some q) (Some h') -> says (g h') (f q)) -> says (g h) x ->
      (match prev with Some q => str_eqb x (f q) | None => false end = true <-> option_map g ph = Some (g h))).
    { intros f g x Hq Hx. destruct prev as [q|], ph as [h'|]; try (destruct Sm; fail).
      - specialize (Hq q h' Sm). rewrite str_eqb_eq, (says_inj _ _ _ _ Hx Hq). cbn. split; congruence.
      - destruct q as [[[? ?] ?] ?]. destruct Sm.
      - cbn. split; discriminate. }
    assert (Tk : forall (f : four -> pystr) (g : heard -> Z * key_mode) x,
      (forall q h', same_as (Some q) (Some h') -> says_key (g h') (f q)) -> says_key (g h) x ->
      (match prev with Some q => str_eqb x (f q) | None => false end = true <-> option_map g ph = Some (g h))).
    { intros f g x Hq Hx. destruct prev as [q|], ph as [h'|]; try (destruct Sm; fail).
      - specialize (Hq q h' Sm). rewrite str_eqb_eq, (says_key_inj _ _ _ _ Hx Hq). cbn. split; congruence.
      - destruct q as [[[? ?] ?] ?]. destruct Sm.
      - cbn. split; discriminate. }
    assert (Q1 := T (fun q => fst (fst (fst q))) h_chord tgc ltac:(intros [[[? ?] ?] ?] h' X; apply X) W1).
    assert (Q2 := Tk (fun q => snd (fst (fst q))) h_key tgk ltac:(intros [[[? ?] ?] ?] h' X; apply X) W2).
    assert (Q3 := T (fun q => snd (fst q)) h_est tec ltac:(intros [[[? ?] ?] ?] h' X; apply X) W3).
    assert (Q4 := Tk (fun q => snd q) h_est_key tek ltac:(intros [[[? ?] ?] ?] h' X; apply X) W4).
    clear T Tk. cbn beta in Q1, Q2, Q3, Q4.
    set (b1 := match prev with Some q => str_eqb tgc (fst (fst (fst q))) | None => false end) in *.
    set (b2 := match prev with Some q => str_eqb tgk (snd (fst (fst q))) | None => false end) in *.
    set (b3 := match prev with Some q => str_eqb tec (snd (fst q)) | None => false end) in *.
    set (b4 := match prev with Some q => str_eqb tek (snd q) | None => false end) in *.
    constructor.
    + unfold key_part. cbn zeta. destruct (b2 && b4) eqn:B.
      * left. apply andb_true_iff in B. apply Ok_inj in Hk. subst krows. tauto.
      * right. split; [intros [X Y]; apply Q2 in X; apply Q4 in Y; rewrite X, Y in B; discriminate B|].
        apply bind_ok in Hk. destruct Hk as (c & Ec & Hk). apply Ok_inj in Hk. subst krows.
        exists (if b4 then L"--" else tek), c. split; [reflexivity|]. split; [exact (key_colour_spec _ _ _ _ _ D3 D4 Ec)|].
        split; [intros X; apply Q4 in X; now rewrite X|]. intros X. destruct b4; [exfalso; apply X, Q4; reflexivity|].
        destruct (h_est_key h) as [t m]. exact (key_text_of _ _ _ _ _ _ Hkl B3 D4 H4).
    + unfold chord_part. cbn zeta. destruct (b1 && b3) eqn:B.
      * left. apply andb_true_iff in B. apply Ok_inj in Hc. subst crows. tauto.
      * right. split; [intros [X Y]; apply Q1 in X; apply Q3 in Y; rewrite X, Y in B; discriminate B|].
        apply bind_ok in Hc. destruct Hc as (c & Ec & Hc). apply Ok_inj in Hc. subst crows.
        exists (if b3 then L"--" else tec), c. split; [reflexivity|]. split; [exact (chord_colour_spec _ _ _ _ _ D1 D2 Ec)|].
        split; [intros X; apply Q3 in X; now rewrite X|]. intros X. destruct b3; [exfalso; apply X, Q3; reflexivity|].
        destruct (h_est h) as [[r t] v]. exact (chord_text_of _ _ _ _ _ _ _ Hcl B1 D2 H3).
    + apply (IH hs' (Some (tgc, tgk, tec, tek)) (Some h) rest F'); [cbn; auto|exact Hr].
Qed.
End Rows.
Lemma sounding_gen {A} (dur : A -> Q) : forall l k,
  Forall2 (fun i x => (k <= i)%nat /\ nth_error l (i - k) = Some x) (sounding_from k (map dur l))
    (filter (fun x => negb (Qeq_bool (dur x) 0%Q)) l).
Proof.
  induction l as [|x l IH]; intros k; [constructor|]. cbn [map sounding_from filter].
  assert (R : Forall2 (fun i y => (k <= i)%nat /\ nth_error (x :: l) (i - k) = Some y) (sounding_from (S k) (map dur l))
     (filter (fun x => negb (Qeq_bool (dur x) 0%Q)) l)).
  { specialize (IH (S k)). clear -IH. induction IH as [|i y l1 l2 [H1 H2] F IH]; constructor; [|exact IH].
    split; [lia|]. replace (i - k)%nat with (S (i - S k)) by lia. exact H2. }
  destruct (Qeq_bool (dur x) 0); cbn [negb]; [exact R|]. constructor; [|exact R].
  split; [lia|]. rewrite Nat.sub_diag. reflexivity.
Qed.
Lemma sounding_items {A} (dur : A -> Q) l :
  Forall2 (fun i x => nth_error l i = Some x) (sounding (map dur l)) (filter (fun x => negb (Qeq_bool (dur x) 0%Q)) l).
Proof.
  pose proof (sounding_gen dur l 0) as F. unfold sounding. revert F. generalize (filter (fun x => negb (Qeq_bool (dur x) 0%Q)) l).
  intros l' F. induction F as [|i x l1 l2 [_ H] F IH]; constructor; [|exact IH]. now rewrite Nat.sub_0_r in H.
Qed.

(* ---- get_labels_df ---- *)
Lemma nth_fill_obj {V} (l : list V) a b x i :
  nth_error (fill_obj l a b x) i = if (a <=? i)%nat && (i <? b)%nat && (i <? length l)%nat then Some x else nth_error l i.
Proof.
  unfold fill_obj. set (m := Nat.min b (length l)).
  destruct (Nat.lt_ge_cases i (Nat.min a (length l))) as [H1|H1].
  - replace ((a <=? i)%nat && (i <? b)%nat && (i <? length l)%nat) with false by lia.
    rewrite nth_error_app1 by (rewrite firstn_length; lia). apply Proof_Paths.nth_error_firstn_lt. lia.
  - rewrite nth_error_app2 by (rewrite firstn_length; lia). rewrite firstn_length.
    destruct (Nat.le_gt_cases a (length l)) as [H2|H2].
    + replace (Nat.min a (length l)) with a in * by lia.
      destruct (Nat.lt_ge_cases i m) as [H3|H3].
      * replace ((a <=? i)%nat && (i <? b)%nat && (i <? length l)%nat) with true by lia.
        rewrite nth_error_app1 by (rewrite repeat_length; lia). apply nth_repeat_some. lia.
      * rewrite nth_error_app2 by (rewrite repeat_length; lia). rewrite repeat_length.
        replace ((a <=? i)%nat && (i <? b)%nat && (i <? length l)%nat) with false by lia.
        rewrite Proof_Paths.nth_error_skipn'. f_equal. lia.
    + replace ((a <=? i)%nat && (i <? b)%nat && (i <? length l)%nat) with false by lia.
      replace (m - a)%nat with 0%nat by lia. cbn [repeat app]. rewrite Proof_Paths.nth_error_skipn'.
      transitivity (@None V); [apply nth_error_None; lia|symmetry; apply nth_error_None; lia].
Qed.
Lemma fill_obj_length {V} (l : list V) a b x : length (fill_obj l a b x) = length l.
Proof.
  destruct (Nat.eq_dec (length (fill_obj l a b x)) (length l)) as [E|E]; [exact E|exfalso].
  destruct (Nat.lt_ge_cases (length (fill_obj l a b x)) (length l)) as [H|H].
  - pose proof (nth_fill_obj l a b x (length (fill_obj l a b x))) as Y.
    assert (N : nth_error (fill_obj l a b x) (length (fill_obj l a b x)) = None) by now apply nth_error_None.
    rewrite N in Y. destruct (_ && _) in Y; [discriminate Y|]. symmetry in Y. apply nth_error_None in Y. lia.
  - pose proof (nth_fill_obj l a b x (length l)) as Y.
    assert (N : nth_error (fill_obj l a b x) (length l) <> None) by (apply nth_error_Some; lia).
    replace ((a <=? length l)%nat && (length l <? b)%nat && (length l <? length l)%nat) with false in Y by lia.
    rewrite Y in N. apply N. now apply nth_error_None.
Qed.
Definition fill_objs {V} (arr : list V) (l : list (V * (nat * nat))) : list V :=
  fold_left (fun t x => fill_obj t (fst (snd x)) (snd (snd x)) (fst x)) l arr.
Definition covers_obj {V} (x : V * (nat * nat)) (i : nat) : Prop := (fst (snd x) <= i < snd (snd x))%nat.
Lemma fill_objs_length {V} (l : list (V * (nat * nat))) : forall arr, length (fill_objs arr l) = length arr.
Proof. induction l as [|x l IH]; intros arr; [reflexivity|]. cbn [fill_objs fold_left]. unfold fill_objs in IH. now rewrite IH, fill_obj_length. Qed.
Lemma fill_objs_miss {V} i : forall (l : list (V * (nat * nat))) arr, (forall x, In x l -> ~ covers_obj x i) ->
  nth_error (fill_objs arr l) i = nth_error arr i.
Proof.
  induction l as [|x l IH]; intros arr H; [reflexivity|]. cbn [fill_objs fold_left]. unfold fill_objs in IH.
  rewrite IH by (intros y Iy; apply H; now right). rewrite nth_fill_obj.
  assert (N := H x (or_introl eq_refl)). unfold covers_obj in N.
  now replace ((fst (snd x) <=? i)%nat && (i <? snd (snd x))%nat && (i <? length arr)%nat) with false by lia.
Qed.
Lemma fill_objs_hit {V} i l1 (x : V * (nat * nat)) l2 : forall arr, (i < length arr)%nat -> covers_obj x i ->
  (forall y, In y l2 -> ~ covers_obj y i) -> nth_error (fill_objs arr (l1 ++ x :: l2)) i = Some (fst x).
Proof.
  intros arr Hi Hx H2. unfold fill_objs. rewrite fold_left_app. cbn [fold_left]. fold (fill_objs arr l1).
  change (nth_error (fill_objs (fill_obj (fill_objs arr l1) (fst (snd x)) (snd (snd x)) (fst x)) l2) i = Some (fst x)).
  rewrite fill_objs_miss by exact H2. rewrite nth_fill_obj, fill_objs_length. unfold covers_obj in Hx.
  now replace ((fst (snd x) <=? i)%nat && (i <? snd (snd x))%nat && (i <? length arr)%nat) with true by lia.
Qed.
Lemma objs_nth {A V} (init : V) (index : A -> res V) n (things : list A) changes l last v a i x :
  mapM (fun x => let '(c, r) := x in let! e := index c in Ok (e, r)) (combine things (combine changes (tl changes))) = Ok l ->
  py_nth things (-1) = Ok last -> index last = Ok v -> py_nth changes (-1) = Ok a -> length changes = length things ->
  non_decreasing (map Z.of_nat changes) -> (i < n)%nat ->
  last_up_to (combine changes things) i x ->
  exists w, index x = Ok w /\ nth_error (fill_obj (fill_objs (repeat init n) l) a n v) i = Some w.
Proof.
  intros M Hlast Hv Ha L Mono Hi (l1 & c & l2 & Ec & Hc & Hl). apply mapM_ok in M.
  assert (N : nth_error (combine changes things) (length l1) = Some (c, x)).
  { rewrite Ec, nth_error_app2, Nat.sub_diag by lia. reflexivity. }
  apply nth_combine_some in N. destruct N as [Nc Nx].
  assert (Lt : length things = (length l1 + S (length l2))%nat).
  { pose proof (f_equal (@length _) Ec) as X. rewrite combine_length, app_length in X. cbn in X. lia. }
  set (k := length l1) in *.
  assert (Llast : nth_error things (length things - 1) = Some last).
  { unfold py_nth, zlen in Hlast. cbn [Z.ltb Z.compare] in Hlast.
    destruct ((-1 + Z.of_nat (length things) <? 0) || (Z.of_nat (length things) <=? -1 + Z.of_nat (length things))) eqn:Q;
      [discriminate Hlast|].
    replace (Z.to_nat (-1 + Z.of_nat (length things))) with (length things - 1)%nat in Hlast by lia.
    destruct (nth_error things (length things - 1)); [|discriminate Hlast]. now apply Ok_inj in Hlast; subst. }
  assert (La : nth_error changes (length things - 1) = Some a).
  { unfold py_nth, zlen in Ha. cbn [Z.ltb Z.compare] in Ha. rewrite L in Ha.
    destruct ((-1 + Z.of_nat (length things) <? 0) || (Z.of_nat (length things) <=? -1 + Z.of_nat (length things))) eqn:Q;
      [discriminate Ha|].
    replace (Z.to_nat (-1 + Z.of_nat (length things))) with (length things - 1)%nat in Ha by lia.
    destruct (nth_error changes (length things - 1)); [|discriminate Ha]. now apply Ok_inj in Ha; subst. }
  rewrite nth_fill_obj, fill_objs_length, repeat_length.
  destruct l2 as [|[c2 y2] l2].
  - replace (length things - 1)%nat with k in * by (cbn in Lt; lia).
    rewrite Nx in Llast. apply Some_inj in Llast. subst last. rewrite Nc in La. apply Some_inj in La. subst a.
    exists v. split; [exact Hv|].
    replace ((c <=? i)%nat && (i <? n)%nat && (i <? n)%nat) with true by lia. reflexivity.
  - assert (N2 : nth_error (combine changes things) (S k) = Some (c2, y2)).
    { rewrite Ec, nth_error_app2 by (unfold k; lia). replace (S k - length l1)%nat with 1%nat by (unfold k; lia). reflexivity. }
    apply nth_combine_some in N2. destruct N2 as [Nc2 _].
    assert (Hc2 := Hl _ (or_introl eq_refl)). cbn in Hc2.
    assert (Ha2 : (c2 <= a)%nat).
    { apply (nat_mono changes Mono (S k) (length things - 1 - S k)%nat); [exact Nc2|].
      replace (S k + (length things - 1 - S k))%nat with (length things - 1)%nat by (cbn in Lt; lia). exact La. }
    replace ((a <=? i)%nat && (i <? n)%nat && (i <? n)%nat) with false by lia.
    assert (Hk : nth_error (combine things (combine changes (tl changes))) k = Some (x, (c, c2))).
    { apply nth_combine_some. split; [exact Nx|]. apply nth_combine_some. split; [exact Nc|].
      destruct changes; [destruct k; discriminate Nc|]. exact Nc2. }
    destruct (Forall2_nth _ _ _ _ _ M Hk) as (y & Hy & Ey). cbn in Ey.
    apply bind_ok in Ey. destruct Ey as (w & Hw & Ey). apply Ok_inj in Ey. subst y.
    exists w. split; [exact Hw|].
    destruct (nth_error_split _ _ Hy) as (m1 & m2 & -> & Lk).
    rewrite (fill_objs_hit i m1 (w, (c, c2)) m2); [reflexivity|now rewrite repeat_length|unfold covers_obj; cbn; lia|].
    intros y I C. apply In_nth_error in I. destruct I as (m & Hm).
    destruct (Forall2_nth_r _ _ _ (k + S m)%nat y M) as (z & Hz & Ez).
    { rewrite nth_error_app2 by lia. rewrite Lk. replace (k + S m - k)%nat with (S m) by lia. exact Hm. }
    destruct z as [o [a' b']]. apply nth_combine_some in Hz. destruct Hz as [_ Hz].
    apply nth_combine_some in Hz. destruct Hz as [Hz _].
    apply bind_ok in Ez. destruct Ez as (u & _ & Ez). apply Ok_inj in Ez. subst y. unfold covers_obj in C. cbn in C.
    assert ((c2 <= a')%nat); [|lia].
    apply (nat_mono changes Mono (S k) m); [exact Nc2|]. replace (S k + m)%nat with (k + S m)%nat by lia. exact Hz.
Qed.
Lemma mapM_proj {A B C} (f : A -> res B) (g : A -> res C) (h : B -> C) : (forall x y, f x = Ok y -> g x = Ok (h y)) ->
  forall l r, mapM f l = Ok r -> mapM g l = Ok (map h r).
Proof.
  intros H. induction l as [|x l IH]; intros r E; cbn [mapM] in E.
  - apply Ok_inj in E. subst. reflexivity.
  - apply bind_ok in E. destruct E as (y & Ey & E). apply bind_ok in E. destruct E as (r' & Er & E). apply Ok_inj in E. subst r.
    cbn [mapM map]. rewrite (H _ _ Ey), (IH _ Er). reflexivity.
Qed.
Lemma columns_spec tpc_c p labels texts : chord_columns tpc_c p = Ok (labels, texts) ->
  true_labels chord_index (length (p_notes p)) (p_chords p) (p_changes p) = Ok labels /\ length texts = length (p_notes p) /\
  forall i c, length (p_changes p) = length (p_chords p) -> non_decreasing (map Z.of_nat (p_changes p)) -> (i < length (p_notes p))%nat ->
    last_up_to (combine (p_changes p) (p_chords p)) i c ->
    exists s, get_suspension_strings tpc_c c = Ok s /\ nth_error texts i = Some s.
Proof.
  unfold chord_columns. cbn zeta. set (n := length (p_notes p)). intros H.
  apply bind_ok in H. destruct H as (l & M & H). apply bind_ok in H. destruct H as (c0 & Hc & H).
  apply bind_ok in H. destruct H as (i0 & Hi & H). apply bind_ok in H. destruct H as (a & Ha & H).
  apply bind_ok in H. destruct H as (s0 & Hs & H). apply Ok_inj in H.
  assert (M1 : mapM (fun x : pchord * (nat * nat) => let '(c, r) := x in let! i := chord_index c in Ok (i, r))
      (combine (p_chords p) (combine (p_changes p) (tl (p_changes p)))) = Ok (map (fun x => (fst (fst x), snd x)) l)).
  { eapply mapM_proj; [|exact M]. intros [c r] y E. apply bind_ok in E. destruct E as (e & Ee & E). apply Ok_inj in E. subst y.
    apply bind_ok in Ee. destruct Ee as (i & Ei & Ee). apply bind_ok in Ee. destruct Ee as (s & Es & Ee). apply Ok_inj in Ee. subst e.
    rewrite Ei. reflexivity. }
  assert (M2 : mapM (fun x : pchord * (nat * nat) => let '(c, r) := x in let! s := get_suspension_strings tpc_c c in Ok (s, r))
      (combine (p_chords p) (combine (p_changes p) (tl (p_changes p)))) = Ok (map (fun x => (snd (fst x), snd x)) l)).
  { eapply mapM_proj; [|exact M]. intros [c r] y E. apply bind_ok in E. destruct E as (e & Ee & E). apply Ok_inj in E. subst y.
    apply bind_ok in Ee. destruct Ee as (i & Ei & Ee). apply bind_ok in Ee. destruct Ee as (s & Es & Ee). apply Ok_inj in Ee. subst e.
    rewrite Es. reflexivity. }
  assert (T : fold_left (fun t x => let '((_, s), (a, b)) := x : (Z * (pystr * pystr)) * (nat * nat) in fill_obj t a b s) l (repeat ([], []) n)
    = fill_objs (repeat ([], []) n) (map (fun x => (snd (fst x), snd x)) l)).
  { generalize (repeat (@nil ascii, @nil ascii) n). clear. induction l as [|[[z s] [a b]] l IH]; intros t; [reflexivity|]. cbn. apply IH. }
  rewrite T in H. clear T. injection H as H1 H2. split; [|split].
  - unfold true_labels. rewrite M1. cbn [bind]. rewrite Hc. cbn [bind]. rewrite Hi. cbn [bind]. rewrite Ha. cbn [bind]. now rewrite H1.
  - rewrite <- H2. rewrite fill_obj_length, fill_objs_length, repeat_length. reflexivity.
  - intros i c L Mono Hn F. rewrite <- H2. eapply (objs_nth ([], []) (get_suspension_strings tpc_c)); eassumption.
Qed.
Definition lasts3 (x : Q * note * (Z * (pystr * pystr) * Z)) : bool := negb (Qeq_bool (fst (fst x)) 0%Q).
Lemma labels_rows_spec tpc_c : forall l rows, labels_rows tpc_c l = Ok rows ->
  Forall2 (fun x r => let '(d, nt, (ci, st, ki)) := x in
    lo_dur r = d /\ lo_note r = nt /\ (lo_susp_tpc r, lo_susp_midi r) = st /\
    exists root tonic, get_chord_from_one_hot_index ci TPC true false false NO_REDUCTION = Ok (root, lo_type r, lo_inv r) /\
      get_key_from_one_hot_index ki TPC false = Ok (tonic, lo_mode r) /\
      lo_root_tpc r = root - 15 + tpc_c /\ lo_root_midi r = (7 * (root - 15)) mod 12 /\
      lo_tonic_tpc r = tonic - 15 + tpc_c /\ lo_tonic_midi r = (7 * (tonic - 15)) mod 12) (filter lasts3 l) rows.
Proof.
  induction l as [|[[d nt] [[ci [st sm]] ki]] l IH]; intros rows H; cbn [labels_rows] in H.
  - apply Ok_inj in H. subst. constructor.
  - cbn [filter]. unfold lasts3 at 1. cbn [fst]. destruct (Qeq_bool d 0); cbn [negb]; [exact (IH rows H)|].
    apply bind_ok in H. destruct H as ([[root t] inv] & Hc & H). apply bind_ok in H. destruct H as ([tonic m] & Hk & H).
    apply bind_ok in H. destruct H as (rm & Hr & H). apply bind_ok in H. destruct H as (tm & Ht & H).
    apply bind_ok in H. destruct H as (rest & Hrest & H). apply Ok_inj in H. subst rows.
    constructor; [|exact (IH rest Hrest)]. cbn. split; [reflexivity|]. split; [reflexivity|]. split; [reflexivity|].
    exists root, tonic. split; [exact Hc|]. split; [exact Hk|]. apply reread_spec in Hr, Ht. cbn [said_as] in Hr, Ht. auto.
Qed.

(* suspension texts *)
Lemma int_text s z : is_decimal_of s z -> py_int_text s = Ok z.
Proof. intros (d & E & <-). unfold py_int_text. now rewrite E. Qed.
Lemma decimal_head s z : is_decimal_of s z -> exists c r, s = c :: r /\ Ascii.eqb c "+" = false.
Proof.
  intros (d & E & _). destruct s as [|c r]; [discriminate E|]. exists c, r. split; [reflexivity|].
  destruct (Ascii.eqb c "+") eqn:Q; [|reflexivity]. apply Ascii.eqb_eq in Q. subst c. exfalso.
  unfold DecimalString.NilZero.int_of_string in E. cbn [string_of_list_ascii] in E.
  change ("+" =? "-")%char with false in E. cbn [DecimalString.NilZero.uint_of_string DecimalString.NilEmpty.uint_of_string] in E.
  destruct (DecimalString.NilEmpty.uint_of_string (string_of_list_ascii r)); discriminate E.
Qed.
