(* C94: the debug log of an inferred harmony. *)
From Coq Require Import QArith Lqa String Ascii Lia ZArith.
From Verif Require Import Model_Strings Model_Rhythm Model_Piece Model_Tables Model_Log
  Spec_Music Spec_Rhythm Spec_Piece Spec_Search Spec_Eval Spec_Tables Spec_Log.
From Verif Require Import Proof_Base Proof_Strings Proof_Rhythm Proof_Window Proof_Infer Proof_Eval Proof_Dataset Proof_Keys Prop_Piece Prop_Codec Prop_Pitch Prop_Eval Proof_Tables Prop_Tables Proof_Log.
From Coq Require Import List.
Import ListNotations.
Close Scope Q_scope.
Open Scope Z_scope.

(* what the labels of an input stand for *)
Definition stands_for (x : labels4) (h : heard) : Prop :=
  let '((gk, gc), (ek, ec)) := x in
  0 <= ec /\ 0 <= gc /\ 0 <= ek /\ 0 <= gk /\
  get_chord_from_one_hot_index gc TPC true false false NO_REDUCTION = Ok (h_chord h) /\
  get_chord_from_one_hot_index ec TPC true false false NO_REDUCTION = Ok (h_est h) /\
  get_key_from_one_hot_index gk TPC false = Ok (h_key h) /\
  get_key_from_one_hot_index ek TPC false = Ok (h_est_key h).
Lemma structure_heard p s gc ec gk ek : covered p -> keyed p ->
  (let (chords, changes) := get_chords s in segmentation chords changes (length (p_notes p))) ->
  (let (keys, changes) := get_keys s in segmentation keys changes (length (p_notes p))) ->
  Forall (fun c => exists e, c = Some e /\ 0 <= e < 1540) (fst (get_chords s)) ->
  Forall (fun k => 0 <= k < 70) (fst (get_keys s)) ->
  true_chords p = Ok gc -> estimated_chords p s = Ok ec -> true_keys p = Ok gk -> estimated_keys p s = Ok ek ->
  length (combine (combine gk gc) (combine ek ec)) = length (p_notes p) /\
  forall i x, nth_error (combine (combine gk gc) (combine ek ec)) i = Some x ->
    exists h, heard_at p s i h /\ stands_for x h.
Proof.
  intros C K Sc Sk Pc Pk Gc Ec Gk Ek.
  assert (Nch : p_chords p <> []).
  { destruct C as (Lc & C0 & _). destruct (p_chords p); [|discriminate]. destruct (p_changes p); [discriminate C0|discriminate Lc]. }
  assert (Nke : p_keys p <> []).
  { destruct K as (Lc & C0 & _). destruct (p_keys p); [|discriminate]. destruct (p_key_changes p); [discriminate C0|discriminate Lc]. }
  assert (Lgc : length gc = length (p_notes p)) by exact (true_length _ _ _ _ _ Gc).
  assert (Lec : length ec = length (p_notes p)).
  { unfold estimated_chords in Ec. destruct (get_chords s). exact (estimated_length _ _ _ _ Ec). }
  assert (Lek : length ek = length (p_notes p)).
  { unfold estimated_keys in Ek. destruct (get_keys s). exact (estimated_length _ _ _ _ Ek). }
  assert (Lgk : length gk = length (p_notes p)).
  { pose proof Gk as G. unfold true_keys in G. apply bind_ok in G. destruct G as (kc & _ & G). exact (true_length _ _ _ _ _ G). }
  split; [rewrite !combine_length; lia|]. intros i [[g' g] [f e]] Hx.
  apply nth_combine_some in Hx. destruct Hx as [H1 H2]. apply nth_combine_some in H1, H2.
  destruct H1 as [Hg' Hg]. destruct H2 as [Hf He].
  assert (Hi : (i < length (p_notes p))%nat) by (rewrite <- Lgc; apply nth_error_Some; congruence).
  destruct (nth_error (p_notes p) i) as [nt|] eqn:Hn; [|apply nth_error_None in Hn; lia].
  destruct (chord_force p i C Nch) as (c & Fc).
  destruct (true_nth _ _ _ _ _ i c Gc) as (v & Hv & Hv'); [apply C|apply C|exact Hi|exact Fc|].
  rewrite Hg in Hv'. apply Some_inj in Hv'. subst v. unfold chord_index in Hv.
  assert (Ept : c_pt (pc c) = TPC).
  { destruct C as (_ & _ & _ & Fp). rewrite Forall_forall in Fp. apply Fp. destruct Fc as (a1 & a2 & a3 & Ea & _).
    apply (in_combine_r (p_changes p) _ a2). rewrite Ea. apply in_elt. }
  pose proof Hv as Hr. unfold chord_one_hot in Hr. cbn [bind] in Hr. apply C02_index_in_range in Hr.
  apply C01_chord_object_roundtrip in Hv. rewrite Ept in Hv. cbn beta iota in Hv. unfold NO_REDUCTION at 2 in Hv.
  destruct (key_case p s gk ek i Gk Ek C K Sk Hi) as (A1 & A2 & k & f' & Fk & Lf).
  destruct (A1 k Fk) as (g2 & Hg2 & D2). rewrite Hg' in Hg2. apply Some_inj in Hg2. subst g2.
  rewrite (A2 f' Lf) in Hf. apply Some_inj in Hf. subst f'.
  assert (Bf : 0 <= f < 70).
  { rewrite Forall_forall in Pk. apply Pk. destruct Lf as (j & a & b & Hj & _). exact (nth_error_In _ _ Hj). }
  assert (Bg' : 0 <= g').
  { unfold true_keys in Gk. apply bind_ok in Gk. destruct Gk as (inputs & Ei & Gk'').
    destruct (key_inputs p inputs C K Ei) as (Fi & Lki & Ki0 & Kmono).
    destruct (force_exists (combine inputs (p_keys p)) i) as (k' & Fk').
    { destruct (p_keys p); [now destruct Nke|]. destruct inputs; [discriminate Lki|]. discriminate. }
    { intros c0 x H0. apply nth_combine_some in H0. destruct H0 as [H0 _]. rewrite Ki0 in H0. apply Some_inj in H0. lia. }
    { now apply combine_mono. }
    destruct (true_nth _ _ _ _ _ i k' Gk'' Lki Kmono Hi Fk') as (v & Hv1 & Hv2).
    rewrite Hg' in Hv2. apply Some_inj in Hv2. subst v. unfold key_index in Hv1. apply C04_key_roundtrip in Hv1. lia. }
  destruct (labelled_exists (fst (get_chords s)) (snd (get_chords s)) (length (p_notes p)) i) as (lb & Lb);
    [destruct (get_chords s); exact Sc|exact Hi|].
  assert (Blb : exists e', lb = Some e' /\ 0 <= e' < 1540).
  { rewrite Forall_forall in Pc. apply Pc. destruct Lb as (j & a & b & Hj & _). exact (nth_error_In _ _ Hj). }
  destruct Blb as (e' & -> & Be).
  assert (Ee : nth_error ec i = Some e').
  { unfold estimated_chords in Ec. destruct (get_chords s) as [chords changes]. cbn [fst snd] in *.
    exact (estimated_nth _ _ _ _ _ _ Ec Sc Lb). }
  rewrite He in Ee. apply Some_inj in Ee. subst e'.
  destruct (C02_index_surjective e TPC true false false NO_REDUCTION Be) as (r2 & t2 & i2 & De & _).
  destruct (C04_key_inverse f TPC Bf) as (t3 & m3 & Df & _).
  exists (mkHeard nt (c_root (pc c), c_type (pc c), c_inv (pc c)) (r2, t2, i2) (k_rel k, k_rel_mode k) (t3, m3)).
  split.
  - unfold heard_at. cbn [h_note h_chord h_est h_key h_est_key]. split; [exact Hn|].
    split; [exists c; auto|]. split; [exists k; auto|]. split; [exists e; auto|exists f; auto].
  - cbn [stands_for h_note h_chord h_est h_key h_est_key]. split; [lia|]. split; [lia|]. split; [lia|]. split; [lia|]. auto.
Qed.
(* the labels are those of what is heard, and only of that *)
Lemma stands_inj x y h h' : stands_for x h -> stands_for y h' -> (x = y <-> same_structure h h').
Proof.
  destruct x as [[gk gc] [ek ec]], y as [[gk' gc'] [ek' ec']]. intros (A1 & A2 & A3 & A4 & D1 & D2 & D3 & D4) (B1 & B2 & B3 & B4 & E1 & E2 & E3 & E4).
  unfold same_structure. split.
  - intros E. injection E as <- <- <- <-. repeat split; congruence.
  - intros (F1 & F2 & F3 & F4). rewrite <- F1 in E1. rewrite <- F2 in E2. rewrite <- F3 in E3. rewrite <- F4 in E4.
    destruct (h_chord h) as [[r t] v]. destruct (h_est h) as [[r' t'] v']. destruct (h_key h). destruct (h_est_key h).
    apply chord_index_back in D1, D2, E1, E2; [|assumption..]. apply key_index_back in D3, D4, E3, E4; [|assumption..]. congruence.
Qed.

(* The log: entries that follow each other through the whole piece, each for inputs that all have the
   chord and key it gives (and the right ones if it gives them); at the boundary of two entries
   something changes. *)
Theorem C94_log : forall p durs s lines,
  length durs = length (p_notes p) -> covered p -> keyed p ->
  (let (chords, changes) := get_chords s in segmentation chords changes (length (p_notes p))) ->
  (let (keys, changes) := get_keys s in segmentation keys changes (length (p_notes p))) ->
  Forall (fun c => exists e, c = Some e /\ 0 <= e < 1540) (fst (get_chords s)) ->
  Forall (fun k => 0 <= k < 70) (fst (get_keys s)) ->
  log_state p durs s TPC TPC = Ok lines ->
  exists cuts, segmentation lines cuts (length (p_notes p)) /\
    (forall k line a b, nth_error lines k = Some line -> nth_error cuts k = Some a -> nth_error cuts (S k) = Some b ->
       entry_spans p durs a b line /\
       forall i, (a <= i < b)%nat -> exists h, heard_at p s i h /\ entry_says h line) /\
    (forall i, In (S i) cuts -> (S i < length (p_notes p))%nat ->
       exists h h', heard_at p s i h /\ heard_at p s (S i) h' /\ ~ same_structure h h').
Proof.
  intros p durs s lines L C K Sc Sk Pc Pk H. unfold log_state in H.
  apply bind_ok in H. destruct H as (gc & Gc & H). apply bind_ok in H. destruct H as (ec & Ec & H).
  apply bind_ok in H. destruct H as (gk & Gk & H). apply bind_ok in H. destruct H as (ek & Ek & H).
  apply bind_ok in H. destruct H as (cl & Hcl & H). apply bind_ok in H. destruct H as (kl & Hkl & H).
  destruct (structure_heard p s gc ec gk ek C K Sc Sk Pc Pk Gc Ec Gk Ek) as (Ll & Hh).
  set (l := combine (combine gk gc) (combine ek ec)) in *. clearbody l. clear Gc Ec Gk Ek gc ec gk ek.
  destruct (p_notes p) as [|n0 ns] eqn:En; [discriminate H|]. rewrite <- En in *.
  assert (Nl : l <> []) by (intros ->; rewrite En in Ll; discriminate Ll).
  apply bind_ok in H. destruct H as (nl & Hnl & H). rewrite (changes_length l Nl) in H.
  assert (Ei : apply_mask (structure_changes l) (seq 0 (length l)) = indexes l) by (unfold indexes; now rewrite (changes_length l Nl)).
  rewrite Ei in H. apply mapM_ok in H.
  pose proof (mask_nth (structure_changes l) l 0 (changes_length l Nl)) as M1. fold (indexes l) in M1.
  pose proof (mask_nth (structure_changes l) (map no_on (p_notes p)) 0) as M2. rewrite map_length, (changes_length l Nl), Ei in M2.
  specialize (M2 Ll). set (starts := apply_mask (structure_changes l) (map no_on (p_notes p))) in *.
  set (strs := apply_mask (structure_changes l) l) in *.
  pose proof (Forall2_len _ _ _ M1) as L1. pose proof (Forall2_len _ _ _ M2) as L2.
  destruct (indexes_head l) as (ir & Eir).
  assert (Hlen : length lines = length (indexes l)).
  { apply Forall2_len in H. rewrite <- H, !combine_length, map_length, combine_length, !app_length, <- L1, <- L2.
    rewrite Eir. destruct starts; [rewrite Eir in L2; discriminate L2|]. rewrite Eir in L2. cbn [tl length] in *. lia. }
  exists (cuts l). split; [|split].
  - split; [unfold cuts; rewrite app_length, Hlen; cbn [length]; lia|]. split; [unfold cuts; rewrite Eir; reflexivity|].
    split; [unfold cuts; rewrite Hlen, nth_error_app2, Nat.sub_diag by lia; cbn [nth_error]; now rewrite Ll|].
    intros k a b Ha Hb. exact (rising_nth _ (cuts_rising l Nl) k (S k) a b ltac:(lia) Ha Hb).
  - intros k line a b Hk Ha Hb. pose proof Ha as Ha0. pose proof Hb as Hb0.
    assert (Hki : (k < length (indexes l))%nat) by (rewrite <- Hlen; apply nth_error_Some; congruence).
    assert (Bab : (a < b)%nat) by exact (rising_nth _ (cuts_rising l Nl) k (S k) a b ltac:(lia) Ha Hb).
    unfold cuts in Ha. rewrite nth_error_app1 in Ha by exact Hki.
    destruct (Forall2_nth _ _ _ _ _ M1 Ha) as (x & Hx & Hxa & _). rewrite Nat.sub_0_r in Hxa.
    destruct (Forall2_nth _ _ _ _ _ M2 Ha) as (st & Hst & Hsta & _). rewrite Nat.sub_0_r, nth_error_map in Hsta.
    destruct (nth_error (p_notes p) a) as [na|] eqn:Hna; [|discriminate Hsta]. apply Some_inj in Hsta.
    destruct (Forall2_nth_r _ _ _ _ _ H Hk) as (y & Hy & Ey).
    destruct y as [x' [[st' en] d]]. apply nth_combine_some in Hy. destruct Hy as [Hx' Hy]. rewrite Hx in Hx'. apply Some_inj in Hx'. subst x'.
    apply nth_combine_some in Hy. destruct Hy as [Hy Hd]. apply nth_combine_some in Hy. destruct Hy as [Hst' Hen].
    rewrite Hst in Hst'. apply Some_inj in Hst'. subst st'.
    rewrite nth_error_map in Hd.
    assert (Hcd : nth_error (combine (indexes l) (tl (indexes l) ++ [length l])) k = Some (a, b)).
    { apply nth_combine_some. split; [exact Ha|]. rewrite <- Hb0. unfold cuts. rewrite Eir. cbn [tl app nth_error]. reflexivity. }
    rewrite Hcd in Hd. cbn [option_map fst snd] in Hd. apply Some_inj in Hd. rewrite py_slice_nat in Hd.
    destruct x as [[xgk xgc] [xek xec]].
    destruct (entry_inv _ _ _ _ _ _ _ _ _ _ Ey) as (tgk & tgc & tek & tec & T1 & T2 & T3 & T4 & R1 & R2 & R3 & R4 & R5 & R6).
    split.
    + split; [exists na; split; [exact Hna|congruence]|]. split.
      * destruct (Nat.eq_dec (S k) (length (indexes l))) as [Ek|Ek].
        -- right. assert (Eb : b = length l).
           { unfold cuts in Hb. rewrite nth_error_app2 in Hb by lia. replace (S k - length (indexes l))%nat with 0%nat in Hb by lia. cbn in Hb. now apply Some_inj in Hb. }
           rewrite Ll in Eb. split; [exact Eb|]. exists nl. split.
           ++ apply py_nth_ok_inv in Hnl. destruct Hnl as [[X _]|[_ Hnl]]; [lia|]. rewrite <- Hnl. f_equal. unfold zlen in *. lia.
           ++ rewrite R2. rewrite nth_error_app2 in Hen by (destruct starts; cbn [tl length] in *; lia).
              replace (k - length (tl starts))%nat with 0%nat in Hen by (destruct starts; cbn [tl length] in *; lia). cbn in Hen. now apply Some_inj in Hen.
        -- left. unfold cuts in Hb. rewrite nth_error_app1 in Hb by lia.
           destruct (Forall2_nth _ _ _ _ _ M2 Hb) as (st2 & Hst2 & Hsta2 & _). rewrite Nat.sub_0_r, nth_error_map in Hsta2.
           destruct (nth_error (p_notes p) b) as [nb|] eqn:Hnb; [|discriminate Hsta2]. apply Some_inj in Hsta2.
           exists nb. split; [reflexivity|]. rewrite R2. rewrite nth_error_app1 in Hen by (destruct starts; cbn [tl length] in *; lia).
           destruct starts; [destruct k; discriminate Hst|]. cbn [tl] in Hen. cbn [nth_error] in Hst2. congruence.
      * rewrite R3, <- Hd. reflexivity.
    + intros i Hi. pose proof (cuts_constant l Nl k a b i _ Ha0 Hb0 Hi Hxa) as Hxi.
      destruct (Hh i _ Hxi) as (h & Hh1 & A1 & A2 & A3 & A4 & D1 & D2 & D3 & D4). exists h. split; [exact Hh1|].
      assert (Sg : says cl (h_chord h) tgc) by (exists xgc; auto). assert (Se : says cl (h_est h) tec) by (exists xec; auto).
      assert (Kg : says_key kl (h_key h) tgk) by (exists xgk; auto). assert (Ke : says_key kl (h_est_key h) tek) by (exists xek; auto).
      unfold entry_says. rewrite R4. cbn [fst snd]. split; [|split; [|split]].
      * destruct (h_est_key h) as [t m]. exact (key_text_of TPC kl xek t m tek Hkl A3 D4 T3).
      * destruct (h_est h) as [[r t] v]. exact (chord_text_of TPC cl xec r t v tec Hcl A1 D2 T4).
      * rewrite R5, (says_inj cl Hcl _ _ _ _ Sg Se), (says_key_inj kl Hkl _ _ _ _ Kg Ke). tauto.
      * intros kt ct E. apply R6 in E. apply pair_equal_spec in E. destruct E as [-> ->]. split.
        -- destruct (h_key h) as [t m]. exact (key_text_of TPC kl xgk t m tgk Hkl A4 D3 T1).
        -- destruct (h_chord h) as [[r t] v]. exact (chord_text_of TPC cl xgc r t v tgc Hcl A2 D1 T2).
  - intros i I0 Hi. rewrite <- Ll in Hi.
    destruct (nth_error l i) as [x|] eqn:Hx; [|apply nth_error_None in Hx; lia].
    destruct (nth_error l (S i)) as [y|] eqn:Hy; [|apply nth_error_None in Hy; lia].
    destruct (Hh i x Hx) as (h & Hh1 & St). destruct (Hh (S i) y Hy) as (h' & Hh2 & St').
    exists h, h'. split; [exact Hh1|]. split; [exact Hh2|]. rewrite <- (stands_inj _ _ _ _ St St').
    exact (cuts_differ l Nl i x y I0 Hx Hy).
Qed.
Print Assumptions C94_log.

(* The entries account for all of the time; those without a correction for the time in which chord and key
   are right: the full accuracy. *)
Theorem C94_accuracy : forall p durs s lines,
  length durs = length (p_notes p) -> covered p -> keyed p ->
  (let (chords, changes) := get_chords s in segmentation chords changes (length (p_notes p))) ->
  (let (keys, changes) := get_keys s in segmentation keys changes (length (p_notes p))) ->
  Forall (fun c => exists e, c = Some e /\ 0 <= e < 1540) (fst (get_chords s)) ->
  Forall (fun k => 0 <= k < 70) (fst (get_keys s)) ->
  log_state p durs s TPC TPC = Ok lines ->
  (row_time lg_dur (fun _ => true) lines == total durs)%Q /\
  forall acc, evaluate_jointly p durs s TPC TPC true NO_REDUCTION false = Ok acc ->
    (acc * total durs == row_time lg_dur is_right lines)%Q.
Proof.
  intros p durs s lines L C K Sc Sk Pc Pk H.
  destruct (C94_log p durs s lines L C K Sc Sk Pc Pk H) as (cs & (S1 & S2 & S3 & S4) & E & _).
  destruct cs as [|c0 cs]; [discriminate S2|]. apply Some_inj in S2. subst c0. cbn [length] in S1.
  assert (Lc : length cs = length lines) by lia.
  assert (La : last cs 0%nat = length durs).
  { rewrite L. destruct lines as [|x lines].
    - destruct cs; [|discriminate Lc]. cbn in S3. now apply Some_inj in S3.
    - cbn [length] in S3, Lc. cbn [nth_error] in S3. destruct cs as [|c cs]; [discriminate Lc|].
      replace (length lines) with (length (c :: cs) - 1)%nat in S3 by (cbn [length] in *; lia).
      assert (Q : forall (l : list nat) x, l <> [] -> nth_error l (length l - 1) = Some x -> last l 0%nat = x).
      { clear. induction l as [|y l IH]; intros x N Hx; [now destruct N|]. destruct l as [|z l]; [cbn in *; congruence|].
        change (last (y :: z :: l) 0%nat) with (last (z :: l) 0%nat). apply IH; [discriminate|].
        cbn [length] in Hx |- *. replace (S (S (length l)) - 1)%nat with (S (length l)) in Hx by lia.
        replace (S (length l) - 1)%nat with (length l) by lia. exact Hx. }
      apply Q; [discriminate|exact S3]. }
  assert (Mono : forall j a, nth_error (0%nat :: cs) j = Some a -> (a <= length durs)%nat).
  { assert (Q : forall m j a, (j + m = length lines)%nat -> nth_error (0%nat :: cs) j = Some a -> (a <= length durs)%nat).
    { induction m as [|m IH]; intros j a Hj Ha.
      - rewrite Nat.add_0_r in Hj. subst j. rewrite S3 in Ha. apply Some_inj in Ha. lia.
      - destruct (nth_error (0%nat :: cs) (S j)) as [b|] eqn:Hb.
        + specialize (S4 _ _ _ Ha Hb). specialize (IH (S j) b ltac:(lia) Hb). lia.
        + apply nth_error_None in Hb. cbn [length] in Hb. lia. }
    intros j a Ha. assert (j < length (0%nat :: cs))%nat by (apply nth_error_Some; congruence). cbn [length] in H0.
    apply (Q (length lines - j)%nat j a); [lia|exact Ha]. }
  assert (T : forall test flags, length flags = length durs ->
    (forall line i h d f, In line lines -> heard_at p s i h -> entry_says h line -> nth_error durs i = Some d -> ~ (d == 0)%Q ->
       nth_error flags i = Some f -> f = test line) ->
    (row_time lg_dur test lines == marked_time durs flags)%Q).
  { intros test flags Lf Hf. pose proof (seg_times test durs flags Lf lines 0%nat cs Lc) as T. rewrite La in T.
    rewrite !skipn_all2 in T by lia. cbn [skipn marked_time] in T. rewrite Qplus_0_r in T. apply T.
    intros k line a b Hk Ha Hb. destruct (E k line a b Hk Ha Hb) as ((_ & _ & Ed) & X). split; [split; [exact (S4 _ _ _ Ha Hb)|exact (Mono _ _ Hb)]|].
    split; [exact Ed|]. intros i d f Hi Hd Nd Hff. destruct (X i Hi) as (h & H1 & H2).
    exact (Hf line i h d f (nth_error_In _ _ Hk) H1 H2 Hd Nd Hff). }
  split.
  - rewrite (T (fun _ => true) (repeat true (length durs))); [|now rewrite repeat_length|].
    + clear. induction durs as [|d durs IH]; [reflexivity|]. cbn. fold (total durs). now rewrite IH.
    + intros line i h d f _ _ _ _ _ Hf. apply nth_error_In, repeat_spec in Hf. exact Hf.
  - intros acc Ev. destruct (C40_joint _ _ _ _ _ _ _ L C K Sc Sk Ev) as (flags & Lf & _ & M & X). rewrite M.
    symmetry. apply T; [exact Lf|]. intros line i h d f _ (Hn & (c & Fc & Ec) & (k & Fk & Ek) & (e & Le & De) & (g & Lg & Dg)) (_ & _ & R & _) Hd Nd Hf.
    destruct (X i d c k e g Hd Nd Fc Fk Le Lg) as (b & ec & ek & Hb & D1 & D2 & Y). rewrite Hf in Hb. apply Some_inj in Hb. subst b.
    rewrite De in D1. apply Ok_inj in D1. subst ec. rewrite Dg in D2. apply Ok_inj in D2. subst ek.
    assert (Z0 : is_right line = true <-> lg_correct line = None) by (unfold is_right; destruct (lg_correct line); split; congruence).
    apply (bool_iff _ _ (lg_correct line = None)); [|exact Z0]. rewrite R, Y, Ec, Ek.
    destruct (h_est h) as [[r t] v]. destruct (h_est_key h) as [tn m]. unfold right_chord, right_key, NO_REDUCTION. cbn [fst snd].
    rewrite !pair_equal_spec. tauto.
Qed.
Print Assumptions C94_accuracy.

(* The log exists for every loaded piece and every harmony with labels of the lists; then being verbose
   does not change the annotation. *)
Theorem C94_defined : forall ts red ui ur us note_rows rows p durs s,
  get_score_piece ts red ui ur us note_rows rows = Ok p -> p_notes p <> [] ->
  Forall (fun k => 0 <= k_rel k < 35) (p_keys p) ->
  Forall (fun c => exists e, c = Some e /\ 0 <= e < 1540) (fst (get_chords s)) ->
  Forall (fun k => 0 <= k < 70) (fst (get_keys s)) ->
  (exists lines, log_state p durs s TPC TPC = Ok lines) /\
  exists table, annotate_state true true p durs s TPC TPC = Ok table /\ annotate_state false true p durs s TPC TPC = Ok table.
Proof.
  intros ts red ui ur us note_rows rows p durs s H Nn Hk Hsc Hsk.
  assert (Lg : exists lines, log_state p durs s TPC TPC = Ok lines).
  { destruct (loaded_facts _ _ _ _ _ _ _ _ H) as (L & Nch & F & Lk & K0 & Inc & Kb & Fk).
    destruct (true_total chord_index 1540 (length (p_notes p)) (p_chords p) (p_changes p)) as (gc & Gc & Rgc);
      [lia| |exact Nch|exact L|].
    { revert F. apply Forall_impl. intros c (Pt & Rt & Iv). unfold chord_index, chord_one_hot. cbn [bind]. rewrite Pt.
      destruct (C03_encoder_rejects_exactly (c_type (pc c)) (c_root (pc c)) TPC (c_inv (pc c)) true false false NO_REDUCTION)
        as [[_ B]|(i & E & _)].
      - exfalso. rewrite count_root, (chord_count TPC) in B. cbn [pitch_count] in B. lia.
      - exists i. split; [exact E|]. apply C02_index_in_range in E.
        change (get_chord_vector_length TPC true false true false NO_REDUCTION) with 1540 in E. lia. }
    destruct (mapM_total (fun k => match nth_error (p_changes p) k with Some i => Ok i | None => Raise IndexError end)
      (p_key_changes p)) as (inputs & Ei).
    { revert Kb. apply Forall_impl. intros j Hj. destruct (nth_error (p_changes p) j) eqn:E; [eauto|].
      apply nth_error_None in E. lia. }
    assert (Nk : p_keys p <> []).
    { intros X. rewrite X in Lk. destruct (p_key_changes p); [discriminate K0|discriminate Lk]. }
    destruct (true_total key_index 70 (length (p_notes p)) (p_keys p) inputs) as (gk & Gk & Rgk).
    { lia. }
    { rewrite Forall_forall in Hk, Fk |- *. intros k I0. unfold key_index. rewrite (Fk k I0).
      destruct (C04_key_rejects_exactly (k_rel_mode k) (k_rel k) TPC) as [[_ B]|(i & E & _)].
      - exfalso. apply B. apply (Hk k I0).
      - exists i. split; [exact E|]. apply C04_key_roundtrip in E. apply E. }
    { exact Nk. }
    { apply mapM_ok in Ei. apply Forall2_len in Ei. lia. }
    assert (Ec : exists ec, estimated_chords p s = Ok ec /\ Forall (fun i => 0 <= i < 1540) ec).
    { unfold estimated_chords. destruct (get_chords s) as [chords changes]. apply estimated_total; [lia|exact Hsc]. }
    assert (Ek : exists ek, estimated_keys p s = Ok ek /\ Forall (fun i => 0 <= i < 70) ek).
    { unfold estimated_keys. destruct (get_keys s) as [keys changes]. apply estimated_total; [lia|].
      apply Forall_forall. intros x I0. apply in_map_iff in I0. destruct I0 as (k & <- & I0).
      exists k. cbn [fst] in Hsk. rewrite Forall_forall in Hsk. auto. }
    destruct Ec as (ec & Ec & Rec). destruct Ek as (ek & Ek & Rek).
    unfold log_state, true_chords, true_keys, key_change_inputs. rewrite Gc, Ec, Ei, Ek. cbn [bind]. rewrite Gk. cbn [bind].
    destruct (C05_chord_labels_aligned TPC true false None false NO_REDUCTION) as (cl & -> & Lcl & _).
    destruct (C05_key_labels_aligned TPC false None) as (kl & -> & Lkl & _). cbn [bind].
    change (get_chord_vector_length TPC true false true false NO_REDUCTION) with 1540 in Lcl. change (2 * _) with 70 in Lkl.
    destruct (p_notes p) as [|n0 ns] eqn:En; [now destruct Nn|]. rewrite <- En.
    destruct (py_last_total (p_notes p)) as (nl & -> & _); [now rewrite En|].
    cbn [bind]. apply mapM_total. apply Forall_forall. intros [[[xgk xgc] [xek xec]] [[a b] d]] I0.
    apply in_combine_l in I0. apply apply_mask_incl in I0.
    pose proof (in_combine_l _ _ _ _ I0) as I1. pose proof (in_combine_r _ _ _ _ I0) as I2.
    rewrite Forall_forall in Rgc, Rgk, Rec, Rek.
    pose proof (Rgk _ (in_combine_l _ _ _ _ I1)) as B1. pose proof (Rgc _ (in_combine_r _ _ _ _ I1)) as B2.
    pose proof (Rek _ (in_combine_l _ _ _ _ I2)) as B3. pose proof (Rec _ (in_combine_r _ _ _ _ I2)) as B4.
    cbn [log_entry].
    destruct (py_nth_total cl xgc) as (t1 & ->); [lia|]. destruct (py_nth_total cl xec) as (t2 & ->); [lia|].
    destruct (py_nth_total kl xgk) as (t3 & ->); [lia|]. destruct (py_nth_total kl xek) as (t4 & ->); [lia|]. cbn [bind]. eauto. }
  split; [exact Lg|]. destruct Lg as (lines & Lg).
  destruct (C41_defined p durs s TPC TPC Hsc Hsk) as (table & Ht). exists table. unfold annotate_state. rewrite Lg. cbn [bind]. auto.
Qed.
Print Assumptions C94_defined.

(* For all pitch types: whatever is logged, the table returned is that of get_annotation with the types given. *)
Theorem C94_same_table verbose annotated p durs s root_type tonic_type table :
  annotate_state verbose annotated p durs s root_type tonic_type = Ok table -> get_annotation p durs s root_type tonic_type = Ok table.
Proof. unfold annotate_state. destruct verbose; [destruct annotated; [destruct (log_state p durs s root_type tonic_type)|]|]; cbn [bind]; intros H; [exact H|discriminate|discriminate|exact H]. Qed.
Print Assumptions C94_same_table.

(* The length given is the time from the start to the end that are given; for the last entry it is the time to
   the end of the piece (the end of the last chord), whatever end is given. *)
Theorem C94_span : forall p durs s lines ms T s0 times last tl,
  covered p -> keyed p ->
  (let (chords, changes) := get_chords s in segmentation chords changes (length (p_notes p))) ->
  (let (keys, changes) := get_keys s in segmentation keys changes (length (p_notes p))) ->
  Forall (fun c => exists e, c = Some e /\ 0 <= e < 1540) (fst (get_chords s)) ->
  Forall (fun k => 0 <= k < 70) (fst (get_keys s)) ->
  unique_mcs ms -> forward ms -> clock ms T ->
  Forall2 (fun p t => plays_to ms s0 (fst p) /\ at_time ms T p t) (map no_on (p_notes p)) times ->
  plays_to ms s0 (fst last) -> at_time ms T last tl ->
  get_duration_cache (map no_on (p_notes p)) last ms = Ok durs ->
  log_state p durs s TPC TPC = Ok lines ->
  forall k line, nth_error lines k = Some line ->
  exists ta tb, at_time ms T (lg_start line) ta /\ (lg_dur line == tb - ta)%Q /\
    (S k < length lines -> at_time ms T (lg_end line) tb)%nat /\ (S k = length lines -> tb = tl).
Proof.
  intros p durs s lines ms T s0 times la tl C K Sc Sk Pc Pk U F Ck FA Pl Al Ca H k line Hk.
  destruct (duration_cache_spec ms T s0 U F Ck _ _ la tl FA Pl Al) as (cache & E & Sp).
  rewrite Ca in E. apply Ok_inj in E. subst cache.
  pose proof (telescope times tl durs Sp) as Tel.
  pose proof (Forall2_len _ _ _ FA) as Lt. rewrite map_length in Lt.
  assert (L : length durs = length (p_notes p)).
  { rewrite (Forall2_len _ _ _ Sp), combine_length, app_length. destruct times; cbn [List.tl length] in *; lia. }
  destruct (C94_log p durs s lines L C K Sc Sk Pc Pk H) as (cs & (S1 & S2 & S3 & S4) & Es & _).
  assert (Kl : (k < length lines)%nat) by (apply nth_error_Some; congruence).
  destruct (nth_error cs k) as [a|] eqn:Ha; [|apply nth_error_None in Ha; lia].
  destruct (nth_error cs (S k)) as [b|] eqn:Hb; [|apply nth_error_None in Hb; lia].
  destruct (Es k line a b Hk Ha Hb) as ((  (na & Hna & Sa) & En & Ed) & _).
  pose proof (S4 k a b Ha Hb) as Hab.
  assert (Bb : (b <= length (p_notes p))%nat) by (destruct En as [(n & Hn & _)|[-> _]]; [apply Nat.lt_le_incl, nth_error_Some; congruence|lia]).
  assert (At : forall i n, nth_error (p_notes p) i = Some n -> exists t, nth_error times i = Some t /\ at_time ms T (no_on n) t).
  { intros i n Hn. destruct (Forall2_nth _ _ _ i (no_on n) FA) as (t & Ht & _ & A); [now rewrite nth_error_map, Hn|]. eauto. }
  destruct (At a na Hna) as (ta & Hta & Ata).
  assert (Ta : nth_error (times ++ [tl]) a = Some ta) by (rewrite nth_error_app1; [exact Hta|apply nth_error_Some; congruence]).
  rewrite Sa, Ed. exists ta.
  destruct (Nat.eq_dec b (length (p_notes p))) as [Eb|Nb].
  - exists tl. split; [exact Ata|]. split; [|split].
    + apply (Tel a b); [lia|exact Ta|]. rewrite Eb, Lt, nth_error_app2, Nat.sub_diag by lia. reflexivity.
    + intros Lk. exfalso. assert (X : forall m, (S k + S m <= length lines)%nat -> forall c, nth_error cs (S k + S m) = Some c -> (b < c)%nat).
      { induction m as [|m IH]; intros Hm c Hc.
        - replace (S k + 1)%nat with (S (S k)) in Hc by lia. exact (S4 _ _ _ Hb Hc).
        - destruct (nth_error cs (S k + S m)) as [c'|] eqn:Hc'; [|apply nth_error_None in Hc'; lia].
          specialize (IH ltac:(lia) c' eq_refl). replace (S k + S (S m))%nat with (S (S k + S m)) in Hc by lia. specialize (S4 _ _ _ Hc' Hc). lia. }
      specialize (X (length lines - S k - 1)%nat ltac:(lia) (length (p_notes p))).
      replace (S k + S (length lines - S k - 1))%nat with (length lines) in X by lia. specialize (X S3). lia.
    + reflexivity.
  - destruct En as [(nb & Hnb & Sb)|[Eb _]]; [|contradiction]. destruct (At b nb Hnb) as (tb & Htb & Atb).
    exists tb. split; [exact Ata|]. split; [|split].
    + apply (Tel a b); [lia|exact Ta|]. rewrite nth_error_app1; [exact Htb|apply nth_error_Some; congruence].
    + intros _. now rewrite Sb.
    + intros Ek. exfalso. rewrite Ek, S3 in Hb. apply Some_inj in Hb. congruence.
Qed.
Print Assumptions C94_span.

(* notes1 and rows1: five entries; both are right for half a measure of three *)
Example C94_example :
  covered p1 /\ keyed p1 /\ segmentation (fst (get_chords s3)) (snd (get_chords s3)) 6 /\
  segmentation (fst (get_keys s3)) (snd (get_keys s3)) 6 /\
  exists lines, log_state p1 durs1 s3 TPC TPC = Ok lines /\
  map (fun l => (lg_start l, lg_end l, lg_dur l, lg_est l, lg_correct l)) lines =
    [((0, 0%Q), (0, (1#2)%Q), (1#2)%Q, (L"C:KeyMode.MAJOR", L"C:M, inv:0"), None);
     ((0, (1#2)%Q), (1, 0%Q), (1#2)%Q, (L"C:KeyMode.MAJOR", L"C:M, inv:0"), Some (L"C:KeyMode.MAJOR", L"C:M, inv:1"));
     ((1, 0%Q), (1, (3#4)%Q), (3#4)%Q, (L"c:KeyMode.MINOR", L"G:Mm7, inv:1"), Some (L"C:KeyMode.MAJOR", L"G:Mm7, inv:1"));
     ((1, (3#4)%Q), (2, 0%Q), (1#4)%Q, (L"G:KeyMode.MAJOR", L"D:M, inv:1"), Some (L"G:KeyMode.MAJOR", L"G:M, inv:0"));
     ((2, 0%Q), (3, 0%Q), 1%Q, (L"G:KeyMode.MAJOR", L"D:M, inv:1"), Some (L"G:KeyMode.MAJOR", L"D:M, inv:0"))] /\
  exists acc, evaluate_jointly p1 durs1 s3 TPC TPC true NO_REDUCTION false = Ok acc /\ (acc == 1#6)%Q.
Proof.
  destruct C40_example as (H1 & H2 & _). split; [exact H1|]. split; [exact H2|]. split; [|split].
  - split; [reflexivity|]. split; [reflexivity|]. split; [reflexivity|]. vm_compute.
    intros [|[|[|[|k]]]] a b Ha Hb; try discriminate Ha; try discriminate Hb; injection Ha as <-; injection Hb as <-; lia.
  - split; [reflexivity|]. split; [reflexivity|]. split; [reflexivity|]. vm_compute.
    intros [|[|[|[|k]]]] a b Ha Hb; try discriminate Ha; try discriminate Hb; injection Ha as <-; injection Hb as <-; lia.
  - eexists. split; [vm_compute; reflexivity|]. split; [reflexivity|]. eexists. split; [vm_compute; reflexivity|vm_compute; reflexivity].
Qed.

(* The last chord may end after the last note begun: here in the middle of measure 3, half a measure after
   the end that the log gives for the last entry. *)
Definition rows_long : list label_row :=
  [lab (L"I") 0 (L"M") [] (L"I") (0, 0%Q) (1, 0%Q) 1; lab (L"V") 1 (L"M") [] (L"I") (1, 0%Q) (3, (1#2)%Q) (5#2)].
Theorem C94_last_end_refuted : exists p durs lines line last d,
  get_score_piece ts44 (fun t => t) true false false notes1 rows_long = Ok p /\
  ends_at (p_notes p) (Some (p_chords p)) last /\
  get_duration_cache (map no_on (p_notes p)) last tab53 = Ok durs /\
  log_state p durs (states [(2%nat, 45, 15); (6%nat, 48, 15)]) TPC TPC = Ok lines /\
  nth_error lines 1 = Some line /\ length lines = 2%nat /\
  get_range_length (lg_start line) (lg_end line) tab53 = Ok d /\ (d == 2)%Q /\ (lg_dur line == 5#2)%Q.
Proof.
  do 6 eexists. split; [vm_compute; reflexivity|]. split; [eexists (_ :: []); eexists; split; reflexivity|].
  split; [vm_compute; reflexivity|]. split; [vm_compute; reflexivity|]. split; [reflexivity|]. split; [reflexivity|].
  split; [vm_compute; reflexivity|]. split; vm_compute; reflexivity.
Qed.
Print Assumptions C94_last_end_refuted.

(* Being verbose makes the annotation of an unannotated score fail, whatever the harmony found. *)
Theorem C94_unannotated_refuted : forall p durs s,
  Forall (fun c => exists e, c = Some e /\ 0 <= e < 1540) (fst (get_chords s)) ->
  Forall (fun k => 0 <= k < 70) (fst (get_keys s)) ->
  (exists table, annotate_state false false p durs s TPC TPC = Ok table) /\
  annotate_state true false p durs s TPC TPC = Raise TypeError.
Proof.
  intros p durs s Hc Hk. split; [|reflexivity].
  destruct (C41_defined p durs s TPC TPC Hc Hk) as (table & Ht). exists table. exact Ht.
Qed.
Print Assumptions C94_unannotated_refuted.

(* With MIDI chords, the labels of the piece, which are numbers of spelled chords, are looked up in the list
   of MIDI chords: there is no such text, or that of another chord. *)
Theorem C94_midi_refuted :
  log_state p1 durs1 s3 MIDI TPC = Raise IndexError /\
  exists p lines, get_score_piece ts44 (fun t => t) true false false notes1 rows_applied = Ok p /\
    nth_error (map (fun c => (c_root (pc c), c_type (pc c))) (p_chords p)) 2 = Some (15, Maj) /\
    get_chord_from_one_hot_index 0 MIDI true false false NO_REDUCTION = Ok (0, Maj, 0) /\
    log_state p durs1 (states [(6%nat, 0, 0)]) MIDI TPC = Ok lines /\
    option_map (fun l => (snd (lg_est l), option_map snd (lg_correct l))) (nth_error lines 2) =
      Some (L"C:M, inv:0", Some (L"D#/Eb:m, inv:0")).
Proof.
  split; [vm_compute; reflexivity|]. do 2 eexists. split; [vm_compute; reflexivity|]. split; [reflexivity|]. split; [reflexivity|].
  split; [vm_compute; reflexivity|]. vm_compute. reflexivity.
Qed.
Print Assumptions C94_midi_refuted.
