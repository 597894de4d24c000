(* C96: the models the joint model accepts fit together (joint_model.py:186-371).
   C97: the options of the scripts (annotate.py:26-128, test.py:554, joint_model.py:2076-2111). *)
From Coq Require Import String Ascii QArith Permutation.
From Verif Require Import PyBase Proof_Base Spec_Models Proof_Codec Proof_CodecSpec Proof_Models Proof_Total Prop_Codec Prop_Total.
From Coq Require Import List Lia. Import ListNotations.
Close Scope Q_scope.
Open Scope Z_scope.

(* ---- C96 ---- *)
(* exactly the models that are all there, of their classes, and agree on the kinds of pitches they
   exchange; otherwise an AssertionError *)
Theorem C96_accepts : forall models p,
  ((exists j, HarmonicInferenceModel models p = Ok j) <->
   (exists cc ct cs kt ks ic,
      (str_lookup (L"ccm") models = Some (Ccm cc) /\ str_lookup (L"ctm") models = Some (Ctm ct)
       /\ str_lookup (L"csm") models = Some (Csm cs) /\ str_lookup (L"ktm") models = Some (Ktm kt)
       /\ str_lookup (L"ksm") models = Some (Ksm ks) /\ str_lookup (L"icm") models = Some (Icm ic))
      /\ agree cc ct cs kt ks ic)
   /\ (min_chord_change_prob p <= max_no_chord_change_prob p)%Q /\ (min_key_change_prob p <= max_no_key_change_prob p)%Q)
  /\ (forall e, HarmonicInferenceModel models p = Raise e -> e = AssertionError).
Proof.
  intros models p. split; [|intros e; apply joint_raises]. split.
  - intros (j & H). apply joint_made in H as (cc & ct & cs & kt & ks & ic & H1 & H2 & H3 & _). split; [|exact H3].
    exists cc, ct, cs, kt, ks, ic. auto.
  - intros ((cc & ct & cs & kt & ks & ic & H1 & H2) & H3). eexists. apply joint_made. exists cc, ct, cs, kt, ks, ic. eauto.
Qed.
Print Assumptions C96_accepts.

(* the object has the models it was given, their types and the parameters *)
Theorem C96_object : forall models p j, HarmonicInferenceModel models p = Ok j ->
  (str_lookup (L"ccm") models = Some (Ccm (j_ccm j)) /\ str_lookup (L"ctm") models = Some (Ctm (j_ctm j))
   /\ str_lookup (L"csm") models = Some (Csm (j_csm j)) /\ str_lookup (L"ktm") models = Some (Ktm (j_ktm j))
   /\ str_lookup (L"ksm") models = Some (Ksm (j_ksm j)) /\ str_lookup (L"icm") models = Some (Icm (j_icm j)))
  /\ agree (j_ccm j) (j_ctm j) (j_csm j) (j_ktm j) (j_ksm j) (j_icm j)
  /\ INPUT_TYPE j = cc_input (j_ccm j) /\ CHORD_OUTPUT_TYPE j = cs_out (j_csm j) /\ KEY_OUTPUT_TYPE j = ks_out (j_ksm j)
  /\ j_params j = p
  /\ zlen (LABELS_chord j) = chord_count (CHORD_OUTPUT_TYPE j) /\ zlen (LABELS_key j) = key_count (KEY_OUTPUT_TYPE j)
  /\ zlen (LABELS_relative_key j) = key_change_count (KEY_OUTPUT_TYPE j)
  /\ (forall d, accepts_piece j d = Ok tt <-> d = cc_input (j_ccm j)).
Proof.
  intros models p j H. apply joint_made in H as (cc & ct & cs & kt & ks & ic & H1 & H2 & _ & ->). cbn.
  split; [exact H1|]. split; [exact H2|]. do 4 (split; [reflexivity|]).
  split; [destruct (cs_out cs); vm_compute; reflexivity|]. split; [destruct (ks_out ks); vm_compute; reflexivity|].
  split; [destruct (ks_out ks); vm_compute; reflexivity|].
  intros d. unfold accepts_piece. rewrite assert_ok. apply piece_type_eqb_iff.
Qed.
Print Assumptions C96_object.

(* the classifier's notes and the transition model's notes are as wide as a note of their pitch type, and no
   other *)
Theorem C96_notes : forall models p j x v, HarmonicInferenceModel models p = Ok j -> note_to_vec x = Ok v ->
  (zlen v = ccm_input_dim (j_ccm j) <-> nv_pt x = cc_in (j_ccm j))
  /\ (zlen v = ctm_input_dim (j_ctm j) <-> nv_pt x = cc_in (j_ccm j)).
Proof.
  intros models p j x v H Hv. apply note_width in Hv. destruct (C96_object _ _ _ H) as (_ & Hag & _). destruct Hag as [_ Hn _ _].
  unfold ccm_input_dim, ctm_input_dim. rewrite Hv, <- Hn. destruct (nv_pt x), (cc_in (j_ccm j)); vm_compute; split; split; congruence.
Qed.
Print Assumptions C96_notes.

(* the rows made for the three other networks in every state of a search are as wide as their inputs exactly
   if chords and keys are of one kind, for the key transition model too *)
Theorem C96_rows : forall models p j durs levels stop s, HarmonicInferenceModel models p = Ok j ->
  (forall v, csm_input (CHORD_OUTPUT_TYPE j) (KEY_OUTPUT_TYPE j) durs levels s = Ok v ->
     (zlen v = csm_input_dim (j_csm j) <-> ks_out (j_ksm j) = cs_out (j_csm j)))
  /\ (forall v, ktm_input (CHORD_OUTPUT_TYPE j) (KEY_OUTPUT_TYPE j) durs levels s = Ok v ->
     (zlen v = ktm_input_dim (j_ktm j) <-> ks_out (j_ksm j) = cs_out (j_csm j) /\ kt_chord (j_ktm j) = cs_out (j_csm j)))
  /\ (forall vs, ksm_input (CHORD_OUTPUT_TYPE j) (KEY_OUTPUT_TYPE j) durs levels stop s = Ok vs ->
     ((forall v, In v vs -> zlen v = ksm_input_dim (j_ksm j)) <-> ks_out (j_ksm j) = cs_out (j_csm j))).
Proof.
  intros models p j durs levels stop s H. destruct (C96_object _ _ _ H) as (_ & Hag & _ & Hc & Hk & _).
  destruct Hag as [_ _ (A & B & C & D) (E & F & G)]. rewrite Hc, Hk. split; [|split].
  - intros v Hv. apply csm_width in Hv. rewrite Hv. unfold csm_input_dim, row_width. rewrite B, E.
    destruct (cs_out (j_csm j)), (ks_out (j_ksm j)); vm_compute; split; congruence.
  - intros v Hv. apply ktm_width in Hv. rewrite Hv. unfold ktm_input_dim, row_width. rewrite F.
    destruct (cs_out (j_csm j)), (ks_out (j_ksm j)), (kt_chord (j_ktm j)); vm_compute; (split; [intros E'; split; congruence|intros [E1 E2]; congruence]).
  - intros vs Hv. apply (ksm_width _ _ _ _ _ _ _ _ eq_refl) in Hv as [Hne Hv].
    assert (Hd : row_width (cs_out (j_csm j)) true = ksm_input_dim (j_ksm j) <-> ks_out (j_ksm j) = cs_out (j_csm j)).
    { unfold ksm_input_dim, row_width. rewrite C, G. destruct (cs_out (j_csm j)), (ks_out (j_ksm j)); vm_compute; split; congruence. }
    rewrite <- Hd. split.
    + intros Ha. destruct vs as [|v r]; [congruence|]. rewrite <- (Hv v (or_introl eq_refl)). apply Ha. left. reflexivity.
    + intros Ha v Hin. rewrite (Hv v Hin). exact Ha.
Qed.
Print Assumptions C96_rows.

(* the classes of a full classifier are the chords of LABELS["chord"] *)
Theorem C96_classes : forall models p j t root inv i, HarmonicInferenceModel models p = Ok j ->
  cc_inv (j_ccm j) = true -> (forall u, cc_red (j_ccm j) u = u) ->
  get_chord_one_hot_index t root (cc_out (j_ccm j)) inv (cc_inv (j_ccm j)) false false (cc_red (j_ccm j)) = Ok i ->
  py_nth (LABELS_chord j) i = Ok (root, t, inv).
Proof.
  intros models p j t root inv i H H1 H2 Hi. apply joint_made in H as (cc & ct & cs & kt & ks & ic & _ & [_ _ (A & _) _] & _ & ->). cbn [j_ccm LABELS_chord] in *.
  apply C01_chord_index_roundtrip in Hi. unfold get_chord_from_one_hot_index in Hi. unfold chord_list in Hi. rewrite (types_ext _ H2), H1, A, H2 in Hi.
  unfold chord_labels, chord_list. rewrite Hi. f_equal. f_equal. f_equal. destruct (cs_out cs); cbn; lia.
Qed.
Print Assumptions C96_classes.

(* the outputs of networks that fit are what the search needs (C75): it returns *)
Theorem C96_well_formed : forall models p j scale o pd chord_ranges classifications,
  HarmonicInferenceModel models p = Ok j -> one_kind j -> full_models j -> outputs j o classifications ->
  piece_fits j o pd chord_ranges -> 1 <= beam_size p -> 1 <= max_chord_branching_factor p ->
  well_formed (cfg_of scale j) o pd chord_ranges classifications.
Proof.
  intros models p j scale o pd cr cl H [K1 K2] [[F1 F2] F3 F4] [O1 O2 O3 O4] [P1 P2 P3 P4 P5 P6] Hb Hm.
  destruct (C96_object _ _ _ H) as (_ & Hag & _ & Hc & Hk & Hp & _). destruct Hag as [_ _ (A & B & C & D) (E & F & G)].
  assert (Hn : ccm_classes (j_ccm j) = chord_count (cs_out (j_csm j))) by (rewrite <- A; apply classes_full; assumption).
  constructor; cbn [cfg_of g_cpt g_kpt g_beam_size g_max_chord g_pitch_based g_use_inv g_red]; rewrite ?Hc, ?Hk, ?Hp in *; try assumption.
  - symmetry. exact K1.
  - intros c Hin. rewrite <- Hn. exact (P4 c Hin).
  - intros row Hin. rewrite <- Hn. exact (O1 row Hin).
  - intros step l i. rewrite O3. unfold ksm_output_dim. destruct (ks_out (j_ksm j)); vm_compute; reflexivity.
  - intros m. rewrite O4, F4, D. reflexivity.
  - intros step l i. rewrite O2. unfold csm_output_dim. destruct (cs_pitch_based (j_csm j)); [|reflexivity]. rewrite (F3 eq_refl). reflexivity.
Qed.
Print Assumptions C96_well_formed.

Theorem C96_search : forall models p j scale o pd chord_ranges logs rejoins classifications,
  HarmonicInferenceModel models p = Ok j -> one_kind j -> full_models j -> outputs j o classifications ->
  piece_fits j o pd chord_ranges -> 1 <= beam_size p -> 1 <= max_chord_branching_factor p ->
  (cs_out_inv (j_csm j) = true -> forall t, positions t <= positions (cs_out_red (j_csm j) t)) ->
  (forall c, tried (cfg_of scale j) o pd classifications c -> playable (cs_out (j_csm j)) c) ->
  (exists r, beam_search (cfg_of scale j) o pd chord_ranges logs rejoins classifications = Ok r)
  /\ ((forall a b, (a <= b)%Q -> scale a <= scale b) -> cs_out (j_csm j) = MIDI \/ keys_given (cfg_of scale j) o pd classifications ->
      length logs = length chord_ranges -> length rejoins = length chord_ranges -> length classifications = length chord_ranges ->
      ((exists s, beam_search (cfg_of scale j) o pd chord_ranges logs rejoins classifications = Ok (Some s))
       <-> covered chord_ranges 0 (length (p_durs pd)))).
Proof.
  intros models p j scale o pd cr logs rejoins cl H K F O P Hb Hm Hi Hpl.
  assert (Hs : searchable (cfg_of scale j) o pd cr cl).
  { destruct (C96_object _ _ _ H) as (_ & _ & _ & Hc & _). constructor; [exact (C96_well_formed _ _ _ scale _ _ _ _ H K F O P Hb Hm)|exact Hi|].
    cbn [cfg_of g_cpt]. rewrite Hc. exact Hpl. }
  split; [exact (C75_returns _ _ _ _ logs rejoins _ Hs)|]. intros Hsc Hkind L1 L2 L3.
  destruct (C96_object _ _ _ H) as (_ & _ & _ & Hc & _ & Hp & _).
  assert (Hmk : g_min_key (cfg_of scale j) <= g_max_no_key (cfg_of scale j)).
  { cbn. rewrite Hp. apply joint_made in H as (? & ? & ? & ? & ? & ? & _ & _ & [_ Hle] & _). exact (Hsc _ _ Hle). }
  destruct Hkind as [Hmidi|Hgiven]; [|apply C76_given; assumption].
  apply C76_found_partial; try assumption. cbn. rewrite Hc. exact Hmidi.
Qed.
Print Assumptions C96_search.

(* ---- a case meeting the hypotheses; the same models with other types ---- *)
Definition the_icm (pt : pitch_type) : icm :=
  mkIcm pt (repeat (1 # 528)%Q (Z.to_nat (44 * root_count pt true false))) (repeat (1 # 528)%Q (Z.to_nat (44 * root_count pt true false))) true NO_REDUCTION.
Definition the_models (chord key ktm_chord : pitch_type) (inversions : bool) (pitch_based : bool) : list (pystr * component) :=
  [(L"icm", Icm (the_icm chord)); (L"ccm", Ccm (mkCcm PScore TPC chord inversions NO_REDUCTION)); (L"ctm", Ctm (mkCtm PScore TPC));
   (L"csm", Csm (mkCsm chord key chord true NO_REDUCTION true NO_REDUCTION pitch_based));
   (L"ktm", Ktm (mkKtm ktm_chord key true NO_REDUCTION)); (L"ksm", Ksm (mkKsm chord key key true NO_REDUCTION))].
Lemma the_joint chord key ktm_chord inversions pitch_based : exists j,
  HarmonicInferenceModel (the_models chord key ktm_chord inversions pitch_based) default_params = Ok j
  /\ cs_out (j_csm j) = chord /\ ks_out (j_ksm j) = key /\ kt_chord (j_ktm j) = ktm_chord /\ cc_inv (j_ccm j) = inversions
  /\ cs_pitch_based (j_csm j) = pitch_based /\ icm_pt (j_icm j) = chord.
Proof.
  eexists. split.
  - apply joint_made. do 6 eexists. split; [repeat split; reflexivity|]. split; [constructor; cbn; auto|]. split; [split; intro; discriminate|]. reflexivity.
  - cbn. auto 10.
Qed.
Lemma the_full chord key ktm_chord pitch_based j : HarmonicInferenceModel (the_models chord key ktm_chord true pitch_based) default_params = Ok j ->
  (pitch_based = true -> chord = TPC) -> full_models j.
Proof.
  intros H Hp. apply joint_made in H as (cc & ct & cs & kt & ks & ic & (L1 & L2 & L3 & L4 & L5 & L6) & _ & _ & ->).
  cbn in L1, L3, L6. apply Some_inj in L1, L3, L6. injection L1 as <-. injection L3 as <-. injection L6 as <-. constructor; cbn [j_ccm j_csm j_icm cs_pitch_based cs_out].
  - split; reflexivity.
  - exact Hp.
  - intros []; unfold get_prior, the_icm; cbn [icm_minor icm_major icm_pt]; rewrite zlen_repeat; destruct chord; reflexivity.
Qed.
Example C96_ex : exists j, HarmonicInferenceModel (the_models MIDI MIDI MIDI true false) default_params = Ok j
  /\ one_kind j /\ full_models j /\ outputs j (ot MIDI NO_REDUCTION) (rowst MIDI 4)
  /\ piece_fits j (ot MIDI NO_REDUCTION) (pdt [-1; 40; -1] [-1; -1; 5]) crt
  /\ 1 <= beam_size default_params /\ 1 <= max_chord_branching_factor default_params.
Proof.
  destruct (the_joint MIDI MIDI MIDI true false) as (j & H & E1 & E2 & E3 & E4 & E5 & E6). exists j. split; [exact H|].
  split; [constructor; congruence|]. split; [apply (the_full _ _ _ _ _ H); discriminate|].
  apply joint_made in H as (cc & ct & cs & kt & ks & ic & (L1 & L2 & L3 & L4 & L5 & L6) & _ & _ & ->).
  cbn in L1, L3, L5, L6. apply Some_inj in L1, L3, L5, L6. injection L1 as <-. injection L3 as <-. injection L5 as <-. injection L6 as <-. split; [|split].
  - constructor; cbn [j_ccm j_csm j_ksm j_icm].
    + intros row Hr. apply repeat_spec in Hr. subst row. vm_compute. reflexivity.
    + intros st l i. vm_compute. reflexivity.
    + intros st l i. vm_compute. reflexivity.
    + intros []; vm_compute; reflexivity.
  - constructor; cbn [j_ccm KEY_OUTPUT_TYPE ks_out].
    + discriminate.
    + split; [reflexivity|]. intros l Hl. apply repeat_spec in Hl. lia.
    + split; [reflexivity|]. intros k [<-|[<-|[<-|[]]]]; cbn; lia.
    + intros c [<-|[<-|[<-|[]]]]; [left; reflexivity|right; vm_compute; split; congruence|left; reflexivity].
    + exact valid_crt.
    + intros l. reflexivity.
  - cbn. lia.
Qed.
(* a state of a search: C major in C major, then F major *)
Definition first_state (k : Z) : state := mkState None k 0 0 None None [] false None None None.
Definition some_state (chord key : Z) : state := mkState (Some chord) key 1 0 (Some (first_state key)) None [] false None None None.
Example C96_rows_ex : exists v w, csm_input MIDI MIDI [1] [2; 2] (some_state 0 0) = Ok v /\ zlen v = 65
  /\ ktm_input TPC TPC [1] [2; 2] (some_state 45 15) = Ok w /\ zlen w = 136.
Proof. do 2 eexists. split; [vm_compute; reflexivity|]. split; [vm_compute; reflexivity|]. split; vm_compute; reflexivity. Qed.

(* ---- what the checks miss ---- *)
(* the chords of the key transition model are not checked (the check for the key sequence model is made
   twice): accepted models whose KTM cannot read any row made for it *)
Theorem C96_ktm_refuted : exists models j, HarmonicInferenceModel models default_params = Ok j /\ full_models j
  /\ ks_out (j_ksm j) = cs_out (j_csm j)
  /\ (exists s v, ktm_input (CHORD_OUTPUT_TYPE j) (KEY_OUTPUT_TYPE j) [1] [2; 2] s = Ok v)
  /\ forall durs levels s v, ktm_input (CHORD_OUTPUT_TYPE j) (KEY_OUTPUT_TYPE j) durs levels s = Ok v -> zlen v <> ktm_input_dim (j_ktm j).
Proof.
  destruct (the_joint TPC TPC MIDI true false) as (j & H & E1 & E2 & E3 & E4 & E5 & E6). exists (the_models TPC TPC MIDI true false), j.
  split; [exact H|]. split; [apply (the_full _ _ _ _ _ H); discriminate|]. split; [congruence|]. split.
  - destruct (C96_object _ _ _ H) as (_ & _ & _ & Hc & Hk & _). rewrite Hc, Hk, E1, E2. exists (some_state 45 15). eexists. vm_compute. reflexivity.
  - intros durs levels s v Hv Hz. apply (proj1 (proj2 (C96_rows _ _ _ durs levels (fun _ => true) s H)) v Hv) in Hz as [_ Hz]. congruence.
Qed.
Print Assumptions C96_ktm_refuted.

(* chords and keys of different kinds are accepted: no row of the chord and key models fits *)
Theorem C96_kinds_refuted : exists models j, HarmonicInferenceModel models default_params = Ok j /\ full_models j
  /\ (exists s v, csm_input (CHORD_OUTPUT_TYPE j) (KEY_OUTPUT_TYPE j) [1] [2; 2] s = Ok v)
  /\ forall durs levels s v, csm_input (CHORD_OUTPUT_TYPE j) (KEY_OUTPUT_TYPE j) durs levels s = Ok v -> zlen v <> csm_input_dim (j_csm j).
Proof.
  destruct (the_joint TPC MIDI TPC true false) as (j & H & E1 & E2 & E3 & E4 & E5 & E6). exists (the_models TPC MIDI TPC true false), j.
  split; [exact H|]. split; [apply (the_full _ _ _ _ _ H); discriminate|]. split.
  - destruct (C96_object _ _ _ H) as (_ & _ & _ & Hc & Hk & _). rewrite Hc, Hk, E1, E2. exists (some_state 15 2). eexists. vm_compute. reflexivity.
  - intros durs levels s v Hv Hz. apply (proj1 (C96_rows _ _ _ durs levels (fun _ => true) s H) v Hv) in Hz. congruence.
Qed.
Print Assumptions C96_kinds_refuted.

(* a classifier without inversions is accepted, and its classes are read as other chords: class 1 is a chord
   in root position and is read as the first inversion of another *)
Theorem C96_inversions_refuted :
  (exists models j, HarmonicInferenceModel models default_params = Ok j /\ one_kind j /\ cc_inv (j_ccm j) = false)
  /\ forall models p j, HarmonicInferenceModel models p = Ok j -> cc_inv (j_ccm j) = false ->
     1 < ccm_classes (j_ccm j) ->
     exists root t label, get_chord_from_one_hot_index 1 (cc_out (j_ccm j)) (cc_inv (j_ccm j)) false false (cc_red (j_ccm j)) = Ok (root, t, 0)
       /\ py_nth (LABELS_chord j) 1 = Ok label /\ label = (0, Maj, 1) /\ label <> (root, t, 0).
Proof.
  split.
  - destruct (the_joint TPC TPC TPC false false) as (j & H & E1 & E2 & E3 & E4 & E5 & E6). do 2 eexists. split; [exact H|]. split; [constructor; congruence|exact E4].
  - intros models p j H Hi Hn. apply joint_made in H as (cc & ct & cs & kt & ks & ic & _ & _ & _ & ->). cbn [j_ccm LABELS_chord] in *. unfold ccm_classes in Hn.
    destruct (C02_index_surjective 1 (cc_out cc) (cc_inv cc) false false (cc_red cc)) as (root & t & inv & Ei & _ & _ & Hinv & _); [lia|].
    rewrite Hi in Hinv. assert (inv = 0) by lia. subst inv. exists root, t, (0, Maj, 1). split; [exact Ei|].
    split; [destruct (cs_out cs); vm_compute; reflexivity|]. split; [reflexivity|]. congruence.
Qed.
Print Assumptions C96_inversions_refuted.

(* a pitch-based model of semitones is accepted; it has 29 outputs for the twelve pitches that are read *)
Theorem C96_pitch_based_refuted : exists models j, HarmonicInferenceModel models default_params = Ok j /\ one_kind j
  /\ cs_pitch_based (j_csm j) = true /\ csm_output_dim (j_csm j) = 29 /\ root_count (CHORD_OUTPUT_TYPE j) true false = 12.
Proof.
  destruct (the_joint MIDI MIDI MIDI true true) as (j & H & E1 & E2 & E3 & E4 & E5 & E6). do 2 eexists. split; [exact H|].
  split; [constructor; congruence|]. split; [exact E5|]. destruct (C96_object _ _ _ H) as (_ & _ & _ & Hc & _). rewrite Hc, E1.
  unfold csm_output_dim. rewrite E5. split; reflexivity.
Qed.
Print Assumptions C96_pitch_based_refuted.

(* a piece of the right type whose notes are of another pitch type is accepted, and no note of it fits *)
Theorem C96_notes_refuted : exists models j, HarmonicInferenceModel models default_params = Ok j /\ one_kind j /\ full_models j
  /\ accepts_piece j PScore = Ok tt
  /\ forall x v, nv_pt x = MIDI -> note_to_vec x = Ok v -> zlen v <> ccm_input_dim (j_ccm j) /\ zlen v <> ctm_input_dim (j_ctm j).
Proof.
  destruct (the_joint TPC TPC TPC true false) as (j & H & E1 & E2 & E3 & E4 & E5 & E6). exists (the_models TPC TPC TPC true false), j. split; [exact H|].
  split; [constructor; congruence|]. split; [apply (the_full _ _ _ _ _ H); discriminate|].
  assert (Hcc : cc_in (j_ccm j) = TPC /\ cc_input (j_ccm j) = PScore).
  { destruct (C96_object _ _ _ H) as ((L1 & _) & _). cbn in L1. apply Some_inj in L1. injection L1 as <-. split; reflexivity. }
  split.
  - destruct (C96_object _ _ _ H) as (_ & _ & _ & _ & _ & _ & _ & _ & _ & Ha). apply Ha. symmetry. apply Hcc.
  - intros x v Hx Hv. destruct (C96_notes _ _ _ x v H Hv) as [N1 N2]. rewrite N1, N2, Hx, (proj1 Hcc). split; discriminate.
Qed.
Print Assumptions C96_notes_refuted.

(* ---- C97 ---- *)
(* from_args: every option arrives at its own parameter *)
Theorem C97_options : forall models a j, from_args models a = Ok j ->
  min_chord_change_prob (j_params j) = min_chord_change_prob (a_params a)
  /\ max_no_chord_change_prob (j_params j) = max_no_chord_change_prob (a_params a)
  /\ max_chord_length (j_params j) = max_chord_length (a_params a)
  /\ min_key_change_prob (j_params j) = min_key_change_prob (a_params a)
  /\ max_no_key_change_prob (j_params j) = max_no_key_change_prob (a_params a)
  /\ beam_size (j_params j) = beam_size (a_params a)
  /\ max_chord_branching_factor (j_params j) = max_chord_branching_factor (a_params a)
  /\ target_chord_branch_prob (j_params j) = target_chord_branch_prob (a_params a)
  /\ max_key_branching_factor (j_params j) = max_key_branching_factor (a_params a)
  /\ target_key_branch_prob (j_params j) = target_key_branch_prob (a_params a)
  /\ hash_length (j_params j) = hash_length (a_params a)
  /\ ksm_exponent (j_params j) = ksm_exponent (a_params a).
Proof.
  intros models a j H. unfold from_args in H. destruct (C96_object _ _ _ H) as (_ & _ & _ & _ & _ & -> & _). repeat split.
Qed.
Print Assumptions C97_options.
(* and they are the parameters of the search *)
Theorem C97_search : forall models a j scale, from_args models a = Ok j ->
  let g := cfg_of scale j in let p := a_params a in
  g_beam_size g = beam_size p /\ g_hash_length g = hash_length p
  /\ g_min_key g = scale (min_key_change_prob p) /\ g_max_no_key g = scale (max_no_key_change_prob p)
  /\ g_max_chord g = max_chord_branching_factor p /\ g_target_chord g = scale (target_chord_branch_prob p)
  /\ g_max_key g = max_key_branching_factor p /\ g_target_key g = scale (target_key_branch_prob p)
  /\ g_ksm_exp g = scale (ksm_exponent p).
Proof.
  intros models a j scale H. destruct (C97_options _ _ _ H) as (_ & _ & _ & E4 & E5 & E6 & E7 & E8 & E9 & E10 & E11 & E12).
  cbn. rewrite E4, E5, E6, E7, E8, E9, E10, E11, E12. repeat split.
Qed.
Print Assumptions C97_search.
Lemma from_args_eq models a : from_args models a = HarmonicInferenceModel models (a_params a).
Proof. unfold from_args. destruct a as [? ? ? []]. reflexivity. Qed.

Lemma table_usable v p : defaults_table v = Some p \/ fh_table v = Some p -> usable p.
Proof.
  assert (H : forall q, In q (map (fun v => defaults_table v) [None; Some 0; Some 1; Some 2] ++ map (fun v => fh_table v) [None; Some 0; Some 1; Some 2]) -> forall p, q = Some p -> usable p).
  { intros q Hq p' ->. cbn in Hq. repeat (destruct Hq as [Hq|Hq]; [injection Hq as <-; constructor; cbn; repeat split; try lia; try (intros n [= <-]; lia); intro; discriminate|]). destruct Hq. }
  intros Hp. assert (Hv : v = None \/ v = Some 0 \/ v = Some 1 \/ v = Some 2).
  { destruct v as [[|[q|[q|q|]|]|q]|]; auto; destruct Hp as [Hp|Hp]; discriminate. }
  destruct Hp as [Hp|Hp].
  - apply (H (defaults_table v)); [|exact Hp]. apply in_or_app. left. apply in_map_iff. exists v. split; [reflexivity|]. destruct Hv as [->|[->|[->| ->]]]; cbn; auto.
  - apply (H (fh_table v)); [|exact Hp]. apply in_or_app. right. apply in_map_iff. exists v. split; [reflexivity|]. destruct Hv as [->|[->|[->| ->]]]; cbn; auto.
Qed.
Lemma known_iff a : known_version a <-> a_csm_version a = None \/ a_csm_version a = Some 0 \/ a_csm_version a = Some 1 \/ a_csm_version a = Some 2.
Proof.
  unfold known_version. split.
  - intros [H|(v & H & Hv)]; [auto|]. assert (v = 0 \/ v = 1 \/ v = 2) as [->|[->| ->]] by lia; auto.
  - intros [H|[H|[H|H]]]; [auto| | |]; right; eexists; (split; [exact H|lia]).
Qed.
Lemma tables_known a : known_version a <-> exists p, defaults_table (a_csm_version a) = Some p.
Proof.
  rewrite known_iff. split; [intros [->|[->|[->| ->]]]; eexists; reflexivity|]. intros (p & H).
  destruct (a_csm_version a) as [[|[q|[q|q|]|]|q]|]; auto; discriminate.
Qed.
Lemma fh_known a : known_version a <-> exists p, fh_table (a_csm_version a) = Some p.
Proof.
  rewrite known_iff. split; [intros [->|[->|[->| ->]]]; eexists; reflexivity|]. intros (p & H).
  destruct (a_csm_version a) as [[|[q|[q|q|]|]|q]|]; auto; discriminate.
Qed.
(* set_default_args: without the flags nothing changes; with one, the version must be known, the parameters
   are usable, and they do not depend on the options given; --fh-defaults wins *)
Theorem C97_defaults : forall a,
  (~ flagged a -> set_default_args a = SetTo a)
  /\ (flagged a -> (set_default_args a = SetExit <-> ~ known_version a))
  /\ (flagged a -> forall a', set_default_args a = SetTo a' -> usable (a_params a')
       /\ a_csm_version a' = a_csm_version a
       /\ (forall b, a_csm_version b = a_csm_version a -> a_fh_defaults b = a_fh_defaults a -> flagged b ->
             exists b', set_default_args b = SetTo b' /\ a_params b' = a_params a')).
Proof.
  intros a. unfold set_default_args, flagged. split; [|split].
  - intros H. destruct (a_defaults a); [destruct H; auto|]. destruct (a_fh_defaults a) eqn:E; [destruct H; auto|]. reflexivity.
  - intros H. assert (K1 := tables_known a). assert (K2 := fh_known a).
    destruct (defaults_table (a_csm_version a)) as [p|] eqn:Ed, (fh_table (a_csm_version a)) as [q|] eqn:Ef.
    + assert (known_version a) by (apply K1; eauto). destruct (a_defaults a), (a_fh_defaults a) eqn:E; cbn [with_params a_fh_defaults a_csm_version]; rewrite ?E, ?Ef;
        split; intros; try contradiction; discriminate.
    + exfalso. assert (K : known_version a) by (apply K1; eauto). apply K2 in K as (? & ?). discriminate.
    + exfalso. assert (K : known_version a) by (apply K2; eauto). apply K1 in K as (? & ?). discriminate.
    + assert (N : ~ known_version a) by (intros K; apply K1 in K as (? & ?); discriminate).
      destruct (a_defaults a); [split; auto|]. destruct H as [H|H]; [discriminate|]. rewrite H, Ef. split; auto.
  - intros H a' Ha.
    assert (G : (a_fh_defaults a = true /\ fh_table (a_csm_version a) = Some (a_params a') \/ a_fh_defaults a = false /\ defaults_table (a_csm_version a) = Some (a_params a'))
       /\ a_csm_version a' = a_csm_version a).
    { destruct (a_fh_defaults a) eqn:Ef.
      - destruct (a_defaults a); [destruct (defaults_table (a_csm_version a)); [|discriminate]; cbn in Ha|]; rewrite Ef in Ha;
          (destruct (fh_table (a_csm_version a)) as [r|]; [|discriminate]); injection Ha as <-; cbn; auto.
      - destruct H as [H|H]; [|congruence]. rewrite H in Ha. destruct (defaults_table (a_csm_version a)) as [p|]; [|discriminate]. cbn in Ha. rewrite Ef in Ha.
        injection Ha as <-. cbn. auto. }
    destruct G as [G Gv]. split; [apply (table_usable (a_csm_version a)); tauto|]. split; [exact Gv|]. intros b Ev Eb Hb.
    assert (K : known_version a) by (destruct G as [[_ G]|[_ G]]; [apply fh_known|apply tables_known]; eauto).
    destruct G as [[Ef G]|[Ef G]]; rewrite Ef in Eb.
    + assert (Kd := K). apply tables_known in Kd as (p & Ed). destruct (a_defaults b); [rewrite Ev, Ed; cbn|]; rewrite Eb, Ev, G; eexists; split; reflexivity.
    + destruct Hb as [Hb|Hb]; [|congruence]. rewrite Hb, Ev, G. cbn. rewrite Eb. eexists. split; reflexivity.
Qed.
Print Assumptions C97_defaults.

(* test.py: models that agree are always accepted with the flags *)
Theorem C97_test : forall models a p j, flagged a -> known_version a -> HarmonicInferenceModel models p = Ok j ->
  exists j', test_model models a = Ok (Some j') /\ usable (j_params j') /\ j_csm j' = j_csm j.
Proof.
  intros models a p j Hf Hk H. destruct (C97_defaults a) as (_ & D2 & D3). unfold test_model. destruct (set_default_args a) as [|a'] eqn:E.
  - exfalso. apply (proj1 (D2 Hf) eq_refl Hk).
  - destruct (D3 Hf a' eq_refl) as [Hu _]. assert (Hm := H). apply joint_made in Hm as (cc & ct & cs & kt & ks & ic & L1 & Hag & _ & ->). rewrite from_args_eq.
    assert (Hj : exists j', HarmonicInferenceModel models (a_params a') = Ok j').
    { apply C96_accepts. split; [exists cc, ct, cs, kt, ks, ic; auto|]. destruct Hu as [[_ [U1 _]] [_ [U2 _]] _ _ _ _ _ _]. auto. }
    destruct Hj as (j' & Hj). exists j'. rewrite Hj. split; [reflexivity|]. destruct (C96_object _ _ _ Hj) as ((_ & _ & L3 & _) & _ & _ & _ & _ & Hp & _).
    rewrite Hp. split; [exact Hu|]. cbn [j_csm]. destruct L1 as (_ & _ & L1 & _). congruence.
Qed.
Print Assumptions C97_test.
(* with one of the flags and another version the program ends; without the flags the options are used as given *)
Theorem C97_exit : forall models a,
  (flagged a -> ~ known_version a -> test_model models a = Ok None)
  /\ (~ flagged a -> test_model models a = annotate_model models a).
Proof.
  intros models a. destruct (C97_defaults a) as (D1 & D2 & _). unfold test_model. split.
  - intros Hf Hk. rewrite (proj2 (D2 Hf) Hk). reflexivity.
  - intros Hf. rewrite (D1 Hf). reflexivity.
Qed.
Print Assumptions C97_exit.
(* the parameters of joint_model.py are usable too *)
Theorem C97_builtin : usable default_params.
Proof. constructor; cbn; repeat split; try lia; try (intros n [= <-]; lia); intro; discriminate. Qed.
Print Assumptions C97_builtin.
Example C97_ex : let a := mkArgs true false (Some 2) default_params in flagged a /\ known_version a
  /\ set_default_args (mkArgs true false (Some 3) default_params) = SetExit
  /\ exists a', set_default_args a = SetTo a' /\ target_chord_branch_prob (a_params a') = (50 # 100)%Q.
Proof. cbn. split; [left; reflexivity|]. split; [right; exists 2; split; [reflexivity|lia]|]. split; [reflexivity|]. eexists. split; reflexivity. Qed.

(* annotate.py has the flags and does not look at them; the command of the README is run with another
   parameter than test.py *)
Theorem C97_annotate_refuted :
  (forall models d f d' f' v p, annotate_model models (mkArgs d f v p) = annotate_model models (mkArgs d' f' v p))
  /\ let readme := mkArgs true false (Some 2) default_params in
     exists models j j', annotate_model models readme = Ok (Some j) /\ test_model models readme = Ok (Some j')
       /\ ~ (target_chord_branch_prob (j_params j) == target_chord_branch_prob (j_params j'))%Q.
Proof.
  split; [reflexivity|]. intros readme. exists (the_models TPC TPC TPC true false). do 2 eexists. split; [vm_compute; reflexivity|].
  split; [vm_compute; reflexivity|]. vm_compute. discriminate.
Qed.
Print Assumptions C97_annotate_refuted.
(* an option given together with --defaults is lost *)
Theorem C97_given_refuted : forall beam, beam <> 50 ->
  let a := mkArgs true false None (mkParams (1 # 10) (9 # 10) 4 (1 # 10) (9 # 10) beam 3 1 3 1 None 1) in
  exists a', set_default_args a = SetTo a' /\ beam_size (a_params a') = 50 /\ beam_size (a_params a') <> beam_size (a_params a).
Proof. intros beam H a. eexists. split; [reflexivity|]. cbn. auto. Qed.
Print Assumptions C97_given_refuted.
