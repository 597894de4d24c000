(* C110: the published systems (checkpoints-best and checkpoints-fh-best with any of their three chord
   sequence models) are put together from the options --checkpoint and --csm-version, fit together, and
   can be searched with. *)
From Coq Require Import String Ascii QArith Permutation.
From Verif Require Import PyBase Proof_Base Model_Checkpoints Model_Prior Model_Debug Spec_Published Proof_Codec Proof_CodecSpec
  Proof_Published Proof_Strings Proof_Labels Proof_Grid Proof_Models Prop_Codec Prop_Total Prop_Models Prop_Debug.
From Coq Require Import List Lia. Import ListNotations.
Close Scope Q_scope.
Open Scope Z_scope.

Lemma opened_all dir glob load file csm_version fields major minor :
  published_files dir glob load file -> published_icm (fields (dir ++ L"/icm/initial_chord_prior.json")) major minor ->
  csm_version = None \/ (exists v, csm_version = Some v /\ 0 <= v <= 2) ->
  exists m ic, stored (L"csm") (used_version csm_version) = Some (Csm m) /\ tells_apart (used_version csm_version) m
    /\ cs_chord m = TPC /\ cs_key m = TPC /\ cs_out m = TPC /\ cs_pitch_based m = false
    /\ icm_pt ic = TPC /\ icm_major ic = major /\ icm_minor ic = minor
    /\ open_icm (fields (dir ++ L"/icm/initial_chord_prior.json")) = Ok ic
    /\ open_models glob load dir csm_version fields = Ok (Models (opened (Csm m) ic)).
Proof.
  intros P I Hv. destruct (icm_opened _ _ _ I) as (ic & Ei & Et & E1 & E2 & _).
  assert (Hin : csm_version = None \/ (exists v, csm_version = Some v /\ In v [0; 1; 2])).
  { destruct Hv as [->|(v & -> & Hr)]; [now left|]. right. exists v. split; [reflexivity|]. assert (v = 0 \/ v = 1 \/ v = 2) as [->|[->| ->]] by lia; cbn; auto. }
  assert (Hu : used_version csm_version = 0 \/ used_version csm_version = 1 \/ used_version csm_version = 2).
  { destruct Hv as [->|(v & -> & Hr)]; cbn [used_version]; lia. }
  assert (Hm : exists m, stored (L"csm") (used_version csm_version) = Some (Csm m) /\ tells_apart (used_version csm_version) m
     /\ cs_chord m = TPC /\ cs_key m = TPC /\ cs_out m = TPC /\ cs_pitch_based m = false).
  { destruct Hu as [->|[->| ->]]; eexists; (split; [reflexivity|]); (split; [|repeat split]); constructor; cbn [cs_out_inv cs_out_red];
      try (split; [discriminate|lia]); try (split; reflexivity); try (intros []; reflexivity); reflexivity. }
  destruct Hm as (m & Hm & Ta & M1 & M2 & M3 & M4). exists m, ic. do 10 (split; [assumption|]).
  unfold open_models, load_models_from_argparse. rewrite (loop_all _ _ _ _ P csm_version (Csm m) Hin Hm). cbn [bind].
  rewrite file_icm, Ei. reflexivity.
Qed.

(* Every network and the prior are loaded, they are accepted together with all parameters in order, and they
   fit: the sizes of inputs and outputs, and which chords the chord sequence model tells apart. *)
Theorem C110_system : forall dir glob load file csm_version fields major minor,
  published_files dir glob load file -> published_icm (fields (dir ++ L"/icm/initial_chord_prior.json")) major minor ->
  csm_version = None \/ (exists v, csm_version = Some v /\ 0 <= v <= 2) ->
  exists ms, open_models glob load dir csm_version fields = Ok (Models ms)
  /\ forall p, (min_chord_change_prob p <= max_no_chord_change_prob p)%Q -> (min_key_change_prob p <= max_no_key_change_prob p)%Q ->
     exists j, HarmonicInferenceModel ms p = Ok j /\ j_params j = p /\ one_kind j /\ full_models j
     /\ tells_apart (used_version csm_version) (j_csm j) /\ cs_pitch_based (j_csm j) = false
     /\ (forall d, accepts_piece j d = Ok tt <-> d = PScore)
     /\ CHORD_OUTPUT_TYPE j = TPC /\ KEY_OUTPUT_TYPE j = TPC
     /\ ccm_classes (j_ccm j) = 35 * 44 /\ ksm_output_dim (j_ksm j) = 29 * 2
     /\ ccm_input_dim (j_ccm j) = ctm_input_dim (j_ctm j)
     /\ ktm_input_dim (j_ktm j) = ksm_input_dim (j_ksm j)
     /\ get_prior (j_icm j) false = major /\ get_prior (j_icm j) true = minor.
Proof.
  intros dir glob load file cv fields major minor P I Hv.
  destruct (opened_all _ _ _ _ _ _ _ _ P I Hv) as (m & ic & Hm & Ta & M1 & M2 & M3 & M4 & I1 & I2 & I3 & _ & E).
  exists (opened (Csm m) ic). split; [exact E|]. intros p Hc Hk.
  eexists. split; [apply joint_made; do 6 eexists; split; [repeat split; reflexivity|]; split;
    [constructor; cbn [cc_input ct_input cc_in ct_pitch cc_out ks_chord kt_key ks_key ks_out kt_chord]; rewrite ?M1, ?M2, ?M3, ?I1; auto|split; [split; assumption|reflexivity]]|].
  cbn [j_params j_ccm j_ctm j_csm j_ktm j_ksm j_icm CHORD_OUTPUT_TYPE KEY_OUTPUT_TYPE INPUT_TYPE].
  split; [reflexivity|]. split; [constructor; cbn [j_ksm j_csm j_ktm ks_out kt_chord]; congruence|]. split.
  { constructor; cbn [j_ccm j_csm j_icm].
    - split; reflexivity.
    - rewrite M4. discriminate.
    - intros minor_. destruct I as [_ Z1 Z2]. destruct minor_; unfold get_prior; rewrite ?I2, ?I3, ?Z1, ?Z2, I1; reflexivity. }
  split; [exact Ta|]. split; [exact M4|]. split; [unfold accepts_piece; intros []; cbn; split; congruence|]. split; [exact M3|].
  do 5 (split; [vm_compute; reflexivity|]). split; [exact I2|exact I3].
Qed.
Print Assumptions C110_system.

(* with the flags of test.py: the tables know the version, and the search has usable parameters *)
Theorem C110_flags : forall dir glob load file fields major minor a,
  published_files dir glob load file -> published_icm (fields (dir ++ L"/icm/initial_chord_prior.json")) major minor ->
  flagged a -> known_version a ->
  exists ms j, open_models glob load dir (a_csm_version a) fields = Ok (Models ms) /\ test_model ms a = Ok (Some j)
  /\ usable (j_params j) /\ tells_apart (used_version (a_csm_version a)) (j_csm j).
Proof.
  intros dir glob load file fields major minor a P I Hf Hk. destruct (C110_system _ _ _ _ (a_csm_version a) _ _ _ P I Hk) as (ms & E & H).
  destruct (H default_params) as (j & Hj & _ & _ & _ & Ta & _); [intro; discriminate|intro; discriminate|].
  destruct (C97_test ms a default_params j Hf Hk Hj) as (j' & T & U & Ec). exists ms, j'. rewrite Ec. auto.
Qed.
Print Assumptions C110_flags.

(* any other version: no checkpoint, the program ends with 2 *)
Theorem C110_exit : forall dir glob load file fields v,
  published_files dir glob load file -> ~ 0 <= v <= 2 -> open_models glob load dir (Some v) fields = Ok (Exit 2).
Proof.
  intros dir glob load file fields v P Hv. unfold open_models, load_models_from_argparse.
  rewrite (loop_none _ _ _ _ P v); [reflexivity|]. intros [<-|[<-|[<-|[]]]]; lia.
Qed.
Print Assumptions C110_exit.

(* Whatever the weights are: if the networks return as many numbers as they have outputs, the search returns for
   every piece, if the chords it tries can be spelled; and with keys given it finds an analysis exactly if the
   ranges lead from the beginning to the end. *)
Theorem C110_search : forall dir glob load file csm_version fields major minor,
  published_files dir glob load file -> published_icm (fields (dir ++ L"/icm/initial_chord_prior.json")) major minor ->
  csm_version = None \/ (exists v, csm_version = Some v /\ 0 <= v <= 2) ->
  exists ms, open_models glob load dir csm_version fields = Ok (Models ms) /\
  forall p j scale o pd chord_ranges logs rejoins classifications, HarmonicInferenceModel ms p = Ok j ->
    1 <= beam_size p -> 1 <= max_chord_branching_factor p ->
    (forall row, In row classifications -> zlen row = 1540) ->
    (forall step l i, zlen (o_csm o step l i) = match used_version csm_version with 0 => 1276 | 1 => 348 | _ => 116 end) ->
    (forall step l i, zlen (o_ksm o step l i) = 58) -> (forall m, zlen (o_icm o m) = 1276) ->
    piece_fits j o pd chord_ranges ->
    (forall c, tried (cfg_of scale j) o pd classifications c -> playable TPC c) ->
    (exists r, beam_search (cfg_of scale j) o pd chord_ranges logs rejoins classifications = Ok r)
    /\ ((forall a b, (a <= b)%Q -> scale a <= scale b) -> keys_given (cfg_of scale j) o pd classifications ->
        length logs = length chord_ranges -> length rejoins = length chord_ranges -> length classifications = length chord_ranges ->
        ((exists s, beam_search (cfg_of scale j) o pd chord_ranges logs rejoins classifications = Ok (Some s))
         <-> covered chord_ranges 0 (length (p_durs pd)))).
Proof.
  intros dir glob load file cv fields major minor P I Hv. destruct (C110_system _ _ _ _ cv _ _ _ P I Hv) as (ms & E & H).
  exists ms. split; [exact E|]. intros p j scale o pd cr logs rejoins cl Hj Hb Hm Hrow Hcsm Hksm Hicm Hp Hpl.
  assert (Hle := Hj). apply joint_made in Hle as (? & ? & ? & ? & ? & ? & _ & _ & (L1 & L2) & _).
  destruct (H p L1 L2) as (j' & Hj' & _ & K & F & Ta & _ & _ & Ec & _ & N1 & N2 & _ & _ & R1 & R2). rewrite Hj in Hj'. apply Ok_inj in Hj'. subst j'.
  assert (Eo : cs_out (j_csm j) = TPC) by (destruct (C96_object _ _ _ Hj) as (_ & _ & _ & Hc & _); congruence).
  destruct Ta as [Ti Tr Ts].
  assert (O : outputs j o cl).
  { constructor.
    - intros row Hr. rewrite N1. exact (Hrow row Hr).
    - intros st l i. rewrite Hcsm, Ts. destruct Hv as [->|(v & -> & Hr)]; cbn [used_version]; [reflexivity|]. assert (v = 0 \/ v = 1 \/ v = 2) as [->|[->| ->]] by lia; reflexivity.
    - intros st l i. rewrite Hksm, N2. reflexivity.
    - intros m. rewrite Hicm. destruct I as [_ Z1 Z2]. destruct m; [rewrite R1, Z1|rewrite R2, Z2]; reflexivity. }
  destruct (C96_search ms p j scale o pd cr logs rejoins cl Hj K F O Hp Hb Hm) as [S1 S2].
  - intros Hi t. apply Ti in Hi. rewrite Tr, Hi. cbn. lia.
  - rewrite Eo. exact Hpl.
  - split; [exact S1|]. intros Hs Hg. apply S2; [exact Hs|right; exact Hg].
Qed.
Print Assumptions C110_search.

(* ---- what the options in the file of checkpoints-best do ---- *)
(* They say that the prior is about triads without inversions, but it is about all chords in all positions. *)
Theorem C110_prior_refuted : forall major minor, zlen major = 1276 -> zlen minor = 1276 ->
  exists ic, open_icm (icm_best major minor) = Ok ic /\ icm_inversions ic = false /\ (forall t, icm_reduction ic t = triad_of t)
  /\ (forall b, zlen (get_prior ic b) = 29 * 44)
  /\ get_chord_vector_length (icm_pt ic) true true (icm_inversions ic) false (icm_reduction ic) = 29 * 4.
Proof.
  intros major minor Z1 Z2. destruct (icm_opened (icm_best major minor) major minor) as (ic & E & Et & E1 & E2 & E3 & _); [constructor; auto|].
  destruct (E3 eq_refl) as [Ei Er]. exists ic. do 3 (split; [assumption|]). split.
  - intros []; unfold get_prior; rewrite ?E1, ?E2, ?Z1, ?Z2; reflexivity.
  - rewrite Et, Ei. unfold get_chord_vector_length. rewrite (types_of_ext _ _ Er). reflexivity.
Qed.
Print Assumptions C110_prior_refuted.

(* Only the debugger uses these options, and so it reports about another chord: the probability and the rank that
   it gives for the annotated first chord are those of another chord (but for the first chord of the list, a triad
   14 fifths below the tonic). *)
Theorem C110_debug_refuted : forall major minor ic argsort c i is_minor, zlen major = 1276 -> zlen minor = 1276 ->
  open_icm (icm_best major minor) = Ok ic ->
  (forall l, Permutation (argsort l) (zrange 0 (zlen l))) ->
  c_pt c = TPC -> chord_one_hot c true true false NO_REDUCTION = Ok i -> i <> 0 ->
  exists d p rank, debug_first_chord argsort ic c is_minor = Ok [FirstChord d p rank]
  /\ nth_error (get_prior ic is_minor) (Z.to_nat d) = Some p
  /\ exists other, get_chord_from_one_hot_index d TPC true true false NO_REDUCTION = Ok other
     /\ other <> (relative_pitch TPC (c_root c) (c_tonic c), c_type c, c_inv c).
Proof.
  intros major minor ic argsort c i is_minor Z1 Z2 Eo Hs Hpt Hi Hn.
  destruct (icm_opened (icm_best major minor) major minor) as (ic' & E & Et & E1 & E2 & E3 & _); [constructor; auto|].
  rewrite Eo in E. apply Ok_inj in E. subst ic'. destruct (E3 eq_refl) as [Ei Er].
  assert (Hl : zlen (get_prior ic is_minor) = 1276) by (destruct is_minor; unfold get_prior; rewrite ?E1, ?E2; assumption).
  assert (D := C01_chord_object_roundtrip c true true false NO_REDUCTION i Hi). rewrite Hpt in D. change (NO_REDUCTION (c_type c)) with (c_type c) in D.
  unfold chord_one_hot in Hi. rewrite Hpt in Hi. apply bind_ok in Hi as (root & Ea & Hi).
  destruct (debug_index (icm_reduction ic) (c_type c) root (c_inv c) i Er Hi Hn) as (d & Ed & Hd & Hne).
  destruct (C98_first argsort d [] (get_prior ic is_minor) (Hs _)) as (p & b & a & Np & _ & M); [rewrite Hl; exact Hd|].
  exists d, p, (zlen b). split; [|split; [exact Np|]].
  - unfold debug_first_chord, chord_one_hot. rewrite Hpt, Ea, Ei. cbn [bind]. rewrite Ed. cbn [bind]. exact M.
  - destruct (C02_index_surjective d TPC true true false NO_REDUCTION) as (r & t & inv & Dd & _ & _ & _ & Back); [exact Hd|].
    exists (r, t, inv). split; [exact Dd|]. intros Eq. specialize (Back t eq_refl). rewrite Eq in Dd. rewrite <- D in Dd.
    apply Hne. assert (D2 := C01_chord_index_roundtrip _ _ _ _ _ _ _ _ _ Hi). rewrite D in D2. apply Ok_inj in D2.
    apply pair_equal_spec in D2 as [D2 _]. apply pair_equal_spec in D2 as [D2 _]. apply pair_equal_spec in Eq as [Eq E5]. apply pair_equal_spec in Eq as [E6 E7].
    subst t inv. replace (r - lowest_root TPC true false) with root in Back by lia. rewrite Hi in Back. apply Ok_inj in Back. congruence.
Qed.
Print Assumptions C110_debug_refuted.

(* ---- a case meeting the hypotheses ---- *)
Definition ex_name (name : pystr) (v : Z) : pystr := L"epoch=60-step=53801.ckpt".
Definition ex_path (name : pystr) (v : Z) : pystr := checkpoint_file (L"checkpoints-best") name v (ex_name name v).
Definition the_names : list pystr := [L"ccm"; L"ctm"; L"csm"; L"ktm"; L"ksm"].
Definition ex_glob (p : pystr) : list pystr :=
  flat_map (fun name =>
    if str_eqb p (default_pattern (L"checkpoints-best") name) then map (ex_path name) (rev (versions name))
    else flat_map (fun v => if str_eqb p (version_pattern (L"checkpoints-best") name v) then [ex_path name v] else []) (versions name)) the_names.
Definition ex_load (c : model_class) (p : pystr) : option component :=
  match filter (fun e => str_eqb p (ex_path (fst e) (snd e))) (flat_map (fun name => map (pair name) (versions name)) the_names) with
  | e :: _ => stored (fst e) (snd e)
  | [] => None
  end.
Definition ex_prior : list Q := repeat (1 # 1276)%Q 1276.
Lemma text_star v : z_to_str v <> L"*".
Proof. intros E. assert (C := z_to_str_chars v). rewrite E in C. inversion C as [|? ? [C1|C1] _]; subst; [vm_compute in C1; discriminate C1|discriminate C1]. Qed.
Lemma names_same dir name name' (a b : pystr) : known name -> known name' -> dir ++ L"/" ++ name ++ a = dir ++ L"/" ++ name' ++ b -> name = name' /\ a = b.
Proof.
  intros K K' E. apply app_inv_head in E. apply app_inv_head in E.
  destruct K as [<-|[<-|[<-|[<-|[<-|[]]]]]], K' as [<-|[<-|[<-|[<-|[<-|[]]]]]]; try discriminate E; (split; [reflexivity|]); apply app_inv_head in E; exact E.
Qed.
Lemma version_not_default dir name name' v : known name -> known name' -> version_pattern dir name v <> default_pattern dir name'.
Proof.
  intros K K' E. unfold version_pattern, default_pattern in E. apply (names_same _ _ _ _ _ K K') in E as [_ E].
  change (L"/lightning_logs/version_*/checkpoints/*.ckpt") with (L"/lightning_logs/version_" ++ L"*" ++ L"/checkpoints/*.ckpt") in E.
  apply app_inv_head in E. apply app_inv_tail in E. exact (text_star v E).
Qed.
Lemma version_same dir name name' v v' : known name -> known name' -> version_pattern dir name v = version_pattern dir name' v' -> name = name' /\ v = v'.
Proof.
  intros K K' E. unfold version_pattern in E. apply (names_same _ _ _ _ _ K K') in E as [-> E]. apply app_inv_head in E. apply app_inv_tail in E.
  split; [reflexivity|exact (z_to_str_inj _ _ E)].
Qed.
Example C110_files_ex : published_files (L"checkpoints-best") ex_glob ex_load ex_name.
Proof.
  constructor.
  - intros (a & b & E). assert (I : In "_"%char (L"checkpoints-best")) by (rewrite E; apply in_or_app; right; now left). cbn in I. intuition discriminate.
  - intros name [<-|[<-|[<-|[<-|[<-|[]]]]]]; vm_compute; repeat constructor.
    eapply perm_trans; [apply perm_swap|]. eapply perm_trans; [apply perm_skip, perm_swap|]. apply perm_swap.
  - intros name v [<-|[<-|[<-|[<-|[<-|[]]]]]] I; cbn in I; repeat (destruct I as [<-|I]; [vm_compute; reflexivity|]); destruct I.
  - intros name v K N. unfold ex_glob.
    assert (F : forall name', In name' the_names ->
      (if str_eqb (version_pattern (L"checkpoints-best") name v) (default_pattern (L"checkpoints-best") name') then map (ex_path name') (rev (versions name'))
       else flat_map (fun v' => if str_eqb (version_pattern (L"checkpoints-best") name v) (version_pattern (L"checkpoints-best") name' v') then [ex_path name' v'] else []) (versions name')) = []).
    { intros name' K'. destruct (str_eqb _ _) eqn:E1; [apply str_eqb_eq in E1; elim (version_not_default _ _ _ _ K K' E1)|clear E1].
      assert (G : forall l, incl l (versions name') -> flat_map (fun v' => if str_eqb (version_pattern (L"checkpoints-best") name v) (version_pattern (L"checkpoints-best") name' v') then [ex_path name' v'] else []) l = []).
      { induction l as [|x l IH]; [reflexivity|]. intros Hl. cbn [flat_map]. rewrite IH by (intros y Hy; apply Hl; now right).
        destruct (str_eqb (version_pattern (L"checkpoints-best") name v) (version_pattern (L"checkpoints-best") name' x)) eqn:E2; [|reflexivity]. apply str_eqb_eq in E2. apply (version_same _ _ _ _ _ K K') in E2 as [<- <-]. elim N. apply Hl. now left. }
      apply G. intros y Hy. exact Hy. }
    unfold the_names in *. cbn [flat_map]. rewrite !F by (cbn; auto 6). reflexivity.
  - intros name c cs v m I S. destruct I as [I|[I|[I|[I|[I|[I|[]]]]]]]; apply pair_equal_spec in I as [<- I]; injection I as <- <-;
      (assert (Hv : v = 0 \/ v = 1 \/ v = 2) by (unfold stored in S; destruct v as [|[q|[q|q|]|]|q]; auto; discriminate S));
      destruct Hv as [->|[->| ->]]; try discriminate S; vm_compute in S |- *; exact S.
Qed.
Example C110_ex : forall csm_version, csm_version = None \/ csm_version = Some 1 ->
  exists ms, open_models ex_glob ex_load (L"checkpoints-best") csm_version (fun _ => icm_best ex_prior ex_prior) = Ok (Models ms)
  /\ map fst ms = [L"ccm"; L"ctm"; L"csm"; L"ktm"; L"ksm"; L"icm"].
Proof. intros cv [->| ->]; eexists; (split; [vm_compute; reflexivity|reflexivity]). Qed.
Example C110_icm_ex : published_icm (icm_best ex_prior ex_prior) ex_prior ex_prior /\ published_icm (icm_fh ex_prior ex_prior) ex_prior ex_prior.
Proof. split; (constructor; [auto|vm_compute; reflexivity|vm_compute; reflexivity]). Qed.
(* the tonic triad of C major *)
Example C110_debug_ex : let c := {| c_root := 15; c_bass := 15; c_tonic := 15; c_mode := MAJOR; c_type := Maj; c_inv := 0; c_pt := TPC |} in
  chord_one_hot c true true false NO_REDUCTION = Ok 42
  /\ chord_one_hot c true false false triad_of = Ok 14
  /\ get_chord_from_one_hot_index 14 TPC true true false NO_REDUCTION = Ok (-10, Maj, 2).
Proof. vm_compute. auto. Qed.
