(* C45: the initial chord model.  C74: options in json files. *)
From Coq Require Import QArith Lqa String Ascii.
From Verif Require Import Model_Prior Spec_Music Spec_Prior Proof_Base Proof_Codec Proof_CodecSpec Proof_Dataset Proof_Prior.
From Coq Require Import List.
Import ListNotations.
Close Scope Q_scope.
Open Scope Z_scope.

(* C45: trained, written, read and loaded, the model holds for each mode a distribution over the
   relative chords: entries positive, sum 1, and the entry of a chord is its number of
   occurrences plus its part of the smoothing, over all occurrences plus the smoothing. *)
Theorem C45_prior : forall pt chords smooth file data m,
  (forall c, In c chords -> c_pt c = pt) -> (0 < smooth)%Q ->
  train_icm chords smooth = Ok file -> load_kwargs_from_json file = Ok data ->
  SimpleInitialChordModel data true None = Ok m ->
  icm_pt m = pt /\ icm_inversions m = true /\ (forall t, icm_reduction m t = t) /\
  forall mode, let prior := get_prior m (match mode with MAJOR => false | MINOR => true end) in
    zlen prior = vocabulary pt /\ (sum_of prior == 1)%Q /\
    forall i p, nth_error prior i = Some p -> (0 < p)%Q /\
      exists x, get_chord_from_one_hot_index (Z.of_nat i) pt true true false NO_REDUCTION = Ok x /\
        (p == (smooth / inject_Z (vocabulary pt) + inject_Z (times_seen mode x chords))
              / (smooth + inject_Z (in_mode mode chords)))%Q.
Proof.
  intros pt chords smooth file data m Hc Hs HT HL HM.
  destruct (train_inv _ _ _ _ Hc HT) as (cm & cn & major & minor & F1 & N1 & F2 & N2 & ->).
  pose proof (trained_loaded pt major minor) as E. rewrite HL in E. cbn [bind] in E. rewrite HM in E. apply Ok_inj in E. subst m.
  split; [reflexivity|]. split; [reflexivity|]. split; [reflexivity|].
  intros [|]; cbv zeta; cbn [get_prior icm_major icm_minor]; [exact (prior_spec _ _ _ _ _ _ Hc Hs F1 N1)|exact (prior_spec _ _ _ _ _ _ Hc Hs F2 N2)].
Qed.
Print Assumptions C45_prior.

(* training succeeds exactly on the chords of the vocabulary, and its file can always be loaded *)
Theorem C45_defined : forall pt chords smooth, chords <> [] ->
  (forall c, In c chords -> c_pt c = pt) -> (0 < smooth)%Q ->
  ((exists file, train_icm chords smooth = Ok file) <-> (forall c, In c chords -> in_vocabulary c)) /\
  (forall file, train_icm chords smooth = Ok file ->
     exists data m, load_kwargs_from_json file = Ok data /\ SimpleInitialChordModel data true None = Ok m).
Proof.
  intros pt chords smooth Hne Hc Hs. split.
  - pose proof (vocabulary_pos pt) as Vp.
    set (start := repeat (smooth / inject_Z (vocabulary pt))%Q (Z.to_nat (vocabulary pt))).
    assert (Ls : zlen start = vocabulary pt) by (unfold start; rewrite zlen_repeat; lia).
    pose proof (count_defined pt chords Hc start start Ls Ls) as D. rewrite <- D. clear D.
    unfold train_icm. destruct chords as [|c0 r] eqn:Ec; [contradiction|].
    change (py_nth (c0 :: r) 0) with (@Ok chord c0). cbn [bind]. cbv zeta. rewrite (Hc c0 (or_introl eq_refl)), vocabulary_length. fold start.
    split.
    + intros [f H]. apply bind_ok in H as (st & H & _). exists st. exact H.
    + intros [[cm cn] H]. rewrite H. cbn [bind]. apply count_split in H as [F1 F2].
      destruct (count1_spec MAJOR pt _ Hc _ _ Ls F1) as (_ & S1 & _). destruct (count1_spec MINOR pt _ Hc _ _ Ls F2) as (_ & S2 & _).
      pose proof (inject_pos _ Vp) as VQ.
      assert (T : (np_sum start == smooth)%Q) by (unfold start; rewrite np_sum_repeat, Z2Nat.id by lia; field; lra).
      pose proof (inject_nonneg _ (in_mode_nonneg MAJOR (c0 :: r))). pose proof (inject_nonneg _ (in_mode_nonneg MINOR (c0 :: r))).
      destruct (normalise_prior_total cm) as [p1 E1]; [rewrite S1, T; lra|]. destruct (normalise_prior_total cn) as [p2 E2]; [rewrite S2, T; lra|].
      rewrite E1, E2. cbn [bind]. eexists. reflexivity.
  - intros file HT. destruct (train_inv _ _ _ _ Hc HT) as (cm & cn & major & minor & F1 & N1 & F2 & N2 & ->).
    pose proof (trained_loaded pt major minor) as E. apply bind_ok in E as (d & E1 & E2). exists d. eexists. split; [exact E1|exact E2].
Qed.
Print Assumptions C45_defined.

Definition ex_tonic (r : Z) (m : key_mode) : chord :=
  {| c_root := r; c_bass := r; c_tonic := r; c_mode := m; c_type := match m with MAJOR => Maj | MINOR => Min end; c_inv := 0; c_pt := MIDI |}.
Definition ex_chords := [ex_tonic 0 MAJOR; ex_tonic 7 MAJOR; ex_tonic 9 MINOR;
  {| c_root := 7; c_bass := 11; c_tonic := 0; c_mode := MAJOR; c_type := Maj_Min7; c_inv := 1; c_pt := MIDI |}].
Example C45_ex : exists file data m,
  train_icm ex_chords 1 = Ok file /\ load_kwargs_from_json file = Ok data /\ SimpleInitialChordModel data true None = Ok m /\
  (forall c, In c ex_chords -> c_pt c = MIDI) /\ times_seen MAJOR (0, Maj, 0) ex_chords = 2 /\ in_mode MAJOR ex_chords = 3 /\
  exists p, nth_error (get_prior m false) 0 = Some p /\ (p == ((1 # 528) + 2) / 4)%Q.
Proof.
  destruct (proj2 (proj1 (C45_defined MIDI ex_chords 1 ltac:(discriminate) ltac:(intros c [<-|[<-|[<-|[<-|[]]]]]; reflexivity) ltac:(reflexivity)))) as [file HF].
  { intros c [<-|[<-|[<-|[<-|[]]]]]; (split; [split; [discriminate|reflexivity]|exact I]). }
  destruct (proj2 (C45_defined MIDI ex_chords 1 ltac:(discriminate) ltac:(intros c [<-|[<-|[<-|[<-|[]]]]]; reflexivity) ltac:(reflexivity)) file HF) as (data & m & HL & HM).
  exists file, data, m. split; [exact HF|]. split; [exact HL|]. split; [exact HM|].
  split; [intros c [<-|[<-|[<-|[<-|[]]]]]; reflexivity|]. split; [reflexivity|]. split; [reflexivity|].
  destruct (C45_prior MIDI ex_chords 1%Q file data m) as (_ & _ & _ & P);
    [intros c [<-|[<-|[<-|[<-|[]]]]]; reflexivity|reflexivity|exact HF|exact HL|exact HM|].
  destruct (P MAJOR) as (Z1 & _ & P1). cbv zeta in *. destruct (nth_error (get_prior m false) 0) as [p|] eqn:N.
  - exists p. split; [reflexivity|]. destruct (P1 0%nat p N) as (_ & x & D & E). vm_compute in D. apply Ok_inj in D. subst x. rewrite E. vm_compute. reflexivity.
  - apply nth_error_None in N. unfold zlen in Z1. change (vocabulary MIDI) with 528 in Z1. lia.
Qed.

(* Without smoothing, a mode that no training chord has gives 0 / 0. *)
Theorem C45_no_smoothing_refuted : forall pt chords mode, chords <> [] -> (forall c, In c chords -> c_pt c = pt) ->
  (forall c, In c chords -> in_vocabulary c) -> in_mode mode chords = 0 -> train_icm chords 0 = Raise Unmodelled.
Proof.
  intros pt chords mode Hne Hc Hv Hm. pose proof (vocabulary_pos pt) as Vp.
  set (start := repeat (0 / inject_Z (vocabulary pt))%Q (Z.to_nat (vocabulary pt))).
  assert (Ls : zlen start = vocabulary pt) by (unfold start; rewrite zlen_repeat; lia).
  destruct (proj2 (count_defined pt chords Hc start start Ls Ls) Hv) as [[cm cn] H].
  unfold train_icm. destruct chords as [|c0 r] eqn:Ec; [contradiction|].
  change (py_nth (c0 :: r) 0) with (@Ok chord c0). cbn [bind]. cbv zeta. rewrite (Hc c0 (or_introl eq_refl)), vocabulary_length. fold start.
  rewrite H. cbn [bind]. apply count_split in H as [F1 F2].
  destruct (count1_spec MAJOR pt _ Hc _ _ Ls F1) as (_ & S1 & _). destruct (count1_spec MINOR pt _ Hc _ _ Ls F2) as (_ & S2 & _).
  pose proof (inject_pos _ Vp) as VQ.
  assert (T : (np_sum start == 0)%Q) by (unfold start; rewrite np_sum_repeat, Z2Nat.id by lia; field; lra).
  unfold normalise_prior. destruct mode.
  - assert (E : Qeq_bool (np_sum cm) 0 = true) by (apply Qeq_bool_iff; rewrite S1, T, Hm; reflexivity). rewrite E. reflexivity.
  - assert (E : Qeq_bool (np_sum cn) 0 = true) by (apply Qeq_bool_iff; rewrite S2, T, Hm; reflexivity). rewrite E.
    destruct (Qeq_bool (np_sum cm) 0); reflexivity.
Qed.
Print Assumptions C45_no_smoothing_refuted.

(* Reducing chord types or leaving out inversions never works: the constructor only accepts the
   default arguments, whatever the file says. *)
Theorem C45_reduce_refuted : forall data use_inversions red m,
  SimpleInitialChordModel data use_inversions red = Ok m -> use_inversions = true /\ red = None.
Proof.
  intros data ui red m H. unfold SimpleInitialChordModel in H. do 12 (apply bind_ok in H as (? & _ & H)). cbv zeta in H.
  destruct red as [red|]; cbn [orb] in H; [apply bind_ok in H as (? & _ & H); discriminate|].
  destruct ui; cbn [negb] in H; [split; reflexivity|]. apply bind_ok in H as (? & _ & H). discriminate.
Qed.
Print Assumptions C45_reduce_refuted.
Theorem C45_reduce_raises_refuted : forall data m use_inversions red,
  SimpleInitialChordModel data true None = Ok m -> use_inversions = false \/ red <> None ->
  SimpleInitialChordModel data use_inversions red = Raise TypeError.
Proof.
  intros data m ui red H Hr. unfold SimpleInitialChordModel in *. do 10 (let q := fresh "q" in let X := fresh "X" in apply bind_ok in H as (q & X & H); rewrite X; cbn [bind]).
  apply bind_ok in H as (si & E1 & H). apply bind_ok in H as (sr & E2 & H).
  assert (E1' : exists b, match str_lookup (L "use_inversions") data with Some k => as_bool k | None => Ok ui end = Ok b)
    by (destruct (str_lookup (L "use_inversions") data); [exists si; exact E1|eexists; reflexivity]).
  assert (E2' : exists r, match str_lookup (L "reduction") data with Some k => as_reduction k | None => Ok red end = Ok r)
    by (destruct (str_lookup (L "reduction") data); [exists sr; exact E2|eexists; reflexivity]).
  destruct E1' as [b ->]. destruct E2' as [r ->]. cbn [bind]. cbv zeta.
  assert (G : match red with Some _ => true | None => false end || negb ui = true)
    by (destruct Hr as [->|Hr]; [apply orb_true_r|destruct red; [reflexivity|contradiction]]).
  rewrite G. unfold get_chord_label_list, root_strings, relative_root_string. 
  assert (M : forall l, exists s, mapM (fun root => @Ok pystr (z_to_str root)) l = Ok s).
  { induction l as [|z l [s IH]]; [eexists; reflexivity|]. cbn [mapM bind]. rewrite IH. eexists. reflexivity. }
  destruct (M (decode_roots q true false)) as [s ->] || destruct (M (decode_roots q0 true false)) as [s ->]. reflexivity.
Qed.
Print Assumptions C45_reduce_raises_refuted.

(* A file that asks for no inversions gives a model that says so but keeps one entry per
   inversion. *)
Theorem C45_option_refuted : forall pt chords smooth file,
  (forall c, In c chords -> c_pt c = pt) -> (0 < smooth)%Q -> train_icm chords smooth = Ok file ->
  exists data m, load_kwargs_from_json (file ++ [(L"use_inversions", JBool false)]) = Ok data /\
    SimpleInitialChordModel data true None = Ok m /\ icm_inversions m = false /\
    forall is_minor, zlen (get_prior m is_minor) = get_chord_vector_length pt true true true false NO_REDUCTION.
Proof.
  intros pt chords smooth file Hc Hs HT. destruct (train_inv _ _ _ _ Hc HT) as (cm & cn & major & minor & F1 & N1 & F2 & N2 & ->).
  exists [(L"inversions_present", KJson (JBool true)); (L"reduction_present", KJson JNull);
      (L"pitch_type", KPitch pt);
      (L"major", KJson (JList (map JNum major))); (L"minor", KJson (JList (map JNum minor))); (L"use_inversions", KJson (JBool false))].
  exists (mkIcm pt major minor false (fun t => t)). split; [destruct pt; reflexivity|]. split.
  - unfold SimpleInitialChordModel, bind, dict_get.
    change (str_lookup (L"pitch_type") _) with (Some (KPitch pt)).
    change (str_lookup (L"major") _) with (Some (KJson (JList (map JNum major)))).
    change (str_lookup (L"minor") _) with (Some (KJson (JList (map JNum minor)))).
    cbn [as_pitch as_numbers]. rewrite !numbers_read. reflexivity.
  - split; [reflexivity|]. rewrite vocabulary_length.
    intros [|]; cbn [get_prior icm_major icm_minor]; [exact (proj1 (prior_spec _ _ _ _ _ _ Hc Hs F2 N2))|exact (proj1 (prior_spec _ _ _ _ _ _ Hc Hs F1 N1))].
Qed.
Print Assumptions C45_option_refuted.

(* The accuracy is the percentage of pieces that start with the most probable chord of their
   mode (the first such chord, if several are), the loss the mean of - log of the probability of
   the first chord.  log is any function that grows on the positive numbers. *)
Theorem C45_evaluate : forall log m pieces acc loss,
  increasing_on_positive log ->
  (forall b, zlen (get_prior m b) = vocabulary (icm_pt m)) ->
  (forall b p, In p (get_prior m b) -> (0 < p)%Q) ->
  (forall piece c, In piece pieces -> hd_error (fst piece) = Some c -> c_pt c = icm_pt m) ->
  evaluate log m pieces = Ok (acc, loss) ->
  exists i_major i_minor major minor,
    first_largest (get_prior m false) i_major /\
    get_chord_from_one_hot_index i_major (icm_pt m) true true false NO_REDUCTION = Ok major /\
    first_largest (get_prior m true) i_minor /\
    get_chord_from_one_hot_index i_minor (icm_pt m) true true false NO_REDUCTION = Ok minor /\
    (acc == 100 * share (Z.of_nat (List.length (filter (starts_as major minor) pieces))) (zlen pieces))%Q /\
    exists ps, Forall2 (fun piece p => exists c mode i, starts_with_chord piece c mode /\
        get_chord_from_one_hot_index (Z.of_nat i) (icm_pt m) true true false NO_REDUCTION = Ok (in_its_key c) /\
        nth_error (get_prior m (match mode with MAJOR => false | MINOR => true end)) i = Some p) pieces ps /\
      (loss == sum_of (map (fun p => - log p) ps) / inject_Z (zlen pieces))%Q.
Proof.
  intros log m pieces acc loss Hlog HL Hpos Hp H. unfold evaluate in H.
  apply bind_ok in H as (bM & AM & H). apply bind_ok in H as (bm & Am & H). apply bind_ok in H as ((c1, l1) & HF & H).
  apply np_argmax_spec in AM, Am.
  apply (log_first log _ _ Hlog (Hpos false)) in AM. apply (log_first log _ _ Hlog (Hpos true)) in Am.
  assert (BM : 0 <= bM < vocabulary (icm_pt m)).
  { destruct AM as (x & N & B & _). rewrite <- (HL false). assert (nth_error (get_prior m false) (Z.to_nat bM) <> None) by (rewrite N; discriminate).
    apply nth_error_Some in H0. unfold zlen. lia. }
  assert (Bm : 0 <= bm < vocabulary (icm_pt m)).
  { destruct Am as (x & N & B & _). rewrite <- (HL true). assert (nth_error (get_prior m true) (Z.to_nat bm) <> None) by (rewrite N; discriminate).
    apply nth_error_Some in H0. unfold zlen. lia. }
  assert (BM' := BM). assert (Bm' := Bm). rewrite <- vocabulary_length in BM', Bm'.
  destruct (decode_encode_s _ _ true true false NO_REDUCTION BM') as (r & t & w & DM & _).
  destruct (decode_encode_s _ _ true true false NO_REDUCTION Bm') as (r' & t' & w' & Dm & _).
  destruct (eval_fold log m bM bm _ _ pieces Hp HL BM Bm DM Dm _ _ _ _ HF) as (E1 & ps & F & E2).
  cbv beta iota in H. destruct (zlen pieces =? 0) eqn:Z0; [discriminate H|]. apply Ok_inj in H. apply pair_equal_spec in H as [<- <-].
  assert (NZ : ~ (inject_Z (zlen pieces) == 0)%Q).
  { change 0%Q with (inject_Z 0). intros E. apply (proj1 (inject_Z_injective _ _)) in E. apply Z.eqb_neq in Z0. exact (Z0 E). }
  exists bM, bm, (r, t, w), (r', t', w'). split; [exact AM|]. split; [exact DM|]. split; [exact Am|]. split; [exact Dm|]. split.
  - rewrite E1, Z.add_0_l. unfold share. rewrite inject_Z_mult. change (inject_Z 100) with 100%Q. field. exact NZ.
  - exists ps. split; [exact F|]. rewrite E2. 
    assert (N : forall l, (sum_of (map (fun p => - log p) l) == - sum_of (map log l))%Q).
    { induction l as [|x l IH]; [reflexivity|]. cbn [map sum_of fold_right]. fold (sum_of (map (fun p => - log p)%Q l)). fold (sum_of (map log l)). rewrite IH. lra. }
    rewrite N. field. exact NZ.
Qed.
Print Assumptions C45_evaluate.

Definition ex_model : icm := (mkIcm MIDI (upd_nat (repeat (1 # 1000) 528%nat) 0%nat (1 # 2)) (upd_nat (repeat (1 # 1000) 528%nat) 36%nat (1 # 2)) true (fun t => t))%Q.
Definition ex_pieces : list (list chord * list key_mode) :=
  [([ex_tonic 5 MAJOR], [MAJOR]); ([ex_tonic 9 MINOR], [MINOR; MAJOR]); (rev ex_chords, [MAJOR])].
Example C45_evaluate_ex : increasing_on_positive (fun x => x) /\ (forall b, zlen (get_prior ex_model b) = vocabulary (icm_pt ex_model)) /\ (forall b p, In p (get_prior ex_model b) -> (0 < p)%Q) /\ (forall piece c, In piece ex_pieces -> hd_error (fst piece) = Some c -> c_pt c = icm_pt ex_model) /\ exists acc loss, evaluate (fun x => x) ex_model ex_pieces = Ok (acc, loss) /\ (acc == 200 # 3)%Q.
Proof.
  split; [split; auto|]. split; [intros [|]; reflexivity|]. split.
  - assert (G : forall b, forallb (fun p => negb (Qle_bool p 0)) (get_prior ex_model b) = true) by (intros [|]; reflexivity).
    intros b p H. specialize (G b). rewrite forallb_forall in G. apply G in H. apply Qnot_le_lt. intros C. apply Qle_bool_iff in C. rewrite C in H. discriminate.
  - split; [intros piece c [<-|[<-|[<-|[]]]] H; cbn in H; apply Some_inj in H; subst c; reflexivity|].
    do 2 eexists. split; [vm_compute; reflexivity|]. reflexivity.
Qed.

(* C74: a file of options.  A field with the text of a pitch type becomes that pitch type, an
   object with texts of chord types whose name contains "reduction" becomes the map it lists,
   everything else stays as it is. *)
Inductive option_read (key : pystr) : json -> kwarg -> Prop :=
| read_pitch pt : option_read key (JStr (L (pitch_type_text pt))) (KPitch pt)
| read_reduction r : contains_text key (L"reduction") -> NoDup (map fst r) ->
    option_read key (JDict (map (fun tu => (L (chord_type_text (fst tu)), JStr (L (chord_type_text (snd tu))))) r)) (KReduction r)
| read_dict d : ~ contains_text key (L"reduction") -> option_read key (JDict d) (KJson (JDict d))
| read_text s : (forall b, s <> L"PitchType" ++ b) -> (forall b, s <> L"PieceType" ++ b) -> option_read key (JStr s) (KJson (JStr s))
| read_other j : match j with JStr _ | JDict _ => False | _ => True end -> option_read key j (KJson j).
Theorem C74_options : forall fields args,
  Forall2 (fun f a => fst f = fst a /\ option_read (fst f) (snd f) (snd a)) fields args ->
  load_kwargs_from_json fields = Ok args.
Proof.
  intros fields args H. unfold load_kwargs_from_json. induction H as [|[k j] [k' v] fs ars [E R] _ IH]; [reflexivity|].
  cbn [fst snd] in E, R. subst k'. cbn [mapM]. rewrite IH. clear IH.
  assert (G : read_field (k, j) = Ok (k, v)); [|rewrite G; reflexivity].
  unfold read_field. inversion R; subst; clear R.
  - destruct pt; reflexivity.
  - apply substring_iff in H. rewrite H. rewrite (reduction_read r []) by exact H0. reflexivity.
  - destruct (substring_of (L "reduction") k) eqn:S; [apply substring_iff in S; contradiction|reflexivity].
  - destruct (starts_with (L "PitchType") s) eqn:S1; [apply starts_with_iff in S1 as [b S1]; destruct (H b S1)|].
    destruct (starts_with (L "PieceType") s) eqn:S2; [apply starts_with_iff in S2 as [b S2]; destruct (H0 b S2)|]. reflexivity.
  - destruct j; try contradiction; reflexivity.
Qed.
Print Assumptions C74_options.
Example C74_ex : load_kwargs_from_json
   [(L"lr", JNum (1 # 100)); (L"output_pitch", JStr (L"PitchType.MIDI")); (L"name", JStr (L"first try"));
    (L"output_reduction", JDict [(L"ChordType.MAJ_MIN7", JStr (L"ChordType.MAJOR")); (L"ChordType.DIM7", JStr (L"ChordType.DIMINISHED"))])]
  = Ok [(L"lr", KJson (JNum (1 # 100))); (L"output_pitch", KPitch MIDI); (L"name", KJson (JStr (L"first try")));
        (L"output_reduction", KReduction [(Maj_Min7, Maj); (Dim7, Dim)])].
Proof. reflexivity. Qed.
(* The text of a piece type is recognised, but looked up among the pitch types: two of the three
   raise KeyError, the third becomes a pitch type. *)
Theorem C74_piece_type_refuted : forall key fields,
  load_kwargs_from_json ((key, JStr (L"PieceType.SCORE")) :: fields) = Raise KeyError /\
  load_kwargs_from_json ((key, JStr (L"PieceType.AUDIO")) :: fields) = Raise KeyError /\
  forall args, load_kwargs_from_json ((key, JStr (L"PieceType.MIDI")) :: fields) = Ok args -> In (key, KPitch MIDI) args.
Proof.
  intros key fields. split; [reflexivity|]. split; [reflexivity|]. intros args H. unfold load_kwargs_from_json in H. cbn [mapM] in H.
  change (read_field (key, JStr (L "PieceType.MIDI"))) with (@Ok (pystr * kwarg) (key, KPitch MIDI)) in H. cbn [bind] in H.
  apply bind_ok in H as (r & _ & H). apply Ok_inj in H. subst args. left. reflexivity.
Qed.
Print Assumptions C74_piece_type_refuted.
