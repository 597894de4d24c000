(* Lemmas about the initial chord model. *)
From Coq Require Import QArith Lqa String Ascii.
From Verif Require Import Model_Prior Spec_Music Spec_Prior Proof_Base Proof_Codec Proof_CodecSpec Proof_Transpose Proof_Dataset Proof_Strings.
From Coq Require Import List.
Import ListNotations.
Close Scope Q_scope.
Open Scope Z_scope.

Definition count1 (m : key_mode) (l : list Q) (c : chord) : res (list Q) :=
  let! i := chord_one_hot c true true false NO_REDUCTION in
  if km_eqb (c_mode c) m then add_one l i else Ok l.

Lemma count_split chords : forall maj min maj' min',
  foldM count_chord chords (maj, min) = Ok (maj', min') ->
  foldM (count1 MAJOR) chords maj = Ok maj' /\ foldM (count1 MINOR) chords min = Ok min'.
Proof.
  induction chords as [|c r IH]; intros maj min maj' min' H.
  - cbn in H. apply Ok_inj in H. injection H as -> ->. split; reflexivity.
  - cbn [foldM] in *. unfold count1 at 1 3. unfold count_chord at 1 in H.
    destruct (chord_one_hot c true true false NO_REDUCTION) as [i|e]; cbn [bind] in *; [|discriminate].
    destruct (c_mode c); cbn [km_eqb bind].
    + destruct (add_one maj i) as [m1|e]; cbn [bind] in *; [|discriminate]. exact (IH _ _ _ _ H).
    + destruct (add_one min i) as [m1|e]; cbn [bind] in *; [|discriminate]. exact (IH _ _ _ _ H).
Qed.

Lemma vocabulary_length pt : get_chord_vector_length pt true true true false NO_REDUCTION = vocabulary pt.
Proof. destruct pt; reflexivity. Qed.

Lemma decode_index pt c k : c_pt c = pt -> chord_one_hot c true true false NO_REDUCTION = Ok k ->
  0 <= k < vocabulary pt /\ get_chord_from_one_hot_index k pt true true false NO_REDUCTION = Ok (in_its_key c).
Proof.
  intros Hp H. pose proof (chord_object_s _ _ _ _ _ _ H) as D. rewrite Hp in D. split; [|unfold in_its_key; rewrite Hp; exact D].
  rewrite <- vocabulary_length, <- Hp. unfold chord_one_hot in H. apply bind_ok in H as (r & _ & H).
  exact (encode_range _ _ _ _ _ _ _ _ _ H).
Qed.
Lemma decode_inj pt i k x : 0 <= i < vocabulary pt -> 0 <= k < vocabulary pt ->
  get_chord_from_one_hot_index i pt true true false NO_REDUCTION = Ok x ->
  get_chord_from_one_hot_index k pt true true false NO_REDUCTION = Ok x -> i = k.
Proof.
  rewrite <- vocabulary_length. intros Hi Hk Ei Ek.
  destruct (decode_encode_s i pt true true false NO_REDUCTION Hi) as (r & t & v & D & _ & _ & _ & E).
  destruct (decode_encode_s k pt true true false NO_REDUCTION Hk) as (r' & t' & v' & D' & _ & _ & _ & E').
  rewrite Ei in D. rewrite Ek in D'. apply Ok_inj in D, D'. rewrite D in D'. injection D' as <- <- <-.
  specialize (E t eq_refl). specialize (E' t eq_refl). rewrite E in E'. apply Ok_inj in E'. exact E'.
Qed.
Lemma same_label_iff x y : same_label x y = true <-> x = y.
Proof.
  destruct x as [[a t] i], y as [[b u] j]. unfold same_label. rewrite !andb_true_iff, !Z.eqb_eq. split.
  - intros [[-> H] ->]. assert (t = u) as -> by (destruct t, u; try reflexivity; discriminate). reflexivity.
  - intros H. injection H as -> -> ->. repeat split. destruct u; reflexivity.
Qed.

Lemma upd_nth_same {A} (l : list A) : forall k v w, nth_error l k = Some v -> nth_error (upd_nat l k w) k = Some w.
Proof. induction l as [|x l IH]; intros [|k] v w H; try discriminate; [reflexivity|]. cbn in *. exact (IH k v w H). Qed.
Lemma upd_nth_other {A} (l : list A) : forall k j w, j <> k -> nth_error (upd_nat l k w) j = nth_error l j.
Proof. induction l as [|x l IH]; intros [|k] [|j] w H; try reflexivity; [contradiction|]. cbn. apply IH. lia. Qed.
Lemma upd_len {A} (l : list A) : forall k w, List.length (upd_nat l k w) = List.length l.
Proof. induction l as [|x l IH]; intros [|k] w; try reflexivity. cbn. f_equal. apply IH. Qed.
Lemma upd_sum l : forall k v, nth_error l k = Some v -> (np_sum (upd_nat l k (v + 1)) == np_sum l + 1)%Q.
Proof.
  induction l as [|x l IH]; intros [|k] v H; try discriminate; cbn in *.
  - apply Some_inj in H. subst. lra.
  - rewrite (IH _ _ H). lra.
Qed.
Lemma add_one_ok l i l' : 0 <= i < zlen l -> add_one l i = Ok l' ->
  exists v, nth_error l (Z.to_nat i) = Some v /\ l' = upd_nat l (Z.to_nat i) (v + 1)%Q.
Proof.
  intros Hi H. unfold add_one in H. apply bind_ok in H as (v & Hv & H). rewrite py_upd_pos in H by exact Hi. apply Ok_inj in H.
  destruct (py_nth_in_range _ _ Hi) as (v' & E & N). rewrite Hv in E. apply Ok_inj in E. subst v'. exists v. split; [exact N|symmetry; exact H].
Qed.

Lemma times_seen_cons m x c r : times_seen m x (c :: r) =
  (if km_eqb (c_mode c) m && same_label (in_its_key c) x then 1 else 0) + times_seen m x r.
Proof. unfold times_seen. cbn [filter]. destruct (km_eqb (c_mode c) m && same_label (in_its_key c) x); cbn [List.length]; lia. Qed.
Lemma in_mode_cons m c r : in_mode m (c :: r) = (if km_eqb (c_mode c) m then 1 else 0) + in_mode m r.
Proof. unfold in_mode. cbn [filter]. destruct (km_eqb (c_mode c) m); cbn [List.length]; lia. Qed.

Lemma count1_spec m pt chords : (forall c, In c chords -> c_pt c = pt) -> forall l l',
  zlen l = vocabulary pt -> foldM (count1 m) chords l = Ok l' ->
  zlen l' = vocabulary pt /\ (np_sum l' == np_sum l + inject_Z (in_mode m chords))%Q /\
  forall i v x, nth_error l i = Some v -> get_chord_from_one_hot_index (Z.of_nat i) pt true true false NO_REDUCTION = Ok x ->
    exists v', nth_error l' i = Some v' /\ (v' == v + inject_Z (times_seen m x chords))%Q.
Proof.
  induction chords as [|c r IH]; intros Hc l l' Hl H.
  - cbn in H. apply Ok_inj in H. subst l'. split; [exact Hl|]. split; [change (inject_Z (in_mode m [])) with 0%Q; lra|].
    intros i v x N _. exists v. split; [exact N|]. change (inject_Z (times_seen m x [])) with 0%Q. lra.
  - cbn [foldM] in H. apply bind_ok in H as (l1 & H1 & H). unfold count1 in H1. apply bind_ok in H1 as (k & Hk & H1).
    destruct (decode_index pt c k (Hc c (or_introl eq_refl)) Hk) as [Rk Dk].
    assert (Hr : forall c, In c r -> c_pt c = pt) by (intros y Hy; apply Hc; right; exact Hy).
    destruct (km_eqb (c_mode c) m) eqn:Em.
    + destruct (add_one_ok l k l1 ltac:(lia) H1) as (v0 & N0 & E1).
      assert (Z1 : zlen l1 = vocabulary pt) by (subst l1; unfold zlen in *; rewrite upd_len; exact Hl).
      destruct (IH Hr l1 l' Z1 H) as (Z' & S' & P').
      split; [exact Z'|]. split.
      * rewrite S', in_mode_cons, Em, E1, (upd_sum _ _ _ N0), inject_Z_plus. change (inject_Z 1) with 1%Q. lra.
      * intros i v x N Dx. rewrite times_seen_cons, Em. cbn [andb].
        assert (Bi : 0 <= Z.of_nat i < vocabulary pt).
        { rewrite <- Hl. assert (nth_error l i <> None) by (rewrite N; discriminate). apply nth_error_Some in H0. unfold zlen. lia. }
        destruct (same_label (in_its_key c) x) eqn:Es.
        -- apply same_label_iff in Es. subst x. assert (Z.of_nat i = k) by (exact (decode_inj pt _ _ _ Bi Rk Dx Dk)).
           assert (Z.to_nat k = i) by lia. rewrite H2 in N0, E1. rewrite N in N0. apply Some_inj in N0. subst v0.
           destruct (P' i (v + 1)%Q (in_its_key c)) as (v' & N' & Q'); [subst l1; exact (upd_nth_same _ _ _ _ N)|exact Dx|].
           exists v'. split; [exact N'|]. rewrite Q', inject_Z_plus. change (inject_Z 1) with 1%Q. lra.
        -- assert (i <> Z.to_nat k).
           { intros E. assert (Z.of_nat i = k) by lia. rewrite H0, Dk in Dx. apply Ok_inj in Dx. subst x.
             rewrite (proj2 (same_label_iff _ _) eq_refl) in Es. discriminate. }
           destruct (P' i v x) as (v' & N' & Q'); [subst l1; rewrite upd_nth_other by exact H0; exact N|exact Dx|].
           exists v'. split; [exact N'|]. rewrite Q', Z.add_0_l. reflexivity.
    + apply Ok_inj in H1. subst l1. destruct (IH Hr l l' Hl H) as (Z' & S' & P').
      split; [exact Z'|]. split; [rewrite S', in_mode_cons, Em, Z.add_0_l; reflexivity|].
      intros i v x N Dx. rewrite times_seen_cons, Em. cbn [andb]. rewrite Z.add_0_l. exact (P' i v x N Dx).
Qed.

Lemma np_sum_repeat x n : (np_sum (repeat x n) == inject_Z (Z.of_nat n) * x)%Q.
Proof.
  induction n as [|n IH]; [change (inject_Z (Z.of_nat 0)) with 0%Q; cbn [repeat np_sum]; lra|]. cbn [repeat np_sum]. rewrite IH, Nat2Z.inj_succ, <- Z.add_1_r, inject_Z_plus.
  change (inject_Z 1) with 1%Q. lra.
Qed.
Lemma np_sum_of l : np_sum l = sum_of l.
Proof. induction l as [|x l IH]; [reflexivity|]. cbn. rewrite IH. reflexivity. Qed.
Lemma sum_scaled l s : ~ (s == 0)%Q -> (sum_of (map (fun x => x / s) l) == sum_of l / s)%Q.
Proof.
  intros Hs. induction l as [|x l IH]; [cbn; field; exact Hs|]. cbn [map sum_of fold_right]. fold (sum_of l).
  fold (sum_of (map (fun x => x / s)%Q l)). rewrite IH. field. exact Hs.
Qed.

Lemma vocabulary_pos pt : 0 < vocabulary pt.
Proof. destruct pt; reflexivity. Qed.
Lemma in_mode_nonneg m chords : 0 <= in_mode m chords.
Proof. unfold in_mode. lia. Qed.
Lemma times_seen_nonneg m x chords : 0 <= times_seen m x chords.
Proof. unfold times_seen. lia. Qed.
Lemma inject_nonneg z : 0 <= z -> (0 <= inject_Z z)%Q.
Proof. intros H. change 0%Q with (inject_Z 0). rewrite <- Zle_Qle. exact H. Qed.
Lemma inject_pos z : 0 < z -> (0 < inject_Z z)%Q.
Proof. intros H. change 0%Q with (inject_Z 0). rewrite <- Zlt_Qlt. exact H. Qed.

(* what the counts of one mode are after normalisation *)
Lemma prior_spec m pt chords smooth counts prior : (forall c, In c chords -> c_pt c = pt) -> (0 < smooth)%Q ->
  foldM (count1 m) chords (repeat (smooth / inject_Z (vocabulary pt))%Q (Z.to_nat (vocabulary pt))) = Ok counts ->
  normalise_prior counts = Ok prior ->
  zlen prior = vocabulary pt /\ (sum_of prior == 1)%Q /\
  forall i p, nth_error prior i = Some p -> (0 < p)%Q /\
    exists x, get_chord_from_one_hot_index (Z.of_nat i) pt true true false NO_REDUCTION = Ok x /\
      (p == (smooth / inject_Z (vocabulary pt) + inject_Z (times_seen m x chords)) / (smooth + inject_Z (in_mode m chords)))%Q.
Proof.
  intros Hc Hs HF HN. pose proof (vocabulary_pos pt) as Vp. pose proof (inject_pos _ Vp) as VQ.
  assert (Hl : zlen (repeat (smooth / inject_Z (vocabulary pt))%Q (Z.to_nat (vocabulary pt))) = vocabulary pt) by (rewrite zlen_repeat; lia).
  destruct (count1_spec m pt chords Hc _ _ Hl HF) as (L' & S' & P').
  rewrite np_sum_repeat, Z2Nat.id in S' by lia.
  assert (T : (np_sum counts == smooth + inject_Z (in_mode m chords))%Q) by (rewrite S'; field; lra).
  pose proof (inject_nonneg _ (in_mode_nonneg m chords)) as MQ.
  unfold normalise_prior in HN. destruct (Qeq_bool (np_sum counts) 0) eqn:E0; [discriminate|]. apply Ok_inj in HN.
  assert (NZ : ~ (np_sum counts == 0)%Q) by (rewrite T; lra).
  split; [rewrite <- HN, zlen_map; exact L'|]. split.
  - rewrite <- HN, sum_scaled by exact NZ. rewrite <- np_sum_of. field. exact NZ.
  - intros i p N. rewrite <- HN, nth_error_map in N. destruct (nth_error counts i) as [v|] eqn:Ev; [|discriminate]. cbn in N. apply Some_inj in N.
    assert (Bi : 0 <= Z.of_nat i < vocabulary pt).
    { rewrite <- L'. assert (nth_error counts i <> None) by (rewrite Ev; discriminate). apply nth_error_Some in H. unfold zlen. lia. }
    assert (Bi' := Bi). rewrite <- vocabulary_length in Bi'.
    destruct (decode_encode_s _ pt true true false NO_REDUCTION Bi') as (r & t & w & D & _).
    assert (NR : nth_error (repeat (smooth / inject_Z (vocabulary pt))%Q (Z.to_nat (vocabulary pt))) i = Some (smooth / inject_Z (vocabulary pt))%Q)
      by (apply nth_error_repeat; lia).
    destruct (P' i (smooth / inject_Z (vocabulary pt))%Q _ NR D) as (v' & N' & Q').
    rewrite Ev in N'. apply Some_inj in N'. subst v'.
    pose proof (inject_nonneg _ (times_seen_nonneg m (r, t, w) chords)) as SQ.
    assert (0 < smooth / inject_Z (vocabulary pt))%Q by (apply Qlt_shift_div_l; [exact VQ|lra]).
    assert (EP : (p == (smooth / inject_Z (vocabulary pt) + inject_Z (times_seen m (r, t, w) chords)) / (smooth + inject_Z (in_mode m chords)))%Q)
      by (rewrite <- N, T, Q'; reflexivity).
    split; [|exists (r, t, w); split; [exact D|exact EP]].
    rewrite EP. apply Qlt_shift_div_l; [lra|]. lra.
Qed.

(* ---- which chords are counted ------------------------------------------------------- *)
Lemma chord_index_defined c : (exists k, chord_one_hot c true true false NO_REDUCTION = Ok k) <-> in_vocabulary c.
Proof.
  unfold chord_one_hot, in_vocabulary. rewrite a2r_spec. cbn [andb negb]. cbv zeta.
  set (lo := lowest_root (c_pt c) true false). set (n := root_count (c_pt c) true false).
  destruct ((lo <=? relative_pitch (c_pt c) (c_root c) (c_tonic c)) && (relative_pitch (c_pt c) (c_root c) (c_tonic c) <? lo + n)) eqn:E; cbn [bind].
  - destruct (rejects_s (c_type c) (relative_pitch (c_pt c) (c_root c) (c_tonic c) - lo) (c_pt c) (c_inv c) true true false NO_REDUCTION)
      as [[R W]|(i & R & _ & I)]; rewrite R.
    + split; [intros [k H]; discriminate|]. intros [I _]. exfalso. unfold NO_REDUCTION in W. subst lo n. destruct W as [W|[W|[_ W]]]; lia.
    + split; [|intros _; exists i; reflexivity]. intros _. split; [exact (I eq_refl)|]. subst lo n. destruct (c_pt c); [|exact Logic.I].
      cbn [lowest_root root_count relative_pitch] in E. lia.
  - split; [intros [k H]; discriminate|]. intros [_ R]. exfalso. subst lo n. destruct (c_pt c); cbn [lowest_root root_count relative_pitch] in *; [lia|].
    pose proof (Z.mod_pos_bound (c_root c - c_tonic c) 12). lia.
Qed.

Lemma add_one_len l i : 0 <= i < zlen l -> exists l', add_one l i = Ok l' /\ zlen l' = zlen l.
Proof.
  intros H. unfold add_one. destruct (py_nth_in_range _ _ H) as (v & E & _). rewrite E. cbn [bind].
  rewrite py_upd_pos by exact H. eexists. split; [reflexivity|]. unfold zlen. rewrite upd_len. reflexivity.
Qed.
Lemma count_defined pt chords : (forall c, In c chords -> c_pt c = pt) -> forall maj min,
  zlen maj = vocabulary pt -> zlen min = vocabulary pt ->
  ((exists r, foldM count_chord chords (maj, min) = Ok r) <-> forall c, In c chords -> in_vocabulary c).
Proof.
  induction chords as [|c r IH]; intros Hc maj min Lm Ln; [split; [intros _ c []|intros _; eexists; reflexivity]|].
  cbn [foldM]. unfold count_chord at 1.
  assert (Hr : forall c, In c r -> c_pt c = pt) by (intros y Hy; apply Hc; right; exact Hy).
  split.
  - intros [q H] c' Hc'. apply bind_ok in H as (st & H1 & H). apply bind_ok in H1 as (k & Hk & H1).
    destruct (decode_index pt c k (Hc c (or_introl eq_refl)) Hk) as [Rk _].
    destruct Hc' as [<-|Hc']; [apply chord_index_defined; exists k; exact Hk|].
    destruct (c_mode c); apply bind_ok in H1 as (l1 & A & H1); apply Ok_inj in H1; subst st.
    + destruct (add_one_len maj k ltac:(lia)) as (l' & E & Z'). rewrite A in E. apply Ok_inj in E. subst l'.
      apply (proj1 (IH Hr l1 min ltac:(lia) Ln) (ex_intro _ q H)). exact Hc'.
    + destruct (add_one_len min k ltac:(lia)) as (l' & E & Z'). rewrite A in E. apply Ok_inj in E. subst l'.
      apply (proj1 (IH Hr maj l1 Lm ltac:(lia)) (ex_intro _ q H)). exact Hc'.
  - intros HV. destruct (proj2 (chord_index_defined c) (HV c (or_introl eq_refl))) as [k Hk]. rewrite Hk. cbn [bind].
    destruct (decode_index pt c k (Hc c (or_introl eq_refl)) Hk) as [Rk _].
    assert (Vr : forall c, In c r -> in_vocabulary c) by (intros y Hy; apply HV; right; exact Hy).
    destruct (c_mode c).
    + destruct (add_one_len maj k ltac:(lia)) as (l' & E & Z'). rewrite E. cbn [bind]. apply (IH Hr); [lia|exact Ln|exact Vr].
    + destruct (add_one_len min k ltac:(lia)) as (l' & E & Z'). rewrite E. cbn [bind]. apply (IH Hr); [exact Lm|lia|exact Vr].
Qed.

Lemma normalise_prior_total l : ~ (np_sum l == 0)%Q -> exists p, normalise_prior l = Ok p.
Proof. intros H. unfold normalise_prior. destruct (Qeq_bool (np_sum l) 0) eqn:E; [apply Qeq_bool_iff in E; contradiction|]. eexists. reflexivity. Qed.

Lemma train_inv pt chords smooth j : (forall c, In c chords -> c_pt c = pt) -> train_icm chords smooth = Ok j ->
  exists cm cn major minor, let start := repeat (smooth / inject_Z (vocabulary pt))%Q (Z.to_nat (vocabulary pt)) in
    foldM (count1 MAJOR) chords start = Ok cm /\ normalise_prior cm = Ok major /\
    foldM (count1 MINOR) chords start = Ok cn /\ normalise_prior cn = Ok minor /\
    j = [(L"inversions_present", JBool true); (L"reduction_present", JNull);
      (L"pitch_type", JStr (pitch_type_str pt));
      (L"major", JList (map JNum major)); (L"minor", JList (map JNum minor))].
Proof.
  intros Hc H. unfold train_icm in H. apply bind_ok in H as (c0 & H0 & H). cbv zeta in H.
  assert (E0 : c_pt c0 = pt) by (apply Hc; destruct (py_nth_ok_inv _ _ _ H0) as [[_ N]|[_ N]]; apply nth_error_In in N; exact N).
  rewrite E0, vocabulary_length in H. apply bind_ok in H as ((cm, cn) & HF & H). apply bind_ok in H as (major & Hm & H).
  apply bind_ok in H as (minor & Hn & H). apply Ok_inj in H. apply count_split in HF as [F1 F2].
  exists cm, cn, major, minor. cbv zeta. split; [exact F1|]. split; [exact Hm|]. split; [exact F2|]. split; [exact Hn|]. symmetry. exact H.
Qed.

Lemma numbers_read l : mapM (fun j => match j with JNum q => Ok q | _ => Raise Unmodelled end) (map JNum l) = Ok l.
Proof. induction l as [|x l IH]; [reflexivity|]. cbn [map mapM bind]. rewrite IH. reflexivity. Qed.

(* the file written by training, read back *)
Lemma trained_loaded pt major minor :
  (let! d := load_kwargs_from_json
     [(L"inversions_present", JBool true); (L"reduction_present", JNull);
      (L"pitch_type", JStr (pitch_type_str pt));
      (L"major", JList (map JNum major)); (L"minor", JList (map JNum minor))] in
   SimpleInitialChordModel d true None)
  = Ok (mkIcm pt major minor true (fun t => t)).
Proof.
  assert (E : load_kwargs_from_json
     [(L"inversions_present", JBool true); (L"reduction_present", JNull);
      (L"pitch_type", JStr (pitch_type_str pt));
      (L"major", JList (map JNum major)); (L"minor", JList (map JNum minor))]
    = Ok [(L"inversions_present", KJson (JBool true)); (L"reduction_present", KJson JNull);
      (L"pitch_type", KPitch pt);
      (L"major", KJson (JList (map JNum major))); (L"minor", KJson (JList (map JNum minor)))]) by (destruct pt; reflexivity).
  rewrite E. clear E. unfold SimpleInitialChordModel, bind, dict_get.
  change (str_lookup (L"pitch_type") _) with (Some (KPitch pt)).
  change (str_lookup (L"major") _) with (Some (KJson (JList (map JNum major)))).
  change (str_lookup (L"minor") _) with (Some (KJson (JList (map JNum minor)))).
  cbn [as_pitch as_numbers]. rewrite !numbers_read. reflexivity.
Qed.

(* ---- evaluation ------------------------------------------------------------------------ *)
Lemma argmax_spec l : forall best at_ i (pre : list Q),
  zlen pre = i -> 0 <= at_ < i -> nth_error pre (Z.to_nat at_) = Some best ->
  (forall j y, nth_error pre j = Some y -> (y <= best)%Q) ->
  (forall j y, nth_error pre j = Some y -> Z.of_nat j < at_ -> (y < best)%Q) ->
  first_largest (pre ++ l) (argmax_from best at_ i l).
Proof.
  induction l as [|x l IH]; intros best at_ i pre Hi Ha Hb H1 H2; cbn [argmax_from].
  - rewrite app_nil_r. exists best. split; [exact Hb|]. split; [lia|]. split; assumption.
  - replace (pre ++ x :: l) with ((pre ++ [x]) ++ l) by (rewrite <- app_assoc; reflexivity).
    unfold zlen in Hi.
    assert (L1 : zlen (pre ++ [x]) = i + 1) by (unfold zlen; rewrite app_length; cbn [List.length]; lia).
    assert (Nx : forall j y, nth_error (pre ++ [x]) j = Some y -> nth_error pre j = Some y \/ (j = List.length pre /\ y = x)).
    { intros j y N. destruct (Nat.lt_ge_cases j (List.length pre)); [left; rewrite nth_error_app1 in N by lia; exact N|].
      right. rewrite nth_error_app2 in N by lia. destruct (j - List.length pre)%nat as [|q] eqn:Eq; [|destruct q; discriminate].
      cbn in N. apply Some_inj in N. split; [lia|symmetry; exact N]. }
    destruct (Qle_bool x best) eqn:E.
    + apply Qle_bool_iff in E. apply IH; [exact L1|lia| | |].
      * rewrite nth_error_app1 by lia. exact Hb.
      * intros j y N. destruct (Nx j y N) as [N'|[_ ->]]; [exact (H1 j y N')|exact E].
      * intros j y N Hj. destruct (Nx j y N) as [N'|[Hl ->]]; [exact (H2 j y N' Hj)|lia].
    + assert (Hx : (best < x)%Q) by (apply Qnot_le_lt; intros C; apply Qle_bool_iff in C; rewrite C in E; discriminate).
      apply IH; [exact L1|lia| | |].
      * rewrite nth_error_app2 by lia. replace (Z.to_nat i - List.length pre)%nat with 0%nat by lia. reflexivity.
      * intros j y N. destruct (Nx j y N) as [N'|[_ ->]]; [|apply Qle_refl]. apply Qlt_le_weak, (Qle_lt_trans _ best); [exact (H1 j y N')|exact Hx].
      * intros j y N Hj. destruct (Nx j y N) as [N'|[Hl ->]]; [|lia]. apply (Qle_lt_trans _ best); [exact (H1 j y N')|exact Hx].
Qed.
Lemma np_argmax_spec l i : np_argmax l = Ok i -> first_largest l i.
Proof.
  destruct l as [|x l]; [discriminate|]. cbn [np_argmax]. intros H. apply Ok_inj in H. subst i.
  change (x :: l) with ([x] ++ l). apply argmax_spec; [reflexivity|lia|reflexivity| |].
  - intros [|j] y N; [|destruct j; discriminate]. cbn in N. apply Some_inj in N. subst. apply Qle_refl.
  - intros j y _ Hj. lia.
Qed.
Definition increasing_on_positive (log : Q -> Q) : Prop :=
  (forall x y, 0 < x -> x < y -> log x < log y)%Q /\ (forall x y, x == y -> log x == log y)%Q.
Lemma log_first log l i : increasing_on_positive log -> (forall x, In x l -> 0 < x)%Q ->
  first_largest (map log l) i -> first_largest l i.
Proof.
  intros [Hlt Heq] Hp (x & N & Hi & H1 & H2). rewrite nth_error_map in N. destruct (nth_error l (Z.to_nat i)) as [v|] eqn:E; [|discriminate].
  cbn in N. apply Some_inj in N. exists v. split; [exact E|]. split; [exact Hi|]. pose proof (Hp v (nth_error_In _ _ E)) as Pv.
  split.
  - intros j y Ny. destruct (Qlt_le_dec v y) as [L|L]; [|exact L]. exfalso. pose proof (Hlt v y Pv L).
    assert (M : nth_error (map log l) j = Some (log y)) by (rewrite nth_error_map, Ny; reflexivity). apply H1 in M. rewrite <- N in M. lra.
  - intros j y Ny Hj. assert (M : nth_error (map log l) j = Some (log y)) by (rewrite nth_error_map, Ny; reflexivity).
    apply H2 in M; [|exact Hj]. rewrite <- N in M. destruct (Qlt_le_dec y v) as [L|L]; [exact L|]. exfalso.
    apply Qle_lteq in L as [L|L]; [pose proof (Hlt v y Pv L)|pose proof (Heq v y L)]; lra.
Qed.

Lemma starts_with_iff p s : starts_with p s = true <-> exists b, s = p ++ b.
Proof.
  revert s. induction p as [|x p IH]; intros s; cbn [starts_with].
  - split; [intros _; exists s; reflexivity|reflexivity].
  - destruct s as [|y s]; [split; [discriminate|intros [b H]; discriminate]|]. rewrite andb_true_iff, Ascii.eqb_eq, IH. split.
    + intros [-> [b ->]]. exists b. reflexivity.
    + intros [b H]. injection H as -> ->. split; [reflexivity|exists b; reflexivity].
Qed.
Lemma substring_iff p s : substring_of p s = true <-> contains_text s p.
Proof.
  induction s as [|y s IH]; cbn [substring_of]; rewrite orb_true_iff, starts_with_iff.
  - split; [intros [[b H]|H]; [exists [], b; exact H|discriminate]|]. intros (a & b & H). left. destruct a; [exists b; exact H|discriminate].
  - rewrite IH. split.
    + intros [[b H]|(a & b & H)]; [exists [], b; exact H|]. exists (y :: a), b. rewrite H. reflexivity.
    + intros (a & b & H). destruct a as [|z a]; [left; exists b; exact H|]. right. injection H as -> H. exists a, b. exact H.
Qed.

Lemma ct_eqb_eq a b : ct_eqb a b = true <-> a = b.
Proof. split; [intros H; destruct a, b; try reflexivity; discriminate|intros ->; destruct b; reflexivity]. Qed.
Lemma put_new r k v : ~ In k (map fst r) -> put_type r k v = r ++ [(k, v)].
Proof.
  induction r as [|[k' v'] r IH]; intros H; [reflexivity|]. cbn [put_type]. destruct (ct_eqb k' k) eqn:E.
  - apply ct_eqb_eq in E. subst. exfalso. apply H. left. reflexivity.
  - rewrite IH; [reflexivity|]. intros C. apply H. right. exact C.
Qed.
Lemma type_text_read t : dict_get type_names (skipn 10 (L (chord_type_text t))) = Ok t.
Proof. destruct t; reflexivity. Qed.
Lemma reduction_read r : forall acc, NoDup (map fst (acc ++ r)) ->
  foldM read_reduction_item (map (fun tu => (L (chord_type_text (fst tu)), JStr (L (chord_type_text (snd tu))))) r) acc = Ok (acc ++ r).
Proof.
  induction r as [|[t u] r IH]; intros acc H; [rewrite app_nil_r; reflexivity|]. cbn [map foldM fst snd]. unfold read_reduction_item at 1. cbn [fst snd].
  rewrite !type_text_read. cbn [bind]. rewrite put_new.
  - rewrite IH; rewrite <- app_assoc; [reflexivity|exact H].
  - rewrite map_app in H. cbn [map fst] in H. apply NoDup_remove_2 in H. intros C. apply H. apply in_or_app. left. exact C.
Qed.

(* ---- one run of the evaluation ------------------------------------------------------- *)
Lemma hd_py {A} (l : list A) x : py_nth l 0 = Ok x -> hd_error l = Some x.
Proof. intros H. destruct (py_nth_ok_inv _ _ _ H) as [[_ N]|[B _]]; [|lia]. destruct l; [discriminate|exact N]. Qed.
Lemma eval_fold log m bM bm xM xm pieces : 
  (forall piece c, In piece pieces -> hd_error (fst piece) = Some c -> c_pt c = icm_pt m) ->
  (forall b, zlen (get_prior m b) = vocabulary (icm_pt m)) ->
  0 <= bM < vocabulary (icm_pt m) -> 0 <= bm < vocabulary (icm_pt m) ->
  get_chord_from_one_hot_index bM (icm_pt m) true true false NO_REDUCTION = Ok xM ->
  get_chord_from_one_hot_index bm (icm_pt m) true true false NO_REDUCTION = Ok xm ->
  forall c0 l0 c1 l1, foldM (evaluate_piece log m bM bm) pieces (c0, l0) = Ok (c1, l1) ->
  c1 = c0 + Z.of_nat (List.length (filter (starts_as xM xm) pieces)) /\
  exists ps, Forall2 (fun piece p => exists c md i, starts_with_chord piece c md /\
      get_chord_from_one_hot_index (Z.of_nat i) (icm_pt m) true true false NO_REDUCTION = Ok (in_its_key c) /\
      nth_error (get_prior m (match md with MAJOR => false | MINOR => true end)) i = Some p) pieces ps /\
    (l1 == l0 - sum_of (map log ps))%Q.
Proof.
  intros Hp HL BM Bm DM Dm. induction pieces as [|piece r IH]; intros c0 l0 c1 l1 H.
  - cbn in H. apply Ok_inj in H. injection H as <- <-. split; [cbn; lia|]. exists []. split; [constructor|]. cbn. lra.
  - cbn [foldM] in H. apply bind_ok in H as ((c2, l2) & H1 & H). unfold evaluate_piece in H1.
    apply bind_ok in H1 as (c & Hc & H1). apply bind_ok in H1 as (k & Hk & H1). apply bind_ok in H1 as (md & Hm & H1).
    apply hd_py in Hc, Hm. pose proof (Hp piece c (or_introl eq_refl) Hc) as Pc.
    destruct (decode_index _ c k Pc Hk) as [Rk Dk].
    destruct (IH (fun p c Hin => Hp p c (or_intror Hin))  c2 l2 c1 l1 H) as (E1 & ps & F & E2).
    set (b := match md with MAJOR => false | MINOR => true end).
    assert (G : exists p, nth_error (get_prior m b) (Z.to_nat k) = Some p /\ l2 = (l0 - log p)%Q /\
        c2 = if starts_as xM xm piece then c0 + 1 else c0).
    { assert (Rl : 0 <= k < zlen (map log (get_prior m b))) by (rewrite zlen_map, HL; exact Rk).
      destruct (py_nth_in_range _ _ Rl) as (q & Eq & Nq). rewrite nth_error_map in Nq.
      destruct (nth_error (get_prior m b) (Z.to_nat k)) as [p|]; [|discriminate]. cbn in Nq. apply Some_inj in Nq.
      exists p. split; [reflexivity|].
      assert (SA : starts_as xM xm piece = (k =? match md with MAJOR => bM | MINOR => bm end)).
      { unfold starts_as. destruct (fst piece) as [|c' cs]; [discriminate|]. destruct (snd piece) as [|m' ms]; [discriminate|].
        cbn in Hc, Hm. apply Some_inj in Hc, Hm. subst c' m'.
        destruct (k =? match md with MAJOR => bM | MINOR => bm end) eqn:Ek.
        - apply Z.eqb_eq in Ek. apply same_label_iff. destruct md; rewrite Ek in Dk; [rewrite DM in Dk|rewrite Dm in Dk]; apply Ok_inj in Dk; congruence.
        - destruct (same_label _ _) eqn:Es; [|reflexivity]. exfalso. apply same_label_iff in Es. apply Z.eqb_neq in Ek. apply Ek. rewrite Es in Dk.
          destruct md; [exact (decode_inj _ _ _ _ Rk BM Dk DM)|exact (decode_inj _ _ _ _ Rk Bm Dk Dm)]. }
      destruct md; subst b; cbn [get_prior] in *; rewrite Eq in H1; cbn [bind] in H1; apply Ok_inj in H1; injection H1 as <- <-;
        rewrite SA, Nq; split; reflexivity. }
    destruct G as (p & Np & El & Ec). split.
    + cbn [filter]. rewrite E1, Ec. destruct (starts_as xM xm piece); cbn [List.length]; lia.
    + exists (p :: ps). split.
      * constructor; [|exact F]. exists c, md, (Z.to_nat k). split; [split; assumption|]. rewrite Z2Nat.id by lia. split; [exact Dk|exact Np].
      * rewrite E2, El. cbn [map sum_of fold_right]. fold (sum_of (map log ps)). lra.
Qed.
