(* C115: class numbers in half precision. *)
From Verif Require Import Model_Harmony Spec_Music Proof_Codec Proof_CodecSpec Model_Float16 Spec_Float16 Prop_Codec Prop_Items.
From Coq Require Import Lia.
Open Scope Z_scope.

(* exactly the whole numbers with a half precision float keep their value *)
Theorem C115_exact : forall z, float16 z = Some z <-> is_half z.
Proof.
  intros z. unfold float16. destruct (Z.ltb_spec (Z.abs z) 2048) as [Hs|Hs].
  { split; [intros _; exists z, 0; lia|reflexivity]. }
  assert (SA : z = Z.sgn z * Z.abs z) by (rewrite Z.mul_comm; symmetry; apply Z.abs_sgn).
  assert (SG : Z.sgn z = 1 \/ Z.sgn z = -1) by (destruct z; cbn in *; lia).
  remember (Z.abs z) as a eqn:Ea.
  pose proof (Z.log2_spec a ltac:(lia)) as [L1 L2].
  assert (Hk : 11 <= Z.log2 a) by (change 11 with (Z.log2 2048); apply Z.log2_le_mono; lia).
  remember (Z.log2 a) as k eqn:Ek.
  assert (Hu : 0 < 2 ^ (k - 10)) by (apply Z.pow_pos_nonneg; lia).
  assert (U1 : 2 ^ k = 1024 * 2 ^ (k - 10)).
  { change 1024 with (2 ^ 10). rewrite <- Z.pow_add_r by lia. f_equal. lia. }
  assert (U2 : 2 ^ Z.succ k = 2048 * 2 ^ (k - 10)) by (rewrite Z.pow_succ_r by lia; lia).
  remember (2 ^ (k - 10)) as u eqn:Eu.
  pose proof (Z.div_mod a u ltac:(lia)) as Dm. pose proof (Z.mod_pos_bound a u Hu) as Mb.
  remember (a / u) as q eqn:Eq. remember (a mod u) as r eqn:Er.
  assert (Q : q < 2048) by nia.
  remember (if 2 * r <? u then q else if u <? 2 * r then q + 1 else if Z.even q then q else q + 1) as m eqn:Em.
  assert (M : m = q \/ m = q + 1) by (destruct (2 * r <? u), (u <? 2 * r), (Z.even q); lia).
  cbv zeta. rewrite <- ?Em.
  split.
  - destruct (Z.ltb_spec 65504 (m * u)) as [|Hb]; [discriminate|]. intros E. injection E as E.
    assert (A : a = m * u) by (destruct SG as [S|S]; rewrite S in *; lia).
    assert (K : k <= 15).
    { assert (k < 16); [|lia]. rewrite Ek. apply Z.log2_lt_pow2; [lia|]. change (2 ^ 16) with 65536. lia. }
    destruct (Z.eq_dec m 2048) as [N|N].
    + assert (K15 : k <> 15) by (intros ->; cbn in Eu; lia).
      exists (Z.sgn z * 1024), (k - 10 + 1). split; [|split; [destruct SG as [S|S]; rewrite S; cbn; lia|lia]].
      rewrite Z.pow_add_r by lia. rewrite <- Eu. change (2 ^ 1) with 2. rewrite SA at 1. rewrite A, N. lia.
    + exists (Z.sgn z * m), (k - 10). rewrite <- Eu. split; [rewrite SA at 1; rewrite A; lia|]. split; [|lia].
      assert (0 <= m < 2048) by nia. destruct SG as [S|S]; rewrite S; lia.
  - intros (n & e & E & Hn & He).
    assert (P : 0 < 2 ^ e) by (apply Z.pow_pos_nonneg; lia).
    assert (A : a = Z.abs n * 2 ^ e) by (rewrite Ea, E, Z.abs_mul, (Z.abs_eq (2 ^ e)); lia).
    assert (K : k - 10 <= e).
    { assert (k < 11 + e); [|lia]. rewrite Ek. apply Z.log2_lt_pow2; [lia|]. rewrite Z.pow_add_r by lia.
      change (2 ^ 11) with 2048. nia. }
    assert (D : a = (Z.abs n * 2 ^ (e - (k - 10))) * u).
    { rewrite A, Eu, <- Z.mul_assoc, <- Z.pow_add_r by lia. do 2 f_equal. lia. }
    assert (R : r = 0) by (rewrite Er, D; apply Z.mod_mul; lia).
    assert (Mq : m = q) by (rewrite Em, R; destruct (Z.ltb_spec (2 * 0) u); lia).
    assert (B : 2 ^ e <= 32) by (change 32 with (2 ^ 5); apply Z.pow_le_mono_r; lia).
    destruct (Z.ltb_spec 65504 (m * u)) as [Hb|_]; [nia|].
    f_equal. replace (m * u) with a by lia. symmetry. exact SA.
Qed.
Print Assumptions C115_exact.

Lemma small_half z : Z.abs z <= 2048 -> is_half z.
Proof.
  intros H. destruct (Z.eq_dec (Z.abs z) 2048) as [E|].
  - exists (Z.sgn z * 1024), 1. split; [|split; [destruct z; cbn; lia|lia]]. change (2 ^ 1) with 2. destruct z; cbn in *; lia.
  - exists z, 0. lia.
Qed.
(* all whole numbers up to 2048 keep their value; the next one becomes the one before *)
Theorem C115_limit : (forall z, Z.abs z <= 2048 -> float16 z = Some z) /\ float16 2049 = float16 2048.
Proof. split; [intros z H; apply C115_exact, small_half, H|reflexivity]. Qed.
Print Assumptions C115_limit.

(* any other number becomes the nearest that has a half precision float *)
Theorem C115_nearest : forall z x, float16 z = Some x -> nearest_half z x.
Proof.
  intros z x. unfold float16. destruct (Z.ltb_spec (Z.abs z) 2048) as [Hs|Hs].
  { intros E. injection E as <-. split; [apply small_half; lia|]. intros y _. lia. }
  assert (SA : z = Z.sgn z * Z.abs z) by (rewrite Z.mul_comm; symmetry; apply Z.abs_sgn).
  assert (SG : Z.sgn z = 1 \/ Z.sgn z = -1) by (destruct z; cbn in *; lia).
  remember (Z.abs z) as a eqn:Ea.
  pose proof (Z.log2_spec a ltac:(lia)) as [L1 L2].
  assert (Hk : 11 <= Z.log2 a) by (change 11 with (Z.log2 2048); apply Z.log2_le_mono; lia).
  remember (Z.log2 a) as k eqn:Ek.
  assert (Hu : 0 < 2 ^ (k - 10)) by (apply Z.pow_pos_nonneg; lia).
  assert (U1 : 2 ^ k = 1024 * 2 ^ (k - 10)).
  { change 1024 with (2 ^ 10). rewrite <- Z.pow_add_r by lia. f_equal. lia. }
  assert (U2 : 2 ^ Z.succ k = 2048 * 2 ^ (k - 10)) by (rewrite Z.pow_succ_r by lia; lia).
  remember (2 ^ (k - 10)) as u eqn:Eu.
  pose proof (Z.div_mod a u ltac:(lia)) as Dm. pose proof (Z.mod_pos_bound a u Hu) as Mb.
  remember (a / u) as q eqn:Eq. remember (a mod u) as r eqn:Er.
  assert (Q : 1024 <= q < 2048) by (rewrite Eq; split; [apply Z.div_le_lower_bound; lia|apply Z.div_lt_upper_bound; lia]).
  remember (if 2 * r <? u then q else if u <? 2 * r then q + 1 else if Z.even q then q else q + 1) as m eqn:Em.
  assert (M : (m = q /\ 2 * r <= u) \/ (m = q + 1 /\ u <= 2 * r)).
  { rewrite Em. destruct (Z.ltb_spec (2 * r) u), (Z.ltb_spec u (2 * r)), (Z.even q); lia. }
  clear Em. cbv zeta.
  destruct (Z.ltb_spec 65504 (m * u)) as [|Hb]; [discriminate|]. intros E. injection E as <-.
  split.
  - assert (K : k <= 15).
    { assert (1024 * u <= m * u) by (apply Z.mul_le_mono_nonneg_r; lia). assert (u < 2 ^ 6) by (change (2 ^ 6) with 64; lia).
      rewrite Eu in *. assert (k - 10 < 6); [|lia]. apply (Z.pow_lt_mono_r_iff 2); lia. }
    destruct (Z.eq_dec m 2048) as [N|N].
    + assert (K15 : k <> 15) by (intros ->; cbn in Eu; lia).
      exists (Z.sgn z * 1024), (k - 10 + 1). split; [|split; [destruct SG as [S|S]; rewrite S; cbn; lia|lia]].
      rewrite Z.pow_add_r by lia. rewrite <- Eu. change (2 ^ 1) with 2. rewrite N. lia.
    + exists (Z.sgn z * m), (k - 10). rewrite <- Eu. split; [lia|]. split; [|lia].
      destruct SG as [S|S]; rewrite S; lia.
  - intros y (n & e & Ey & Hn & He).
    assert (P : 0 < 2 ^ e) by (apply Z.pow_pos_nonneg; lia).
    assert (A : Z.abs y = Z.abs n * 2 ^ e) by (rewrite Ey, Z.abs_mul, (Z.abs_eq (2 ^ e)); lia).
    assert (G : Z.abs y <= q * u \/ (q + 1) * u <= Z.abs y).
    { destruct (Z_le_gt_dec (k - 10) e) as [K|K].
      - assert (D : Z.abs y = (Z.abs n * 2 ^ (e - (k - 10))) * u).
        { rewrite A, Eu, <- Z.mul_assoc, <- Z.pow_add_r by lia. do 2 f_equal. lia. }
        remember (Z.abs n * 2 ^ (e - (k - 10))) as w. rewrite D. destruct (Z_le_gt_dec w q); [left|right]; apply Z.mul_le_mono_nonneg_r; lia.
      - left. assert (2 * 2 ^ e <= u) by (rewrite Eu, <- Z.pow_succ_r by lia; apply Z.pow_le_mono_r; lia).
        assert (Z.abs n * 2 ^ e <= 2048 * 2 ^ e) by (apply Z.mul_le_mono_nonneg_r; lia).
        assert (1024 * u <= q * u) by (apply Z.mul_le_mono_nonneg_r; lia). lia. }
    assert (X : Z.abs (a - m * u) <= Z.abs (a - Z.abs y)) by (clear - M G Dm Mb; destruct M as [[-> ?]|[-> ?]]; lia).
    clear - SA SG X Ea. destruct SG as [S|S]; rewrite S in *; lia.
Qed.
Print Assumptions C115_nearest.

Lemma zsum_filter {A} (f : A -> Z) p l : (forall x, 0 <= f x) -> zsum (map f (filter p l)) <= zsum (map f l).
Proof.
  intros H. induction l as [|x l IH]; cbn; [lia|]. pose proof (H x).
  destruct (p x); unfold zsum in *; cbn in *; lia.
Qed.
Lemma filter_short {A} (p : A -> bool) l : (length (filter p l) <= length l)%nat.
Proof. induction l as [|x l IH]; cbn; [lia|]. destruct (p x); cbn; lia. Qed.
(* every vocabulary of chords has at most 44 chords for each of at most 39 roots *)
Theorem C115_vocabulary : forall pt rel ui pad red,
  get_chord_vector_length pt true rel ui pad red <= 44 * root_count pt rel pad
  /\ 44 * root_count pt rel pad <= 2048.
Proof.
  intros pt rel ui pad red. split; [|destruct pt, rel, pad; cbn; lia].
  unfold get_chord_vector_length.
  replace (vector_num_pitches pt rel pad) with (root_count pt rel pad) by (destruct pt, rel, pad; reflexivity).
  set (n := root_count pt rel pad). assert (N : 0 <= n) by (destruct pt, rel, pad; cbn; lia).
  destruct ui.
  - unfold reduced_types.
    etransitivity; [apply zsum_filter; intros t; assert (0 <= get_chord_inversion_count t) by (destruct t; vm_compute; discriminate); nia|].
    change (zsum (map (fun t => get_chord_inversion_count t * n) all_chord_types) <= 44 * n).
    clearbody n. cbv [all_chord_types map zsum fold_right].
    repeat match goal with |- context [get_chord_inversion_count ?t] =>
      let v := eval vm_compute in (get_chord_inversion_count t) in change (get_chord_inversion_count t) with v end. lia.
  - unfold reduced_types, zlen.
    pose proof (filter_short (fun t => existsb (fun u => ct_eqb (red u) t) all_chord_types) all_chord_types) as L.
    change (length all_chord_types) with 12%nat in L. nia.
Qed.
Print Assumptions C115_vocabulary.

(* the number of a chord, under all options, is stored as it is *)
Theorem C115_chords : forall t root pt inv ui rel pad red i,
  get_chord_one_hot_index t root pt inv ui rel pad red = Ok i -> float16 i = Some i.
Proof.
  intros t root pt inv ui rel pad red i E. apply C02_index_in_range in E.
  pose proof (C115_vocabulary pt rel ui pad red). apply C115_limit. lia.
Qed.
Print Assumptions C115_chords.

(* so are the numbers of keys and of key changes *)
Theorem C115_keys : forall i,
  (forall m tonic pt, get_key_one_hot_index m tonic pt = Ok i -> float16 i = Some i)
  /\ (forall tonic pt t m, key_change_one_hot tonic pt t m = Ok i -> float16 i = Some i).
Proof.
  intros i. split.
  - intros m tonic pt E. apply C04_key_roundtrip in E. destruct E as [_ E]. apply C115_limit.
    destruct pt; cbn in E; lia.
  - intros tonic pt t m E. apply C04_key_change_label in E. destruct E as [E _]. apply C115_limit.
    destruct pt; cbn in E; lia.
Qed.
Print Assumptions C115_keys.

(* A dataset whose inputs are zeros and ones and whose targets are below the size of a vocabulary of
   chords comes back from its file as it was written. *)
Theorem C115_files : forall ds pt rel ui pad red,
  well_formed ds -> hd_inputs ds <> [] -> binary (hd_inputs ds) ->
  (forall i, In i (target_numbers (hd_targets ds)) -> 0 <= i < get_chord_vector_length pt true rel ui pad red) ->
  exists h o', to_h5 to_float16 (fresh ds) = Ok (h, o') /\ h5_to_dataset to_float16 h = Ok ds
    /\ forall i, h5_getitem h i = hd_getitem ds i.
Proof.
  intros ds pt rel ui pad red W N B T. apply C43_roundtrip; [exact W| |exact N].
  assert (S : forall x, 0 <= x <= 2048 -> to_float16 x = x).
  { intros x Hx. unfold to_float16. rewrite (proj1 C115_limit); [reflexivity|lia]. }
  pose proof (C115_vocabulary pt rel ui pad red) as V.
  split; [reflexivity|]. split.
  - unfold binary in B. eapply Forall_impl; [|exact B]. intros l Hl. eapply Forall_impl; [|exact Hl].
    intros r Hr. eapply Forall_impl; [|exact Hr]. intros x [->| ->]; reflexivity.
  - destruct (hd_targets ds) as [l|l]; cbn [target_numbers] in T.
    + apply Forall_forall. intros t Ht. apply Forall_forall. intros x Hx. apply S.
      specialize (T x (proj2 (in_concat l x) (ex_intro _ t (conj Ht Hx)))). lia.
    + apply Forall_forall. intros x Hx. apply S. specialize (T x Hx). lia.
Qed.
Print Assumptions C115_files.
Example C115_ex :
  get_chord_one_hot_index Half_Dim7 38 TPC 3 true true true NO_REDUCTION = Ok 1403
  /\ float16 1403 = Some 1403 /\ float16 (-4098) = Some (-4096) /\ float16 65520 = None
  /\ (let ds := mkHD [[[0; 1]; [1; 1]]; [[1; 0]]] [2; 1]%nat (Scalars [1539; 7]) None in
      well_formed ds /\ binary (hd_inputs ds) /\ hd_inputs ds <> []
      /\ (let! (h, _) := to_h5 to_float16 (fresh ds) in h5_to_dataset to_float16 h) = Ok ds).
Proof.
  do 4 (split; [vm_compute; reflexivity|]). cbv zeta. split; [|split; [|split; [discriminate|reflexivity]]].
  - split; [reflexivity|]. split; [repeat constructor; discriminate|]. split; [exists 2%nat; repeat constructor|reflexivity].
  - unfold binary. cbn. repeat (apply Forall_cons || apply Forall_nil); auto.
Qed.
(* A larger vocabulary would not survive: with target 2049 the dataset comes back with another class. *)
Example C115_limit_ex :
  (let! (h, _) := to_h5 to_float16 (fresh (mkHD [[[0; 1]]] [1%nat] (Scalars [2049]) None)) in h5_to_dataset to_float16 h)
  = Ok (mkHD [[[0; 1]]] [1%nat] (Scalars [2048]) None).
Proof. reflexivity. Qed.
