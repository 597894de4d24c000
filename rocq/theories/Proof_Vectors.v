(* Facts about Model_Vectors. *)
From Verif Require Import Model_Vectors Spec_Music Proof_Base Proof_Codec Proof_CodecSpec.
Open Scope Z_scope.

Lemma slice_app {A} (a b c : list A) x y : x = zlen a -> y = zlen a + zlen b ->
  py_slice (a ++ b ++ c) x y = b.
Proof.
  intros -> ->. pose proof (zlen_nonneg a). pose proof (zlen_nonneg b).
  rewrite py_slice_spec by lia. replace (Z.to_nat (zlen a + zlen b - zlen a)) with (length b) by (unfold zlen; lia).
  unfold zlen. rewrite Nat2Z.id, skipn_app, skipn_all, Nat.sub_diag. cbn [app skipn].
  rewrite firstn_app, firstn_all, Nat.sub_diag. cbn [firstn]. apply app_nil_r.
Qed.

Lemma zlen_app {A} (a b : list A) : zlen (a ++ b) = zlen a + zlen b.
Proof. unfold zlen. rewrite app_length. lia. Qed.

Definition hot (n i : nat) : list Z := repeat 0 i ++ 1 :: repeat 0 (n - S i).

Lemma upd_repeat n i v : (i < n)%nat -> upd_nat (repeat 0 n) i v = repeat 0 i ++ v :: repeat 0 (n - S i).
Proof.
  revert i; induction n as [|n IH]; intros i H; [lia|]. destruct i as [|i]; cbn [repeat upd_nat app].
  - do 2 f_equal. lia.
  - rewrite IH by lia. reflexivity.
Qed.

Lemma one_hot_ok n i v : one_hot_vec n i = Ok v -> 0 <= i -> 0 <= n ->
  i < n /\ v = hot (Z.to_nat n) (Z.to_nat i) /\ zlen v = n.
Proof.
  intros H Hi Hn. unfold one_hot_vec in H.
  assert (Hz : zlen (repeat 0 (Z.to_nat n)) = n) by (unfold zlen; rewrite repeat_length; lia).
  assert (Hlt : i < n).
  { unfold py_upd in H. rewrite Hz in H. destruct (Z.ltb_spec i 0); [lia|].
    destruct (Z.leb_spec n i); [|lia]. rewrite orb_true_r in H. discriminate. }
  rewrite py_upd_pos in H by lia. apply Ok_inj in H. subst v.
  split; [exact Hlt|]. rewrite upd_repeat by lia. split; [reflexivity|].
  unfold zlen. rewrite app_length. cbn [length]. rewrite !repeat_length. lia.
Qed.

Lemma first_one_hot n i r : first_one (hot n i ++ r) = Ok (Z.of_nat i).
Proof.
  unfold hot. generalize (repeat 0 (n - S i)) as m. induction i as [|i IH]; intros m; [reflexivity|].
  cbn [repeat app first_one]. rewrite IH. cbn [bind Z.eqb]. f_equal. lia.
Qed.
Lemma first_one_hot' n i : first_one (hot n i) = Ok (Z.of_nat i).
Proof. rewrite <- (app_nil_r (hot n i)). apply first_one_hot. Qed.
Lemma zlen_hot n i : (i < n)%nat -> zlen (hot n i) = Z.of_nat n.
Proof. intros H. unfold hot, zlen. rewrite app_length. cbn [length]. rewrite !repeat_length. lia. Qed.

Lemma num_pitches_cases pt (pad : bool) :
  match pt with
  | MIDI => NUM_PITCHES MIDI
  | TPC => (MAX_RELATIVE_TPC - MIN_RELATIVE_TPC) + (if pad then 2 * RELATIVE_TPC_EXTRA else 0)
  end = decode_num_pitches pt pad.
Proof. destruct pt; reflexivity. Qed.

Lemma abs_rel_ok p k pt pad i : absolute_to_relative p k pt false pad = Ok i ->
  0 <= i < decode_num_pitches pt pad /\ i + lowest_root pt true pad = relative_pitch pt p k.
Proof.
  unfold absolute_to_relative. destruct pt.
  - cbn [negb andb]. destruct pad; cbn [andb negb];
      (destruct (_ || _) eqn:E; [discriminate|]; intros H; apply Ok_inj in H; subst i;
       apply orb_false_iff in E as [E1 E2]; apply Z.ltb_ge in E1; apply Z.leb_gt in E2;
       unfold MIN_RELATIVE_TPC, MAX_RELATIVE_TPC, RELATIVE_TPC_EXTRA in *;
       cbn [decode_num_pitches lowest_root relative_pitch];
       unfold MIN_RELATIVE_TPC, MAX_RELATIVE_TPC, RELATIVE_TPC_EXTRA; lia).
  - unfold transpose_pitch. intros H. apply Ok_inj in H. subst i. cbn [decode_num_pitches lowest_root relative_pitch NUM_PITCHES].
    replace (p + - k) with (p - k) by lia. split; [apply Z.mod_pos_bound; lia|]. destruct pad; lia.
Qed.

Lemma decode_num_pos pt pad : 12 <= decode_num_pitches pt pad.
Proof. destruct pt, pad; vm_compute; discriminate. Qed.

(* the vector of a chord, as a concatenation of one-hot blocks *)
Lemma to_vec_blocks c rt pad red v : to_vec c rt pad red = Ok v ->
  0 <= c_inv (fc c) -> 0 <= fc_onset_level c -> 0 <= fc_offset_level c ->
  let pt := c_pt (fc c) in
  let tonic := match rt with None => c_tonic (fc c) | Some (t, _) => t end in
  let mode := match rt with None => c_mode (fc c) | Some (_, m) => m end in
  exists ir ib, absolute_to_relative (c_root (fc c)) tonic pt false pad = Ok ir
    /\ absolute_to_relative (c_bass (fc c)) tonic pt false pad = Ok ib
    /\ c_inv (fc c) < 4 /\ fc_onset_level c < 4 /\ fc_offset_level c < 4
    /\ v = hot (Z.to_nat (decode_num_pitches pt pad)) (Z.to_nat ir)
         ++ hot 12 (Z.to_nat (ct_value (red (c_type (fc c)))))
         ++ hot (Z.to_nat (decode_num_pitches pt pad)) (Z.to_nat ib)
         ++ hot 4 (Z.to_nat (c_inv (fc c))) ++ hot 4 (Z.to_nat (fc_onset_level c))
         ++ hot 4 (Z.to_nat (fc_offset_level c))
         ++ [fc_duration c] ++ [match mode with MAJOR => 1 | MINOR => 0 end].
Proof.
  intros H Hi Hon Hoff pt tonic mode. unfold to_vec in H. fold pt tonic mode in H.
  rewrite num_pitches_cases in H. pose proof (decode_num_pos pt pad) as Hn.
  destruct (absolute_to_relative (c_root (fc c)) tonic pt false pad) as [ir|] eqn:Er; [|discriminate].
  cbn [bind] in H. destruct (abs_rel_ok _ _ _ _ _ Er) as [Hr _].
  destruct (one_hot_vec _ ir) as [v1|] eqn:E1; [|discriminate]. cbn [bind] in H.
  apply one_hot_ok in E1 as (_ & -> & _); [|lia|lia].
  destruct (one_hot_vec (zlen all_chord_types) _) as [v2|] eqn:E2; [|discriminate]. cbn [bind] in H.
  apply one_hot_ok in E2 as (_ & -> & _); [|destruct (red (c_type (fc c))); vm_compute; discriminate|vm_compute; discriminate].
  destruct (absolute_to_relative (c_bass (fc c)) tonic pt false pad) as [ib|] eqn:Eb; [|discriminate].
  cbn [bind] in H. destruct (abs_rel_ok _ _ _ _ _ Eb) as [Hb _].
  destruct (one_hot_vec _ ib) as [v3|] eqn:E3; [|discriminate]. cbn [bind] in H.
  apply one_hot_ok in E3 as (_ & -> & _); [|lia|lia].
  destruct (one_hot_vec 4 (c_inv (fc c))) as [v4|] eqn:E4; [|discriminate]. cbn [bind] in H.
  apply one_hot_ok in E4 as (H4 & -> & _); [|lia|lia].
  destruct (one_hot_vec 4 (fc_onset_level c)) as [v5|] eqn:E5; [|discriminate]. cbn [bind] in H.
  apply one_hot_ok in E5 as (H5 & -> & _); [|lia|lia].
  destruct (one_hot_vec 4 (fc_offset_level c)) as [v6|] eqn:E6; [|discriminate]. cbn [bind] in H.
  apply one_hot_ok in E6 as (H6 & -> & _); [|lia|lia].
  apply Ok_inj in H. subst v. exists ir, ib.
  do 5 (split; [first [assumption|reflexivity]|]). reflexivity.
Qed.

Lemma blocks_length n k1 k2 k3 k4 k5 k6 (x y : Z) : (k1 < n)%nat -> (k2 < 12)%nat -> (k3 < n)%nat ->
  (k4 < 4)%nat -> (k5 < 4)%nat -> (k6 < 4)%nat ->
  zlen (hot n k1 ++ hot 12 k2 ++ hot n k3 ++ hot 4 k4 ++ hot 4 k5 ++ hot 4 k6 ++ [x] ++ [y])
  = 2 * Z.of_nat n + 26.
Proof. intros. rewrite !zlen_app, !zlen_hot by assumption. unfold zlen at 1 2. cbn [length]. lia. Qed.

Lemma vec_len pt pad : get_chord_vector_length pt false true true pad NO_REDUCTION = 2 * decode_num_pitches pt pad + 26.
Proof. destruct pt, pad; reflexivity. Qed.
Lemma infer_ok pt pad : infer_chord_vector_pitch_type (2 * decode_num_pitches pt pad + 26) pad = Ok pt.
Proof. destruct pt, pad; reflexivity. Qed.

Lemma types_nth t : py_nth all_chord_types (ct_value t) = Ok t.
Proof. destruct t; reflexivity. Qed.
Lemma ct_value_bound t : 0 <= ct_value t < 12.
Proof. destruct t; vm_compute; split; congruence. Qed.

Lemma app_shift {A} (a b c : list A) : a ++ b ++ c = (a ++ b) ++ c. Proof. apply app_assoc. Qed.

Theorem to_vec_decode c rt pad red v pto : to_vec c rt pad red = Ok v ->
  0 <= c_inv (fc c) -> 0 <= fc_onset_level c -> 0 <= fc_offset_level c ->
  pto = None \/ pto = Some (c_pt (fc c)) ->
  let tonic := match rt with None => c_tonic (fc c) | Some (t, _) => t end in
  let mode := match rt with None => c_mode (fc c) | Some (_, m) => m end in
  decode_chord_vector v pad pto = Ok {|
    d_root := relative_pitch (c_pt (fc c)) (c_root (fc c)) tonic;
    d_bass := relative_pitch (c_pt (fc c)) (c_bass (fc c)) tonic;
    d_mode := mode; d_type := red (c_type (fc c)); d_inv := c_inv (fc c);
    d_onset_level := fc_onset_level c; d_offset_level := fc_offset_level c; d_pt := c_pt (fc c) |}
  /\ zlen v = get_chord_vector_length (c_pt (fc c)) false true true pad NO_REDUCTION
  /\ py_nth v (-2) = Ok (fc_duration c).
Proof.
  intros H Hi Hon Hoff Hpt tonic mode.
  destruct (to_vec_blocks c rt pad red v H Hi Hon Hoff) as (ir & ib & Er & Eb & H4 & H5 & H6 & Ev).
  set (pt := c_pt (fc c)) in *. fold tonic in Er, Eb. fold mode in Ev.
  destruct (abs_rel_ok _ _ _ _ _ Er) as [Br Rr]. destruct (abs_rel_ok _ _ _ _ _ Eb) as [Bb Rb].
  pose proof (decode_num_pos pt pad) as Hn. set (num := decode_num_pitches pt pad) in *.
  pose proof (ct_value_bound (red (c_type (fc c)))) as Ht.
  set (n := Z.to_nat num) in *. set (k1 := Z.to_nat ir) in *. set (k3 := Z.to_nat ib) in *.
  set (k2 := Z.to_nat (ct_value (red (c_type (fc c))))) in *.
  set (k4 := Z.to_nat (c_inv (fc c))) in *. set (k5 := Z.to_nat (fc_onset_level c)) in *.
  set (k6 := Z.to_nat (fc_offset_level c)) in *.
  set (last := match mode with MAJOR => 1 | MINOR => 0 end) in *.
  assert (L : zlen v = 2 * num + 26).
  { rewrite Ev, blocks_length by (unfold n, k1, k2, k3, k4, k5, k6; lia). unfold n. lia. }
  assert (L1 : zlen (hot n k1) = num) by (rewrite zlen_hot; unfold n, k1; lia).
  assert (L2 : zlen (hot 12 k2) = 12) by (rewrite zlen_hot; unfold k2; lia).
  assert (L3 : zlen (hot n k3) = num) by (rewrite zlen_hot; unfold n, k3; lia).
  assert (L4 : zlen (hot 4 k4) = 4) by (rewrite zlen_hot; unfold k4; lia).
  assert (L5 : zlen (hot 4 k5) = 4) by (rewrite zlen_hot; unfold k5; lia).
  assert (L6 : zlen (hot 4 k6) = 4) by (rewrite zlen_hot; unfold k6; lia).
  assert (Hlast : forall (w : list Z) a b, py_nth (w ++ [a] ++ [b]) (-1) = Ok b /\ py_nth (w ++ [a] ++ [b]) (-2) = Ok a).
  { clear. intros w a b. unfold py_nth. rewrite !zlen_app. pose proof (zlen_nonneg w).
    change (zlen [a]) with 1. change (zlen [b]) with 1.
    destruct (Z.ltb_spec (-1) 0); [|lia]. destruct (Z.ltb_spec (-2) 0); [|lia].
    destruct (Z.ltb_spec (-1 + (zlen w + (1 + 1))) 0); [lia|].
    destruct (Z.ltb_spec (-2 + (zlen w + (1 + 1))) 0); [lia|].
    replace (Z.to_nat (-1 + (zlen w + (1 + 1)))) with (length w + 1)%nat by (unfold zlen; lia).
    replace (Z.to_nat (-2 + (zlen w + (1 + 1)))) with (length w + 0)%nat by (unfold zlen; lia).
    destruct (Z.leb_spec (zlen w + (1 + 1)) (-1 + (zlen w + (1 + 1)))); [lia|].
    destruct (Z.leb_spec (zlen w + (1 + 1)) (-2 + (zlen w + (1 + 1)))); [lia|].
    rewrite (nth_error_app2 w _ (n := length w + 1)), (nth_error_app2 w _ (n := length w + 0)) by lia.
    replace (length w + 1 - length w)%nat with 1%nat by lia.
    replace (length w + 0 - length w)%nat with 0%nat by lia. split; reflexivity. }
  assert (Hl : py_nth v (-1) = Ok last /\ py_nth v (-2) = Ok (fc_duration c)).
  { rewrite Ev, !app_assoc. rewrite <- (app_assoc _ [fc_duration c] [last]). apply Hlast. }
  destruct Hl as [Hl1 Hl2].
  split; [|split; [rewrite vec_len; exact L|exact Hl2]].
  unfold decode_chord_vector.
  assert (Ept : (match pto with Some p => Ok p | None => infer_chord_vector_pitch_type (zlen v) pad end) = Ok pt).
  { destruct Hpt as [-> | ->]; [rewrite L; apply infer_ok|reflexivity]. }
  rewrite Ept. cbn [bind]. fold num. change (zlen all_chord_types) with 12. rewrite Hl1.
  assert (S0 : first_one v = Ok ir) by (rewrite Ev, first_one_hot; f_equal; unfold k1; lia).
  assert (S1 : py_slice v num (num + 12) = hot 12 k2) by (rewrite Ev; apply slice_app; lia).
  assert (S2 : py_slice v (num + 12) (2 * num + 12) = hot n k3).
  { rewrite Ev, app_assoc. apply slice_app; rewrite zlen_app; lia. }
  assert (S3 : py_slice v (2 * num + 12) (2 * num + 12 + 4) = hot 4 k4).
  { rewrite Ev, 2 app_assoc. apply slice_app; rewrite !zlen_app; lia. }
  assert (S4 : py_slice v (2 * num + 12 + 4) (2 * num + 12 + 8) = hot 4 k5).
  { rewrite Ev, 3 app_assoc. apply slice_app; rewrite !zlen_app; lia. }
  assert (S5 : py_slice v (2 * num + 12 + 8) (2 * num + 12 + 12) = hot 4 k6).
  { rewrite Ev, 4 app_assoc. apply slice_app; rewrite !zlen_app; lia. }
  rewrite S0, S1, S2, S3, S4, S5. rewrite L2, !first_one_hot'. cbn [bind].
  change (12 =? 12) with true. cbn [bind].
  replace (Z.of_nat k2) with (ct_value (red (c_type (fc c)))) by (unfold k2; lia).
  rewrite types_nth. cbn [bind].
  assert (Eadd : match pt with TPC => MIN_RELATIVE_TPC - (if pad then RELATIVE_TPC_EXTRA else 0) | MIDI => 0 end = lowest_root pt true pad)
    by (destruct pt, pad; reflexivity).
  f_equal. f_equal.
  - rewrite <- Rr, <- Eadd. destruct pt; reflexivity.
  - rewrite <- Rb, <- Eadd. unfold k3. destruct pt; lia.
  - unfold last. destruct mode; reflexivity.
  - unfold k4; lia.
  - unfold k5; lia.
  - unfold k6; lia.
Qed.

(* ---- reducing types and inversions ---- *)
Lemma loop_other red t old new : (forall u, py_nth old (ct_value u) = Ok (if ct_eqb u t then 1 else 0)) ->
  forall items, (forall p, In p items -> snd p = red (fst p)) -> (~ In (t, red t) items \/ red t = t) ->
  reduce_types_loop items old new = Ok new.
Proof.
  intros Hold items. induction items as [|[f g] items IH]; intros Hs Hn; [reflexivity|]. cbn [reduce_types_loop].
  assert (Hg : g = red f) by (apply (Hs (f, g)); left; reflexivity). subst g.
  specialize (IH (fun p Hp => Hs p (or_intror Hp))).
  assert (Hn' : ~ In (t, red t) items \/ red t = t) by (destruct Hn as [Hn|Hn]; [left; intros H; apply Hn; right; exact H|right; exact Hn]).
  specialize (IH Hn').
  destruct (ct_eqb f (red f)) eqn:E; [exact IH|]. rewrite Hold. cbn [bind].
  destruct (ct_eqb f t) eqn:Eft; [|exact IH].
  apply ct_eqb_eq in Eft. subst f. destruct Hn as [Hn|Hn].
  - exfalso. apply Hn. left. reflexivity.
  - rewrite Hn, ct_eqb_refl in E. discriminate.
Qed.

Lemma loop_hit red t old new : (forall u, py_nth old (ct_value u) = Ok (if ct_eqb u t then 1 else 0)) ->
  red t <> t -> zlen new = 12 -> reduce_types_loop (map (fun u => (u, red u)) all_chord_types) old new
  = Ok (upd_nat new (Z.to_nat (ct_value (red t))) 1).
Proof.
  intros Hold Hne Hlen.
  assert (G : forall l, NoDup l -> In t l -> reduce_types_loop (map (fun u => (u, red u)) l) old new
     = Ok (upd_nat new (Z.to_nat (ct_value (red t))) 1)).
  { induction l as [|f l IH]; intros Hnd Hin; [contradiction|]. inversion Hnd as [|? ? Hf Hl]; subst.
    cbn [map reduce_types_loop]. destruct Hin as [->|Hin].
    - destruct (ct_eqb t (red t)) eqn:E; [apply ct_eqb_eq in E; congruence|].
      rewrite Hold, ct_eqb_refl. cbn [bind]. change (1 =? 1) with true. cbn match.
      pose proof (ct_value_bound (red t)). rewrite py_upd_pos by lia. cbn [bind].
      apply (loop_other red t); [exact Hold| |left].
      + intros p Hp. apply in_map_iff in Hp as (u & <- & _). reflexivity.
      + intros Hp. apply in_map_iff in Hp as (u & Eu & Hu). injection Eu as -> _. contradiction.
    - destruct (ct_eqb f (red f)); [exact (IH Hl Hin)|]. rewrite Hold. cbn [bind].
      destruct (ct_eqb f t) eqn:E; [apply ct_eqb_eq in E; subst; contradiction|]. exact (IH Hl Hin). }
  apply G; [exact all_chord_types_nodup|apply all_chord_types_complete].
Qed.

Lemma hot_types u t : py_nth (hot 12 (Z.to_nat (ct_value t))) (ct_value u) = Ok (if ct_eqb u t then 1 else 0).
Proof. destruct u, t; reflexivity. Qed.

Lemma assign_slice_app (a b c new : list Z) x y : x = zlen a -> y = zlen a + zlen b -> zlen new = zlen b ->
  assign_slice (a ++ b ++ c) x y new = Ok (a ++ new ++ c).
Proof.
  intros -> -> Hn. unfold assign_slice. pose proof (zlen_nonneg a). pose proof (zlen_nonneg b). pose proof (zlen_nonneg c).
  assert (B1 : py_bound (zlen (a ++ b ++ c)) (zlen a) = zlen a) by (unfold py_bound; rewrite !zlen_app; destruct (Z.ltb_spec (zlen a) 0); lia).
  assert (B2 : py_bound (zlen (a ++ b ++ c)) (zlen a + zlen b) = zlen a + zlen b)
    by (unfold py_bound; rewrite !zlen_app; destruct (Z.ltb_spec (zlen a + zlen b) 0); lia).
  rewrite B1, B2. replace (Z.max (zlen a) (zlen a + zlen b)) with (zlen a + zlen b) by lia.
  rewrite Hn. destruct (Z.eqb_spec (zlen a + zlen b - zlen a) (zlen b)); [|lia].
  f_equal. unfold zlen. rewrite Nat2Z.id, firstn_app, firstn_all, Nat.sub_diag. cbn [firstn]. rewrite app_nil_r.
  do 2 f_equal. replace (Z.to_nat (Z.of_nat (length a) + Z.of_nat (length b))) with (length (a ++ b)) by (rewrite app_length; lia).
  rewrite app_assoc, skipn_app, skipn_all, Nat.sub_diag. reflexivity.
Qed.

Lemma reduce_row pt pad red t a c : zlen a = decode_num_pitches pt pad ->
  reduce_types_row pt pad (Some red) (a ++ hot 12 (Z.to_nat (ct_value t)) ++ c)
  = Ok (a ++ (if ct_eqb (red t) t then repeat 0 12 else hot 12 (Z.to_nat (ct_value (red t)))) ++ c).
Proof.
  intros Ha. unfold reduce_types_row, chord_type_index. change (zlen all_chord_types) with 12.
  pose proof (ct_value_bound t) as Bt. pose proof (ct_value_bound (red t)) as Br.
  assert (L : zlen (hot 12 (Z.to_nat (ct_value t))) = 12) by (rewrite zlen_hot; lia).
  rewrite slice_app by (rewrite ?L; lia).
  assert (Ez : map (fun _ : Z => 0) (hot 12 (Z.to_nat (ct_value t))) = repeat 0 12) by (destruct t; reflexivity).
  rewrite Ez.
  destruct (ct_eqb (red t) t) eqn:E.
  - rewrite (loop_other red t); [|intros u; apply hot_types| |right; apply ct_eqb_eq; exact E].
    + cbn [bind]. apply assign_slice_app; rewrite ?L; try lia. reflexivity.
    + intros p Hp. apply in_map_iff in Hp as (u & <- & _). reflexivity.
  - rewrite (loop_hit red t); [|intros u; apply hot_types|intros Hx; rewrite Hx, ct_eqb_refl in E; discriminate|reflexivity].
    cbn [bind]. rewrite upd_repeat by lia. apply assign_slice_app; rewrite ?L; try lia.
    fold (hot 12 (Z.to_nat (ct_value (red t)))). rewrite zlen_hot; lia.
Qed.

Lemma zsum_hot4 i : (i < 4)%nat -> zsum (hot 4 i) = 1.
Proof. intros H. do 4 (destruct i as [|i]; [reflexivity|]). lia. Qed.

Lemma remove_row pt pad a i c : zlen a = 2 * decode_num_pitches pt pad + 12 -> (i < 4)%nat ->
  remove_inversions_row pt pad (a ++ hot 4 i ++ c) = Ok (a ++ hot 4 0 ++ c).
Proof.
  intros Ha Hi. unfold remove_inversions_row, inversion_index. change (zlen all_chord_types) with 12.
  assert (L : zlen (hot 4 i) = 4) by (rewrite zlen_hot; lia).
  rewrite slice_app by (rewrite ?L; lia).
  do 4 (destruct i as [|i]; [apply assign_slice_app; rewrite ?L; (lia || reflexivity)|]). lia.
Qed.

(* ---- one-hot reduction ---- *)
Lemma relative_root_back pt rel pad r : 0 <= r < root_count pt rel pad ->
  (if rel then absolute_to_relative (r + lowest_root pt rel pad) 0 pt false pad else Ok (r + lowest_root pt rel pad)) = Ok r.
Proof.
  intros H. destruct rel.
  - unfold absolute_to_relative. destruct pt.
    + destruct pad; cbn [andb negb lowest_root root_count] in *; unfold MIN_RELATIVE_TPC, MAX_RELATIVE_TPC, RELATIVE_TPC_EXTRA;
        (destruct (_ || _) eqn:E; [apply orb_true_iff in E as [E|E]; [apply Z.ltb_lt in E|apply Z.leb_le in E]; lia|f_equal; lia]).
    + unfold transpose_pitch. f_equal. cbn [NUM_PITCHES]. cbn [root_count] in H.
      replace (lowest_root MIDI true pad) with 0 by (destruct pad; reflexivity).
      rewrite Z.mod_small; lia.
  - f_equal. destruct pt, pad; cbn [lowest_root]; lia.
Qed.

Lemma reduce_one_of_encode t root pt inv ip rel pad rp i red ui :
  get_chord_one_hot_index t root pt inv ip rel pad rp = Ok i ->
  reduce_one_hot pad pt ip rp rel red ui i
  = get_chord_one_hot_index (rp t) root pt (if ip then inv else 0) ui rel pad red.
Proof.
  intros H. unfold reduce_one_hot. rewrite (roundtrip_s _ _ _ _ _ _ _ _ _ H). cbn [bind].
  destruct (rejects_s t root pt inv ip rel pad rp) as [[E _]|(j & E & Hr & _)]; [congruence|].
  rewrite relative_root_back by exact Hr. reflexivity.
Qed.

Lemma reduce_one_identity pt ip rel pad rp i : (forall u, rp (rp u) = rp u) ->
  0 <= i < get_chord_vector_length pt true rel ip pad rp ->
  reduce_one_hot pad pt ip rp rel rp ip i = Ok i.
Proof.
  intros Hid Hi. destruct (decode_encode_s i pt ip rel pad rp Hi) as (root & t & inv & Hd & (u & Hu) & Hr & Hinv & Henc).
  assert (Ht : rp t = t) by (rewrite <- Hu; apply Hid).
  specialize (Henc t Ht). unfold reduce_one_hot. rewrite Hd. cbn [bind].
  pose proof (relative_root_back pt rel pad (root - lowest_root pt rel pad) ltac:(lia)) as Hb.
  replace (root - lowest_root pt rel pad + lowest_root pt rel pad) with root in Hb by lia.
  rewrite Hb. cbn [bind]. exact Henc.
Qed.

(* ---- notes ---- *)
Lemma note_transpose_ok pt p rest interval pto : 0 <= p < NUM_PITCHES pt -> 0 <= p + interval < NUM_PITCHES pt ->
  zlen rest = num_octaves + num_octaves + 16 -> (pto = None \/ pto = Some pt) ->
  transpose_note_vector (hot (Z.to_nat (NUM_PITCHES pt)) (Z.to_nat p) ++ rest) interval pto
  = Ok (hot (Z.to_nat (NUM_PITCHES pt)) (Z.to_nat (p + interval)) ++ rest).
Proof.
  intros Hp Hq Hr Hpt. unfold transpose_note_vector.
  assert (L1 : zlen (hot (Z.to_nat (NUM_PITCHES pt)) (Z.to_nat p)) = NUM_PITCHES pt) by (rewrite zlen_hot; lia).
  assert (L : zlen (hot (Z.to_nat (NUM_PITCHES pt)) (Z.to_nat p) ++ rest) = get_note_vector_length pt).
  { rewrite zlen_app, L1, Hr. unfold get_note_vector_length. lia. }
  assert (Ept : (match pto with Some p0 => Ok p0 | None =>
     if zlen (hot (Z.to_nat (NUM_PITCHES pt)) (Z.to_nat p) ++ rest) =? get_note_vector_length TPC then Ok TPC
     else if zlen (hot (Z.to_nat (NUM_PITCHES pt)) (Z.to_nat p) ++ rest) =? get_note_vector_length MIDI then Ok MIDI else Raise ValueError end) = Ok pt).
  { destruct Hpt as [-> | ->]; [|reflexivity]. rewrite L. destruct pt; reflexivity. }
  rewrite Ept. cbn [bind]. rewrite first_one_hot. cbn [bind]. rewrite Z2Nat.id by lia.
  destruct (Z.ltb_spec p (NUM_PITCHES pt)); [|lia]. cbn [bind].
  destruct (Z.leb_spec 0 p); [|lia]. cbn [andb]. cbn [negb]. destruct (Z.ltb_spec p (NUM_PITCHES pt)); [|lia]. cbn [negb].
  rewrite py_upd_pos by (rewrite L; unfold get_note_vector_length; change num_octaves with 10; lia). cbn [bind].
  assert (E0 : upd_nat (hot (Z.to_nat (NUM_PITCHES pt)) (Z.to_nat p) ++ rest) (Z.to_nat p) 0
     = repeat 0 (Z.to_nat (NUM_PITCHES pt)) ++ rest).
  { assert (G : forall k m (r : list Z), upd_nat ((repeat 0 k ++ 1 :: m) ++ r) k 0 = (repeat 0 k ++ 0 :: m) ++ r).
    { induction k; intros m r; [reflexivity|]. cbn [repeat app upd_nat]. f_equal. apply IHk. }
    unfold hot. rewrite G. f_equal. rewrite <- (upd_repeat _ _ 0) by lia.
    generalize (Z.to_nat (NUM_PITCHES pt)) (Z.to_nat p). clear. induction n; intros m; [reflexivity|].
    destruct m; cbn [repeat upd_nat]; [reflexivity|f_equal; apply IHn]. }
  rewrite E0. rewrite py_upd_pos by (rewrite zlen_app; unfold zlen at 1; rewrite repeat_length; pose proof (zlen_nonneg rest); lia).
  f_equal. assert (G2 : forall k (a b : list Z) v, (k < length a)%nat -> upd_nat (a ++ b) k v = upd_nat a k v ++ b).
  { induction k; intros a b v Hk; destruct a; cbn [length] in Hk; try lia; [reflexivity|]. cbn [app upd_nat]. f_equal. apply IHk. lia. }
  rewrite G2 by (rewrite repeat_length; lia). rewrite upd_repeat by lia. reflexivity.
Qed.

Lemma decode_note_always_raises v p : decode_note_vector v <> Ok p.
Proof.
  unfold decode_note_vector. intros H.
  destruct (if zlen v =? get_note_vector_length TPC then Ok TPC else _) as [pt|]; [|discriminate]. cbn [bind] in H.
  destruct (first_one v) as [i|]; [|discriminate]. cbn [bind] in H.
  destruct (if i <? NUM_PITCHES pt then Ok i else _) as [q|]; [|discriminate]. cbn [bind] in H.
  destruct (first_one _) as [a|]; [|discriminate]. cbn [bind] in H.
  destruct (first_one _) as [b|]; [|discriminate]. cbn [bind] in H.
  destruct (first_one _) as [d|]; [|discriminate]. cbn [bind] in H.
  destruct (Z.eqb_spec (zlen (py_slice v (NUM_PITCHES pt + num_octaves + 8) (NUM_PITCHES pt + num_octaves + 11))) 5) as [E|]; [|discriminate].
  assert (Hp : 0 <= NUM_PITCHES pt) by (destruct pt; vm_compute; discriminate).
  rewrite py_slice_spec in E by (change num_octaves with 10; lia).
  unfold zlen in E. rewrite firstn_length in E.
  replace (Z.to_nat (NUM_PITCHES pt + num_octaves + 11 - (NUM_PITCHES pt + num_octaves + 8))) with 3%nat in E by lia. lia.
Qed.

(* ---- tensors ---- *)
Lemma to_vec_other c rt pad r1 v r2 : to_vec c rt pad r1 = Ok v ->
  exists v', to_vec c rt pad r2 = Ok v'.
Proof.
  unfold to_vec. rewrite num_pitches_cases. intros H.
  destruct (absolute_to_relative (c_root (fc c)) _ _ _ _) as [ir|]; [|discriminate]. cbn [bind] in *.
  destruct (one_hot_vec _ ir) as [v1|]; [|discriminate]. cbn [bind] in *.
  destruct (one_hot_vec (zlen all_chord_types) _) as [v2|]; [|discriminate]. cbn [bind] in *.
  assert (E2 : exists v2', one_hot_vec (zlen all_chord_types) (ct_value (r2 (c_type (fc c)))) = Ok v2')
    by (destruct (r2 (c_type (fc c))); eexists; reflexivity).
  destruct E2 as (v2' & ->). cbn [bind].
  destruct (absolute_to_relative (c_bass (fc c)) _ _ _ _) as [ib|]; [|discriminate]. cbn [bind] in *.
  destruct (one_hot_vec _ ib) as [v3|]; [|discriminate]. cbn [bind] in *.
  destruct (one_hot_vec 4 (c_inv (fc c))) as [v4|]; [|discriminate]. cbn [bind] in *.
  destruct (one_hot_vec 4 (fc_onset_level c)) as [v5|]; [|discriminate]. cbn [bind] in *.
  destruct (one_hot_vec 4 (fc_offset_level c)) as [v6|]; [|discriminate]. cbn [bind] in *.
  eexists. reflexivity.
Qed.

Definition fields_ok (c : full_chord) : Prop :=
  0 <= c_inv (fc c) /\ 0 <= fc_onset_level c /\ 0 <= fc_offset_level c.

(* one row, after the fact = before *)
Lemma reduce_row_to_vec c rt pad red v v' : fields_ok c -> red (c_type (fc c)) <> c_type (fc c) ->
  to_vec c rt pad NO_REDUCTION = Ok v -> to_vec c rt pad red = Ok v' ->
  reduce_types_row (c_pt (fc c)) pad (Some red) v = Ok v'.
Proof.
  intros (H1 & H2 & H3) Hne Hv Hv'.
  destruct (to_vec_blocks _ _ _ _ _ Hv H1 H2 H3) as (ir & ib & Er & Eb & _ & _ & _ & Ev).
  destruct (to_vec_blocks _ _ _ _ _ Hv' H1 H2 H3) as (ir' & ib' & Er' & Eb' & _ & _ & _ & Ev').
  rewrite Er in Er'. apply Ok_inj in Er'. subst ir'. rewrite Eb in Eb'. apply Ok_inj in Eb'. subst ib'.
  destruct (abs_rel_ok _ _ _ _ _ Er) as [Br _].
  rewrite Ev, Ev'. unfold NO_REDUCTION. rewrite reduce_row by (rewrite zlen_hot; lia).
  destruct (ct_eqb (red (c_type (fc c))) (c_type (fc c))) eqn:E; [apply ct_eqb_eq in E; contradiction|]. reflexivity.
Qed.
Lemma reduce_row_fixed c rt pad red v : fields_ok c -> red (c_type (fc c)) = c_type (fc c) ->
  to_vec c rt pad NO_REDUCTION = Ok v ->
  exists v', reduce_types_row (c_pt (fc c)) pad (Some red) v = Ok v'
    /\ decode_chord_vector v' pad (Some (c_pt (fc c))) = Raise IndexError.
Proof.
  intros (H1 & H2 & H3) He Hv.
  destruct (to_vec_blocks _ _ _ _ _ Hv H1 H2 H3) as (ir & ib & Er & Eb & _ & _ & _ & Ev).
  destruct (abs_rel_ok _ _ _ _ _ Er) as [Br _].
  rewrite Ev. unfold NO_REDUCTION. rewrite reduce_row by (rewrite zlen_hot; lia).
  rewrite He, ct_eqb_refl. eexists. split; [reflexivity|].
  unfold decode_chord_vector. cbn [bind]. rewrite first_one_hot. cbn [bind].
  change (zlen all_chord_types) with 12.
  rewrite slice_app by (rewrite ?zlen_hot by lia; try (unfold zlen at 1; cbn [length repeat]); lia).
  reflexivity.
Qed.
Lemma remove_row_decode c rt pad red v : fields_ok c -> to_vec c rt pad red = Ok v ->
  exists v', remove_inversions_row (c_pt (fc c)) pad v = Ok v'
   /\ to_vec {| fc := {| c_root := c_root (fc c); c_bass := c_bass (fc c); c_tonic := c_tonic (fc c);
                         c_mode := c_mode (fc c); c_type := c_type (fc c); c_inv := 0; c_pt := c_pt (fc c) |};
                fc_onset_level := fc_onset_level c; fc_offset_level := fc_offset_level c;
                fc_duration := fc_duration c |} rt pad red = Ok v'.
Proof.
  intros (H1 & H2 & H3) Hv.
  assert (Ex : exists w, to_vec {| fc := {| c_root := c_root (fc c); c_bass := c_bass (fc c); c_tonic := c_tonic (fc c);
                         c_mode := c_mode (fc c); c_type := c_type (fc c); c_inv := 0; c_pt := c_pt (fc c) |};
                fc_onset_level := fc_onset_level c; fc_offset_level := fc_offset_level c;
                fc_duration := fc_duration c |} rt pad red = Ok w).
  { pose proof Hv as H. unfold to_vec in *. cbn [fc c_root c_bass c_tonic c_mode c_type c_inv c_pt fc_onset_level fc_offset_level fc_duration].
    rewrite num_pitches_cases in *.
    destruct (absolute_to_relative (c_root (fc c)) _ _ _ _) as [ir|]; [|discriminate]. cbn [bind] in *.
    destruct (one_hot_vec _ ir) as [v1|]; [|discriminate]. cbn [bind] in *.
    destruct (one_hot_vec (zlen all_chord_types) _) as [v2|]; [|discriminate]. cbn [bind] in *.
    destruct (absolute_to_relative (c_bass (fc c)) _ _ _ _) as [ib|]; [|discriminate]. cbn [bind] in *.
    destruct (one_hot_vec _ ib) as [v3|]; [|discriminate]. cbn [bind] in *.
    destruct (one_hot_vec 4 (c_inv (fc c))) as [v4|]; [|discriminate]. cbn [bind] in *.
    assert (E4 : exists v4', one_hot_vec 4 0 = Ok v4') by (eexists; reflexivity). destruct E4 as (v4' & ->). cbn [bind].
    destruct (one_hot_vec 4 (fc_onset_level c)) as [v5|]; [|discriminate]. cbn [bind] in *.
    destruct (one_hot_vec 4 (fc_offset_level c)) as [v6|]; [|discriminate]. cbn [bind] in *.
    eexists. reflexivity. }
  destruct Ex as (w & Hw). exists w. split; [|exact Hw].
  destruct (to_vec_blocks _ _ _ _ _ Hv H1 H2 H3) as (ir & ib & Er & Eb & I4 & _ & _ & Ev).
  destruct (to_vec_blocks _ _ _ _ _ Hw ltac:(cbn; lia) H2 H3) as (ir' & ib' & Er' & Eb' & _ & _ & _ & Ew).
  cbn [fc c_root c_bass c_tonic c_mode c_type c_inv c_pt fc_onset_level fc_offset_level fc_duration] in Er', Eb', Ew.
  rewrite Er in Er'. apply Ok_inj in Er'. subst ir'. rewrite Eb in Eb'. apply Ok_inj in Eb'. subst ib'.
  destruct (abs_rel_ok _ _ _ _ _ Er) as [Br _]. destruct (abs_rel_ok _ _ _ _ _ Eb) as [Bb _].
  pose proof (ct_value_bound (red (c_type (fc c)))) as Ht.
  rewrite Ev, Ew. rewrite !(app_assoc (hot 12 _)), !(app_assoc (hot _ (Z.to_nat ir))).
  rewrite remove_row; [reflexivity| |lia].
  rewrite !zlen_app, !zlen_hot by lia. lia.
Qed.

Lemma mapM_rows {A} (f g : A -> res (list Z)) h l vs : mapM f l = Ok vs ->
  (forall a v, In a l -> f a = Ok v -> h v = g a) -> mapM h vs = mapM g l.
Proof.
  revert vs; induction l as [|a l IH]; intros vs H Hs; cbn [mapM] in *.
  - apply Ok_inj in H. subst. reflexivity.
  - destruct (f a) as [v|] eqn:E; [|discriminate]. cbn [bind] in H.
    destruct (mapM f l) as [ws|] eqn:E'; [|discriminate]. cbn [bind] in H. apply Ok_inj in H. subst vs.
    cbn [mapM]. rewrite (Hs a v (or_introl eq_refl) E). rewrite (IH ws eq_refl); [reflexivity|].
    intros b w Hb. apply Hs. right; exact Hb.
Qed.
Lemma mapM_length {A B} (f : A -> res B) l vs : mapM f l = Ok vs -> length vs = length l.
Proof.
  revert vs; induction l as [|a l IH]; intros vs H; cbn [mapM] in *.
  - apply Ok_inj in H. subst. reflexivity.
  - destruct (f a); [|discriminate]. cbn [bind] in H. destruct (mapM f l) as [ws|]; [|discriminate].
    cbn [bind] in H. apply Ok_inj in H. subst. cbn [length]. f_equal. apply IH. reflexivity.
Qed.

Lemma tensor_pt c cs rt pad red v vs pt : fields_ok c -> c_pt (fc c) = pt -> to_vec c rt pad red = Ok v ->
  tensor_pitch_type (v :: vs) pad None = Ok pt /\ tensor_pitch_type (v :: vs) pad (Some pt) = Ok pt
  /\ (cs : list full_chord) = cs.
Proof.
  intros (H1 & H2 & H3) <- Hv. split; [|auto]. cbn [tensor_pitch_type].
  destruct (to_vec_decode c rt pad red v None Hv H1 H2 H3 (or_introl eq_refl)) as (_ & L & _).
  rewrite L, vec_len. apply infer_ok.
Qed.
