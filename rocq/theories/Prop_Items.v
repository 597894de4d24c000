(* Properties C43, C44, C66, C67: what datasets store and return. *)
From Coq Require Import QArith Permutation Lia.
From Verif Require Import Proof_Base Spec_Dataset Proof_Dataset Proof_Items Proof_KeyItems Proof_KeySeq Proof_Widths Prop_Codec.
Close Scope Q_scope.
Open Scope Z_scope.

(* ---- C43: writing a dataset to a file and reading it back ---- *)
Theorem C43_roundtrip : forall f16 ds, well_formed ds -> exact f16 ds -> hd_inputs ds <> [] ->
  exists h o', to_h5 f16 (fresh ds) = Ok (h, o') /\ h5_to_dataset f16 h = Ok ds
    /\ forall i, h5_getitem h i = hd_getitem ds i.
Proof.
  intros f16 ds W X N. destruct (pad_ds_ok f16 ds W X N) as (n & ds' & En & Ep & I1 & I2 & I3 & I4).
  assert (X' := X). destruct X' as (X1 & _ & X3).
  unfold to_h5, hd_pad. cbn [fresh ho_padded ho_ds]. rewrite Ep. cbn [bind ho_ds].
  eexists _, _. split; [reflexivity|]. split.
  - unfold h5_to_dataset. cbn [h_inputs h_targets h_input_lengths h_target_lengths]. rewrite I1, I2, I3.
    destruct W as (W1 & W2 & W3 & W4). rewrite W1.
    rewrite (load_ragged_padded (map f16)) by exact (exact_rows f16 ds X).
    destruct ds as [xs ls ts tl]. cbn [hd_inputs hd_input_lengths hd_targets hd_target_lengths] in *.
    destruct ts as [l|l], tl as [tl|]; try contradiction.
    + destruct I4 as (m & Em & ->). destruct W4 as (-> & _). rewrite load_ragged_padded by exact X3. congruence.
    + rewrite I4. rewrite map_fixed by exact X3. congruence.
  - intros i. rewrite <- (padded_item f16 ds ds' i W X Ep N).
    destruct W as (W1 & W2 & (w & W3) & W4).
    unfold h5_getitem, hd_getitem, hd_read. cbn [h_inputs h_targets h_input_lengths h_target_lengths fresh ho_ds ho_max_in ho_max_t cached].
    rewrite I1, I2, I3, hget_map, En. destruct (hget (hd_inputs ds) i) as [inputs|e] eqn:Ei; [|reflexivity]. cbn [bind].
    assert (Hin := hget_in _ _ _ Ei). assert (Hne : inputs <> []) by (rewrite Forall_forall in W2; auto).
    assert (Hw : forall l r, In l (hd_inputs ds) -> In r l -> length r = w).
    { intros l r Hl Hr. rewrite Forall_forall in W3. specialize (W3 l Hl). rewrite Forall_forall in W3. auto. }
    assert (Hlen : (length inputs <= n)%nat) by (apply np_max_spec in En as [_ En]; apply En; rewrite W1; now apply in_map).
    assert (Hl : hget (hd_input_lengths ds) i = Ok (length inputs)) by (rewrite W1, hget_map, Ei; reflexivity).
    rewrite Hl. cbn [bind].
    assert (Hp : padded_inputs ds' (padded (zeros (width ds)) n inputs) n i = Ok (padded (zeros (width ds)) n inputs, length inputs)).
    { unfold padded_inputs. rewrite I2, Hl. assert (Hh : exists r, hget (padded (zeros (width ds)) n inputs) 0 = Ok r) by (destruct inputs; [congruence|eexists; reflexivity]).
      destruct Hh as (r & ->). cbn [bind]. rewrite pad_to_ok by (rewrite padded_length by exact Hlen; lia). cbn [bind]. do 2 f_equal.
      unfold padded at 1. rewrite padded_length by exact Hlen. rewrite Nat.sub_diag. apply app_nil_r. }
    rewrite Hp. unfold target_at. destruct (hd_targets ds) as [l|l], (hd_target_lengths ds) as [tl|]; try contradiction.
    + destruct I4 as (m & Em & ->). destruct W4 as (-> & Hll & Hnt). rewrite !hget_map. rewrite Em.
      destruct (hget l i) as [t|e] eqn:Et; [|reflexivity]. cbn [bind fst].
      assert (Htin := hget_in _ _ _ Et). assert (Htne : t <> []) by (rewrite Forall_forall in Hnt; auto).
      assert (Hml : (length t <= m)%nat) by (apply np_max_spec in Em as [_ Em]; apply Em; now apply in_map).
      assert (Hh : exists r, hget (padded 0 m t) 0 = Ok r) by (destruct t; [congruence|eexists; reflexivity]).
      destruct Hh as (r & ->). cbn [bind]. rewrite pad_to_ok by (rewrite padded_length by exact Hml; lia). cbn [bind].
      do 2 f_equal. symmetry. unfold padded at 1. rewrite padded_length by exact Hml. rewrite Nat.sub_diag. apply app_nil_r.
    + rewrite I4. destruct (hget l i) as [t|e]; reflexivity.
Qed.
Print Assumptions C43_roundtrip.

(* the chord sequence dataset of pieces with one pitch type meets the hypotheses *)
Theorem C43_csd : forall f16 pieces ds pt, csd pieces = Ok ds -> pieces <> [] ->
  Forall (fun p => dp_pt p = pt /\ Forall (fun c => c_pt (fc c) = pt) (dp_chords p)) pieces -> exact f16 ds ->
  exists h o', to_h5 f16 (fresh ds) = Ok (h, o') /\ h5_to_dataset f16 h = Ok ds
    /\ forall i, h5_getitem h i = hd_getitem ds i.
Proof.
  intros f16 pieces ds pt H Hne Hpt X. assert (W : well_formed ds /\ hd_inputs ds <> []); [|apply C43_roundtrip; tauto].
  unfold csd in H. apply bind_ok in H as (l & El & H). apply Ok_inj in H. subst ds. apply mapM_forall2 in El. cbn [hd_inputs].
  split; [|destruct El; [congruence|discriminate]]. clear X Hne. unfold well_formed. cbn [hd_inputs hd_input_lengths hd_targets hd_target_lengths].
  rewrite !map_map. split; [reflexivity|].
  set (w := Z.to_nat (get_chord_vector_length pt false true true false NO_REDUCTION + (1 + get_key_change_vector_length pt false))).
  assert (A : Forall (fun x : list row * list Z => fst x <> [] /\ Forall (fun r => length r = w) (fst x) /\ snd x <> []) l).
  { induction El as [|p [x t] ps l Hp F IH]; constructor; [|apply IH; now inversion Hpt].
    apply bind_ok in Hp as (x' & Ex & Hp). apply bind_ok in Hp as (t' & Et & Hp). apply Ok_inj in Hp. injection Hp as -> ->. cbn [fst snd].
    destruct (piece_foreign _ _ _ Ex) as [Hx _]. split; [exact Hx|]. inversion Hpt as [|? ? [Hp1 Hp2] _]; subst.
    unfold piece_rows in Ex. destruct (dp_keys p) as [|k0 ks] eqn:Ek; [discriminate|]. rewrite <- Ek in Ex. apply bind_ok in Ex as (rs & Ers & Ex).
    assert (Er : x = concat rs) by (destruct rs; [discriminate|apply Ok_inj in Ex; congruence]). clear Ex. subst x. apply mapM_forall2 in Ers. split.
    - apply Forall_concat. clear Hx. induction Ers as [|[[prev key] [a b]] r ss rs Hs F2 IH2]; constructor; [|exact IH2]. clear IH2 F2 IH F.
      unfold section_rows in Hs. apply bind_ok in Hs as (vs & Ev & Hs). apply mapM_forall2 in Ev.
      assert (Hall : forall v, In v vs -> zlen v = get_chord_vector_length (dp_pt p) false true true false NO_REDUCTION).
      { intros v Hv. apply In_nth_error in Hv as (j & Hj). destruct (forall2_nth_r _ _ _ Ev j v Hj) as (c & Hc & Hc2). apply to_vec_len in Hc2. rewrite Hc2. f_equal.
        rewrite Forall_forall in Hp2. apply Hp2. apply nth_error_In in Hc. unfold between in Hc. 
        rewrite <- (firstn_skipn a (dp_chords p)). apply in_or_app. right. rewrite <- (firstn_skipn (b - a) (skipn a (dp_chords p))). apply in_or_app. now left. }
      destruct vs as [|v vs]; [discriminate|]. apply bind_ok in Hs as (k & Ekk & Hs). apply Ok_inj in Hs. subst r.
      assert (Hk : zlen k = 1 + get_key_change_vector_length (dp_pt p) false).
      { destruct prev as [q|]; [|apply Ok_inj in Ekk; subst k; apply blank_len].
        apply bind_ok in Ekk as (kv & Ekv & Ekk). apply Ok_inj in Ekk. subst k. apply key_change_len in Ekv. unfold zlen in *. rewrite app_length. cbn [length]. lia. }
      assert (Hb := blank_len (dp_pt p)).
      constructor.
      + specialize (Hall v (or_introl eq_refl)). unfold w, zlen in *. rewrite app_length. lia.
      + apply Forall_forall. intros r Hr. apply in_map_iff in Hr as (v' & <- & Hv'). specialize (Hall v' (or_intror Hv')). unfold w, zlen in *. rewrite app_length. lia.
    - intros ->. unfold csd_targets in Et. destruct (dp_chords p) as [|c cs] eqn:Ec.
      + destruct rs as [|r rs]; [now apply Hx|]. inversion Ers as [|[[prev key] [a b]] ? ? ? Hs _]; subst. unfold section_rows, between in Hs.
        rewrite skipn_nil, firstn_nil in Hs. discriminate.
      + cbn [mapM] in Et. apply bind_ok in Et as (? & _ & Et). apply bind_ok in Et as (? & _ & Et). discriminate. }
  split; [apply Forall_map; eapply Forall_impl; [|exact A]; cbn; tauto|].
  split; [exists w; apply Forall_map; eapply Forall_impl; [|exact A]; cbn; tauto|].
  split; [reflexivity|]. split; [now rewrite !map_length|]. apply Forall_map; eapply Forall_impl; [|exact A]; cbn; tauto.
Qed.
Print Assumptions C43_csd.

(* two pieces in C major, the first of four chords with a modulation to the dominant *)
Definition chord43 (root tonic : Z) (m : key_mode) : full_chord :=
  {| fc := {| c_root := root; c_bass := root; c_type := Maj; c_inv := 0; c_tonic := tonic; c_mode := m; c_pt := MIDI |};
     fc_onset_level := 0; fc_offset_level := 0; fc_duration := 1 |}.
Definition piece43a : dpiece :=
  mkDP [chord43 0 0 MAJOR; chord43 5 0 MAJOR; chord43 7 7 MAJOR; chord43 2 7 MAJOR] [(0, MAJOR); (7, MAJOR)] [0; 2]%nat MIDI.
Definition piece43b : dpiece := mkDP [chord43 0 0 MINOR; chord43 7 0 MINOR] [(0, MINOR)] [0]%nat MIDI.
Example C43_ex : exists ds, csd [piece43a; piece43b] = Ok ds
  /\ Forall (fun p => dp_pt p = MIDI /\ Forall (fun c => c_pt (fc c) = MIDI) (dp_chords p)) [piece43a; piece43b]
  /\ exact (fun x => x) ds.
Proof.
  destruct (csd [piece43a; piece43b]) as [ds|] eqn:E; [|vm_compute in E; discriminate]. exists ds. split; [reflexivity|]. split.
  - repeat constructor.
  - split; [reflexivity|]. split; [repeat (apply Forall_forall; intros); reflexivity|].
    destruct (hd_targets ds); repeat (apply Forall_forall; intros); reflexivity.
Qed.

(* an empty dataset cannot be written *)
Theorem C43_empty_refuted : exists ds, csd [] = Ok ds /\ forall f16, to_h5 f16 (fresh ds) = Raise ValueError.
Proof. eexists. split; reflexivity. Qed.
Print Assumptions C43_empty_refuted.

(* The key datasets store one input per piece but one length per item: reading the file cuts the
   inputs by the lengths of other items. *)
Theorem C43_key_refuted : exists ds h i it it', ktd [piece43a; piece43b] = Ok ds /\ key_to_h5 (fun x => x) ds = Ok h
  /\ read_key true ds i = Ok it /\ read_key true (h5_to_key_dataset (fun x => x) h) i = Ok it'
  /\ firstn (ki_length it) (ki_inputs it) <> firstn (ki_length it) (ki_inputs it').
Proof.
  destruct (ktd [piece43a; piece43b]) as [ds|] eqn:E; [|vm_compute in E; discriminate].
  destruct (key_to_h5 (fun x => x) ds) as [h|] eqn:Eh; [|vm_compute in E; apply Ok_inj in E; subst ds; vm_compute in Eh; discriminate].
  vm_compute in E. apply Ok_inj in E. subst ds. vm_compute in Eh. apply Ok_inj in Eh. subst h.
  eexists _, _, 1%nat, _, _. split; [reflexivity|]. split; [reflexivity|]. split; [vm_compute; reflexivity|]. split; [vm_compute; reflexivity|].
  vm_compute. discriminate.
Qed.
Print Assumptions C43_key_refuted.

(* ---- C44: what is read does not depend on what was read before ---- *)
Theorem C44_items : forall f16 ds us, well_formed ds -> exact f16 ds ->
  forall i, fst (hd_read (fold_left (use_one f16) us (fresh ds)) i) = hd_getitem ds i.
Proof. intros f16 ds us W X. apply uses_items; [exact W|exact X|]. left. apply fresh_consistent. Qed.
Print Assumptions C44_items.
(* reads alone need no hypothesis *)
Theorem C44_reads : forall ds is i, fst (hd_read (fold_left (fun o j => snd (hd_read o j)) is (fresh ds)) i) = hd_getitem ds i.
Proof.
  intros ds is i. assert (C : consistent ds (fold_left (fun o j => snd (hd_read o j)) is (fresh ds))); [|exact (proj1 (read_indep _ _ i C))].
  assert (C := fresh_consistent ds). revert C. generalize (fresh ds). induction is as [|j is IH]; intros o C; cbn [fold_left]; [exact C|].
  apply IH. exact (proj1 (proj2 (read_indep _ _ j C))).
Qed.
Print Assumptions C44_reads.

(* The key datasets: missing is the item of a piece that has the maximal length and of which
   another item was read before. *)
Theorem C44_key_partial : forall tr ds is i pi j n rows,
  item_at (kd_pieces ds) i pi j -> np_max (kd_lengths ds) = Ok n -> nth_error (kd_inputs ds) pi = Some rows ->
  (forall k, In k is -> exists qi m, item_at (kd_pieces ds) k qi m /\ (qi <> pi \/ (length rows < n)%nat)) ->
  read_key tr (fold_left (after_read tr) is ds) i = read_key tr ds i.
Proof.
  intros tr ds is. revert ds. induction is as [|k is IH]; intros ds i pi j n rows Hi Hn Hr Hk; cbn [fold_left]; [reflexivity|].
  destruct (Hk k (or_introl eq_refl)) as (qi & m & Hq & Hor). destruct (after_read_same tr ds k qi m n Hq Hn) as (Sm & Hkeep).
  assert (Hr' : nth_error (kd_inputs (after_read tr ds k)) pi = Some rows) by (apply Hkeep; [exact Hr|]; destruct Hor; [left; congruence|right; assumption]).
  destruct Sm as (E1 & E2 & E3 & E4 & E5).
  rewrite (IH (after_read tr ds k) i pi j n rows).
  - symmetry. apply (read_key_same tr ds (after_read tr ds k) i pi j); [repeat split; assumption|exact Hi|congruence].
  - rewrite <- E1. exact Hi.
  - rewrite <- E2. exact Hn.
  - exact Hr'.
  - intros k' Hk'. rewrite <- E1. apply Hk. now right.
Qed.
Print Assumptions C44_key_partial.
Example C44_ex : exists ds, ktd [piece43a; piece43b; piece43b] = Ok ds
  /\ read_key true (fold_left (after_read true) [0; 1; 0; 3; 2]%nat ds) 2 = read_key true ds 2 /\ is_ok (read_key true ds 2) = true.
Proof.
  destruct (ktd [piece43a; piece43b; piece43b]) as [ds|] eqn:E; [|vm_compute in E; discriminate]. exists ds. split; [reflexivity|].
  vm_compute in E. apply Ok_inj in E. subst ds. split; vm_compute; reflexivity.
Qed.
(* In the longest piece, reading the item of the first key overwrites the row of the chord after the
   key change, which the item of the second key begins with. *)
Theorem C44_key_refuted : exists ds it it', ktd [piece43a; piece43b] = Ok ds
  /\ read_key true ds 1 = Ok it /\ read_key true (after_read true ds 0) 1 = Ok it'
  /\ firstn (ki_length it) (ki_inputs it) <> firstn (ki_length it) (ki_inputs it').
Proof.
  destruct (ktd [piece43a; piece43b]) as [ds|] eqn:E; [|vm_compute in E; discriminate].
  vm_compute in E. apply Ok_inj in E. subst ds. eexists _, _, _. split; [reflexivity|]. split; [vm_compute; reflexivity|]. split; [vm_compute; reflexivity|].
  vm_compute. discriminate.
Qed.
Print Assumptions C44_key_refuted.

(* ---- C66: the items of the key datasets ---- *)
(* Item j of a piece covers the rows up to the beginning b of the next key.  The targets are zero
   between the key changes and one at the next one, nothing else is measured.  At the next key
   change stands its chord, seen from the key that ends. *)
Theorem C66_ktd : forall pieces ds p pi i j a b, ktd pieces = Ok ds -> Forall valid_piece pieces ->
  nth_error pieces pi = Some p -> item_at (map (fun p => length (dp_keys p)) pieces) i pi j ->
  nth_error (dp_changes p) j = Some a -> nth_error (tl (dp_changes p) ++ [length (dp_chords p)]) j = Some b ->
  let more := (S j <? length (dp_keys p))%nat in
  exists rows it ts, piece_rows true p = Ok rows /\ read_key true ds i = Ok it
    /\ (a < b)%nat
    /\ ki_length it = (if more then S b else b) /\ (ki_length it <= length (ki_inputs it))%nat
    /\ firstn b (ki_inputs it) = firstn b rows
    /\ ki_target it = TransitionTargets ts /\ length ts = length (ki_inputs it)
    /\ (forall x t, nth_error ts x = Some t ->
         t = if more && (x =? b)%nat then 1 else if (a <? x)%nat && (x <? b)%nat then 0 else -100)
    /\ (more = true -> exists key c v, nth_error (dp_keys p) j = Some key /\ nth_error (dp_chords p) b = Some c
          /\ to_vec c (Some key) true NO_REDUCTION = Ok v
          /\ nth_error (ki_inputs it) b = Some (v ++ zeros (1 + get_key_change_vector_length (dp_pt p) false))).
Proof.
  intros pieces ds p pi i j a b H V Hp Hi Ha Hb more.
  destruct (ktd_item pieces ds p pi i j a b H V Hp Hi Ha Hb) as (rows & it & ts & H1 & H2 & H3 & H4 & H5 & H6 & H7 & H8 & H9 & H10).
  exists rows, it, ts. repeat (split; [assumption|]). intros Hm. destruct (H10 Hm) as (key & c & r & K1 & K2 & K3 & K4).
  unfold replacement in K3. rewrite K2 in K3. apply bind_ok in K3 as (v & Ev & K3). apply Ok_inj in K3. subst r. exists key, c, v. auto.
Qed.
Print Assumptions C66_ktd.
(* every index of the dataset is an item of one piece *)
Theorem C66_ktd_all : forall pieces ds i, ktd pieces = Ok ds -> Forall valid_piece pieces -> (i < length (kd_lengths ds))%nat ->
  exists pi p j, nth_error pieces pi = Some p /\ (j < length (dp_keys p))%nat /\ item_at (map (fun p => length (dp_keys p)) pieces) i pi j.
Proof.
  intros pieces ds i H V Hi. unfold ktd in H. apply bind_ok in H as (l & El & H). apply Ok_inj in H. subst ds.
  destruct (ktd_shapes _ _ V El) as [Sh Ek]. cbn [key_ds_of kd_lengths] in Hi.
  assert (E1 : map (@length nat) (map (fun x : key_piece => snd (fst (fst x))) l) = map (fun p => length (dp_keys p)) pieces).
  { rewrite <- Ek, map_map. clear - Sh. induction Sh as [|[[[[rw k] lens] ts] rp] l (H1 & H2 & H3) F IH]; [reflexivity|]. cbn. f_equal; assumption. }
  rewrite concat_length, E1 in Hi. destruct (item_exists _ _ Hi) as (pi & j & Hij). assert (Hij' := Hij). destruct Hij as (_ & m & Hm & Hj).
  rewrite nth_error_map in Hm. destruct (nth_error pieces pi) as [p|] eqn:Ep; [|discriminate]. cbn in Hm. injection Hm as <-.
  exists pi, p, j. auto.
Qed.
Print Assumptions C66_ktd_all.
Example C66_ktd_ex : exists ds, ktd [piece43a; piece43b] = Ok ds /\ Forall valid_piece [piece43a; piece43b]
  /\ item_at (map (fun p => length (dp_keys p)) [piece43a; piece43b]) 1 0 1
  /\ option_map ki_target (match read_key true ds 0 with Ok it => Some it | Raise _ => None end) = Some (TransitionTargets [-100; 0; 1; -100]).
Proof.
  destruct (ktd [piece43a; piece43b]) as [ds|] eqn:E; [|vm_compute in E; discriminate]. exists ds. split; [reflexivity|].
  vm_compute in E. apply Ok_inj in E. subst ds. split; [|split; [split; [reflexivity|exists 2%nat; split; [reflexivity|lia]]|vm_compute; reflexivity]].
  assert (V : forall n cs, match cs with [] => False | c :: r => c = 0%nat end -> (forall i a b, nth_error cs i = Some a -> nth_error cs (S i) = Some b -> (a < b)%nat) -> (forall a, In a cs -> (a < n)%nat) ->
    nth_error cs 0 = Some 0%nat /\ (forall i a b, nth_error cs i = Some a -> nth_error cs (S i) = Some b -> (a < b)%nat) /\ (forall i a, nth_error cs i = Some a -> (a < n)%nat)).
  { intros n [|c cs] H1 H2 H3; [destruct H1|]. subst c. split; [reflexivity|]. split; [exact H2|]. intros i a Hi. apply H3. eapply nth_error_In; eauto. }
  constructor; [split; [reflexivity|apply V; [reflexivity| |]]|constructor; [split; [reflexivity|apply V; [reflexivity| |]]|constructor]].
  - intros [|[|i]] a b Ha Hb; cbn in *; try discriminate; try (destruct i; discriminate). injection Ha as <-; injection Hb as <-; lia.
  - intros a [<-|[<-|[]]]; cbn; lia.
  - intros [|i] a b Ha Hb; cbn in *; try discriminate; destruct i; discriminate.
  - intros a [<-|[]]; cbn; lia.
Qed.

(* The key sequence dataset holds one item for each key change.  Its target is the change from the
   key to the next one.  Only items whose key change is not the last one of all pieces can be read. *)
Theorem C66_ksd_partial : forall pieces ds p pi i j a b, ksd pieces = Ok ds -> Forall valid_piece pieces ->
  let modulating := filter (fun p => (1 <? length (dp_keys p))%nat) pieces in
  nth_error modulating pi = Some p -> item_at (map (fun p => (length (dp_keys p) - 1)%nat) modulating) i pi j ->
  nth_error (dp_changes p) j = Some a -> nth_error (dp_changes p) (S j) = Some b ->
  (exists q c, In q modulating /\ In c (dp_changes q) /\ (b < c)%nat) ->
  exists it t key next c v interval, read_key false ds i = Ok it /\ ki_length it = S b /\ (ki_length it <= length (ki_inputs it))%nat
    /\ (forall rows, piece_rows true p = Ok rows -> firstn b (ki_inputs it) = firstn b rows)
    /\ nth_error (dp_keys p) j = Some key /\ nth_error (dp_keys p) (S j) = Some next
    /\ nth_error (dp_chords p) b = Some c /\ to_vec c (Some key) true NO_REDUCTION = Ok v
    /\ nth_error (ki_inputs it) b = Some (v ++ zeros (1 + get_key_change_vector_length (dp_pt p) false))
    /\ ki_target it = SequenceTarget t
    /\ py_nth (relative_key_labels (dp_pt p)) t = Ok (snd next, interval)
    /\ match dp_pt p with
       | TPC => fst next = fst key + interval
       | MIDI => (fst next) mod 12 = (fst key + interval) mod 12 /\ 0 <= interval < 12
       end.
Proof.
  intros pieces ds p pi i j a b H V modulating Hp Hi Ha Hb Hex.
  destruct (proj2 (ksd_item pieces ds p pi i j a b H V Hp Hi Ha Hb) Hex) as (it & t & key & next & r & H1 & H2 & H3 & H4 & H5 & H6 & H7 & H8 & H9 & H10).
  apply C04_key_change_label in H10 as (_ & interval & L1 & _ & L2). unfold replacement in H8.
  destruct (nth_error (dp_chords p) b) as [c|] eqn:Ec; [|discriminate]. apply bind_ok in H8 as (v & Ev & H8). apply Ok_inj in H8. subst r.
  exists it, t, key, next, c, v, interval. repeat (split; [assumption|]). split; [reflexivity|]. auto.
Qed.
Print Assumptions C66_ksd_partial.
(* The item with the last key change of all pieces cannot be read, whatever the dataset is: the
   replacement is written behind the end of the inputs. *)
Theorem C66_ksd_refuted : forall pieces ds, ksd pieces = Ok ds -> Forall valid_piece pieces -> kd_lengths ds <> [] ->
  exists i, (i < length (kd_lengths ds))%nat /\ read_key false ds i = Raise IndexError.
Proof.
  intros pieces ds H V Hne. destruct (np_max_some _ Hne) as (N & EN). apply np_max_spec in EN as [HN Hmax].
  apply In_nth_error in HN as (i & Hi). exists i. assert (Hil : (i < length (kd_lengths ds))%nat) by (apply nth_error_Some; congruence). split; [exact Hil|].
  assert (H' := H). unfold ksd in H'. apply bind_ok in H' as (l & El & H'). apply Ok_inj in H'. apply ksd_holds in El.
  set (ms := filter modulates pieces) in *. set (l' := concat (map (fun x => match x with Some y => [y] | None => [] end) l)) in *.
  assert (Vm : forall q, In q ms -> valid_piece q).
  { intros q Hq. unfold ms in Hq. apply filter_In in Hq as [Hq _]. rewrite Forall_forall in V. auto. }
  assert (El2 : map (fun x : key_piece => snd (fst (fst x))) l' = map (fun p => tl (dp_changes p)) ms
    /\ map (fun p => length (tl (dp_changes p))) ms = map (fun p => (length (dp_keys p) - 1)%nat) ms).
  { clearbody ms l'. clear - El Vm. induction El as [|q [[[[rows k] lens] ts] repls] ms l' Hq F IH]; [split; constructor|].
    destruct IH as (I1 & I2); [intros x Hx; apply Vm; now right|].
    destruct (ksd_piece_facts q (Vm q (or_introl eq_refl)) _ _ _ _ _ Hq) as (F1 & F2 & F3 & F4 & _).
    split; cbn; f_equal; auto. rewrite <- F3. lia. }
  destruct El2 as [El2 El3]. assert (Elen : kd_lengths ds = concat (map (fun p => tl (dp_changes p)) ms)) by (rewrite <- H'; cbn [key_ds_of kd_lengths]; now rewrite El2).
  rewrite Elen in Hi, Hil, Hmax. rewrite concat_length in Hil. destruct (item_exists _ _ Hil) as (pi & j & Hij).
  destruct (concat_item _ _ _ _ Hij) as (ch & Ech & En & Hj). rewrite nth_error_map in Ech. destruct (nth_error ms pi) as [p|] eqn:Ep; [|discriminate].
  cbn in Ech. injection Ech as <-. rewrite En in Hi. rewrite map_map, El3 in Hij.
  assert (Vp : valid_piece p) by (apply Vm; eapply nth_error_In; eauto). destruct (valid_changes p Vp) as (cs & Ec & _).
  assert (Hb : nth_error (dp_changes p) (S j) = Some N) by (rewrite Ec in Hi |- *; exact Hi).
  destruct (nth_error (dp_changes p) j) as [a|] eqn:Ea. 2:{ apply nth_error_None in Ea. assert ((S j < length (dp_changes p))%nat) by (apply nth_error_Some; congruence). lia. }
  apply (proj1 (ksd_item pieces ds p pi i j a N H V Ep Hij Ea Hb)). intros q c Hq Hc.
  destruct (valid_changes q (Vm q Hq)) as (qcs & Eq & _). rewrite Eq in Hc. destruct Hc as [<-|Hc]; [lia|]. apply Hmax. apply in_concat.
  exists (tl (dp_changes q)). split; [now apply (in_map (fun p => tl (dp_changes p)))|]. rewrite Eq. exact Hc.
Qed.
Print Assumptions C66_ksd_refuted.
Definition piece66 : dpiece :=
  mkDP [chord43 0 0 MAJOR; chord43 5 5 MINOR; chord43 7 7 MAJOR] [(0, MAJOR); (5, MINOR); (7, MAJOR)] [0; 1; 2]%nat MIDI.
Example C66_ksd_ex : exists ds, ksd [piece43b; piece43a; piece66] = Ok ds
  /\ map (fun i => is_ok (read_key false ds i)) [0; 1; 2]%nat = [false; true; false]
  /\ option_map ki_target (match read_key false ds 1 with Ok it => Some it | Raise _ => None end) = Some (SequenceTarget 17).
Proof.
  destruct (ksd [piece43b; piece43a; piece66]) as [ds|] eqn:E; [|vm_compute in E; discriminate]. exists ds. split; [reflexivity|].
  vm_compute in E. apply Ok_inj in E. subst ds. split; vm_compute; reflexivity.
Qed.

(* One key change of more than 14 fifths, and the key sequence dataset of all pieces cannot be made.  The
   other datasets leave such a change out of their vectors. *)
Theorem C66_far_refuted : forall pieces p j key next ds, In p pieces -> valid_piece p -> dp_pt p = TPC ->
  nth_error (dp_keys p) j = Some key -> nth_error (dp_keys p) (S j) = Some next ->
  ~ (-14 <= fst next - fst key < 15) -> ksd pieces <> Ok ds.
Proof.
  intros pieces p j key next ds Hp V Hpt Ek En Hfar H. unfold ksd in H. apply bind_ok in H as (l & El & _). apply ksd_holds in El.
  assert (Hlt : (S j < length (dp_keys p))%nat) by (apply nth_error_Some; congruence).
  assert (Hm : In p (filter modulates pieces)).
  { apply filter_In. split; [exact Hp|]. unfold modulates. apply Nat.ltb_lt. lia. }
  destruct (Forall2_in_l _ _ _ El p Hm) as ([[[[rows k] lens] ts] repls] & _ & Hy).
  destruct (ksd_piece_facts p V _ _ _ _ _ Hy) as (F1 & F2 & F3 & F4 & F5 & F6 & F7 & F8 & F9).
  destruct (F9 j) as (key' & next' & t & r & b & G1 & G2 & _ & _ & _ & G3 & _); [lia|].
  rewrite Ek in G1. injection G1 as <-. rewrite En in G2. injection G2 as <-.
  apply Hfar. rewrite Hpt in G3. apply (C04_key_change_accepts (fst key) TPC (fst next) (snd next)); [exists t; exact G3|reflexivity].
Qed.
Print Assumptions C66_far_refuted.
(* from F flat major to C sharp major *)
Definition chord66 (root : Z) : full_chord :=
  {| fc := {| c_root := root; c_bass := root; c_type := Maj; c_inv := 0; c_tonic := root; c_mode := MAJOR; c_pt := TPC |};
     fc_onset_level := 0; fc_offset_level := 0; fc_duration := 1 |}.
Definition far66 : dpiece := mkDP [chord66 6; chord66 21; chord66 21] [(6, MAJOR); (21, MAJOR)] [0; 1]%nat TPC.
Example C66_far_ex : valid_piece far66 /\ ksd [far66] = Raise ValueError
  /\ is_ok (ktd [far66]) = true /\ is_ok (csd [far66]) = true.
Proof.
  split; [|vm_compute; split; [reflexivity|split; reflexivity]].
  split; [reflexivity|]. split; [reflexivity|]. split.
  - intros [|[|i]] a b Ha Hb; cbn in *; try discriminate; try (destruct i; discriminate). injection Ha as <-; injection Hb as <-; lia.
  - intros [|[|i]] a Ha; cbn in *; try (destruct i; discriminate); injection Ha as <-; lia.
Qed.

(* ---- C67: reductions of the inputs ---- *)
(* The pitch type is inferred from the width of the rows, which include the key change: no reduction
   of the inputs of the sequence datasets succeeds. *)
Theorem C67_csd_refuted : forall pieces ds i d pt in_red inv_in out_red inv_out,
  csd pieces = Ok ds -> hd_getitem ds i = Ok d -> in_red <> None \/ inv_in = false ->
  csd_reduce pt in_red inv_in out_red inv_out d = Raise ValueError.
Proof.
  intros pieces ds i d pt in_red inv_in out_red inv_out H Hd Hr.
  assert (Hf : exists r rest, id_inputs d = r :: rest /\ foreign false r).
  { unfold csd in H. apply bind_ok in H as (l & El & H). apply Ok_inj in H. apply mapM_forall2 in El.
    unfold hd_getitem, hd_read in Hd. cbn [fresh ho_ds ho_max_in ho_max_t cached] in Hd.
    destruct (hget (hd_inputs ds) i) as [inputs|] eqn:Ei; [|discriminate]. destruct (target_at ds i) as [t|]; [|discriminate].
    destruct (np_max (hd_input_lengths ds)) as [n|]; [|discriminate]. destruct (padded_inputs ds inputs n i) as [[pd len]|] eqn:Ep; [|discriminate].
    assert (Hi : id_inputs d = pd).
    { destruct (hd_target_lengths ds) as [tl|]; cbn [fst] in Hd; [|apply Ok_inj in Hd; now subst d].
      destruct (np_max tl); cbn [fst] in Hd; [|discriminate]. apply bind_ok in Hd as (? & _ & Hd). apply bind_ok in Hd as (? & _ & Hd). apply bind_ok in Hd as (? & _ & Hd). apply Ok_inj in Hd. now subst d. }
    rewrite Hi. assert (Hin := hget_in _ _ _ Ei). rewrite <- H in Hin. cbn [hd_inputs] in Hin. apply in_map_iff in Hin as ([x t'] & <- & Hin). cbn [fst] in *.
    apply In_nth_error in Hin as (k & Hk). destruct (forall2_nth_r _ _ _ El k _ Hk) as (p & _ & Hp).
    apply bind_ok in Hp as (x' & Ex & Hp). apply bind_ok in Hp as (? & _ & Hp). apply Ok_inj in Hp. injection Hp as -> _.
    destruct (piece_foreign _ _ _ Ex) as [Hx Hfx]. unfold padded_inputs in Ep. apply bind_ok in Ep as (r & Er & Ep). apply bind_ok in Ep as (pd' & Epd & Ep).
    apply bind_ok in Ep as (? & _ & Ep). apply Ok_inj in Ep. injection Ep as -> _. unfold pad_to in Epd. destruct (_ <=? _)%nat in Epd; [|discriminate]. apply Ok_inj in Epd. subst pd.
    destruct x as [|r0 x]; [congruence|]. inversion Hfx; subst. cbn. eauto. }
  destruct Hf as (r & rest & Ed & Hf). unfold csd_reduce. rewrite Ed.
  assert (E := reduce_foreign false r rest in_red inv_in Hf Hr).
  destruct (reduce_chord_types (r :: rest) in_red false None) as [x|e]; cbn [bind] in *; [|congruence]. rewrite E. reflexivity.
Qed.
Print Assumptions C67_csd_refuted.
Theorem C67_key_refuted : forall (transition : bool) pieces ds i it red inv,
  (if transition then ktd pieces else ksd pieces) = Ok ds -> read_key transition ds i = Ok it -> red <> None \/ inv = false ->
  key_getitem transition red inv ds i = Raise ValueError.
Proof.
  intros tr pieces ds i it red inv H Hr Hd. apply (key_reduce_fails tr red inv ds i it); [|exact Hd|exact Hr].
  destruct tr; [exact (ktd_foreign _ _ H)|exact (ksd_foreign _ _ H)].
Qed.
Print Assumptions C67_key_refuted.
(* the items of the two pieces can be read, and reduced to triads by neither dataset *)
Example C67_ex : exists ds ks d, csd [piece43a; piece43b] = Ok ds /\ ktd [piece43a; piece43b] = Ok ks /\
  hd_getitem ds 0 = Ok d /\ is_ok (read_key true ks 0) = true /\
  csd_reduce MIDI (Some TRIAD_REDUCTION) true NO_REDUCTION true d = Raise ValueError /\
  key_getitem true (Some TRIAD_REDUCTION) true ks 0 = Raise ValueError.
Proof.
  destruct (csd [piece43a; piece43b]) as [ds|] eqn:E; [|vm_compute in E; discriminate]. vm_compute in E. apply Ok_inj in E. subst ds.
  destruct (ktd [piece43a; piece43b]) as [ks|] eqn:E; [|vm_compute in E; discriminate]. vm_compute in E. apply Ok_inj in E. subst ks.
  eexists _, _, _. split; [reflexivity|]. split; [reflexivity|]. split; [vm_compute; reflexivity|]. split; [vm_compute; reflexivity|].
  split; vm_compute; reflexivity.
Qed.
