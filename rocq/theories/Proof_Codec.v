From Verif Require Import Model_Harmony Proof_Base.
Ltac Zify.zify_post_hook ::= Z.div_mod_to_equations.
Open Scope Z_scope.

Lemma ct_eqb_eq a b : ct_eqb a b = true <-> a = b.
Proof. split; [destruct a, b; intros H; try reflexivity; discriminate H | intros ->; destruct b; reflexivity]. Qed.

Lemma ct_eqb_refl a : ct_eqb a a = true.
Proof. apply ct_eqb_eq; reflexivity. Qed.

Lemma all_chord_types_complete t : In t all_chord_types.
Proof. destruct t; simpl; tauto. Qed.

Lemma all_chord_types_nodup : NoDup all_chord_types.
Proof. unfold all_chord_types; repeat constructor; simpl; intuition discriminate. Qed.

Lemma in_reduced_types red t : In t (reduced_types red) <-> exists u, red u = t.
Proof.
  unfold reduced_types; rewrite filter_In, existsb_exists; split.
  - intros [_ [u [_ E]]]; apply ct_eqb_eq in E; eauto.
  - intros [u E]; split; [apply all_chord_types_complete|].
    exists u; split; [apply all_chord_types_complete|apply ct_eqb_eq; exact E].
Qed.

Lemma reduced_types_nodup red : NoDup (reduced_types red).
Proof. apply NoDup_filter, all_chord_types_nodup. Qed.

Lemma ct_index_in t l : In t l -> exists k, ct_index t l = Ok k /\ nth_error l k = Some t.
Proof.
  induction l as [|x l IH]; simpl; intros H; [tauto|].
  destruct (ct_eqb x t) eqn:E.
  - apply ct_eqb_eq in E; subst; exists 0%nat; auto.
  - destruct H as [->|H]; [rewrite ct_eqb_refl in E; discriminate|].
    destruct (IH H) as (k & E1 & E2). exists (S k). rewrite E1. auto.
Qed.

Lemma ct_index_nodup t l k : NoDup l -> nth_error l k = Some t -> ct_index t l = Ok k.
Proof.
  revert k; induction l as [|x l IH]; intros k Hnd Hk; [destruct k; discriminate|].
  inversion Hnd as [|? ? Hx Hl]; subst. destruct k as [|k]; simpl in *.
  - injection Hk as ->. rewrite ct_eqb_refl; reflexivity.
  - destruct (ct_eqb x t) eqn:E.
    + apply ct_eqb_eq in E; subst. exfalso; apply Hx. eapply nth_error_In; eauto.
    + rewrite (IH k Hl Hk). reflexivity.
Qed.

(* number of inversions listed for a type *)
Definition ninv (ui : bool) (t : chord_type) : Z := if ui then get_chord_inversion_count t else 1.

Lemma ninv_pos ui t : 1 <= ninv ui t.
Proof. unfold ninv; destruct ui, t; simpl; lia. Qed.

Definition root_offset (pt : pitch_type) (relative pad : bool) : Z :=
  match pt with
  | MIDI => 0
  | TPC => if relative then (if pad then -19 else -14) else 0
  end.

Lemma decode_roots_eq pt rel pad :
  decode_roots pt rel pad =
  zrange (root_offset pt rel pad) (root_offset pt rel pad + encode_num_pitches pt rel pad).
Proof. destruct pt, rel, pad; reflexivity. Qed.

Lemma num_pitches_pos pt rel pad : 12 <= encode_num_pitches pt rel pad.
Proof. destruct pt, rel, pad; simpl; unfold NUM_PITCHES, MAX_RELATIVE_TPC, MIN_RELATIVE_TPC, RELATIVE_TPC_EXTRA; lia. Qed.

Lemma vector_num_pitches_eq pt rel pad : vector_num_pitches pt rel pad = encode_num_pitches pt rel pad.
Proof. destruct pt, rel, pad; reflexivity. Qed.

Definition type_block (pt : pitch_type) (ui rel pad : bool) (t : chord_type) :=
  flat_map (fun root =>
      map (fun inv => (root, t, inv))
          (if ui then zrange 0 (get_chord_inversion_count t) else [0]))
      (decode_roots pt rel pad).

Lemma inv_list_length (ui : bool) t :
  length (if ui then zrange 0 (get_chord_inversion_count t) else [0]) = Z.to_nat (ninv ui t).
Proof. destruct ui; simpl; [rewrite zrange_length; unfold ninv; f_equal; lia|reflexivity]. Qed.

Lemma inv_list_nth (ui : bool) t (m : nat) :
  Z.of_nat m < ninv ui t ->
  nth_error (if ui then zrange 0 (get_chord_inversion_count t) else [0]) m = Some (Z.of_nat m).
Proof.
  unfold ninv; destruct ui; intros H.
  - rewrite nth_error_zrange by lia. f_equal; lia.
  - destruct m; [reflexivity|lia].
Qed.

Lemma type_block_length pt ui rel pad t :
  length (type_block pt ui rel pad t) = Z.to_nat (encode_num_pitches pt rel pad * ninv ui t).
Proof.
  unfold type_block; rewrite flat_map_length_sum.
  erewrite map_ext; [|intros a; rewrite map_length, inv_list_length; reflexivity].
  rewrite list_sum_const, decode_roots_eq, zrange_length.
  pose proof (num_pitches_pos pt rel pad); pose proof (ninv_pos ui t).
  rewrite Z.add_simpl_l. rewrite <- Z2Nat.inj_mul by lia. reflexivity.
Qed.

Lemma type_block_nth pt ui rel pad t r inv :
  0 <= r < encode_num_pitches pt rel pad -> 0 <= inv < ninv ui t ->
  nth_error (type_block pt ui rel pad t) (Z.to_nat (ninv ui t * r + inv))
  = Some (r + root_offset pt rel pad, t, inv).
Proof.
  intros Hr Hi. unfold type_block.
  pose proof (ninv_pos ui t).
  set (f := fun root => _).
  replace (Z.to_nat (ninv ui t * r + inv)) with
    (list_sum (map (fun x => length (f x)) (firstn (Z.to_nat r) (decode_roots pt rel pad)))
     + Z.to_nat inv)%nat.
  - rewrite nth_error_flat_map with (a := r + root_offset pt rel pad).
    + unfold f. rewrite nth_error_map, inv_list_nth by lia.
      simpl. do 2 f_equal; lia.
    + rewrite decode_roots_eq, nth_error_zrange by lia. f_equal; lia.
    + unfold f; rewrite map_length, inv_list_length; lia.
  - unfold f. erewrite map_ext; [|intros a; rewrite map_length, inv_list_length; reflexivity].
    rewrite list_sum_const, firstn_length, decode_roots_eq, zrange_length.
    rewrite Z.add_simpl_l.
    rewrite Z2Nat.inj_add by nia. rewrite Z2Nat.inj_mul by lia. f_equal.
    rewrite Nat.min_l by lia. lia.
Qed.

Lemma chord_list_blocks pt ui rel pad red :
  chord_list pt ui rel pad red = flat_map (type_block pt ui rel pad) (reduced_types red).
Proof. reflexivity. Qed.

Definition prefix_index (pt : pitch_type) (ui rel pad : bool) (red : reduction) (k : nat) : Z :=
  zsum (map (fun t => encode_num_pitches pt rel pad * ninv ui t) (firstn k (reduced_types red))).

Lemma prefix_index_nat pt ui rel pad red k :
  Z.of_nat (list_sum (map (fun x => length (type_block pt ui rel pad x))
                          (firstn k (reduced_types red))))
  = prefix_index pt ui rel pad red k.
Proof.
  unfold prefix_index. rewrite of_nat_list_sum, map_map. apply zsum_map_ext.
  intros t _. rewrite type_block_length.
  pose proof (num_pitches_pos pt rel pad); pose proof (ninv_pos ui t). nia.
Qed.

Lemma chord_list_length pt ui rel pad red :
  zlen (chord_list pt ui rel pad red) = get_chord_vector_length pt true rel ui pad red.
Proof.
  rewrite chord_list_blocks. unfold zlen. rewrite flat_map_length_sum.
  rewrite of_nat_list_sum, map_map.
  unfold get_chord_vector_length. rewrite vector_num_pitches_eq.
  pose proof (num_pitches_pos pt rel pad) as Hn.
  rewrite (zsum_map_ext _ (fun t => encode_num_pitches pt rel pad * ninv ui t)).
  2: { intros t _. rewrite type_block_length. pose proof (ninv_pos ui t). nia. }
  destruct ui.
  - apply zsum_map_ext. intros t _. unfold ninv. lia.
  - unfold ninv. rewrite zsum_map_mul, zsum_map_const. lia.
Qed.

(* the encoder, in closed form *)
Lemma encode_closed t root pt inv ui rel pad red k :
  nth_error (reduced_types red) k = Some (red t) ->
  get_chord_one_hot_index t root pt inv ui rel pad red =
  if (root <? 0) || (encode_num_pitches pt rel pad <=? root) then Raise ValueError
  else if ui && ((inv <? 0) || (get_chord_inversion_count (red t) <=? inv)) then Raise ValueError
  else Ok (prefix_index pt ui rel pad red k + ninv ui (red t) * root + (if ui then inv else 0)).
Proof.
  intros Hk. unfold get_chord_one_hot_index.
  rewrite (ct_index_nodup _ _ _ (reduced_types_nodup red) Hk). simpl bind.
  destruct ((root <? 0) || _) eqn:E1; [reflexivity|].
  destruct (ui && _) eqn:E2; [reflexivity|].
  set (invs := if ui then map get_chord_inversion_count (reduced_types red)
               else map (fun _ => 1) (reduced_types red)).
  assert (Hinvs : invs = map (ninv ui) (reduced_types red)) by (unfold invs, ninv; destruct ui; reflexivity).
  rewrite (py_nth_pos invs (Z.of_nat k) (ninv ui (red t))).
  - simpl bind. rewrite Hinvs, firstn_map, map_map. unfold prefix_index.
    destruct ui; f_equal; lia.
  - lia.
  - rewrite Hinvs, Nat2Z.id, nth_error_map, Hk. reflexivity.
Qed.

Lemma red_position red t : exists k, nth_error (reduced_types red) k = Some (red t).
Proof.
  destruct (ct_index_in (red t) (reduced_types red)) as (k & _ & E); eauto.
  apply in_reduced_types; eauto.
Qed.

Lemma prefix_index_nonneg pt ui rel pad red k : 0 <= prefix_index pt ui rel pad red k.
Proof.
  rewrite <- prefix_index_nat. lia.
Qed.

Lemma decode_block pt ui rel pad red k t r inv :
  nth_error (reduced_types red) k = Some t ->
  0 <= r < encode_num_pitches pt rel pad -> 0 <= inv < ninv ui t ->
  nth_error (chord_list pt ui rel pad red)
     (Z.to_nat (prefix_index pt ui rel pad red k + ninv ui t * r + inv))
  = Some (r + root_offset pt rel pad, t, inv).
Proof.
  intros Hk Hr Hi.
  rewrite chord_list_blocks.
  pose proof (ninv_pos ui t).
  replace (Z.to_nat (prefix_index pt ui rel pad red k + ninv ui t * r + inv)) with
   (list_sum (map (fun x => length (type_block pt ui rel pad x)) (firstn k (reduced_types red)))
    + Z.to_nat (ninv ui t * r + inv))%nat.
  - rewrite nth_error_flat_map with (a := t); auto using type_block_nth.
    rewrite type_block_length. 
    assert (ninv ui t * r + inv < encode_num_pitches pt rel pad * ninv ui t) by nia.
    assert (0 <= ninv ui t * r) by nia. lia.
  - pose proof (prefix_index_nat pt ui rel pad red k).
    assert (0 <= ninv ui t * r) by nia. lia.
Qed.

Theorem encode_decode t root pt inv ui rel pad red i :
  get_chord_one_hot_index t root pt inv ui rel pad red = Ok i ->
  get_chord_from_one_hot_index i pt ui rel pad red
  = Ok (root + root_offset pt rel pad, red t, if ui then inv else 0).
Proof.
  destruct (red_position red t) as [k Hk]. rewrite (encode_closed _ _ _ _ _ _ _ _ _ Hk).
  destruct ((root <? 0) || _) eqn:E1; [discriminate|].
  destruct (ui && _) eqn:E2; [discriminate|].
  intros H; injection H as <-.
  unfold get_chord_from_one_hot_index.
  pose proof (prefix_index_nonneg pt ui rel pad red k).
  pose proof (ninv_pos ui (red t)).
  assert (Hi : 0 <= (if ui then inv else 0) < ninv ui (red t))
    by (unfold ninv in *; destruct ui; simpl in *; lia).
  apply py_nth_pos; [nia|].
  apply decode_block; [exact Hk| |exact Hi]. lia.
Qed.

Theorem encode_range t root pt inv ui rel pad red i :
  get_chord_one_hot_index t root pt inv ui rel pad red = Ok i ->
  0 <= i < get_chord_vector_length pt true rel ui pad red.
Proof.
  destruct (red_position red t) as [k Hk]. rewrite (encode_closed _ _ _ _ _ _ _ _ _ Hk).
  destruct ((root <? 0) || _) eqn:E1; [discriminate|].
  destruct (ui && _) eqn:E2; [discriminate|].
  intros H; injection H as <-.
  pose proof (prefix_index_nonneg pt ui rel pad red k).
  pose proof (ninv_pos ui (red t)).
  assert (Hi : 0 <= (if ui then inv else 0) < ninv ui (red t))
    by (unfold ninv in *; destruct ui; simpl in *; lia).
  assert (Hr : 0 <= root < encode_num_pitches pt rel pad) by lia.
  pose proof (decode_block pt ui rel pad red k (red t) root _ Hk Hr Hi) as D.
  split; [nia|].
  rewrite <- chord_list_length. unfold zlen.
  assert (Z.to_nat (prefix_index pt ui rel pad red k + ninv ui (red t) * root + (if ui then inv else 0))
          < length (chord_list pt ui rel pad red))%nat by (apply nth_error_Some; congruence).
  nia.
Qed.

Theorem decode_encode i pt ui rel pad red :
  0 <= i < get_chord_vector_length pt true rel ui pad red ->
  exists root t inv,
    get_chord_from_one_hot_index i pt ui rel pad red = Ok (root, t, inv)
    /\ (exists u, red u = t)
    /\ forall u, red u = t ->
       get_chord_one_hot_index u (root - root_offset pt rel pad) pt inv ui rel pad red = Ok i.
Proof.
  intros Hi. rewrite <- chord_list_length in Hi. unfold zlen in Hi.
  rewrite chord_list_blocks in Hi.
  destruct (flat_map_locate (type_block pt ui rel pad) (reduced_types red) (Z.to_nat i) ltac:(lia)) as (k & t & m & Hk & Hm & Ei).
  rewrite type_block_length in Hm.
  pose proof (num_pitches_pos pt rel pad) as Hn. pose proof (ninv_pos ui t) as Hv.
  set (r := Z.of_nat m / ninv ui t). set (inv := Z.of_nat m mod ninv ui t).
  assert (Em : Z.of_nat m = ninv ui t * r + inv) by (unfold r, inv; apply Z.div_mod; lia).
  assert (Hinv : 0 <= inv < ninv ui t) by (unfold inv; apply Z.mod_pos_bound; lia).
  assert (Hr : 0 <= r < encode_num_pitches pt rel pad).
  { split; [unfold r; apply Z.div_pos; lia|].
    unfold r; apply Z.div_lt_upper_bound; nia. }
  clearbody r inv.
  pose proof (prefix_index_nat pt ui rel pad red k) as HP.
  assert (Ei' : i = prefix_index pt ui rel pad red k + ninv ui t * r + inv) by lia.
  exists (r + root_offset pt rel pad), t, inv.
  split; [|split].
  - apply py_nth_pos; [lia|]. rewrite Ei'. apply decode_block; auto.
  - apply in_reduced_types. eapply nth_error_In; eauto.
  - intros u Hu. rewrite <- Hu in Hk.
    rewrite (encode_closed _ _ _ _ _ _ _ _ _ Hk). rewrite Hu.
    replace (r + root_offset pt rel pad - root_offset pt rel pad) with r by lia.
    destruct ((r <? 0) || _) eqn:E1; [lia|].
    destruct (ui && _) eqn:E2.
    { unfold ninv in Hinv; destruct ui; simpl in E2; lia. }
    f_equal. rewrite Ei'. f_equal. unfold ninv in Hinv. destruct ui; [reflexivity|lia].
Qed.

Theorem encode_accepts t root pt inv ui rel pad red :
  (exists i, get_chord_one_hot_index t root pt inv ui rel pad red = Ok i) <->
  (0 <= root < encode_num_pitches pt rel pad
   /\ (ui = true -> 0 <= inv < get_chord_inversion_count (red t))).
Proof.
  destruct (red_position red t) as [k Hk]. rewrite (encode_closed _ _ _ _ _ _ _ _ _ Hk).
  destruct ((root <? 0) || _) eqn:E1.
  { split; [intros [i H]; discriminate|intros [H _]; lia]. }
  destruct (ui && _) eqn:E2.
  { split; [intros [i H]; discriminate|]. intros [_ H].
    destruct ui; simpl in E2; [|discriminate]. specialize (H eq_refl); lia. }
  split; [|eauto]. intros _. split; [lia|]. intros ->. simpl in E2. lia.
Qed.

Theorem encode_error t root pt inv ui rel pad red e :
  get_chord_one_hot_index t root pt inv ui rel pad red = Raise e -> e = ValueError.
Proof.
  destruct (red_position red t) as [k Hk]. rewrite (encode_closed _ _ _ _ _ _ _ _ _ Hk).
  destruct ((root <? 0) || _); [congruence|].
  destruct (ui && _); congruence.
Qed.

(* keys *)
Lemma key_list_nth pt rel m (k : nat) :
  (k < length (key_tonics pt rel))%nat ->
  nth_error (key_list pt rel) (Z.to_nat (mode_value m) * length (key_tonics pt rel) + k)
  = option_map (fun t => (t, m)) (nth_error (key_tonics pt rel) k).
Proof.
  intros H. unfold key_list. simpl.
  destruct m; simpl.
  - rewrite nth_error_app1 by (rewrite map_length; lia). apply nth_error_map.
  - rewrite app_nil_r, Nat.add_0_r.
    rewrite nth_error_app2 by (rewrite map_length; lia).
    rewrite map_length, Nat.add_comm, Nat.add_sub. apply nth_error_map.
Qed.

Lemma key_list_length pt rel : zlen (key_list pt rel) = 2 * zlen (key_tonics pt rel).
Proof.
  unfold key_list, all_modes; cbn [flat_map].
  rewrite !zlen_app, !zlen_map, zlen_nil. lia.
Qed.

Lemma zlen_abs_tonics pt : zlen (key_tonics pt false) = NUM_PITCHES pt.
Proof. destruct pt; reflexivity. Qed.

Theorem key_encode_decode m tonic pt i :
  get_key_one_hot_index m tonic pt = Ok i ->
  get_key_from_one_hot_index i pt false = Ok (tonic, m)
  /\ 0 <= i < 2 * NUM_PITCHES pt.
Proof.
  unfold get_key_one_hot_index.
  destruct ((tonic <? 0) || _) eqn:E; [discriminate|]. intros H; injection H as <-.
  assert (Hn : 0 < NUM_PITCHES pt) by (destruct pt; simpl; lia).
  split.
  - apply py_nth_pos; [destruct m; cbn [mode_value]; lia|].
    pose proof (key_list_nth pt false m (Z.to_nat tonic)) as K.
    assert (HL : Z.of_nat (length (key_tonics pt false)) = NUM_PITCHES pt)
      by (rewrite <- zlen_abs_tonics; reflexivity).
    replace (Z.to_nat (NUM_PITCHES pt * mode_value m + tonic))
      with (Z.to_nat (mode_value m) * length (key_tonics pt false) + Z.to_nat tonic)%nat
      by (destruct m; cbn [mode_value]; [change (Z.to_nat 0) with 0%nat | change (Z.to_nat 1) with 1%nat]; lia).
    rewrite K by lia.
    unfold key_tonics. rewrite nth_error_zrange by lia. simpl. do 2 f_equal; lia.
  - destruct m; cbn [mode_value]; lia.
Qed.

Theorem key_decode_encode i pt :
  0 <= i < 2 * NUM_PITCHES pt ->
  exists tonic m, get_key_from_one_hot_index i pt false = Ok (tonic, m)
    /\ get_key_one_hot_index m tonic pt = Ok i.
Proof.
  intros Hi. set (N := NUM_PITCHES pt) in *.
  assert (Hn : 0 < N) by (unfold N; destruct pt; simpl; lia).
  set (m := if i <? N then MAJOR else MINOR).
  set (t := if i <? N then i else i - N).
  assert (E : get_key_one_hot_index m t pt = Ok i).
  { unfold get_key_one_hot_index. fold N. unfold m, t.
    destruct (i <? N) eqn:E1; simpl mode_value.
    - destruct ((i <? 0) || (N <=? i)) eqn:E2; [lia|f_equal; lia].
    - destruct ((i - N <? 0) || (N <=? i - N)) eqn:E2; [lia|f_equal; lia]. }
  exists t, m. split; [|exact E]. apply key_encode_decode; exact E.
Qed.

Theorem key_encode_accepts m tonic pt :
  (exists i, get_key_one_hot_index m tonic pt = Ok i) <-> 0 <= tonic < NUM_PITCHES pt.
Proof.
  unfold get_key_one_hot_index. destruct ((tonic <? 0) || _) eqn:E.
  - split; [intros [i H]; discriminate|lia].
  - split; [lia|eauto].
Qed.

(* key changes *)
Lemma relative_key_labels_length pt :
  zlen (relative_key_labels pt) = get_key_change_vector_length pt true.
Proof. destruct pt; reflexivity. Qed.

Lemma modes_block {B} (f : key_mode -> Z -> B) lo hi m v :
  lo <= v < hi ->
  py_nth (flat_map (fun m => map (f m) (zrange lo hi)) all_modes)
         (mode_value m * (hi - lo) + (v - lo)) = Ok (f m v).
Proof.
  intros H. unfold all_modes; cbn [flat_map]. rewrite app_nil_r.
  apply py_nth_pos; [destruct m; cbn [mode_value]; lia|].
  destruct m; cbn [mode_value].
  - rewrite nth_error_app1 by (rewrite map_length, zrange_length; lia).
    rewrite nth_error_map, nth_error_zrange by lia. cbn [option_map]. do 2 f_equal. lia.
  - rewrite nth_error_app2 by (rewrite map_length, zrange_length; lia).
    rewrite map_length, zrange_length.
    rewrite nth_error_map, nth_error_zrange by lia. cbn [option_map]. do 2 f_equal. lia.
Qed.

Theorem key_change_label tonic pt next_tonic next_mode i :
  key_change_one_hot tonic pt next_tonic next_mode = Ok i ->
  0 <= i < get_key_change_vector_length pt true /\
  exists interval,
    py_nth (relative_key_labels pt) i = Ok (next_mode, interval)
    /\ get_key_from_one_hot_index i pt true = Ok (interval, next_mode)
    /\ match pt with
       | TPC => next_tonic = tonic + interval
       | MIDI => next_tonic mod 12 = (tonic + interval) mod 12 /\ 0 <= interval < 12
       end.
Proof.
  unfold key_change_one_hot. intros H. apply bind_ok in H as (v & Ev & H). injection H as <-.
  destruct pt.
  - unfold absolute_to_relative in Ev. cbn [negb andb] in Ev.
    change MIN_KEY_CHANGE_INTERVAL_TPC with (-14) in *.
    change MAX_KEY_CHANGE_INTERVAL_TPC with 15 in *.
    destruct ((next_tonic - tonic <? -14) || (15 <=? next_tonic - tonic)) eqn:E; [discriminate|].
    injection Ev as <-.
    change (get_key_change_vector_length TPC true) with 58.
    split; [destruct next_mode; cbn [mode_value]; lia|].
    exists (next_tonic - tonic). split; [|split; [|lia]].
    + exact (modes_block (fun m i => (m, i)) (-14) 15 next_mode (next_tonic - tonic) ltac:(lia)).
    + exact (modes_block (fun m i => (i, m)) (-14) 15 next_mode (next_tonic - tonic) ltac:(lia)).
  - cbn [absolute_to_relative transpose_pitch] in Ev.
    change (NUM_PITCHES MIDI) with 12 in *. injection Ev as <-.
    set (v := (next_tonic + - tonic) mod 12).
    assert (Hv : 0 <= v < 12) by (unfold v; lia).
    change (get_key_change_vector_length MIDI true) with 24.
    split; [destruct next_mode; cbn [mode_value]; lia|].
    exists v. split; [|split; [|split; [unfold v; lia|lia]]].
    + pose proof (modes_block (fun m i => (m, i)) 0 12 next_mode v Hv) as K.
      replace (v - 0) with v in K by lia. exact K.
    + pose proof (modes_block (fun m i => (i, m)) 0 12 next_mode v Hv) as K.
      replace (v - 0) with v in K by lia. exact K.
Qed.

Theorem key_change_accepts tonic pt next_tonic next_mode :
  (exists i, key_change_one_hot tonic pt next_tonic next_mode = Ok i) <->
  (pt = TPC -> -14 <= next_tonic - tonic < 15).
Proof.
  unfold key_change_one_hot. destruct pt; simpl.
  - unfold MIN_KEY_CHANGE_INTERVAL_TPC, MAX_KEY_CHANGE_INTERVAL_TPC in *.
    destruct ((next_tonic - tonic <? -14) || (15 <=? next_tonic - tonic)) eqn:E; simpl.
    + split; [intros [i H]; discriminate|intros H; specialize (H eq_refl); lia].
    + split; [lia|eauto].
  - split; [discriminate|eauto].
Qed.

(* chords as objects *)
Theorem chord_one_hot_decode c rel ui pad red i :
  chord_one_hot c rel ui pad red = Ok i ->
  exists root,
    get_chord_from_one_hot_index i (c_pt c) ui rel pad red
    = Ok (root, red (c_type c), if ui then c_inv c else 0)
    /\ (rel = false -> root = c_root c)
    /\ (rel = true -> c_pt c = TPC -> root = c_root c - c_tonic c)
    /\ (rel = true -> c_pt c = MIDI -> root = (c_root c - c_tonic c) mod 12).
Proof.
  unfold chord_one_hot. intros H. apply bind_ok in H as (r & Er & H).
  apply encode_decode in H. eexists; split; [exact H|].
  destruct rel.
  - destruct (c_pt c) eqn:Ept; simpl in Er.
    + unfold MIN_RELATIVE_TPC, MAX_RELATIVE_TPC, RELATIVE_TPC_EXTRA in Er.
      destruct pad; simpl in Er.
      * destruct ((_ <? _) || _) eqn:E in Er; [discriminate|]. injection Er as <-.
        simpl. repeat split; intros; try discriminate; lia.
      * destruct ((_ <? _) || _) eqn:E in Er; [discriminate|]. injection Er as <-.
        simpl. repeat split; intros; try discriminate; lia.
    + injection Er as <-. simpl. unfold NUM_PITCHES. repeat split; intros; try discriminate; lia.
  - injection Er as <-. destruct (c_pt c); simpl; repeat split; intros; try discriminate; lia.
Qed.
