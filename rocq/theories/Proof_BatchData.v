(* The items of the chord sequence dataset, as the batches need them. *)
From Coq Require Import QArith Lia.
From Verif Require Import Proof_Base Model_Harmony Model_Dataset Spec_Dataset Proof_Codec Proof_Dataset Proof_Items Proof_KeyItems Proof_Widths.
From Verif Require Import Model_Batch Spec_Batch Proof_Batch.
Close Scope Q_scope.
Open Scope Z_scope.

(* the last entry of a row says whether its chord begins a new key *)
Definition flag_at (on : Prop) (r : row) : Prop :=
  r <> [] /\ (on -> last r 0 = 1) /\ (~ on -> last r 0 = 0).
Lemma last_app_ne {A} (a b : list A) d : b <> [] -> last (a ++ b) d = last b d.
Proof.
  intros H. destruct (exists_last H) as (l & x & ->). rewrite app_assoc, !last_last. reflexivity.
Qed.
Lemma blank_last kt : last (zeros (1 + get_key_change_vector_length kt false)) 0 = 0
  /\ zeros (1 + get_key_change_vector_length kt false) <> [].
Proof. destruct kt; vm_compute; split; congruence. Qed.
Lemma section_flags pt pad chords prev key a b rows : section_rows pt pad chords prev key a b = Ok rows ->
  forall k r, nth_error rows k = Some r -> flag_at (k = 0%nat /\ prev <> None) r.
Proof.
  unfold section_rows. intros H. apply bind_ok in H as (vs & _ & H). destruct vs as [|v vs]; [discriminate|].
  apply bind_ok in H as (kv & Ek & H). apply Ok_inj in H. subst rows. destruct (blank_last pt) as [B1 B2].
  assert (Hb : forall w, (w ++ zeros (1 + get_key_change_vector_length pt false) <> []) /\
      last (w ++ zeros (1 + get_key_change_vector_length pt false)) 0 = 0).
  { intros w. split; [|now rewrite last_app_ne]. intros E. apply app_eq_nil in E as [_ E]. contradiction. }
  intros [|k] r Hr; cbn [nth_error] in Hr.
  - apply Some_inj in Hr. subst r. destruct prev as [q|].
    + apply bind_ok in Ek as (w & _ & Ek). apply Ok_inj in Ek. subst kv. split; [destruct v, w; discriminate|].
      rewrite app_assoc, last_last. split; [reflexivity|]. intros N. exfalso. apply N. split; [reflexivity|discriminate].
    + apply Ok_inj in Ek. subst kv. destruct (Hb v) as [H1 H2]. split; [exact H1|]. split; [intros [_ N]; congruence|auto].
  - rewrite nth_error_map in Hr. destruct (nth_error vs k) as [w|]; [|discriminate]. apply Some_inj in Hr. subst r.
    destruct (Hb w) as [H1 H2]. split; [exact H1|]. split; [intros [N _]; discriminate|auto].
Qed.

Section Pieces.
Variable p : dpiece.
Notation n := (length (dp_chords p)).
Lemma rows_flags pad : forall (ss : list (option (Z * key_mode) * (Z * key_mode))) cs a e rs,
  increasing a (cs ++ [e]) -> (e <= n)%nat ->
  Forall2 (fun s r => let '(prev, key, (x, y)) := s : (option (Z * key_mode) * (Z * key_mode)) * (nat * nat) in
                      section_rows (dp_pt p) pad (dp_chords p) prev key x y = Ok r)
    (combine ss (combine (a :: cs) (cs ++ [e]))) rs -> length ss = S (length cs) ->
  (forall s, In s (tl ss) -> fst s <> None) ->
  length (concat rs) = (e - a)%nat /\
  forall k r, nth_error (concat rs) k = Some r ->
    flag_at (In (a + k)%nat cs \/ (k = 0%nat /\ exists s, hd_error ss = Some s /\ fst s <> None)) r.
Proof.
  induction ss as [|[prev key] ss IH]; intros cs a e rs Hi He F L T; [discriminate|]. destruct cs as [|c cs].
  - destruct ss; [|discriminate]. cbn in F. inversion F as [|? r0 ? ? H1 H2]; subst. inversion H2; subst. cbn [concat]. rewrite app_nil_r.
    split; [rewrite (section_rows_length _ _ _ _ _ _ _ _ H1); now apply between_length|].
    intros k r Hr. destruct (section_flags _ _ _ _ _ _ _ _ H1 k r Hr) as (G1 & G2 & G3). split; [exact G1|]. split.
    + intros [[]|(-> & s & Es & Hs)]. apply Some_inj in Es. subst s. apply G2. split; [reflexivity|exact Hs].
    + intros N. apply G3. intros [-> Hp]. apply N. right. split; [reflexivity|]. eexists. split; [reflexivity|exact Hp].
  - cbn [app] in *. destruct Hi as [Hi1 Hi2]. cbn [combine] in F. inversion F as [|? r0 ? rs' H1 H2]; subst. cbn [concat].
    assert (Hce : (c < e)%nat).
    { assert (H := increasing_last (cs ++ [e]) c c Hi2 (or_introl eq_refl)). rewrite last_last in H.
      destruct cs as [|d cs]; [cbn in Hi2; lia|]. assert (H' := increasing_last (d :: cs ++ [e]) c d Hi2 ltac:(right; now left)).
      rewrite Proof_KeyItems.last_cons, last_last in H'. cbn in Hi2. lia. }
    assert (L0 : length r0 = (c - a)%nat) by (rewrite (section_rows_length _ _ _ _ _ _ _ _ H1); apply between_length; lia).
    cbn [tl] in T. destruct (IH cs c e rs' Hi2 He H2 ltac:(cbn in L; lia)) as (Lr & Fr).
    { intros s Hs. apply T. destruct ss; [destruct Hs|now right]. }
    split; [rewrite app_length; lia|]. intros k r Hr.
    assert (Hmin : forall x, In x cs -> (c < x)%nat).
    { clear - Hi2. revert c Hi2. induction cs as [|d cs IH]; intros c Hi x Hx; [destruct Hx|]. destruct Hi as [A B]. destruct Hx as [->|Hx]; [exact A|].
      specialize (IH d B x Hx). lia. }
    destruct (Nat.lt_ge_cases k (length r0)) as [K|K].
    + rewrite nth_error_app1 in Hr by exact K. destruct (section_flags _ _ _ _ _ _ _ _ H1 k r Hr) as (G1 & G2 & G3).
      split; [exact G1|]. split.
      * intros [[Hx|Hx]|(-> & s & Es & Hs)]; [lia|specialize (Hmin _ Hx); lia|]. apply Some_inj in Es. subst s. apply G2. split; [reflexivity|exact Hs].
      * intros N. apply G3. intros [-> Hp]. apply N. right. split; [reflexivity|]. eexists. split; [reflexivity|exact Hp].
    + rewrite nth_error_app2 in Hr by exact K. destruct (Fr _ _ Hr) as (G1 & G2 & G3). split; [exact G1|].
      assert (Hs0 : exists s, hd_error ss = Some s /\ fst s <> None).
      { destruct ss as [|s ss]; [discriminate|]. exists s. split; [reflexivity|]. apply T. now left. }
      replace (c + (k - length r0))%nat with (a + k)%nat in * by lia. split.
      * intros [[Hx|Hx]|(-> & _)]; [|apply G2; now left|lia]. apply G2. right. split; [lia|exact Hs0].
      * intros N. apply G3. intros [Hx|[Hx _]]; apply N; left; [now right|left; lia].
Qed.
Lemma piece_flags pad rows : valid_piece p -> piece_rows pad p = Ok rows ->
  length rows = n /\ forall k r, nth_error rows k = Some r -> flag_at (In k (tl (dp_changes p))) r.
Proof.
  intros V Hr. destruct (valid_changes p V) as (cs & Ec & Hi & Hlast & Hk).
  unfold piece_rows in Hr. destruct (dp_keys p) as [|k0 ks] eqn:Ek; [discriminate|].
  apply bind_ok in Hr as (rs & Ers & Hr). apply mapM_forall2 in Ers. assert (Er : rows = concat rs) by (destruct rs; [discriminate|apply Ok_inj in Hr; congruence]).
  subst rows. unfold sections in Ers. rewrite Ec in *. cbn [tl] in *.
  assert (Lk : length (removelast (k0 :: ks)) = length ks).
  { clear. revert k0. induction ks as [|x ks IH]; intros k; [reflexivity|]. cbn [removelast length]. f_equal. apply (IH x). }
  destruct (rows_flags pad (combine (None :: map Some (removelast (k0 :: ks))) (k0 :: ks)) cs 0%nat n rs) as (L & F).
  - clear - Hi Hlast. revert Hlast Hi. generalize 0%nat. induction cs as [|c cs IH]; intros a Hl Hi; cbn in *; [auto|]. destruct Hi as [H1 H2]. split; [exact H1|]. apply IH; [|exact H2].
    destruct cs; [cbn in *; lia|]. rewrite Proof_KeyItems.last_cons in *. exact Hl.
  - lia.
  - clear - Ers. induction Ers as [|[[q key] [a b]] r ss rs Hs F IH]; constructor; assumption.
  - rewrite combine_length. cbn [length]. rewrite map_length, Lk. cbn in Hk. lia.
  - cbn [combine tl]. intros [q key] Hs. apply in_combine_l in Hs. apply in_map_iff in Hs as (y & <- & _). discriminate.
  - split; [lia|]. intros k r Hkr. destruct (F k r Hkr) as (G1 & G2 & G3). split; [exact G1|]. split; [intros Hx; apply G2; now left|].
    intros N. apply G3. intros [Hx|(_ & s & Es & Hs)]; [contradiction|]. cbn in Es. apply Some_inj in Es. subst s. apply Hs. reflexivity.
Qed.
End Pieces.

(* item i of the dataset of the pieces *)
Lemma csd_item : forall pieces ds i d pt, csd pieces = Ok ds -> hd_getitem ds i = Ok d ->
  Forall (fun p => valid_piece p /\ Forall (fun c => c_pt (fc c) = pt) (dp_chords p)) pieces ->
  exists p rows ts, nth_error pieces i = Some p /\ piece_rows false p = Ok rows /\ csd_targets p = Ok ts
    /\ id_length d = length (dp_chords p) /\ length rows = length (dp_chords p)
    /\ firstn (length (dp_chords p)) (id_inputs d) = rows /\ firstn (length (dp_chords p)) (id_targets d) = ts
    /\ exists width, np_max (map (fun p => length (dp_chords p)) pieces) = Ok width
    /\ csm_item (get_chord_vector_length pt true true true false NO_REDUCTION) width d.
Proof.
  intros pieces ds i d pt H Hd V. unfold csd in H. apply bind_ok in H as (l & El & H). apply Ok_inj in H. subst ds.
  apply mapM_forall2 in El.
  assert (El' : Forall2 (fun p x => piece_rows false p = Ok (fst x) /\ csd_targets p = Ok (snd x)) pieces l).
  { clear - El. induction El as [|p [x t] ps l Hp F IH]; constructor; [|exact IH].
    apply bind_ok in Hp as (x' & Ex & Hp). apply bind_ok in Hp as (t' & Et & Hp). apply Ok_inj in Hp. injection Hp as -> ->. auto. }
  clear El.
  assert (Hl : Forall2 (fun p x => length (fst x) = length (dp_chords p) /\ length (snd x) = length (dp_chords p) /\ (1 <= length (dp_chords p))%nat) pieces l).
  { clear - El' V. induction El' as [|p x ps l [H1 H2] F IH]; constructor; [|apply IH; now inversion V].
    inversion V as [|? ? [V1 _] _]; subst. split; [exact (proj1 (piece_flags p _ _ V1 H1))|]. split.
    - unfold csd_targets in H2. apply mapM_forall2 in H2. symmetry. exact (Forall2_len _ _ _ H2).
    - destruct V1 as (_ & V2 & _ & V4). specialize (V4 _ _ V2). lia. }
  assert (E1 : map (fun y : list row * list Z => length (fst y)) l = map (fun p => length (dp_chords p)) pieces).
  { clear - Hl. induction Hl as [|p x ps l (A & B & C) F IH]; cbn; [reflexivity|]. now rewrite A, IH. }
  assert (E2 : map (fun y : list row * list Z => length (snd y)) l = map (fun p => length (dp_chords p)) pieces).
  { clear - Hl. induction Hl as [|p x ps l (A & B & C) F IH]; cbn; [reflexivity|]. now rewrite B, IH. }
  unfold hd_getitem, hd_read in Hd. cbn [fresh ho_ds hd_inputs hd_targets hd_input_lengths hd_target_lengths target_at ho_max_in ho_max_t cached] in Hd.
  destruct (hget (map fst l) i) as [inputs|] eqn:Ei; [|discriminate].
  destruct (hget (map snd l) i) as [t|] eqn:Et; [|discriminate].
  rewrite E1, E2 in Hd. destruct (np_max _) as [width|] eqn:Ew; [|discriminate].
  unfold hget in Ei, Et. rewrite !nth_error_map in Ei, Et. destruct (nth_error l i) as [x|] eqn:Ex; [|discriminate].
  cbn [option_map] in Ei, Et. apply Ok_inj in Ei, Et. subst inputs t.
  destruct (forall2_nth_r _ _ _ El' i x Ex) as (p & Hp & Hr & Ht).
  destruct (forall2_nth_r _ _ _ Hl i x Ex) as (p' & Hp' & L1 & L2 & L3). rewrite Hp in Hp'. apply Some_inj in Hp'. subst p'.
  exists p, (fst x), (snd x).
  assert (Hw : (length (dp_chords p) <= width)%nat).
  { apply np_max_spec in Ew as [_ Ew]. apply Ew. apply in_map_iff. exists p. split; [reflexivity|]. eapply nth_error_In; exact Hp. }
  unfold padded_inputs in Hd. destruct (hget (fst x) 0) as [r0|] eqn:E0; [|discriminate]. cbn [bind] in Hd.
  rewrite pad_to_ok in Hd by lia. cbn [bind hd_input_lengths] in Hd.
  unfold hget in Hd at 1. rewrite nth_error_map, Hp in Hd. cbn [option_map bind] in Hd.
  destruct (hget (snd x) 0) as [t0|] eqn:Et0; [|discriminate]. cbn [fst bind] in Hd.
  rewrite pad_to_ok in Hd by lia. cbn [bind] in Hd. unfold hget in Hd. rewrite nth_error_map, Hp in Hd. cbn [option_map bind] in Hd.
  apply Ok_inj in Hd. subst d. cbn [id_length id_inputs id_targets].
  split; [exact Hp|]. split; [exact Hr|]. split; [exact Ht|]. split; [reflexivity|]. split; [exact L1|].
  split; [rewrite <- L1 at 1; apply padded_firstn|]. split; [rewrite <- L2 at 1; apply padded_firstn|].
  exists width. split; [reflexivity|]. rewrite Forall_forall in V. specialize (V p ltac:(eapply nth_error_In; exact Hp)) as [Vp Vc].
  unfold csm_item. cbn [id_length id_inputs id_targets id_target_length]. split; [reflexivity|]. split; [lia|].
  split; [apply padded_length; lia|]. split; [apply padded_length; lia|]. split.
  - unfold padded. apply Forall_app. split.
    + apply Forall_forall. intros r Hin. apply In_nth_error in Hin as (k & Hk). exact (proj1 (proj2 (piece_flags p _ _ Vp Hr) k r Hk)).
    + apply Forall_forall. intros r Hin. apply repeat_spec in Hin. subst r.
      unfold hget in E0. destruct (nth_error (fst x) 0) as [r|] eqn:Er; [|discriminate]. apply Ok_inj in E0. subst r.
      assert (N := proj1 (proj2 (piece_flags p _ _ Vp Hr) 0%nat r0 Er)). unfold zeros, zlen. destruct r0; [congruence|]. cbn [length]. rewrite Nat2Z.id. discriminate.
  - rewrite <- L2 at 1. rewrite padded_firstn. apply Forall_forall. intros y Hy. apply In_nth_error in Hy as (k & Hk).
    unfold csd_targets in Ht. apply mapM_forall2 in Ht. destruct (forall2_nth_r _ _ _ Ht k y Hk) as (c & Hc & Hy).
    unfold chord_one_hot in Hy. apply bind_ok in Hy as (root & _ & Hy). apply encode_range in Hy.
    rewrite Forall_forall in Vc. rewrite (Vc c) in Hy by (eapply nth_error_In; exact Hc). exact Hy.
Qed.
