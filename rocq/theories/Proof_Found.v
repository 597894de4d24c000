(* With pitches in semitones the search never runs out of states. *)
From Verif Require Import Spec_Total Spec_Beam Proof_Base Proof_Codec Proof_CodecSpec Proof_Vectors Proof_Transpose Proof_Heap Proof_Beam Proof_Search Proof_Total.
From Coq Require Import Permutation.
Open Scope Z_scope.

Lemma mapM_each {A B} (f : A -> res B) : forall l ls a, mapM f l = Ok ls -> In a l -> exists b, f a = Ok b /\ In b ls.
Proof.
  induction l as [|x l IH]; intros ls a H Ha; cbn [mapM] in H; [contradiction|].
  apply bind_ok in H as (b & Eb & H). apply bind_ok in H as (bs & Ebs & H). apply Ok_inj in H. subst ls.
  destruct Ha as [->|Ha]; [exists b; split; [exact Eb|left; reflexivity]|]. destruct (IH bs a Ebs Ha) as (b' & E & Hb). exists b'. split; [exact E|right; exact Hb].
Qed.
Lemma mapi_in {A B} (f : nat -> A -> B) l : forall i a, In a l -> exists j, In (f j a) (mapi f i l) /\ (i <= j)%nat /\ nth_error l (j - i) = Some a.
Proof.
  induction l as [|x l IH]; intros i a H; [contradiction|]. cbn [mapi]. destruct H as [->|H].
  - exists i. rewrite Nat.sub_diag. split; [left; reflexivity|]. split; [lia|reflexivity].
  - destruct (IH (S i) a H) as (j & H1 & H2 & H3). exists j. split; [right; exact H1|]. split; [lia|].
    replace (j - i)%nat with (S (j - S i)) by lia. exact H3.
Qed.
Lemma combine_mapi_in {A B} (f : nat -> A -> B) l : forall i a, In a l -> exists b, In (b, a) (combine (mapi f i l) l).
Proof.
  induction l as [|x l IH]; intros i a H; [contradiction|]. cbn [mapi combine]. destruct H as [->|H].
  - eexists. left. reflexivity.
  - destruct (IH (S i) a H) as (b & Hb). exists b. right. exact Hb.
Qed.

(* a beam that is not empty *)
Definition lit (sr : search) (i : nat) : Prop := exists b, nth_error (sr_beams sr) i = Some b /\ ab_len b <> 0.

(* a change of key leads from one key to the other *)
Definition reach (pt : pitch_type) (k f : Z) : Prop := exists t0 m0 rid mode interval, py_nth (key_labels pt) k = Ok (t0, m0)
  /\ 0 <= rid < key_change_count pt /\ py_nth (relative_key_labels pt) rid = Ok (mode, interval)
  /\ get_key_one_hot_index mode (match pt with MIDI => (t0 + interval) mod 12 | TPC => t0 + interval end) pt = Ok f.
(* key ids, the intervals of the changes *)
Lemma change_label pt mode i : (match pt with MIDI => 0 <= i < 12 | TPC => -14 <= i <= 14 end) ->
  exists rid, 0 <= rid < key_change_count pt /\ py_nth (relative_key_labels pt) rid = Ok (mode, i).
Proof.
  intros Hi. assert (H : forallb (fun i => existsb (fun rid => match py_nth (relative_key_labels pt) rid with Ok (m, j) => (mode_value m =? mode_value mode) && (j =? i) | _ => false end)
    (zrange 0 (key_change_count pt))) (match pt with MIDI => zrange 0 12 | TPC => zrange (-14) 15 end) = true) by (destruct pt, mode; vm_compute; reflexivity).
  rewrite forallb_forall in H. specialize (H i). assert (Hin : In i (match pt with MIDI => zrange 0 12 | TPC => zrange (-14) 15 end)) by (destruct pt; apply in_zrange; lia).
  specialize (H Hin). apply existsb_exists in H as (rid & Hr & H). apply in_zrange in Hr. exists rid. split; [exact Hr|].
  destruct (py_nth _ _) as [[m j]|]; [|discriminate]. apply andb_true_iff in H as [H1 H2]. apply Z.eqb_eq in H1, H2. subst j. destruct m, mode; (reflexivity || discriminate).
Qed.
Lemma reach_any pt k f t0 m0 t1 m1 : 0 <= k < key_count pt -> 0 <= f < key_count pt -> py_nth (key_labels pt) k = Ok (t0, m0) -> py_nth (key_labels pt) f = Ok (t1, m1) ->
  (pt = TPC -> -14 <= t1 - t0 <= 14) -> reach pt k f.
Proof.
  intros Hk Hf E0 E1 Hd. destruct (key_inverse_s f pt Hf) as (t2 & m2 & E2 & E3). change (get_key_from_one_hot_index f pt false) with (py_nth (key_labels pt) f) in E2.
  rewrite E1 in E2. apply Ok_inj in E2. injection E2 as <- <-.
  destruct (change_label pt m1 (match pt with MIDI => (t1 - t0) mod 12 | TPC => t1 - t0 end)) as (rid & Hr & El).
  { destruct pt; [apply Hd; reflexivity|apply Z.mod_pos_bound; lia]. }
  exists t0, m0, rid, m1, (match pt with MIDI => (t1 - t0) mod 12 | TPC => t1 - t0 end). split; [exact E0|]. split; [exact Hr|]. split; [exact El|]. destruct pt.
  - replace (t0 + (t1 - t0)) with t1 by lia. exact E3.
  - destruct (key_rejects_s m1 t1 MIDI) as [[E4 _]|(i & _ & Ht)]; [congruence|]. cbn [pitch_count] in Ht.
    replace ((t0 + (t1 - t0) mod 12) mod 12) with t1; [exact E3|]. rewrite Zplus_mod_idemp_r. replace (t0 + (t1 - t0)) with t1 by lia. symmetry. apply Z.mod_small. exact Ht.
Qed.

Section Found.
Variables (g : search_cfg) (o : oracle) (pd : piece_data) (ranges : list range_data).
Let n := length (p_durs pd).
Hypothesis Htypes : g_cpt g = g_kpt g.
Hypothesis Hbeam : 1 <= g_beam_size g.
Hypothesis Hpiece : p_durs pd <> [].
Hypothesis Hlevels : length (p_levels pd) = S n /\ forall l, In l (p_levels pd) -> 0 <= l < 4.
Hypothesis Hforced_k : length (p_forced_k pd) = n /\ forall k, In k (p_forced_k pd) -> k = -1 \/ 0 <= k < key_count (g_kpt g).
Hypothesis Hforced_c : forall c, In c (p_forced_c pd) -> c <> -1 -> good (g_cpt g) c.
Hypothesis Hranges : forall r, In r ranges -> (r_start r < r_end r <= n)%nat.
Hypothesis Hrow : forall r, In r ranges -> zlen (r_prior r) = chord_count (g_cpt g).
Hypothesis Horder : forall r, In r ranges -> Permutation (r_order r) (zrange 0 (chord_count (g_cpt g))).
Hypothesis Hplay : forall r c, In r ranges -> In c (py_slice (r_order r) 0 (r_max r)) \/ In c (py_slice (r_order r) 0 2) -> playable (g_cpt g) c.
Hypothesis Hksm : forall step l i, zlen (o_ksm o step l i) = key_change_count (g_kpt g).
Hypothesis Hicm : forall m, zlen (o_icm o m) = 44 * root_count (g_cpt g) true false.
Hypothesis Hcsm : forall step l i, zlen (o_csm o step l i)
     = if g_pitch_based g then root_count (g_cpt g) true false
       else get_chord_vector_length (g_cpt g) true true (g_use_inv g) false (g_red g).
Hypothesis Hsort : forall l, Permutation (o_argsort o l) (zrange 0 (zlen l)).
Hypothesis Hinv : g_use_inv g = true -> forall t, positions t <= positions (g_red g t).
Hypothesis Hmax : forall r, In r ranges -> 1 <= r_max r.
Hypothesis Hdecides : forall m p, prob_ok o m p -> g_min_key g <= p \/ p <= g_max_no_key g.

Notation sinv := (sinv g o pd ranges).
Notation sound := (Proof_Total.sound g).

Lemma slot_at k sr idx : sinv k sr -> (k <= idx <= n)%nat -> exists b, hget (sr_beams sr) idx = Ok b /\ slot_ok g sr idx b.
Proof. eapply slot_of; eassumption. Qed.
Lemma chord_good s r c : In r ranges -> chord_ok o pd s r c -> good (g_cpt g) c.
Proof. eapply chord_ok_good; eassumption. Qed.
Lemma listed_good r c : In r ranges -> In c (py_slice (r_order r) 0 (r_max r)) \/ In c (py_slice (r_order r) 0 2) -> good (g_cpt g) c.
Proof. eapply order_good; eassumption. Qed.
Lemma listed_head r : In r ranges -> exists c, hget (r_order r) 0 = Ok c.
Proof. eapply order_head; eassumption. Qed.
Lemma sound_of f : derived g o pd ranges f -> sound f.
Proof. eapply derived_sound; eassumption. Qed.
Lemma branched_sound s r m : In r ranges -> sound s -> branch_rel g o pd s r m -> sound m.
Proof. intros Hr Hs Hb. eapply branch_sound; eassumption. Qed.
Lemma outside_wider lo hi lo' hi' x y : lo' <= lo -> hi <= hi' -> outside lo hi x y = false -> outside lo' hi' x y = false.
Proof.
  unfold outside. rewrite !orb_false_iff, !Z.ltb_ge, !Z.leb_gt. lia.
Qed.

(* keys in which the search stays (K) and the chords it tries (T) *)
Variables (K T : Z -> Prop).
Hypothesis HT_forced : forall c, In c (p_forced_c pd) -> c <> -1 -> T c.
Hypothesis HT_listed : forall r c, In r ranges -> In c (py_slice (r_order r) 0 (r_max r)) \/ In c (py_slice (r_order r) 0 2) -> T c.
Hypothesis Hnear : forall c k root t inv bass tonic mode, T c -> K k -> chord_notes (g_cpt g) c = Ok (root, t, inv, bass) ->
  py_nth (key_labels (g_kpt g)) k = Ok (tonic, mode) -> outside MIN_RELATIVE_TPC MAX_RELATIVE_TPC (root - tonic) (bass - tonic) = false.
Hypothesis Hfirst : forall keys, initial_keys g pd = Ok keys -> keys <> [] /\ forall k, In k keys -> K k.
Record kin (s : state) : Prop := {
  kin_key : K (st_key s);
  kin_chord : forall c, st_chord s = Some c -> T c;
  kin_prev : forall p, st_prev s = Some p -> K (st_key p) /\ (st_change p < st_change s)%nat
}.
Hypothesis HK_forced : forall k, In k (p_forced_k pd) -> k <> -1 -> K k.
Hypothesis Hreach : forall k f, K k -> K f -> 0 <= k < key_count (g_kpt g) -> 0 <= f < key_count (g_kpt g) -> reach (g_kpt g) k f.
Hypothesis Hfree : (forall k, K k) \/ (forall prob m0 p, prob_ok o m0 prob -> (st_change p < st_change m0 <= n)%nat ->
  pick o (forced_set (p_forced_k pd) (st_change p) (st_change m0)) = None -> prob < g_min_key g).

(* what a change of key says of the key wanted *)
Lemma change_pick prob m0 m p : prob_ok o m0 prob -> change_rel g o pd prob m0 m -> kin m -> (st_change m <= n)%nat -> st_prev m = Some p ->
  (pick o (forced_set (p_forced_k pd) (st_change p) (st_change m)) = None /\ forall k, K k)
  \/ exists f, pick o (forced_set (p_forced_k pd) (st_change p) (st_change m)) = Some f /\ f <> st_key m.
Proof.
  intros Hp Hcr Hki Hb Ep. destruct (change_fields g o pd _ _ _ Hcr) as (_ & F2 & F3 & F4). destruct Hcr as (q & Eq & Hcr). rewrite Ep, Eq in F3. injection F3 as ->. clear Eq.
  destruct (kin_prev m Hki q Ep) as [_ Hl]. rewrite F4, F2 in *.
  assert (Hfl : fst (key_flags g o pd prob q m0) = true) by (destruct Hcr as [[-> _]|[-> _]]; reflexivity). clear Hcr. unfold key_flags in Hfl.
  destruct (pick o _) as [f|] eqn:E.
  - right. exists f. split; [reflexivity|]. destruct (Z.eqb_spec (st_key m0) f); [discriminate|]. congruence.
  - left. split; [reflexivity|]. destruct Hfree as [Ha|Hno]; [exact Ha|]. apply Z.leb_le in Hfl. assert (Hx := Hno prob m0 q Hp ltac:(lia) E). lia.
Qed.
Lemma kin_stays prob m0 m f : prob_ok o m0 prob -> change_rel g o pd prob m0 m -> kin m -> (st_change m <= n)%nat -> key_rel g o pd m f -> K (st_key f).
Proof.
  intros Hp Hcr Hki Hb (step & l & i & _ & p & key & lp & rid & md & iv & x0 & Ep & _ & Hpick & _ & _ & Hk & _ & _ & H).
  assert (Ek : st_key f = key).
  { unfold key_transition in H. apply bind_ok in H as (c & _ & H). apply bind_ok in H as ([[root t] inv] & _ & H). apply bind_ok in H as (bass & _ & H).
    apply bind_ok in H as ([tonic md1] & _ & H). destruct (outside _ _ _ _); [apply Ok_inj in H; discriminate|].
    apply bind_ok in H as (h & _ & H). apply bind_ok in H as (q & _ & H). apply Ok_inj in H. injection H as <-. reflexivity. }
  rewrite Ek. destruct (change_pick prob m0 m p Hp Hcr Hki Hb Ep) as [[_ Ha]|(f0 & E & _)]; [apply Ha|].
  rewrite (Hpick f0 E). apply pick_in in E as [E1 E2]. exact (HK_forced f0 E1 E2).
Qed.
Lemma key_loop_some m p lps mi forced f t0 m0 rid mode interval tonic : sound m -> kin m -> K f -> st_prev m = Some p ->
  py_nth (key_labels (g_kpt g)) (st_key m) = Ok (t0, m0) -> py_nth (relative_key_labels (g_kpt g)) rid = Ok (mode, interval) ->
  tonic = match g_kpt g with MIDI => (t0 + interval) mod 12 | TPC => t0 + interval end ->
  get_key_one_hot_index mode tonic (g_kpt g) = Ok f -> f <> st_key m -> (forced = None \/ forced = Some f) ->
  forall order c l, In rid order -> key_loop g m lps mi forced order c = Ok l -> l <> [].
Proof.
  intros Hs Hki HK Ep Ek Er Et Ef Hne Hfo. induction order as [|x rest IH]; intros c l Hin H; [contradiction|]. cbn [key_loop] in H.
  apply bind_ok in H as ([md iv] & Ex & H). unfold state_key in H. rewrite Ek in H. cbn [bind] in H.
  set (tn := match g_kpt g with MIDI => (t0 + iv) mod 12 | TPC => t0 + iv end) in *.
  assert (Hx0 : x = rid -> md = mode /\ tn = tonic).
  { intros ->. rewrite Er in Ex. apply Ok_inj in Ex. injection Ex as -> ->. split; [reflexivity|]. symmetry. exact Et. }
  destruct (match g_kpt g with TPC => _ | MIDI => false end) eqn:Eout.
  { destruct Hin as [Hin|Hin]; [|exact (IH c l Hin H)]. exfalso. destruct (Hx0 Hin) as [_ Htn]. destruct (key_rejects_s mode tonic (g_kpt g)) as [[E3 _]|(i & _ & Hr)]; [congruence|].
    rewrite Htn in Eout. destruct (g_kpt g); [|discriminate]. apply orb_true_iff in Eout as [Eout|Eout]; [apply Z.ltb_lt in Eout|apply Z.leb_le in Eout; change (NUM_PITCHES TPC) with (pitch_count TPC) in Eout]; lia. }
  apply bind_ok in H as (key & Ekey & H).
  assert (Hx : x = rid -> key = f) by (intros E; destruct (Hx0 E) as [-> Htn]; rewrite Htn, Ef in Ekey; apply Ok_inj in Ekey; congruence).
  destruct (match forced with Some f0 => negb (f0 =? key) | None => false end) eqn:E1.
  { destruct Hin as [Hin|Hin]; [|exact (IH c l Hin H)]. specialize (Hx Hin). subst key. destruct Hfo as [->| ->]; [discriminate|]. rewrite Z.eqb_refl in E1. discriminate. }
  destruct (Z.eqb_spec key (st_key m)) as [E2|Hk].
  { destruct Hin as [Hin|Hin]; [|exact (IH c l Hin H)]. specialize (Hx Hin). congruence. }
  unfold the_prev in H. rewrite Ep in H. cbn [bind] in H. apply bind_ok in H as (lp & _ & H). apply bind_ok in H as (new & Enew & H).
  assert (Hnew : key = f -> exists ns, new = Some ns).
  { intros ->. unfold key_transition in Enew. apply bind_ok in Enew as (ch & Ech & Enew).
    assert (Ech' : st_chord m = Some ch) by (unfold the_chord in Ech; destruct (st_chord m); [apply Ok_inj in Ech; congruence|discriminate]).
    assert (Hg := so_chord _ _ Hs ch Ech'). destruct (chord_notes_ok _ ch Hg) as (root & t & inv & bass & En & El & Ebass & Hr & Hb & _).
    rewrite El in Enew. cbn [bind] in Enew. rewrite <- Htypes, Ebass in Enew. cbn [bind] in Enew. rewrite Htypes in Enew.
    destruct (key_roundtrip_s _ _ _ _ Ekey) as [Ekk Hkk]. change (get_key_from_one_hot_index f (g_kpt g) false) with (py_nth (key_labels (g_kpt g)) f) in Ekk. rewrite Ekk in Enew. cbn [bind] in Enew.
    rewrite (Hnear ch f _ _ _ _ _ _ (kin_chord m Hki ch Ech') HK En Ekk) in Enew.
    apply bind_ok in Enew as (h & _ & Enew). apply bind_ok in Enew as (q & _ & Enew). apply Ok_inj in Enew. subst new. eexists. reflexivity. }
  destruct new as [ns|].
  - match type of H with (if ?b then _ else _) = _ => destruct b end; [apply Ok_inj in H; subst; discriminate|].
    apply bind_ok in H as (more & _ & H). apply Ok_inj in H. subst. discriminate.
  - destruct Hin as [Hin|Hin]; [destruct (Hnew (Hx Hin)); discriminate|]. destruct Hfo as [->| ->]; [exact (IH c l Hin H)|].
    apply negb_false_iff, Z.eqb_eq in E1. destruct (Hnew (eq_sym E1)); discriminate.
Qed.
Lemma key_moves prob m0 m p step l i x : prob_ok o m0 prob -> change_rel g o pd prob m0 m -> sound m -> kin m -> (st_change m <= n)%nat -> st_prev m = Some p ->
  key_change_one g o pd step l i m = Ok x -> x <> [].
Proof.
  intros Hp Hcr Hs Hki Hb Ep H. assert (Hpk := change_pick prob m0 m p Hp Hcr Hki Hb Ep). assert (Hk := so_key _ _ Hs).
  unfold key_change_one in H. cbv zeta in H. apply bind_ok in H as (srt & _ & H). unfold the_prev in H. rewrite Ep in H. cbn [bind] in H.
  assert (Hex : exists f, K f /\ 0 <= f < key_count (g_kpt g) /\ f <> st_key m /\ (pick o (forced_set (p_forced_k pd) (st_change p) (st_change m)) = None
     \/ pick o (forced_set (p_forced_k pd) (st_change p) (st_change m)) = Some f)).
  { destruct Hpk as [[E Ha]|(f & E & Hne)].
    - assert (Hc2 : 2 <= key_count (g_kpt g)) by (destruct (g_kpt g); vm_compute; discriminate).
      exists (if st_key m =? 0 then 1 else 0). split; [apply Ha|]. destruct (Z.eqb_spec (st_key m) 0); repeat split; try lia; auto.
    - destruct (pick_in _ _ _ _ _ E) as [E1 E2]. exists f. split; [exact (HK_forced f E1 E2)|]. split; [|auto].
      destruct (proj2 Hforced_k f E1) as [?|Hr]; [contradiction|exact Hr]. }
  destruct Hex as (f & HK & Hfr & Hfne & Hfp). destruct (Hreach (st_key m) f (kin_key m Hki) HK Hk Hfr) as (t0 & m1 & rid & mode & interval & Ek & Hrid & Er & Ef).
  apply (key_loop_some m p _ _ _ f t0 m1 rid mode interval _ Hs Hki HK Ep Ek Er eq_refl Ef Hfne Hfp) in H; [exact H|].
  apply (Permutation_in _ (Permutation_sym (Hsort _))). apply in_zrange. rewrite Hksm. lia.
Qed.
Lemma chord_tried s r c : In r ranges -> chord_ok o pd s r c -> T c.
Proof.
  intros Hr H. unfold chord_ok in H. destruct (pick o _) as [f|] eqn:E; [|exact (HT_listed r c Hr H)].
  subst f. apply pick_in in E as [E1 E2]. exact (HT_forced c E1 E2).
Qed.
Lemma kin_same s s' : kin s -> st_chord s' = st_chord s -> st_key s' = st_key s -> st_prev s' = st_prev s -> st_change s' = st_change s -> kin s'.
Proof. intros [H1 H2 H3] E1 E2 E3 E4. constructor; rewrite ?E1, ?E2, ?E3, ?E4; assumption. Qed.
Lemma kin_ready s0 s : ready o s0 s -> kin s0 -> kin s.
Proof. intros [[_ ->]|[_ (l & i & _ & ->)]] H; [exact H|]. now apply (kin_same s0). Qed.
Lemma kin_branch s r m : In r ranges -> r_start r = st_change s -> kin s -> branch_rel g o pd s r m -> kin m.
Proof.
  intros Hr Er Hs Hb. assert (Hc := branch_change g o pd _ _ _ Hb). destruct (Hranges r Hr) as [Hlt _]. destruct Hb as (c & pr & Hco & _ & [[Ec H]|[_ H]]).
  - unfold rejoin, the_chord in H. rewrite Ec in H. cbn [bind] in H. apply bind_ok in H as ([[[root t] inv] bass] & En & H).
    apply bind_ok in H as (p & Ep & H). apply bind_ok in H as ([tonic mode] & Ek & H). apply bind_ok in H as (h & _ & H).
    apply Ok_inj in H. subst m. unfold the_prev in Ep. destruct (st_prev s) as [p'|] eqn:Ep'; [|discriminate]. apply Ok_inj in Ep. subst p'.
    destruct (kin_prev s Hs p Ep') as [Hk Hl]. constructor; cbn [st_key st_chord st_prev st_change] in *; [exact Hk| |].
    + intros c' [= <-]. exact (kin_chord s Hs c Ec).
    + intros q [= <-]. split; [exact Hk|]. lia.
  - assert (HTc := chord_tried s r c Hr Hco). unfold chord_transition in H. apply bind_ok in H as ([[[root t] inv] bass] & En & H).
    apply bind_ok in H as ([tonic mode] & Ek & H). destruct (outside _ _ _ _); [apply Ok_inj in H; discriminate|].
    apply bind_ok in H as (h & _ & H). apply Ok_inj in H. injection H as <-. constructor; cbn [st_key st_chord st_prev st_change] in *; [exact (kin_key s Hs)| |].
    + intros c' [= <-]. exact HTc.
    + intros q [= <-]. split; [exact (kin_key s Hs)|]. lia.
Qed.
Lemma kin_csm m f : csm_rel g o pd m f -> st_chord f = st_chord m /\ st_key f = st_key m /\ st_prev f = st_prev m.
Proof. intros H. destruct (csm_fields g o pd m f H) as [x ->]. auto. Qed.
Lemma kin_key_rel m f : key_rel g o pd m f -> st_chord f = st_chord m /\ st_prev f = st_prev m /\ st_change f = st_change m.
Proof.
  intros (step & l & i & _ & p & key & lp & rid & md & iv & x0 & Ep & _ & _ & _ & _ & Hk & _ & _ & H). unfold key_transition in H.
  apply bind_ok in H as (c & _ & H). apply bind_ok in H as ([[root t] inv] & _ & H). apply bind_ok in H as (bass & _ & H).
  apply bind_ok in H as ([tonic md1] & _ & H). destruct (outside _ _ _ _); [apply Ok_inj in H; discriminate|].
  apply bind_ok in H as (h & _ & H). apply bind_ok in H as (q & _ & H). apply Ok_inj in H. injection H as <-. auto.
Qed.
Lemma kin_derived f : derived g o pd ranges f -> kin f.
Proof.
  induction 1 as [k keys s Ek Hk Es|s0 s r m prob m' f Hd IH Hrd Hr Er Hb Hp Hkr Hc|s0 s r m prob m' f Hd IH Hrd Hr Er Hb Hp Hcr Hkr].
  - destruct (initial_facts g o pd k keys s Ek Hk Es) as (ks & k' & tonic & mode & Ek' & Hk' & _ & ->). constructor; cbn [st_key st_chord st_prev]; [|discriminate|discriminate].
    rewrite Ek in Ek'. apply Ok_inj in Ek'. subst ks. exact (proj2 (Hfirst keys Ek) k' Hk').
  - assert (Km := kin_branch s r m Hr Er (kin_ready _ _ Hrd IH) Hb). destruct (keep_fields g o pd _ _ _ Hkr) as (F1 & F2 & F3 & F4 & _).
    destruct (kin_csm m' f Hc) as (G1 & G2 & G3). assert (G4 := csm_change g o pd _ _ Hc). apply (kin_same m); congruence.
  - assert (Km := kin_branch s r m Hr Er (kin_ready _ _ Hrd IH) Hb). destruct (change_fields g o pd _ _ _ Hcr) as (F1 & F2 & F3 & F4).
    assert (Km' : kin m') by (apply (kin_same m); assumption).
    assert (Sm' : sound m') by (apply (same_sound g m m'); [exact (branched_sound s r m Hr (ready_sound g o _ _ Hrd (sound_of _ Hd)) Hb)|assumption|assumption|assumption]).
    assert (Bm' : (st_change m' <= n)%nat) by (rewrite F4, (branch_change g o pd _ _ _ Hb); exact (proj2 (Hranges r Hr))).
    destruct (kin_key_rel m' f Hkr) as (G1 & G2 & G3). destruct Km' as [A1 A2 A3]. constructor.
    + exact (kin_stays prob m m' f Hp Hcr {| kin_key := A1; kin_chord := A2; kin_prev := A3 |} Bm' Hkr).
    + rewrite G1. exact A2.
    + rewrite G2, G3. exact A3.
Qed.

Lemma lit_slot k sr i : sinv k sr -> (k <= i <= n)%nat -> exists b seen B, nth_error (sr_beams sr) i = Some b /\ beam_inv seen B b
  /\ ab_size b = g_beam_size g /\ (lit sr i <-> B <> []) /\ (B = [] <-> ab_len b = 0).
Proof.
  intros Hi Hk. destruct (slot_at k sr i Hi Hk) as (b & E & seen & B & Hb & Hsz & _). apply hget_nth in E.
  exists b, seen, B. split; [exact E|]. split; [exact Hb|]. split; [exact Hsz|]. destruct (ab_list_ok _ _ _ Hb) as [_ EL].
  assert (Hz : B = [] <-> ab_len b = 0).
  { rewrite EL. split; [intros ->; reflexivity|]. destruct B; [reflexivity|]. rewrite zlen_cons. pose proof (zlen_nonneg B). lia. }
  split; [|exact Hz]. split.
  - intros (b' & E' & Hl) HB. rewrite E in E'. injection E' as <-. apply Hz in HB. contradiction.
  - intros HB. exists b. split; [exact E|]. intros H. apply Hz in H. contradiction.
Qed.

Lemma fits_false k sr i s ch : sinv k sr -> (k <= i <= n)%nat -> fits sr i s ch = Ok false -> lit sr i.
Proof.
  intros Hi Hk H. destruct (lit_slot k sr i Hi Hk) as (b & seen & B & E & Hb & Hsz & Hlit & Hz). apply Hlit. intros HB. apply Hz in HB.
  unfold fits, hget in H. rewrite E in H. cbn [bind] in H. destruct b as [b|b]; cbn [ab_fits ab_len ab_size] in *.
  - unfold fits_in_beam in H. rewrite HB, Hsz in H. destruct (0 <? g_beam_size g) eqn:E2; [discriminate|]. apply Z.ltb_ge in E2. lia.
  - unfold hfits_in_beam in H. rewrite HB, Hsz in H. replace (0 <? g_beam_size g) with true in H by (symmetry; apply Z.ltb_lt; lia). cbn [bind andb] in H.
    destruct ch; [|discriminate]. unfold hb_len in HB. destruct (hb_dict b) as [d|]; [|discriminate].
    destruct d; [|rewrite zlen_cons in HB; pose proof (zlen_nonneg d); lia]. discriminate.
Qed.
Lemma fits_false' k sr step i s ch : sinv k sr -> (k <= i <= n)%nat -> (if (step =? 0)%nat then Ok true else fits sr i s ch) = Ok false -> lit sr i.
Proof. intros Hi Hk. destruct (step =? 0)%nat; [discriminate|]. exact (fits_false k sr i s ch Hi Hk). Qed.

Lemma add_state_lit k sr idx s f sr' : sinv k sr -> (k <= idx <= n)%nat -> add_state sr idx s f = Ok sr' ->
  lit sr' idx /\ forall j, lit sr j -> lit sr' j.
Proof.
  intros Hi Hk H. destruct (slot_at k sr idx Hi Hk) as (b & E & seen & B & Hb & Hsz & _ & Hseen & _).
  unfold add_state in H. rewrite E in H. cbn [bind] in H. apply hget_nth in E.
  destruct (ab_add_ok seen B b (to_bstate (length (sr_store sr)) s) f Hb) as (b' & B' & E' & Hb' & _ & Hne & _).
  { cbn [to_bstate s_id]. intros Hin. apply Hseen in Hin. lia. }
  rewrite E' in H. cbn [bind] in H. apply Ok_inj in H. subst sr'.
  assert (Hl : lit {| sr_beams := upd_nat (sr_beams sr) idx b'; sr_store := sr_store sr ++ [s] |} idx).
  { exists b'. cbn [sr_beams]. split; [apply nth_error_upd_same; apply nth_error_Some; congruence|]. destruct (ab_list_ok _ _ _ Hb') as [_ EL]. rewrite EL.
    destruct B'; [contradiction|]. rewrite zlen_cons. pose proof (zlen_nonneg B'). lia. }
  split; [exact Hl|]. intros j (bj & Ej & Hj). destruct (Nat.eq_dec idx j) as [<-|Hne']; [exact Hl|].
  exists bj. cbn [sr_beams]. rewrite nth_error_upd_other by exact Hne'. auto.
Qed.
Lemma add_all_lit k l : forall sr sr', sinv k sr -> (forall s, In s l -> derived g o pd ranges s /\ (k <= st_change s <= n)%nat) -> add_all sr l = Ok sr' ->
  (forall s, In s l -> lit sr' (st_change s)) /\ forall j, lit sr j -> lit sr' j.
Proof.
  induction l as [|s l IH]; intros sr sr' Hi Hl H; cbn [add_all] in H; [apply Ok_inj in H; subst; split; [intros s []|auto]|].
  apply bind_ok in H as (sr1 & E1 & H). destruct (Hl s (or_introl eq_refl)) as [Hd Hc].
  destruct (add_state_inv g o pd ranges k sr (st_change s) s false Hi Hd (fun _ => eq_refl) Hc eq_refl) as (sr1' & E1' & Hi1 & _).
  rewrite E1 in E1'. apply Ok_inj in E1'. subst sr1'. destruct (add_state_lit k sr _ s false sr1 Hi Hc E1) as [L1 L2].
  destruct (IH sr1 sr' Hi1 (fun x Hx => Hl x (or_intror Hx)) H) as [L3 L4]. split; [|auto].
  intros x [<-|Hx]; auto.
Qed.

(* ---- branching never fails ---- *)
Lemma transition_some s c e lp x : sound s -> kin s -> good (g_cpt g) c -> T c -> chord_transition (g_cpt g) (g_kpt g) s c e lp = Ok x -> exists m, x = Some m.
Proof.
  intros Hs Hki Hc HTc H. unfold chord_transition, state_key in H. destruct (chord_notes_ok _ c Hc) as (root & t & inv & bass & En & _ & _ & Hr & Hb & _).
  rewrite En in H. cbn [bind] in H. destruct (key_label _ _ (so_key _ _ Hs)) as (tonic & mode & Ek & Ht). rewrite Ek in H. cbn [bind] in H.
  rewrite (outside_wider MIN_RELATIVE_TPC MAX_RELATIVE_TPC) in H; [|vm_compute; discriminate|vm_compute; discriminate|exact (Hnear c _ _ _ _ _ _ _ HTc (kin_key s Hki) En Ek)].
  apply bind_ok in H as (h & _ & H). apply Ok_inj in H. subst x. eexists. reflexivity.
Qed.
Lemma branch_must s r m : In r ranges -> sound s -> kin s -> branch_rel g o pd s r m -> st_must m = false.
Proof.
  intros Hr Hs Hki (c & p & Hc & _ & [[Ec H]|[_ H]]).
  - unfold rejoin, the_chord in H. rewrite Ec in H. cbn [bind] in H. destruct (chord_notes_ok _ c (so_chord _ _ Hs c Ec)) as (root & t & inv & bass & En & _ & _ & Hrt & Hb & _).
    rewrite En in H. cbn [bind] in H. apply bind_ok in H as (q & Eq & H). unfold the_prev in Eq. destruct (st_prev s) as [q'|] eqn:Ep; [|discriminate]. apply Ok_inj in Eq. subst q'.
    destruct (key_label _ _ (proj1 (so_prev _ _ Hs q Ep))) as (tonic & mode & Ek & Ht). rewrite Ek in H. cbn [bind] in H.
    apply bind_ok in H as (h & _ & H). apply Ok_inj in H. subst m. cbn [st_must].
    exact (Hnear c _ _ _ _ _ _ _ (kin_chord s Hki c Ec) (proj1 (kin_prev s Hki q Ep)) En Ek).
  - assert (Hg := chord_good s r c Hr Hc). unfold chord_transition, state_key in H.
    destruct (chord_notes_ok _ c Hg) as (root & t & inv & bass & En & _ & _ & Hrt & Hb & _).
    rewrite En in H. cbn [bind] in H. destruct (key_label _ _ (so_key _ _ Hs)) as (tonic & mode & Ek & Ht). rewrite Ek in H. cbn [bind] in H.
    destruct (outside _ _ _ _) in H; [apply Ok_inj in H; discriminate|]. apply bind_ok in H as (h & _ & H). apply Ok_inj in H. injection H as <-. cbn [st_must].
    exact (Hnear c _ _ _ _ _ _ _ (chord_tried s r c Hr Hc) (kin_key s Hki) En Ek).
Qed.

Lemma branch_chords_some k sr s r c rest l : sinv k sr -> sound s -> kin s -> In r ranges -> (k <= r_end r)%nat -> good (g_cpt g) c -> T c ->
  branch_chords g sr k s r (c :: rest) = Ok l -> l <> [] \/ lit sr (r_end r).
Proof.
  intros Hi Hs Hki Hr Hk Hc HTc H. cbn [branch_chords] in H. apply bind_ok in H as (p & _ & H). apply bind_ok in H as (new & En & H).
  assert (Hn : exists m, new = Some m).
  { destruct (match st_chord s with Some c' => c =? c' | None => false end); [|exact (transition_some _ _ _ _ _ Hs Hki Hc HTc En)].
    apply bind_ok in En as (m & _ & En). apply Ok_inj in En. eauto. }
  destruct Hn as (m & ->). apply bind_ok in H as (ok & Eok & H). destruct ok.
  - apply bind_ok in H as (more & _ & H). apply Ok_inj in H. subst l. left. discriminate.
  - right. apply (fits_false' k sr k (r_end r) m false Hi); [destruct (Hranges r Hr); lia|exact Eok].
Qed.
Lemma slice_head (l : list Z) m : l <> [] -> 1 <= m -> exists c rest, py_slice l 0 m = c :: rest.
Proof.
  intros Hl Hm. unfold py_slice, py_bound. destruct l as [|c l]; [contradiction|].
  pose proof (zlen_nonneg l). rewrite zlen_cons. cbn [Z.ltb Z.compare]. replace (m <? 0) with false by (symmetry; apply Z.ltb_ge; lia).
  replace (Z.to_nat (Z.max 0 (Z.min (1 + zlen l) 0))) with O by lia. cbn [skipn].
  match goal with |- exists _ _, firstn ?k _ = _ => assert (Hk : exists k', k = S k') by (exists (pred k); lia); destruct Hk as (k' & ->) end.
  cbn [firstn]. eexists. eexists. reflexivity.
Qed.
Lemma branch_range_some k sr s r l : sinv k sr -> sound s -> kin s -> In r ranges -> (k <= r_end r)%nat ->
  branch_range g o pd sr k s r = Ok l -> l <> [] \/ lit sr (r_end r).
Proof.
  intros Hi Hs Hki Hr Hk H. assert (Hb : (k <= r_end r <= n)%nat) by (destruct (Hranges r Hr); lia).
  unfold branch_range in H. apply bind_ok in H as (b & Eb & H). apply hget_nth in Eb. apply bind_ok in H as (q & Eq & H). destruct q.
  { right. exists b. split; [exact Eb|]. destruct (negb (k =? 0)%nat && (0 <? ab_len b)) eqn:E; [|discriminate]. apply andb_true_iff in E as [_ E]. apply Z.ltb_lt in E. lia. }
  apply bind_ok in H as (mi & Emi & H).
  assert (Hmi : mi = r_max r \/ mi = 2).
  { destruct (r_max r =? 1); [|apply Ok_inj in Emi; auto]. apply bind_ok in Emi as (c & _ & Emi). apply Ok_inj in Emi. subst mi.
    destruct (match st_chord s with Some c' => c =? c' | None => false end); auto. }
  destruct (pick o _) as [f|] eqn:Ep.
  - apply bind_ok in H as (c0 & _ & H). apply pick_in in Ep as [E1 E2]. exact (branch_chords_some k sr s r f [] l Hi Hs Hki Hr Hk (Hforced_c f E1 E2) (HT_forced f E1 E2) H).
  - destruct (slice_head (r_order r) mi) as (c & rest & E).
    { destruct (listed_head r Hr) as (c0 & E0). intros E. rewrite E in E0. discriminate. }
    { assert (H1 := Hmax r Hr). lia. }
    assert (Hin : In c (py_slice (r_order r) 0 (r_max r)) \/ In c (py_slice (r_order r) 0 2)).
    { destruct Hmi as [<-|E2]; [left; rewrite E; left; reflexivity|right; rewrite <- E2, E; left; reflexivity]. }
    rewrite E in H. exact (branch_chords_some k sr s r c rest l Hi Hs Hki Hr Hk (listed_good r c Hr Hin) (HT_listed r c Hr Hin) H).
Qed.

Lemma key_branch_some k sr prob m p a b : sinv k sr -> (k <= st_change m <= n)%nat -> st_prev m = Some p -> st_must m = false -> prob_ok o m prob ->
  key_branch g o pd sr k prob m = Ok (a, b) ->
  (exists m', In m' a) \/ (exists m', In m' b) \/ lit sr (st_change m).
Proof.
  intros Hi Hk Ep Hm Hpo H. unfold key_branch, the_prev in H. rewrite Ep in H. cbn [bind] in H. cbv zeta in H. rewrite Hm in H. cbn [negb] in H.
  assert (Hf : exists cc cn, match pick o (forced_set (p_forced_k pd) (st_change p) (st_change m)) with
      | Some k => if st_key m =? k then (false, true) else (true, false)
      | None => (g_min_key g <=? prob, (prob <=? g_max_no_key g) && true) end = (cc, cn) /\ cc || cn = true).
  { destruct (pick o _) as [x|].
    - destruct (st_key m =? x); eexists; eexists; split; reflexivity.
    - eexists; eexists; split; [reflexivity|]. destruct (Hdecides m prob Hpo) as [H1|H1]; apply Z.leb_le in H1; rewrite H1; cbn; [reflexivity|apply orb_true_r]. }
  destruct Hf as (cc & cn & Ef & Hor). rewrite Ef in H. apply bind_ok in H as (cs & Ecs & H).
  assert (Hcs : st_change cs = st_change m).
  { destruct (cc && cn); [|apply Ok_inj in Ecs; congruence]. unfold copy_state in Ecs. apply bind_ok in Ecs as (h & _ & Ecs). apply Ok_inj in Ecs. subst cs. reflexivity. }
  destruct cc; [|destruct cn; [|discriminate]].
  - apply bind_ok in H as (ok & Eok & H). destruct ok.
    + left. destruct cn; [apply bind_ok in H as (ok' & _ & H)|]; apply Ok_inj in H; injection H as <- _; eexists; left; reflexivity.
    + right. right. cbn [add_ktm st_change] in Eok. rewrite Hcs in Eok. exact (fits_false' k sr k _ _ false Hi Hk Eok).
  - apply bind_ok in H as (ok & Eok & H). destruct ok.
    + right. left. apply Ok_inj in H. injection H as _ <-. eexists; left; reflexivity.
    + right. right. cbn [add_ktm st_change] in Eok. rewrite Hcs in Eok. exact (fits_false' k sr k _ _ true Hi Hk Eok).
Qed.
Lemma key_branch_all_some sr k : forall l a b prob m, key_branch_all g o pd sr k l = Ok (a, b) -> In (prob, m) l ->
  exists a1 b1, key_branch g o pd sr k prob m = Ok (a1, b1) /\ incl a1 a /\ incl b1 b.
Proof.
  induction l as [|[p x] l IH]; intros a b prob m H Hm; cbn [key_branch_all] in H; [contradiction|].
  apply bind_ok in H as ([a1 b1] & E1 & H). apply bind_ok in H as ([a2 b2] & E2 & H). apply Ok_inj in H. injection H as <- <-.
  destruct Hm as [[= -> ->]|Hm].
  - exists a1, b1. split; [exact E1|]. split; apply incl_appl, incl_refl.
  - destruct (IH a2 b2 prob m E2 Hm) as (a3 & b3 & E & Ha & Hb). exists a3, b3. split; [exact E|]. split; apply incl_appr; assumption.
Qed.

Lemma key_change_one_rel step l i m x : nth_error l i = Some m -> key_change_one g o pd step l i m = Ok x -> forall f, In f x -> key_rel g o pd m f.
Proof.
  intros Em E f Hf. exists step, l, i. split; [exact Em|]. unfold key_change_one in E. cbv zeta in E. apply bind_ok in E as (sorted & _ & E). apply bind_ok in E as (p & Ep & E).
  assert (Ep' : st_prev m = Some p) by (unfold the_prev in Ep; destruct (st_prev m); [apply Ok_inj in Ep; congruence|discriminate]).
  exact (key_loop_rel g o pd m _ _ p Ep' _ _ _ E f Hf).
Qed.
Lemma lit_after sr i b j : i <> j -> lit sr j -> lit {| sr_beams := upd_nat (sr_beams sr) i b; sr_store := sr_store sr |} j.
Proof. intros Hne (x & E & H). exists x. cbn [sr_beams]. rewrite nth_error_upd_other by exact Hne. auto. Qed.

Lemma step_lit k sr sr' : (k < n)%nat -> sinv k sr -> search_step g o pd ranges sr k = Ok sr' ->
  (forall j, (k < j)%nat -> lit sr j -> lit sr' j)
  /\ (lit sr k -> forall r, In r ranges -> r_start r = k -> lit sr' (r_end r)).
Proof.
  intros Hk Hi H. unfold search_step in H. apply bind_ok in H as (cur & Ecur & H). apply hget_nth in Ecur.
  destruct (Z.eqb_spec (ab_len cur) 0) as [E0|E0].
  { apply Ok_inj in H. subst sr'. split; [auto|]. intros (b & Eb & Hl). rewrite Ecur in Eb. injection Eb as <-. contradiction. }
  apply bind_ok in H as (states & Est & H). apply bind_ok in H as (states' & Est' & H).
  apply bind_ok in H as (branched & Ebr & H). apply bind_ok in H as (probs & Epr & H).
  apply bind_ok in H as ([to_ksm to_csm] & Ekb & H). apply bind_ok in H as (changed & Ech & H).
  apply bind_ok in H as (u1 & _ & H). apply bind_ok in H as (u2 & _ & H). apply bind_ok in H as (sr1 & Esr1 & H).
  apply bind_ok in H as (fin & Efin & H). apply bind_ok in H as (sr2 & Esr2 & H).
  apply bind_ok in H as (cur2 & Ecur2 & H). apply Ok_inj in H. subst sr'.
  assert (Hst : forall s', In s' states' -> exists s, derived g o pd ranges s /\ ready o s s' /\ st_change s' = k).
  { intros s' Hs'. destruct (Nat.eqb_spec k 0) as [->|Hk0].
    - apply Ok_inj in Est'. subst states'. destruct (content_inv g o pd ranges _ _ _ _ Hi Ecur Est s' Hs') as [Hd Hc].
      exists s'. split; [exact Hd|]. split; [left; auto|exact Hc].
    - destruct (run_csm_ready g o pd _ _ _ Est') with (s' := s') as (s & Hs & Hr); [| |exact Hs'|].
      + intros s Hs. destruct (content_inv g o pd ranges _ _ _ _ Hi Ecur Est s Hs) as [_ ->]. exact Hk0.
      + intros s Hs. exact (proj2 (content_inv g o pd ranges _ _ _ _ Hi Ecur Est s Hs)).
      + destruct (content_inv g o pd ranges _ _ _ _ Hi Ecur Est s Hs) as [Hd Hc]. exists s. split; [exact Hd|]. split; [exact Hr|].
        rewrite (ready_change o _ _ Hr). exact Hc. }
  assert (Hbr : forall m, In m (concat branched) -> exists s0 s r, derived g o pd ranges s0 /\ ready o s0 s /\ In r ranges
      /\ r_start r = st_change s /\ branch_rel g o pd s r m /\ st_change m = r_end r /\ st_change s = k).
  { intros m Hm. destruct (mapM_id_in _ _ _ _ Ebr Hm) as ([s r] & b & Hsr & Eb & Hb). cbn [fst snd] in Eb.
    apply in_prod_iff in Hsr as [Hs Hr]. apply filter_In in Hr as [Hr Er]. apply Nat.eqb_eq in Er.
    destruct (Hst s Hs) as (s0 & Hd & Hrd & Hc). exists s0, s, r.
    assert (Hb' := branch_range_rel g o pd _ _ _ _ _ Hc Eb m Hb).
    split; [exact Hd|]. split; [exact Hrd|]. split; [exact Hr|]. split; [congruence|].
    split; [exact Hb'|]. split; [exact (branch_change g o pd _ _ _ Hb')|exact Hc]. }
  destruct (key_branch_all_rel g o pd _ _ _ _ _ Ekb) as [HA HB].
  assert (Hchanged : forall f, In f changed -> derived g o pd ranges f /\ (k < st_change f <= n)%nat).
  { intros f Hf. destruct (key_change_states_rel g o pd _ _ _ Ech f Hf) as (m & Hm & Hkr).
    destruct (HA m Hm) as (prob & m0 & Hn & Hcr). destruct (key_change_probs_rel g o pd _ _ _ Epr _ _ Hn) as [Hn' Hp].
    destruct (Hbr m0 Hn') as (s0 & s & r & Hd & Hrd & Hr & Er & Hb & Hc & Hsk).
    assert (Ec : st_change f = r_end r) by (rewrite (key_change g o pd _ _ Hkr), (change_change g o pd _ _ _ Hcr); exact Hc).
    split; [exact (d_change g o pd ranges s0 s r m0 prob m f Hd Hrd Hr Er Hb Hp Hcr Hkr)|]. rewrite Ec.
    destruct (Hranges r Hr). lia. }
  assert (Hfin : forall f, In f fin -> derived g o pd ranges f /\ (k < st_change f <= n)%nat).
  { intros f Hf. destruct (mapM_in _ _ _ _ Efin Hf) as (m & Hm & Hcsm').
    destruct (HB m Hm) as (prob & m0 & Hn & Hkr). destruct (key_change_probs_rel g o pd _ _ _ Epr _ _ Hn) as [Hn' Hp].
    destruct (Hbr m0 Hn') as (s0 & s & r & Hd & Hrd & Hr & Er & Hb & Hc & Hsk).
    assert (Ec : st_change f = r_end r) by (rewrite (csm_change g o pd m f Hcsm'), (keep_change g o pd _ _ _ Hkr); exact Hc).
    split; [exact (d_keep g o pd ranges s0 s r m0 prob m f Hd Hrd Hr Er Hb Hp Hkr Hcsm')|]. rewrite Ec.
    destruct (Hranges r Hr). lia. }
  assert (Hch' : forall s, In s changed -> derived g o pd ranges s /\ (k <= st_change s <= n)%nat) by (intros s Hs; destruct (Hchanged s Hs) as [Hd ?]; split; [exact Hd|lia]).
  assert (Hfi' : forall s, In s fin -> derived g o pd ranges s /\ (k <= st_change s <= n)%nat) by (intros s Hs; destruct (Hfin s Hs) as [Hd ?]; split; [exact Hd|lia]).
  destruct (add_all_inv g o pd ranges k changed sr Hi Hch') as (sr1' & E1 & Hi1 & Es1 & Hj1).
  rewrite Esr1 in E1. apply Ok_inj in E1. subst sr1'.
  destruct (add_all_lit k changed sr sr1 Hi Hch' Esr1) as [L1 L2]. destruct (add_all_lit k fin sr1 sr2 Hi1 Hfi' Esr2) as [L3 L4].
  split.
  { intros j Hj Hl. apply lit_after; [lia|]. auto. }
  intros _ r Hr Er. apply lit_after; [destruct (Hranges r Hr); lia|].
  (* some state is branched on *)
  assert (Hs' : exists s', In s' states').
  { destruct (lit_slot k sr k Hi) as (b & seen & B & Eb & Hbi & _ & _ & HBl); [lia|]. rewrite Ecur in Eb. injection Eb as <-.
    assert (Hne : states <> []).
    { intros ->. unfold beam_content in Est. rewrite (proj1 (ab_list_ok _ _ _ Hbi)) in Est. cbn [bind] in Est. destruct B as [|x B]; [apply E0, HBl; reflexivity|].
      cbn [mapM] in Est. apply bind_ok in Est as (y & _ & Est). apply bind_ok in Est as (ys & _ & Est). apply Ok_inj in Est. discriminate. }
    destruct states as [|s states]; [contradiction|]. destruct (k =? 0)%nat; [apply Ok_inj in Est'; subst states'; exists s; left; reflexivity|].
    unfold run_csm in Est'. cbv zeta in Est'. apply bind_ok in Est' as (x & _ & Est'). apply Ok_inj in Est'. subst states'. cbn [mapi]. eexists. left. reflexivity. }
  destruct Hs' as (s' & Hs'). destruct (Hst s' Hs') as (s0 & Hd & Hrd & Hc).
  assert (Hsound : sound s') by (exact (ready_sound g o _ _ Hrd (sound_of _ Hd))).
  assert (Hkin : kin s') by exact (kin_ready _ _ Hrd (kin_derived _ Hd)).
  destruct (mapM_each _ _ _ (s', r) Ebr) as (l & El & Hl).
  { apply in_prod_iff. split; [exact Hs'|]. apply filter_In. split; [exact Hr|]. apply Nat.eqb_eq. exact Er. }
  cbn [fst snd] in El. assert (Hke : (k <= r_end r)%nat) by (destruct (Hranges r Hr); lia).
  destruct (branch_range_some k sr s' r l Hi Hsound Hkin Hr Hke El) as [Hne|Hlit]; [|auto].
  destruct l as [|m l]; [contradiction|]. assert (Hm : In m (concat branched)) by (apply in_concat; exists (m :: l); split; [exact Hl|left; reflexivity]).
  assert (Hb := branch_range_rel g o pd _ _ _ _ _ Hc El m (or_introl eq_refl)). assert (Emc := branch_change g o pd _ _ _ Hb).
  assert (Hpm : exists prob, In (prob, m) (combine probs (concat branched))).
  { unfold key_change_probs in Epr. apply bind_ok in Epr as (u & _ & Epr). apply Ok_inj in Epr. subst probs. apply combine_mapi_in. exact Hm. }
  destruct Hpm as (prob & Hpm). destruct (key_change_probs_rel g o pd _ _ _ Epr _ _ Hpm) as [_ Hpo].
  destruct (key_branch_all_some sr k _ _ _ prob m Ekb Hpm) as (a1 & b1 & Ekb1 & Ha1 & Hb1).
  assert (Hp : exists p, st_prev m = Some p).
  { unfold key_branch, the_prev in Ekb1. destruct (st_prev m) as [p|]; [eauto|discriminate]. }
  destruct Hp as (p & Hp).
  destruct (key_branch_some k sr prob m p a1 b1 Hi) as [(m' & Hm')|[(m' & Hm')|Hlit]];
    [rewrite Emc; destruct (Hranges r Hr); fold n; lia|exact Hp|exact (branch_must s' r m Hr Hsound Hkin Hb)|exact Hpo|exact Ekb1| | |rewrite Emc in Hlit; auto].
  - (* a change of key *)
    destruct (key_branch_rel g o pd _ _ _ _ _ _ Ekb1) as [HA1 _]. assert (Hcr := HA1 m' Hm'). apply Ha1 in Hm'.
    destruct (change_fields g o pd _ _ _ Hcr) as (F1 & F2 & F3 & F4).
    assert (Hsm : sound m') by (apply (same_sound g m m'); [exact (branched_sound _ _ _ Hr Hsound Hb)|assumption|assumption|assumption]).
    unfold key_change_states in Ech. apply bind_ok in Ech as (u & _ & Ech). apply bind_ok in Ech as (ls & Els & Ech). apply Ok_inj in Ech. subst changed.
    destruct (mapi_in (key_change_one g o pd k to_ksm) to_ksm 0 m' Hm') as (j & Hj & _ & Ej). rewrite Nat.sub_0_r in Ej.
    destruct (mapM_each _ _ _ _ Els Hj) as (x & Ex & Hx). cbn in Ex.
    assert (Hne' : x <> []).
    { assert (Km : kin m) by exact (kin_branch s' r m Hr ltac:(congruence) Hkin Hb).
      apply (key_moves prob m m' p k to_ksm j x Hpo Hcr Hsm); [apply (kin_same m); assumption| |rewrite <- Hp; assumption|exact Ex].
      rewrite F4, Emc. exact (proj2 (Hranges r Hr)). }
    destruct x as [|f x]; [contradiction|]. assert (Hf : In f (concat ls)) by (apply in_concat; exists (f :: x); split; [exact Hx|left; reflexivity]).
    assert (Hfr := key_change_one_rel _ _ _ _ _ Ej Ex f (or_introl eq_refl)).
    assert (Ef : st_change f = r_end r) by (rewrite (key_change g o pd _ _ Hfr), F4; exact Emc). rewrite <- Ef. auto.
  - (* no change of key *)
    destruct (key_branch_rel g o pd _ _ _ _ _ _ Ekb1) as [_ HB1]. assert (Hkr := HB1 m' Hm'). apply Hb1 in Hm'.
    destruct (mapM_each _ _ _ m' Efin Hm') as (f & Ef & Hf). rewrite <- Emc, <- (keep_change g o pd _ _ _ Hkr), <- (csm_change g o pd m' f Ef). auto.
Qed.

(* the ranges lead from the start to a *)
Inductive leads : nat -> Prop :=
| leads_start : leads 0
| leads_range r : leads (r_start r) -> In r ranges -> leads (r_end r).
Definition reached (k e : nat) : Prop := (e = 0)%nat \/ exists r, In r ranges /\ leads (r_start r) /\ (r_start r < k)%nat /\ r_end r = e.

Lemma loop_lit d : forall k sr sr', (k + d <= n)%nat -> sinv k sr -> (forall e, (k <= e)%nat -> reached k e -> lit sr e) ->
  search_loop g o pd ranges sr (seq k d) = Ok sr' -> forall e, (k + d <= e)%nat -> reached (k + d) e -> lit sr' e.
Proof.
  induction d as [|d IH]; intros k sr sr' Hk Hi HJ H; cbn [seq search_loop] in H; [apply Ok_inj in H; subst sr'; rewrite Nat.add_0_r; exact HJ|].
  apply bind_ok in H as (sr1 & E & H). destruct (step_lit k sr sr1 ltac:(lia) Hi E) as [L1 L2].
  replace (k + S d)%nat with (S k + d)%nat by lia. apply (IH (S k) sr1 sr'); [lia|exact (step_inv g o pd ranges Hranges k sr sr1 ltac:(fold n; lia) Hi E)| |exact H].
  intros e He [->|(r & Hr & Hl & Hs & Ee)]; [lia|]. destruct (Nat.eq_dec (r_start r) k) as [Ek|Hne].
  - rewrite <- Ee. apply L2; [|exact Hr|exact Ek]. apply HJ; [lia|]. rewrite <- Ek. inversion Hl as [E0|r' Hl' Hr' E0]; [left; reflexivity|].
    right. exists r'. destruct (Hranges r' Hr'). repeat split; (assumption || lia).
  - apply L1; [lia|]. apply HJ; [lia|]. right. exists r. repeat split; (assumption || lia).
Qed.
Lemma add_initial_lit keys : initial_keys g pd = Ok keys -> forall l sr sr', incl l keys -> sinv 0 sr -> add_initial g o sr l = Ok sr' ->
  (lit sr 0 \/ l <> []) -> lit sr' 0.
Proof.
  intros Ek. induction l as [|k l IH]; intros sr sr' Hl Hi H Hor; cbn [add_initial] in H; [apply Ok_inj in H; subst; destruct Hor; [assumption|contradiction]|].
  apply bind_ok in H as (s & Es & H). apply bind_ok in H as (sr1 & E1 & H).
  assert (Hc : st_change s = 0%nat) by (destruct (initial_facts g o pd k keys s Ek (Hl k (or_introl eq_refl)) Es) as (ks & k' & tn & md & _ & _ & _ & ->); reflexivity).
  destruct (add_state_inv g o pd ranges 0 sr 0 s true Hi) as (sr1' & E1' & Hi1 & _); [|lia|lia|exact Hc|].
  { exact (d_init g o pd ranges k keys s Ek (Hl k (or_introl eq_refl)) Es). }
  rewrite E1 in E1'. apply Ok_inj in E1'. subst sr1'. apply (IH sr1 sr'); [intros x Hx; apply Hl; right; exact Hx|exact Hi1|exact H|].
  left. refine (proj1 (add_state_lit 0 sr 0 s true sr1 Hi _ E1)). lia.
Qed.
Theorem run_search_found sr : run_search g o pd ranges = Ok sr -> leads n -> lit sr n.
Proof.
  intros H Hl. unfold run_search in H. cbv zeta in H. apply bind_ok in H as (keys & Ek & H). apply bind_ok in H as (sr0 & E0 & H). fold n in E0, H.
  assert (He : sinv 0 {| sr_beams := repeat (new_any (g_hash_length g) (g_beam_size g)) (S n); sr_store := [] |}) by (eapply empty_inv; eassumption).
  assert (Hi := add_initial_inv g o pd ranges keys Ek keys _ _ (incl_refl _) He E0).
  assert (Hn : (0 < n)%nat) by (unfold n; destruct (p_durs pd); [contradiction|cbn; lia]).
  assert (Hkeys : keys <> []) by exact (proj1 (Hfirst keys Ek)).
  assert (L0 := add_initial_lit keys Ek keys _ _ (incl_refl _) He E0 (or_intror Hkeys)).
  apply (loop_lit n 0 sr0 sr); [lia|exact Hi| |exact H|lia|].
  - intros e _ [->|(r & _ & _ & Hs & _)]; [exact L0|lia].
  - rewrite Nat.add_0_l. inversion Hl as [E|r Hl' Hr E]; [left; reflexivity|]. right. exists r. destruct (Hranges r Hr). repeat split; (assumption || lia).
Qed.
End Found.

(* ---- the ranges made from the inputs ---- *)
Lemma branch_count_bounds t m l : 1 <= m -> 1 <= branch_count t m l <= m.
Proof. unfold branch_count, clip1. lia. Qed.
Lemma nth_firstn_lt {A} (l : list A) m i : (i < m)%nat -> nth_error (firstn m l) i = nth_error l i.
Proof. revert m i. induction l as [|a l IH]; intros [|m] [|i] Hi; cbn; (lia || reflexivity || (apply IH; lia) || idtac). Qed.
Lemma slice_rank (l : list Z) m c : In c (py_slice l 0 m) -> 0 <= m -> exists rank, nth_error l rank = Some c /\ Z.of_nat rank < m.
Proof.
  intros H Hm. apply In_nth_error in H as (j & Hj). exists j. unfold py_slice, py_bound in Hj. cbn [Z.ltb Z.compare] in Hj.
  pose proof (zlen_nonneg l). replace (m <? 0) with false in Hj by (symmetry; apply Z.ltb_ge; lia).
  replace (Z.to_nat (Z.max 0 (Z.min (zlen l) 0))) with O in Hj by lia. cbn [skipn] in Hj.
  assert (Hlt : (j < Z.to_nat (Z.max 0 (Z.min (zlen l) m) - Z.max 0 (Z.min (zlen l) 0)))%nat).
  { assert (Hs : nth_error (firstn (Z.to_nat (Z.max 0 (Z.min (zlen l) m) - Z.max 0 (Z.min (zlen l) 0))) l) j <> None) by congruence.
    apply nth_error_Some in Hs. rewrite firstn_length in Hs. lia. }
  rewrite nth_firstn_lt in Hj by exact Hlt. split; [exact Hj|]. lia.
Qed.

Record made (g : search_cfg) (o : oracle) chord_ranges classifications (r : range_data) : Prop := {
  md_range : In (r_start r, r_end r) chord_ranges;
  md_row : In (r_prior r) classifications;
  md_order : r_order r = o_argsort o (map (o_exp o) (r_prior r));
  md_max : 1 <= g_max_chord g -> 1 <= r_max r <= g_max_chord g
}.
Lemma make_range_made g o chord_ranges logs rejoins classifications x r :
  In x (zip4 chord_ranges logs rejoins classifications) -> make_range g o x = Ok r -> made g o chord_ranges classifications r.
Proof.
  destruct x as [[[[s e] lg] rj] prior]. intros Hx H. apply in_zip4 in Hx as (i & H1 & _ & _ & H4). unfold make_range in H. cbn beta iota zeta in H.
  apply bind_ok in H as (sorted & _ & H). apply Ok_inj in H. subst r. constructor; cbn [r_start r_end r_prior r_order r_max].
  - exact (nth_error_In _ _ H1).
  - exact (nth_error_In _ _ H4).
  - reflexivity.
  - intros Hm. apply branch_count_bounds. exact Hm.
Qed.
Lemma make_range_total g o x : (forall l, Permutation (o_argsort o l) (zrange 0 (zlen l))) -> exists r, make_range g o x = Ok r.
Proof.
  intros Hsort. destruct x as [[[[s e] lg] rj] prior]. unfold make_range, take_along. cbn beta iota zeta.
  destruct (mapM_returns (py_nth (map (o_exp o) prior)) (o_argsort o (map (o_exp o) prior))) as (l & ->); [|eexists; reflexivity].
  intros i Hi. apply (Permutation_in _ (Hsort _)), in_zrange in Hi. destruct (py_nth_in_range (map (o_exp o) prior) i) as (a & E & _); [lia|]. eauto.
Qed.

Section Inputs.
Variables (g : search_cfg) (o : oracle) (pd : piece_data) (chord_ranges : list (nat * nat)) (classifications : list (list Z)).
Hypothesis H : searchable g o pd chord_ranges classifications.
Variables (ranges : list range_data).
Hypothesis Hmade : forall r, In r ranges -> made g o chord_ranges classifications r.

Lemma in_forced_c c : In c (p_forced_c pd) -> c <> -1 -> good (g_cpt g) c.
Proof.
  intros Hc Hn. split; [destruct (sb_forced_c _ _ _ _ _ (sb_base _ _ _ _ _ H) c Hc); [contradiction|assumption]|].
  apply (sb_playable _ _ _ _ _ H). left. auto.
Qed.
Lemma in_ranges r : In r ranges -> (r_start r < r_end r <= length (p_durs pd))%nat.
Proof. intros Hr. apply (sb_ranges _ _ _ _ _ (sb_base _ _ _ _ _ H)). exact (md_range _ _ _ _ _ (Hmade r Hr)). Qed.
Lemma in_rows r : In r ranges -> zlen (r_prior r) = chord_count (g_cpt g).
Proof. intros Hr. apply (sb_rows _ _ _ _ _ (sb_base _ _ _ _ _ H)). exact (md_row _ _ _ _ _ (Hmade r Hr)). Qed.
Lemma in_order r : In r ranges -> Permutation (r_order r) (zrange 0 (chord_count (g_cpt g))).
Proof. intros Hr. rewrite (md_order _ _ _ _ _ (Hmade r Hr)), <- (in_rows r Hr), <- (zlen_map (o_exp o)). apply (sb_sort _ _ _ _ _ (sb_base _ _ _ _ _ H)). Qed.
Lemma in_max r : In r ranges -> 1 <= r_max r <= g_max_chord g.
Proof. intros Hr. apply (md_max _ _ _ _ _ (Hmade r Hr)). exact (sb_branch _ _ _ _ _ (sb_base _ _ _ _ _ H)). Qed.
Lemma in_tried r c : In r ranges -> In c (py_slice (r_order r) 0 (r_max r)) \/ In c (py_slice (r_order r) 0 2) -> tried g o pd classifications c.
Proof.
  intros Hr Hc. right. exists (r_prior r). assert (Hm := in_max r Hr).
  assert (Hk : exists rank, nth_error (r_order r) rank = Some c /\ Z.of_nat rank < Z.max 2 (g_max_chord g)).
  { destruct Hc as [Hc|Hc]; apply slice_rank in Hc as (rank & E & Hl); try lia; exists rank; (split; [exact E|lia]). }
  destruct Hk as (rank & E & Hl). exists rank. split; [exact (md_row _ _ _ _ _ (Hmade r Hr))|]. split; [exact Hl|].
  rewrite <- (md_order _ _ _ _ _ (Hmade r Hr)). exact E.
Qed.
Lemma in_play r c : In r ranges -> In c (py_slice (r_order r) 0 (r_max r)) \/ In c (py_slice (r_order r) 0 2) -> playable (g_cpt g) c.
Proof. intros Hr Hc. apply (sb_playable _ _ _ _ _ H). exact (in_tried r c Hr Hc). Qed.

Lemma search_total : exists sr, run_search g o pd ranges = Ok sr.
Proof.
  destruct H as [[] ? ?]. eapply run_search_total; try eassumption; [exact in_forced_c|exact in_ranges|exact in_rows|exact in_order|exact in_play].
Qed.
Lemma search_found (K : Z -> Prop) sr : g_min_key g <= g_max_no_key g ->
  (forall c k root t inv bass tonic mode, tried g o pd classifications c -> good (g_cpt g) c -> K k -> chord_notes (g_cpt g) c = Ok (root, t, inv, bass) ->
     py_nth (key_labels (g_kpt g)) k = Ok (tonic, mode) -> outside MIN_RELATIVE_TPC MAX_RELATIVE_TPC (root - tonic) (bass - tonic) = false) ->
  (forall keys, initial_keys g pd = Ok keys -> keys <> [] /\ forall k, In k keys -> K k) ->
  (forall k, In k (p_forced_k pd) -> k <> -1 -> K k) ->
  (forall k f, K k -> K f -> 0 <= k < key_count (g_kpt g) -> 0 <= f < key_count (g_kpt g) -> reach (g_kpt g) k f) ->
  ((forall k, K k) \/ (forall prob m0 p, prob_ok o m0 prob -> (st_change p < st_change m0 <= length (p_durs pd))%nat ->
     pick o (forced_set (p_forced_k pd) (st_change p) (st_change m0)) = None -> prob < g_min_key g)) ->
  run_search g o pd ranges = Ok sr ->
  leads ranges (length (p_durs pd)) -> lit sr (length (p_durs pd)).
Proof.
  intros Hmk Hn Hf Hkf Hre Hfr Hsr Hl. assert (Hmax := in_max). destruct (sb_base _ _ _ _ _ H) as [sb1 sb2 sb3 sb4 sb5 sb6 sb7 sb8 sb9 sb10 sb11 sb12 sb13].
  apply (run_search_found g o pd ranges) with (K := K) (T := fun c => tried g o pd classifications c /\ good (g_cpt g) c); try assumption.
  - exact in_forced_c.
  - exact in_ranges.
  - exact in_rows.
  - exact in_order.
  - exact in_play.
  - exact (sb_inv _ _ _ _ _ H).
  - intros r Hr. apply in_max. exact Hr.
  - intros m p _. lia.
  - intros c Hc Hne. split; [left; auto|exact (in_forced_c c Hc Hne)].
  - intros r c Hr Hc. split; [exact (in_tried r c Hr Hc)|]. split; [|exact (in_play r c Hr Hc)].
    assert (Hi : In c (r_order r)) by (destruct Hc as [Hc|Hc]; exact (py_slice_in _ _ _ _ Hc)).
    apply (Permutation_in _ (in_order r Hr)) in Hi. apply in_zrange in Hi. lia.
  - intros c k root t inv bass tonic mode [H1 H2]. apply Hn; assumption.
Qed.
End Inputs.

Lemma ranges_total g o pd chord_ranges logs rejoins classifications : searchable g o pd chord_ranges classifications ->
  exists ranges, mapM (make_range g o) (zip4 chord_ranges logs rejoins classifications) = Ok ranges
    /\ forall r, In r ranges -> made g o chord_ranges classifications r.
Proof.
  intros H. destruct (mapM_returns (make_range g o) (zip4 chord_ranges logs rejoins classifications)) as (rs & E).
  { intros x _. exact (make_range_total g o x (sb_sort _ _ _ _ _ (sb_base _ _ _ _ _ H))). }
  exists rs. split; [exact E|]. intros r Hr. destruct (mapM_in _ _ _ _ E Hr) as (x & Hx & Ex). exact (make_range_made _ _ _ _ _ _ _ _ Hx Ex).
Qed.
Lemma ranges_leads g o chord_ranges logs rejoins classifications ranges :
  mapM (make_range g o) (zip4 chord_ranges logs rejoins classifications) = Ok ranges ->
  length logs = length chord_ranges -> length rejoins = length chord_ranges -> length classifications = length chord_ranges ->
  forall e, covered chord_ranges 0 e -> leads ranges e.
Proof.
  intros E L1 L2 L3 e He. induction He as [|b c Hb IH Hin]; [constructor|].
  assert (Hr : exists r, In r ranges /\ r_start r = b /\ r_end r = c).
  { assert (Hz : exists lg rj row, In ((b, c), lg, rj, row) (zip4 chord_ranges logs rejoins classifications)).
    { clear -L1 L2 L3 Hin. revert logs rejoins classifications L1 L2 L3. induction chord_ranges as [|x cr IH]; intros [|lg logs] [|rj rejoins] [|row rows] L1 L2 L3; try discriminate; [contradiction|].
      destruct Hin as [->|Hin]; [exists lg, rj, row; left; reflexivity|]. destruct (IH Hin logs rejoins rows) as (a1 & a2 & a3 & Ha); [injection L1; auto|injection L2; auto|injection L3; auto|].
      exists a1, a2, a3. right. exact Ha. }
    destruct Hz as (lg & rj & row & Hz). destruct (mapM_each _ _ _ _ E Hz) as (r & Er & Hr). exists r. split; [exact Hr|].
    unfold make_range in Er. cbn beta iota zeta in Er. apply bind_ok in Er as (srt & _ & Er). apply Ok_inj in Er. subst r. auto. }
  destruct Hr as (r & Hr & E1 & E2). rewrite <- E2. apply leads_range; [rewrite E1; exact IH|exact Hr].
Qed.
