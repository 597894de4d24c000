(* C83: the inputs and targets of the chord transition model. *)
From Coq Require Import QArith Lqa.
From Verif Require Import PyBase Model_Types Model_Harmony Model_Rhythm Model_Piece Model_Change
  Spec_Music Spec_Rhythm Spec_Piece Spec_Change Proof_Base Proof_Rhythm Proof_Piece Proof_Window Proof_Eval Proof_Annot
  Proof_Change Prop_Rhythm Prop_Piece.
From Coq Require Import List.
Import ListNotations.
Close Scope Q_scope.
Open Scope Z_scope.

(* ---- targets ---- *)
Lemma listed_iff l n i : (i < n)%nat -> existsb (fun c => index_of (Z.of_nat n) c =? Z.of_nat i) l = true <-> listed l n i.
Proof.
  intros Hi. rewrite existsb_exists. unfold listed, index_of. split.
  - intros (c & I & E). destruct (c <? 0) eqn:N.
    + right. replace (Z.of_nat i - Z.of_nat n) with c by lia. exact I.
    + left. replace (Z.of_nat i) with c by lia. exact I.
  - intros [I|I]; eexists; (split; [exact I|]).
    + destruct (Z.of_nat i <? 0) eqn:N; lia.
    + destruct (Z.of_nat i - Z.of_nat n <? 0) eqn:N; lia.
Qed.

Lemma dataset_inv pieces ins tgts : change_dataset pieces false = Ok (ins, tgts) ->
  List.length tgts = List.length pieces /\ List.length ins = List.length pieces /\
  forall k p t, nth_error pieces k = Some p -> nth_error tgts k = Some t ->
    exists rows, nth_error ins k = Some rows /\ change_inputs p = Ok rows /\
      change_targets p (List.length rows) = Ok t.
Proof.
  unfold change_dataset. intros H. apply bind_ok in H. destruct H as (ins' & I & H).
  apply bind_ok in H. destruct H as (tg & T & H). apply Ok_inj in H. apply pair_equal_spec in H. destruct H as [-> ->].
  apply mapM_ok in I. apply mapM_ok in T. pose proof (Forall2_len _ _ _ I) as L1. pose proof (Forall2_len _ _ _ T) as L2.
  rewrite combine_length in L2. split; [lia|]. split; [lia|]. intros k p t Hp Ht.
  destruct (Forall2_nth_r _ _ _ _ _ T Ht) as ([p' rows] & Hc & E). apply nth_combine_some in Hc. destruct Hc as [Hp' Hr].
  rewrite Hp in Hp'. apply Some_inj in Hp'. subst p'. cbn [fst snd] in E. exists rows. split; [exact Hr|]. split; [|exact E].
  destruct (Forall2_nth_r _ _ _ _ _ I Hr) as (p' & Hp' & Ei). rewrite Hp in Hp'. apply Some_inj in Hp'. now subst p'.
Qed.

(* One target for every note.  The first note is not measured, nor is a note at no distance from
   the note before it; any other target is 1 if the index is a chord change and 0 otherwise. *)
Theorem C83_targets : forall pieces ins tgts, change_dataset pieces false = Ok (ins, tgts) ->
  List.length tgts = List.length pieces /\ List.length ins = List.length pieces /\
  forall k p t, nth_error pieces k = Some p -> nth_error tgts k = Some t ->
    List.length t = List.length (cp_notes p) /\ nth_error t 0 = Some (-100) /\
    forall i a b x, nth_error (cp_notes p) i = Some a -> nth_error (cp_notes p) (S i) = Some b ->
      nth_error t (S i) = Some x ->
      exists d, get_range_length (no_on a) (no_on b) (cp_measures p) = Ok d /\
        ((d == 0)%Q -> x = -100) /\
        (~ (d == 0)%Q -> forall changes, cp_changes p = Some changes ->
           (x = 1 /\ listed changes (List.length (cp_notes p)) (S i)) \/
           (x = 0 /\ ~ listed changes (List.length (cp_notes p)) (S i))).
Proof.
  intros pieces ins tgts H. destruct (dataset_inv _ _ _ H) as (L1 & L2 & N). split; [exact L1|]. split; [exact L2|].
  intros k p t Hp Ht. destruct (N k p t Hp Ht) as (rows & _ & Ri & Rt).
  destruct (inputs_inv _ _ Ri) as (durs & _ & _ & Lr & Ne & _).
  destruct (targets_inv _ _ _ Rt Ne Lr) as (Lt & T0 & Ts). split; [congruence|]. split; [exact T0|].
  intros i a b x Ha Hb Hx. destruct (Ts i a b x Ha Hb Hx) as (d & Hd & Z1 & Z2). exists d. split; [exact Hd|]. split; [exact Z1|].
  intros Nz changes Ec. specialize (Z2 Nz). rewrite Ec, Lr in Z2.
  assert (Li : (S i < List.length (cp_notes p))%nat) by (apply nth_error_Some; congruence).
  pose proof (listed_iff changes _ _ Li) as Hl.
  destruct (existsb _ changes) eqn:E.
  - left. split; [exact Z2|]. now apply Hl.
  - right. split; [exact Z2|]. intros X. apply Hl in X. discriminate X.
Qed.
Print Assumptions C83_targets.

(* For a piece that was read from tables: a label that starts after the first note begins and
   not after the last note begins is marked at the first note that does not start before it. *)
Lemma some_or_none {A} (l : list A) i : (i < List.length l)%nat -> exists x, nth_error l i = Some x.
Proof. intros H. destruct (nth_error l i) eqn:E; [eauto|]. apply nth_error_None in E. lia. Qed.

Lemma before_dec a b : before a b \/ ~ before a b.
Proof.
  unfold before. destruct (Z.lt_trichotomy (fst a) (fst b)) as [H|[H|H]]; [left; now left| |right; intros [X|[X _]]; lia].
  destruct (Qlt_le_dec (snd a) (snd b)) as [Q|Q]; [left; right; auto|].
  right. intros [X|[_ X]]; [lia|]. apply (Qlt_not_le _ _ X Q).
Qed.

Lemma differ ms s a b d : unique_mcs ms -> forward ms -> (forall m, In m ms -> (0 < m_dur m)%Q) ->
  plays_to ms s (fst a) -> plays_to ms s (fst b) -> within ms a -> within ms b ->
  get_range_length a b ms = Ok d -> before a b -> ~ (d == 0)%Q.
Proof.
  intros U F D Pa Pb Wa Wb G B Z0. destruct (C23_zero_means_equal ms s a b d U F D Pa Pb Wa Wb G Z0) as [E1 E2].
  destruct B as [B|[_ B]]; [lia|]. rewrite E2 in B. exact (Qlt_irrefl _ B).
Qed.

Theorem C83_labels : forall ts red ui ur us note_rows rows p ms s ins t,
  get_score_piece ts red ui ur us note_rows rows = Ok p ->
  change_dataset [labelled p ms] false = Ok (ins, [t]) ->
  in_order (map pc_on (p_chords p)) -> in_order (map no_on (p_notes p)) ->
  unique_mcs ms -> forward ms -> (forall m, In m ms -> (0 < m_dur m)%Q) ->
  (forall n, In n (p_notes p) -> plays_to ms s (fst (no_on n)) /\ within ms (no_on n)) ->
  (* every such label is marked *)
  (forall c first last, In c (p_chords p) -> nth_error (p_notes p) 0 = Some first ->
     nth_error (p_notes p) (List.length (p_notes p) - 1) = Some last ->
     before (no_on first) (pc_on c) -> ~ before (no_on last) (pc_on c) ->
     exists i a b, nth_error (p_notes p) i = Some a /\ nth_error (p_notes p) (S i) = Some b /\
       before (no_on a) (pc_on c) /\ ~ before (no_on b) (pc_on c) /\ nth_error t (S i) = Some 1) /\
  (* every mark is at the first note of a label, except that labels after the last onset count
     for the last note *)
  (forall i, nth_error t i = Some 1 -> exists j a b c, i = S j /\ In c (p_chords p) /\
     nth_error (p_notes p) j = Some a /\ nth_error (p_notes p) i = Some b /\
     before (no_on a) (no_on b) /\ before (no_on a) (pc_on c) /\
     (~ before (no_on b) (pc_on c) \/ S i = List.length (p_notes p))) /\
  (* notes that start together with the note before them are not measured *)
  (forall i a b, nth_error (p_notes p) i = Some a -> nth_error (p_notes p) (S i) = Some b ->
     (nth_error t (S i) = Some (-100) <-> same_pos (no_on a) (no_on b))).
Proof.
  intros ts red ui ur us note_rows rows p ms s ins t H Hd Oc On U F D Pw.
  destruct (C83_targets _ _ _ Hd) as (_ & _ & N). destruct (N 0%nat (labelled p ms) t eq_refl eq_refl) as (Lt & T0 & Ts).
  cbn [labelled cp_notes cp_measures cp_changes] in *. clear N.
  assert (Ne : p_notes p <> []) by (intros E; rewrite E in Lt; cbn in Lt; destruct t; discriminate).
  destruct (C47_changes _ _ _ _ _ _ _ _ H Ne Oc) as [Lc Fc].
  assert (Listed : forall i, (i < List.length (p_notes p))%nat ->
            (listed (map Z.of_nat (p_changes p)) (List.length (p_notes p)) i <-> In i (p_changes p))).
  { intros i Hi. unfold listed. rewrite !in_map_iff. split.
    - intros [(x & E & I)|(x & E & _)]; [replace i with x by lia; exact I|lia].
    - intros I. left. exists i. auto. }
  assert (Near : forall i a b, nth_error (p_notes p) i = Some a -> nth_error (p_notes p) (S i) = Some b ->
            exists d, get_range_length (no_on a) (no_on b) ms = Ok d /\ (before (no_on a) (no_on b) -> ~ (d == 0)%Q) /\
              ((d == 0)%Q -> same_pos (no_on a) (no_on b)) /\ (same_pos (no_on a) (no_on b) -> (d == 0)%Q)).
  { intros i a b Ha Hb. destruct (some_or_none t (S i)) as (x & Hx); [rewrite Lt; apply nth_error_Some; congruence|].
    destruct (Ts i a b x Ha Hb Hx) as (d & Hdd & _). exists d. split; [exact Hdd|].
    destruct (Pw a (nth_error_In _ _ Ha)) as [Pa Wa]. destruct (Pw b (nth_error_In _ _ Hb)) as [Pb Wb].
    split; [|split].
    - intros B. exact (differ ms s _ _ d U F D Pa Pb Wa Wb Hdd B).
    - intros Z0. exact (C23_zero_means_equal ms s _ _ d U F D Pa Pb Wa Wb Hdd Z0).
    - intros Sp. eapply zero_length; eauto. }
  split; [|split].
  - intros c first last Ic Hf Hl Bf Bl. apply In_nth_error in Ic. destruct Ic as (k & Kc).
    destruct (some_or_none (p_changes p) k) as (i & Ki); [rewrite Lc; apply nth_error_Some; congruence|].
    destruct (Fc k c i Kc Ki) as (Li & Before & At).
    destruct (some_or_none (p_notes p) i Li) as (b & Hb).
    assert (Nb : ~ before (no_on b) (pc_on c)).
    { destruct (At b Hb) as [X|X]; [exact X|]. replace i with (List.length (p_notes p) - 1)%nat in Hb by lia.
      rewrite Hl in Hb. apply Some_inj in Hb. now subst b. }
    destruct i as [|i].
    { rewrite Hf in Hb. apply Some_inj in Hb. now subst b. }
    destruct (some_or_none (p_notes p) i ltac:(lia)) as (a & Ha).
    assert (Ba : before (no_on a) (pc_on c)).
    { destruct (before_dec (no_on a) (pc_on c)) as [X|X]; [exact X|]. exfalso. exact (Before i a ltac:(lia) Ha X). }
    exists i, a, b. repeat (split; [assumption|]).
    destruct (some_or_none t (S i)) as (x & Hx); [rewrite Lt; exact Li|]. rewrite Hx. f_equal.
    destruct (Ts i a b x Ha Hb Hx) as (d & Hdd & _ & Z2). destruct (Near i a b Ha Hb) as (d' & Hd' & Nz & _).
    rewrite Hdd in Hd'. apply Ok_inj in Hd'. subst d'.
    assert (Bab : before (no_on a) (no_on b)).
    { clear -Ba Nb. unfold before in *. destruct (Z.lt_trichotomy (fst (no_on a)) (fst (no_on b))) as [X|[X|X]]; [now left| |exfalso; apply Nb; left; lia].
      right. split; [exact X|]. destruct Ba as [Ba|[B1 B2]]; [exfalso; apply Nb; left; lia|].
      eapply Qlt_le_trans; [exact B2|]. apply Qnot_lt_le. intros Y. apply Nb. right. split; [lia|exact Y]. }
    destruct (Z2 (Nz Bab) _ eq_refl) as [[X _]|[_ X]]; [exact X|]. exfalso. apply X. apply Listed; [exact Li|].
    eapply nth_error_In; eassumption.
  - intros i Hi. destruct i as [|i]; [rewrite T0 in Hi; discriminate Hi|].
    assert (Li : (S i < List.length (p_notes p))%nat) by (rewrite <- Lt; apply nth_error_Some; congruence).
    destruct (some_or_none (p_notes p) i ltac:(lia)) as (a & Ha). destruct (some_or_none (p_notes p) (S i) Li) as (b & Hb).
    destruct (Ts i a b 1 Ha Hb Hi) as (d & Hdd & Z1 & Z2). destruct (Near i a b Ha Hb) as (d' & Hd' & _ & Zs & Sz).
    rewrite Hdd in Hd'. apply Ok_inj in Hd'. subst d'.
    assert (Nz : ~ (d == 0)%Q) by (intros X; discriminate (Z1 X)).
    destruct (Z2 Nz _ eq_refl) as [[_ X]|[X _]]; [|discriminate X]. apply Listed in X; [|exact Li].
    apply In_nth_error in X. destruct X as (k & Kk).
    destruct (some_or_none (p_chords p) k) as (c & Kc); [rewrite <- Lc; apply nth_error_Some; congruence|].
    destruct (Fc k c (S i) Kc Kk) as (_ & Before & At).
    exists i, a, b, c. split; [reflexivity|]. split; [eapply nth_error_In; eassumption|]. split; [exact Ha|]. split; [exact Hb|].
    split; [|split; [|now apply At]].
    + pose proof (in_order_nth _ On i (S i) (no_on a) (no_on b) ltac:(lia)) as X.
      rewrite !nth_error_map, Ha, Hb in X. specialize (X eq_refl eq_refl).
      destruct (before_dec (no_on a) (no_on b)) as [Y|Y]; [exact Y|]. exfalso. apply Nz, Sz.
      clear -X Y. unfold before, same_pos in *. destruct (Z.lt_trichotomy (fst (no_on a)) (fst (no_on b))) as [Q|[Q|Q]];
        [exfalso; apply Y; now left| |exfalso; apply X; now left].
      split; [exact Q|]. apply Qle_antisym; apply Qnot_lt_le; intros W; [apply X|apply Y]; right; auto.
    + destruct (before_dec (no_on a) (pc_on c)) as [Y|Y]; [exact Y|]. exfalso. exact (Before i a ltac:(lia) Ha Y).
  - intros i a b Ha Hb.
    destruct (some_or_none t (S i)) as (x & Hx); [rewrite Lt; apply nth_error_Some; congruence|].
    destruct (Ts i a b x Ha Hb Hx) as (d & Hdd & Z1 & Z2). destruct (Near i a b Ha Hb) as (d' & Hd' & _ & Zs & Sz).
    rewrite Hdd in Hd'. apply Ok_inj in Hd'. subst d'. rewrite Hx. split.
    + intros X. apply Some_inj in X. subst x. apply Zs. destruct (Qeq_dec d 0) as [Y|Y]; [exact Y|].
      destruct (Z2 Y _ eq_refl) as [[X _]|[X _]]; discriminate X.
    + intros Sp. f_equal. apply Z1, Sz, Sp.
Qed.
Print Assumptions C83_labels.

(* A piece without labels is not refused: target[None] = 1 calls every note a chord change,
   unless it is not measured. *)
Theorem C83_unlabelled_refuted : forall pieces ins tgts k p t,
  change_dataset pieces false = Ok (ins, tgts) ->
  nth_error pieces k = Some p -> nth_error tgts k = Some t -> cp_changes p = None ->
  forall i a b d, nth_error (cp_notes p) i = Some a -> nth_error (cp_notes p) (S i) = Some b ->
    get_range_length (no_on a) (no_on b) (cp_measures p) = Ok d -> ~ (d == 0)%Q -> nth_error t (S i) = Some 1.
Proof.
  intros pieces ins tgts k p t H Hp Ht Hc i a b d Ha Hb Hd Nz.
  destruct (dataset_inv _ _ _ H) as (_ & _ & N). destruct (N k p t Hp Ht) as (rows & _ & Ri & Rt).
  destruct (inputs_inv _ _ Ri) as (durs & _ & _ & Lr & Ne & _).
  destruct (targets_inv _ _ _ Rt Ne Lr) as (Lt & T0 & Ts).
  destruct (some_or_none t (S i)) as (x & Hx); [rewrite Lt, Lr; apply nth_error_Some; congruence|].
  destruct (Ts i a b x Ha Hb Hx) as (d' & Hd' & _ & Z2). rewrite Hd in Hd'. apply Ok_inj in Hd'. subst d'.
  rewrite Hc in Z2. rewrite Hx. f_equal. now apply Z2.
Qed.
Print Assumptions C83_unlabelled_refuted.

(* ---- inputs ---- *)
Lemma plain_ok n prev next : good_note n -> exists v, plain_vector n prev next = Ok v /\
  plainly_describes n (match prev with None => 0%Q | Some d => d end) next v.
Proof.
  intros (Hp & P & O & L1 & L2). unfold plain_vector. rewrite Hp. change (NUM_PITCHES TPC) with 35.
  destruct (qone_hot_ok 35 (no_pitch n) P) as (v1 & E1 & H1). rewrite E1. cbn [bind].
  change NUM_OCTAVES with 10.
  destruct (qone_hot_ok 10 (no_octave n) O) as (v2 & E2 & H2). rewrite E2. cbn [bind].
  destruct (qone_hot_ok 4 (no_on_level n)) as (v3 & E3 & H3); [lia|]. rewrite E3. cbn [bind].
  destruct (qone_hot_ok 4 (no_off_level n)) as (v4 & E4 & H4); [lia|]. rewrite E4. cbn [bind].
  rewrite midi_number_ok by exact Hp. cbn [bind]. rewrite Z.sub_0_r, E2. cbn [bind].
  eexists. split; [reflexivity|]. exists v1, v2, v3, v4, v2, (Qdiv (inject_Z (spelled_midi n)) (127 # 1)).
  split; [reflexivity|]. repeat (split; [assumption|]). reflexivity.
Qed.

Lemma plain_length n prev next v : plainly_describes n prev next v -> List.length v = 71%nat.
Proof.
  intros (P & O & L1 & L2 & R & h & -> & (H1 & _) & (H2 & _) & (H3 & _) & (H4 & _) & (H5 & _) & _).
  unfold zlen in *. rewrite !app_length. cbn [List.length]. lia.
Qed.

Lemma mapM_total {A B} (f : A -> res B) l : (forall x, In x l -> exists y, f x = Ok y) -> exists ys, mapM f l = Ok ys.
Proof.
  induction l as [|x l IH]; intros H; [exists []; reflexivity|]. destruct (H x (or_introl eq_refl)) as (y & E).
  destruct IH as (ys & E'); [intros; apply H; now right|]. exists (y :: ys). cbn [mapM]. rewrite E. cbn [bind]. rewrite E'. reflexivity.
Qed.

(* Each note gives a row; its distances are the time since the note before it started (0 for the
   first note) and the time until the next note starts, or until the end of the piece. *)
Theorem C83_inputs : forall p T s times last tl,
  cp_notes p <> [] -> (forall n, In n (cp_notes p) -> good_note n) ->
  unique_mcs (cp_measures p) -> forward (cp_measures p) -> clock (cp_measures p) T ->
  Forall2 (fun o t => plays_to (cp_measures p) s (fst o) /\ at_time (cp_measures p) T o t) (map no_on (cp_notes p)) times ->
  ends_at (cp_notes p) (cp_chords p) last -> plays_to (cp_measures p) s (fst last) -> at_time (cp_measures p) T last tl ->
  exists rows, change_inputs p = Ok rows /\ List.length rows = List.length (cp_notes p) /\
    forall i n v, nth_error (cp_notes p) i = Some n -> nth_error rows i = Some v ->
      List.length v = 71%nat /\
      exists t tn prev next, nth_error (times ++ [tl]) i = Some t /\ nth_error (times ++ [tl]) (S i) = Some tn /\
        plainly_describes n prev next v /\ (next == tn - t)%Q /\
        (i = 0%nat -> prev = 0%Q) /\
        (forall j t', i = S j -> nth_error times j = Some t' -> (prev == t - t')%Q).
Proof.
  intros p T s times last tl Ne Good U F C FA En Pl Al.
  destruct (ends_at_last _ _ _ En) as (last' & Last & Sm).
  pose proof (at_time_same _ _ _ _ _ Sm Al) as Al'.
  rewrite <- (proj1 Sm) in Pl.
  destruct (duration_cache_spec _ T s U F C _ _ _ _ FA Pl Al') as (durs & Ed & Fd).
  assert (Cd : cp_durations p = Ok durs) by (unfold cp_durations; rewrite Last; exact Ed).
  pose proof (Forall2_len _ _ _ FA) as Lt. rewrite map_length in Lt.
  assert (Ld : List.length durs = List.length (cp_notes p)) by (rewrite (cache_length _ _ _ _ Ed); apply map_length).
  destruct (mapM_total (fun x => let '(n, from_prev, to_next) := x : note * option Q * Q in plain_vector n from_prev to_next)
     (combine (combine (cp_notes p) (None :: map Some durs)) durs)) as (rows & Er).
  { intros [[n f] d] I. apply in_combine_l in I. apply in_combine_l in I.
    destruct (plain_ok n f d (Good n I)) as (v & E & _). eauto. }
  assert (Rows : forall v, In v rows -> List.length v = 71%nat).
  { intros v I. apply mapM_ok in Er. apply In_nth_error in I. destruct I as (k & Hk).
    destruct (Forall2_nth_r _ _ _ _ _ Er Hk) as ([[n f] d] & Hx & E). apply nth_error_In in Hx.
    apply in_combine_l in Hx. apply in_combine_l in Hx. destruct (plain_ok n f d (Good n Hx)) as (v' & E' & Pd).
    cbn in E. rewrite E in E'. apply Ok_inj in E'. subst v'. eapply plain_length; eassumption. }
  assert (Ri : change_inputs p = Ok rows).
  { unfold change_inputs. rewrite Cd. cbn [bind]. rewrite Er. cbn [bind].
    apply mapM_ok in Er. apply Forall2_len in Er. rewrite !combine_length in Er. cbn [List.length] in Er.
    rewrite map_length, Ld in Er.
    destruct rows as [|r rs]; [destruct (cp_notes p); [congruence|cbn in Er; lia]|]. cbn [vstack].
    replace (forallb _ rs) with true; [reflexivity|]. symmetry. apply forallb_forall. intros x I. apply Nat.eqb_eq.
    rewrite (Rows x), (Rows r); [reflexivity|now left|now right]. }
  exists rows. split; [exact Ri|]. destruct (inputs_inv _ _ Ri) as (durs' & Cd' & _ & Lr & _ & Nv).
  rewrite Cd in Cd'. apply Ok_inj in Cd'. subst durs'. split; [exact Lr|].
  assert (Dist : forall i d, nth_error durs i = Some d -> exists t tn, nth_error times i = Some t /\
            nth_error (times ++ [tl]) (S i) = Some tn /\ (d == tn - t)%Q).
  { intros i d Hd. destruct (Forall2_nth _ _ _ _ _ Fd Hd) as ([t tn] & Hx & E). cbn [fst snd] in E.
    apply nth_combine_some in Hx. destruct Hx as [H1 H2]. exists t, tn. split; [exact H1|]. split; [|exact E].
    destruct times as [|t0 times]; [destruct i; discriminate H1|exact H2]. }
  intros i n v Hn Hv. split; [apply Rows; eapply nth_error_In; eassumption|].
  destruct (some_or_none durs i) as (d & Hd); [rewrite Ld; apply nth_error_Some; congruence|].
  pose proof (Nv i n d v Hn Hd Hv) as E.
  destruct (plain_ok n (match i with O => None | S j => nth_error durs j end) d (Good n (nth_error_In _ _ Hn))) as (v' & E' & Pd).
  rewrite E in E'. apply Ok_inj in E'. subst v'.
  destruct (Dist i d Hd) as (t & tn & H1 & H2 & H3). exists t, tn. eexists. exists d.
  split; [rewrite nth_error_app1; [exact H1|apply nth_error_Some; congruence]|]. split; [exact H2|].
  split; [exact Pd|]. split; [exact H3|]. split.
  - intros ->. reflexivity.
  - intros j t' -> Ht'. destruct (some_or_none durs j) as (d' & Hd').
    { rewrite Ld. apply Nat.lt_le_incl, Nat.lt_le_trans with (S (S j)); [lia|]. apply nth_error_Some. congruence. }
    rewrite Hd'. destruct (Dist j d' Hd') as (t1 & tn1 & K1 & K2 & K3). rewrite Ht' in K1. apply Some_inj in K1. subst t1.
    rewrite nth_error_app1 in K2 by (apply nth_error_Some; congruence). rewrite H1 in K2. apply Some_inj in K2. subst tn1. exact K3.
Qed.
Print Assumptions C83_inputs.

(* With dummy targets (as in the search) the inputs are those of training and the targets 0. *)
Theorem C83_dummy : forall pieces,
  (forall ins tgts, change_dataset pieces false = Ok (ins, tgts) ->
     exists zeros, change_dataset pieces true = Ok (ins, zeros) /\ List.length zeros = List.length pieces) /\
  (forall ins tgts, change_dataset pieces true = Ok (ins, tgts) ->
     List.length tgts = List.length pieces /\
     forall k p t x, nth_error pieces k = Some p -> nth_error tgts k = Some t ->
       List.length t = List.length (cp_notes p) /\ (In x t -> x = 0)).
Proof.
  intros pieces. split.
  - intros ins tgts H. unfold change_dataset in H |- *. apply bind_ok in H. destruct H as (ins' & I & H).
    apply bind_ok in H. destruct H as (tg & _ & H). apply Ok_inj in H. apply pair_equal_spec in H. destruct H as [-> _].
    rewrite I. cbn [bind]. eexists. split; [reflexivity|]. apply mapM_ok in I. apply Forall2_len in I. now rewrite map_length.
  - intros ins tgts H. unfold change_dataset in H. apply bind_ok in H. destruct H as (ins' & I & H).
    apply Ok_inj in H. apply pair_equal_spec in H. destruct H as [-> <-]. apply mapM_ok in I. split.
    + rewrite map_length. apply Forall2_len in I. congruence.
    + intros k p t x Hp Ht. rewrite nth_error_map in Ht. destruct (nth_error ins k) as [rows|] eqn:Er; [|discriminate Ht].
      apply Some_inj in Ht. subst t. destruct (Forall2_nth_r _ _ _ _ _ I Er) as (p' & Hp' & E).
      rewrite Hp in Hp'. apply Some_inj in Hp'. subst p'. destruct (inputs_inv _ _ E) as (durs & _ & _ & Lr & _).
      split; [rewrite repeat_length; exact Lr|]. apply repeat_spec.
Qed.
Print Assumptions C83_dummy.

(* Without the labels of the piece only the last row can change ... *)
Theorem C83_without_labels : forall p q rows rows',
  cp_notes q = cp_notes p -> cp_measures q = cp_measures p ->
  change_inputs p = Ok rows -> change_inputs q = Ok rows' ->
  List.length rows = List.length rows' /\
  forall i, (S i < List.length rows)%nat -> nth_error rows i = nth_error rows' i.
Proof.
  intros p q rows rows' En Em H H'.
  destruct (inputs_inv _ _ H) as (d1 & D1 & L1 & R1 & _ & N1). destruct (inputs_inv _ _ H') as (d2 & D2 & L2 & R2 & _ & N2).
  rewrite En in *. split; [congruence|].
  assert (Same : forall i, (S i < List.length (cp_notes p))%nat -> nth_error d1 i = nth_error d2 i).
  { intros i Hi. unfold cp_durations in D1, D2. apply bind_ok in D1. destruct D1 as (l1 & _ & D1).
    apply bind_ok in D2. destruct D2 as (l2 & _ & D2). rewrite En, Em in D2.
    destruct (some_or_none d1 i ltac:(lia)) as (x & Hx). destruct (some_or_none d2 i ltac:(lia)) as (y & Hy).
    destruct (some_or_none (cp_notes p) i ltac:(lia)) as (a & Ha). destruct (some_or_none (cp_notes p) (S i) Hi) as (b & Hb).
    assert (Ha' : nth_error (map no_on (cp_notes p)) i = Some (no_on a)) by (rewrite nth_error_map, Ha; reflexivity).
    assert (Hb' : nth_error (map no_on (cp_notes p)) (S i) = Some (no_on b)) by (rewrite nth_error_map, Hb; reflexivity).
    pose proof (cache_nth _ _ _ _ i _ _ _ D1 Ha' Hb' Hx) as X. pose proof (cache_nth _ _ _ _ i _ _ _ D2 Ha' Hb' Hy) as Y.
    rewrite X in Y. apply Ok_inj in Y. congruence. }
  intros i Hi. rewrite R1 in Hi.
  destruct (some_or_none rows i ltac:(lia)) as (v & Hv). destruct (some_or_none rows' i ltac:(lia)) as (v' & Hv').
  destruct (some_or_none (cp_notes p) i ltac:(lia)) as (n & Hn). destruct (some_or_none d1 i ltac:(lia)) as (x & Hx).
  pose proof (N1 i n x v Hn Hx Hv) as X. rewrite (Same i Hi) in Hx. pose proof (N2 i n x v' Hn Hx Hv') as Y.
  assert (E : match i with O => None | S j => nth_error d1 j end = match i with O => None | S j => nth_error d2 j end)
    by (destruct i as [|j]; [reflexivity|apply Same; lia]).
  rewrite E in X. rewrite X in Y. apply Ok_inj in Y. congruence.
Qed.
Print Assumptions C83_without_labels.

(* The piece of C47_example: six notes, the fourth together with the third; four labels. *)
Definition piece83 : res (list (list (list Q)) * list (list Z)) :=
  let! p := get_score_piece ts44 (fun t => t) false false false notes1 rows1 in
  change_dataset [labelled p tab53] false.
Example C83_example : exists ins, piece83 = Ok (ins, [[-100; 0; 1; -100; 1; 1]]) /\
  match ins with
  | [rows] => map (fun v => firstn 2 (skipn 56 v)) rows =
              [[0; 1#2]; [1#2; 1#2]; [1#2; 0]; [0; 3#4]; [3#4; 1#4]; [1#4; 1]]%Q
  | _ => False
  end.
Proof. eexists. split; vm_compute; reflexivity. Qed.
Lemma tab53_within i b : 0 <= i <= 3 -> (0 <= b)%Q -> (b < 1)%Q -> within tab53 (i, b).
Proof.
  intros H B1 B2. unfold within, row_of. cbn [fst snd].
  assert (i = 0 \/ i = 1 \/ i = 2 \/ i = 3) as [-> | [-> | [-> | ->]]] by lia;
    [exists (mkM 0 1 0 (NextMc 1))|exists (mkM 1 1 0 (NextMc 2))|exists (mkM 2 1 0 (NextMc 3))|exists (mkM 3 1 0 NextNA)];
    (split; [split; [cbn; tauto|reflexivity]|cbn [m_off m_dur]; split; lra]).
Qed.
Example C83_within : forall p, get_score_piece ts44 (fun t => t) false false false notes1 rows1 = Ok p ->
  in_order (map no_on (p_notes p)) /\
  forall n, In n (p_notes p) -> plays_to tab53 0 (fst (no_on n)) /\ within tab53 (no_on n).
Proof.
  intros p H. vm_compute in H. apply Ok_inj in H. subst p. split.
  - cbn. unfold before. cbn. repeat split; intros [X|[X Y]]; try lia; vm_compute in Y; discriminate Y.
  - intros n I. cbn in I.
    repeat (destruct I as [<-|I];
      [split; [apply tab53_plays; cbn; lia|apply tab53_within; [lia|vm_compute; discriminate|vm_compute; reflexivity]]|]).
    destruct I.
Qed.
(* ... and it does change if the last label ends after the last note. *)
Example C83_last_row : forall p, get_score_piece ts44 (fun t => t) false false false notes1 rows1 = Ok p ->
  match change_inputs {| cp_notes := firstn 5 (p_notes p); cp_measures := tab53; cp_chords := Some (p_chords p); cp_changes := None |},
        change_inputs {| cp_notes := firstn 5 (p_notes p); cp_measures := tab53; cp_chords := None; cp_changes := None |} with
  | Ok rows, Ok rows' => firstn 4 rows = firstn 4 rows' /\ nth_error rows 4 <> nth_error rows' 4
  | _, _ => False
  end.
Proof. intros p H. vm_compute in H. apply Ok_inj in H. subst p. vm_compute. split; [reflexivity|discriminate]. Qed.
