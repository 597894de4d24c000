(* Properties C40 and C41: evaluation and tables of labels. *)
From Coq Require Import QArith Lqa String Ascii.
From Verif Require Import Model_Strings Model_Rhythm Model_Piece Model_Eval Spec_Search Spec_Piece Spec_Eval
  Proof_Base Proof_Codec Proof_CodecSpec Proof_Paths Proof_Infer Proof_Transpose Proof_Piece Proof_Window Proof_Keys Proof_Eval Proof_Annot Prop_Codec Prop_Pitch Prop_Piece.
From Coq Require Import List Lia.
Import ListNotations.
Close Scope Q_scope.
Open Scope Z_scope.

(* ---- C40: accuracies ---- *)
Lemma chord_arrays p durs s pt ui red acc : evaluate_chords p durs s pt ui red = Ok acc ->
  exists gold est, true_chords p = Ok gold /\ estimated_chords p s = Ok est
    /\ length (combine est gold) = length (p_notes p)
    /\ average (fun x => chord_similarity pt ui red (fst x) (snd x)) durs (combine est gold) = Ok acc.
Proof.
  intros E. unfold evaluate_chords in E. apply bind_ok in E. destruct E as (gold & G & E).
  apply bind_ok in E. destruct E as (est & S0 & E). exists gold, est. split; [exact G|]. split; [exact S0|]. split; [|exact E].
  rewrite combine_length. rewrite (true_length _ _ _ _ _ G). unfold estimated_chords in S0.
  destruct (get_chords s) as [chords changes]. rewrite (estimated_length _ _ _ _ S0). lia.
Qed.
Lemma key_arrays p durs s pt to acc : evaluate_keys p durs s pt to = Ok acc ->
  exists gold est, true_keys p = Ok gold /\ estimated_keys p s = Ok est
    /\ length (combine est gold) = length (p_notes p)
    /\ average (fun x => key_similarity pt to (fst x) (snd x)) durs (combine est gold) = Ok acc.
Proof.
  intros E. unfold evaluate_keys in E. apply bind_ok in E. destruct E as (gold & G & E).
  apply bind_ok in E. destruct E as (est & S0 & E). exists gold, est. split; [exact G|]. split; [exact S0|]. split; [|exact E].
  unfold true_keys in G. apply bind_ok in G. destruct G as (kc & _ & G).
  rewrite combine_length. rewrite (true_length _ _ _ _ _ G). unfold estimated_keys in S0.
  destruct (get_keys s) as [keys changes]. rewrite (estimated_length _ _ _ _ S0). lia.
Qed.

(* Accuracies are proportions. *)
Theorem C40_bounds : forall p durs s, length durs = length (p_notes p) -> Forall (fun d => 0 <= d)%Q durs ->
  (forall pt ui red a, evaluate_chords p durs s pt ui red = Ok a -> 0 <= a /\ a <= 1)%Q /\
  (forall pt to a, evaluate_keys p durs s pt to = Ok a -> 0 <= a /\ a <= 1)%Q /\
  (forall rt tt ui red to a, evaluate_jointly p durs s rt tt ui red to = Ok a -> 0 <= a /\ a <= 1)%Q.
Proof.
  intros p durs s L F. split; [|split].
  - intros pt ui red a E. destruct (chord_arrays _ _ _ _ _ _ _ E) as (gold & est & _ & _ & Le & Av).
    eapply (average_bounds _ (chord_match pt ui red)); [|exact Av|lia|exact F].
    intros x s0. apply chord_similarity_value.
  - intros pt to a E. destruct (key_arrays _ _ _ _ _ _ E) as (gold & est & _ & _ & Le & Av).
    eapply (average_bounds _ (key_match pt to)); [|exact Av|lia|exact F].
    intros x s0. apply key_similarity_value.
  - intros rt tt ui red to a E. unfold evaluate_jointly in E.
    apply bind_ok in E. destruct E as (gc & G1 & E). apply bind_ok in E. destruct E as (ec & E1 & E).
    apply bind_ok in E. destruct E as (gk & G2 & E). apply bind_ok in E. destruct E as (ek & E2 & E).
    unfold true_keys in G2. apply bind_ok in G2. destruct G2 as (kc & _ & G2).
    apply true_length in G1, G2. unfold estimated_chords in E1. unfold estimated_keys in E2.
    destruct (get_chords s), (get_keys s). apply estimated_length in E1, E2.
    eapply (average_bounds _ (fun x => chord_match rt ui red (fst x) /\ key_match tt to (snd x))); [|exact E| |exact F].
    + intros [c k] x H. cbn [fst snd] in *. apply bind_ok in H. destruct H as (a0 & Ha & H).
      apply bind_ok in H. destruct H as (b0 & Hb & H). apply Ok_inj in H. subst x.
      apply chord_similarity_value in Ha. apply key_similarity_value in Hb.
      destruct Ha as [[A1 A2]|[A1 A2]], Hb as [[B1 B2]|[B1 B2]]; rewrite A1, B1; [left|right..]; (split; [ring|tauto]).
    + rewrite !combine_length. lia.
Qed.
Print Assumptions C40_bounds.

(* The chord and the estimate in force at an input with a duration. *)
Lemma force_exists {A} : forall (l : list (nat * A)) i, l <> [] ->
  (forall c x, nth_error l 0 = Some (c, x) -> (c <= i)%nat) ->
  (forall j m a x b y, nth_error l j = Some (a, x) -> nth_error l (j + m) = Some (b, y) -> (a <= b)%nat) ->
  exists x, last_up_to l i x.
Proof.
  induction l as [|[c x] l IH]; intros i Hn H0 Mono; [now destruct Hn|].
  destruct l as [|[c' x'] l].
  - exists x. exists [], c, []. split; [reflexivity|]. split; [now apply (H0 c x)|intros y []].
  - destruct (Nat.le_gt_cases c' i) as [Le|Gt].
    + destruct (IH i) as (z & l1 & cz & l2 & Ez & Hz); [discriminate| | |].
      * intros c0 x0 Hc. apply Some_inj in Hc. apply pair_equal_spec in Hc. destruct Hc as [<- <-]. exact Le.
      * intros j m a x0 b y H1 H2. exact (Mono (S j) m a x0 b y H1 H2).
      * exists z. exists ((c, x) :: l1), cz, l2. split; [now rewrite Ez|exact Hz].
    + exists x. exists [], c, ((c', x') :: l). split; [reflexivity|]. split; [now apply (H0 c x)|].
      intros [a y] Hy. cbn. apply In_nth_error in Hy. destruct Hy as (m & Hm).
      assert (c' <= a)%nat; [|lia]. apply (Mono 1%nat m c' x' a y eq_refl Hm).
Qed.
Lemma combine_mono {A} (changes : list nat) (things : list A) : non_decreasing (map Z.of_nat changes) ->
  forall j m a x b y, nth_error (combine changes things) j = Some (a, x) ->
    nth_error (combine changes things) (j + m) = Some (b, y) -> (a <= b)%nat.
Proof.
  intros H j m a x b y H1 H2. apply nth_combine_some in H1, H2. eapply nat_mono; [exact H|apply H1|apply H2].
Qed.
Lemma chord_force p i : covered p -> p_chords p <> [] -> exists c, chord_in_force p i c.
Proof.
  intros (L & Z0 & Mono & _) Nn. apply force_exists.
  - destruct (p_chords p); [now destruct Nn|]. destruct (p_changes p); [discriminate L|]. discriminate.
  - intros c x H. apply nth_combine_some in H. destruct H as [H _]. rewrite Z0 in H. apply Some_inj in H. lia.
  - now apply combine_mono.
Qed.
Lemma labelled_exists {A} (labels : list A) changes n i : segmentation labels changes n -> (i < n)%nat ->
  exists x, labelled labels changes i x.
Proof.
  intros (L & Z0 & Ln & Inc) Hi.
  assert (X : forall k, (k <= length labels)%nat ->
    (exists x, labelled labels changes i x) \/ exists a, nth_error changes k = Some a /\ (a <= i)%nat).
  { induction k as [|k IH]; intros Hk; [right; exists 0%nat; split; [exact Z0|lia]|].
    destruct IH as [IH|(a & Ha & Hai)]; [lia|now left|].
    destruct (nth_error changes (S k)) as [b|] eqn:Hb; [|apply nth_error_None in Hb; lia].
    destruct (nth_error labels k) as [x|] eqn:Hx; [|apply nth_error_None in Hx; lia].
    destruct (Nat.le_gt_cases b i) as [Le|Gt]; [right; eauto|]. left. exists x, k, a, b. auto. }
  destruct (X (length labels)) as [H|(a & Ha & Hai)]; [lia|exact H|]. rewrite Ln in Ha. apply Some_inj in Ha. lia.
Qed.
Lemma estimated_some n labels changes arr i x : estimated_labels n labels changes = Ok arr ->
  segmentation labels changes n -> labelled labels changes i x -> exists e, x = Some e.
Proof.
  intros E (L & _) (k & a & b & Hk & Ha & Hb & _). unfold estimated_labels in E.
  apply bind_ok in E. destruct E as (l & M & _). apply mapM_ok in M.
  assert (Hk' : nth_error (combine labels (combine (removelast changes) (tl changes))) k = Some (x, (a, b))).
  { apply nth_combine_some. split; [exact Hk|]. apply nth_combine_some. split.
    - rewrite removelast_firstn_len. rewrite nth_error_firstn_lt; [exact Ha|].
      assert (k < length labels)%nat by (apply nth_error_Some; congruence). lia.
    - destruct changes; [destruct k; discriminate Ha|]. exact Hb. }
  destruct (Forall2_nth _ _ _ _ _ M Hk') as (y & _ & Ey). cbn in Ey. destruct x as [e|]; [eauto|discriminate Ey].
Qed.

(* What the labels of an input say, in terms of the chord in force and the estimate. *)
Lemma chord_case p s gold est i : true_chords p = Ok gold -> estimated_chords p s = Ok est -> covered p ->
  (let (chords, changes) := get_chords s in segmentation chords changes (length (p_notes p))) ->
  (i < length (p_notes p))%nat ->
  (forall c, chord_in_force p i c -> exists g, nth_error gold i = Some g /\
     get_chord_from_one_hot_index g TPC true false false NO_REDUCTION = Ok (c_root (pc c), c_type (pc c), c_inv (pc c))) /\
  (forall e, labelled (fst (get_chords s)) (snd (get_chords s)) i (Some e) -> nth_error est i = Some e) /\
  exists c e, chord_in_force p i c /\ labelled (fst (get_chords s)) (snd (get_chords s)) i (Some e).
Proof.
  intros G E C Sg Hi. unfold estimated_chords in E. destruct (get_chords s) as [chords changes]. cbn [fst snd].
  assert (Nn : p_chords p <> []).
  { destruct C as (L & Z0 & _). intros X. rewrite X in L. destruct (p_changes p); [discriminate Z0|discriminate L]. }
  split; [|split].
  - intros c F. destruct C as (L & Z0 & Mono & Pt).
    destruct (true_nth chord_index _ _ _ _ i c G L Mono Hi F) as (g & Hg & Hn). exists g. split; [exact Hn|].
    unfold chord_index in Hg. apply C01_chord_object_roundtrip in Hg.
    assert (P : c_pt (pc c) = TPC).
    { destruct F as (l1 & c0 & l2 & Ec & _). assert (I : In (c0, c) (combine (p_changes p) (p_chords p))) by (rewrite Ec; apply in_elt).
      apply in_combine_r in I. rewrite Forall_forall in Pt. now apply Pt. }
    rewrite P in Hg. exact Hg.
  - intros e Le. eapply estimated_nth; eassumption.
  - destruct (chord_force p i C Nn) as (c & Hc). destruct (labelled_exists _ _ _ _ Sg Hi) as (x & Hx).
    destruct (estimated_some _ _ _ _ _ _ E Sg Hx) as (e & ->). eauto.
Qed.

(* The accuracy of the chords is the share of the time in which the estimate is right. *)
Theorem C40_chords : forall p durs s ui red acc,
  length durs = length (p_notes p) -> covered p ->
  (let (chords, changes) := get_chords s in segmentation chords changes (length (p_notes p))) ->
  evaluate_chords p durs s TPC ui red = Ok acc ->
  exists flags, length flags = length durs /\ ~ (total durs == 0)%Q /\
    (acc * total durs == marked_time durs flags)%Q /\
    forall i d c e, nth_error durs i = Some d -> ~ (d == 0)%Q -> chord_in_force p i c ->
      labelled (fst (get_chords s)) (snd (get_chords s)) i (Some e) ->
      exists b est, nth_error flags i = Some b /\
        get_chord_from_one_hot_index e TPC true false false NO_REDUCTION = Ok est /\
        (b = true <-> right_chord ui red c est).
Proof.
  intros p durs s ui red acc L C Sg Ev. destruct (chord_arrays _ _ _ _ _ _ _ Ev) as (gold & est & G & E & Le & Av).
  destruct (average_flags _ (chord_match TPC ui red) _ _ _ (fun x s0 => chord_similarity_value TPC ui red x s0) Av)
    as (flags & Lf & T & M & P); [lia|].
  exists flags. split; [exact Lf|]. split; [exact T|]. split; [exact M|]. intros i d c e Hd D Hc He.
  assert (Hi : (i < length (p_notes p))%nat) by (rewrite <- L; apply nth_error_Some; congruence).
  destruct (chord_case p s gold est i G E C Sg Hi) as (Cg & Ce & _).
  destruct (Cg c Hc) as (g & Hg & Dg). specialize (Ce e He).
  destruct (P i d (e, g) Hd D) as (b & Hb & Pb & s0 & Sim); [now apply nth_combine_some|].
  cbn [fst snd] in Sim. unfold chord_similarity in Sim. rewrite Dg in Sim. cbn [bind] in Sim.
  apply bind_ok in Sim. destruct Sim as ([[r t] inv] & De & _).
  exists b, (r, t, inv). split; [exact Hb|]. split; [exact De|]. rewrite Pb. unfold chord_match, right_chord. cbn [fst snd].
  split.
  - intros (r1 & t1 & i1 & r2 & t2 & i2 & G' & H' & M1 & M2 & M3). rewrite Dg in G'. rewrite De in H'.
    apply Ok_inj in G', H'. repeat split; [congruence|congruence|]. intros U. specialize (M3 U). congruence.
  - intros (M1 & M2 & M3). do 6 eexists. split; [exact Dg|]. split; [exact De|]. auto.
Qed.
Print Assumptions C40_chords.

(* It is 1 exactly if the estimate is right all the time. *)
Theorem C40_chords_one : forall p durs s ui red acc,
  length durs = length (p_notes p) -> Forall (fun d => 0 <= d)%Q durs -> covered p ->
  (let (chords, changes) := get_chords s in segmentation chords changes (length (p_notes p))) ->
  evaluate_chords p durs s TPC ui red = Ok acc ->
  (acc == 1)%Q <->
  forall i d c e est, nth_error durs i = Some d -> (0 < d)%Q -> chord_in_force p i c ->
    labelled (fst (get_chords s)) (snd (get_chords s)) i (Some e) ->
    get_chord_from_one_hot_index e TPC true false false NO_REDUCTION = Ok est -> right_chord ui red c est.
Proof.
  intros p durs s ui red acc L F C Sg Ev.
  destruct (C40_chords p durs s ui red acc L C Sg Ev) as (flags & Lf & T & M & P).
  rewrite <- (Qmult_inj_r acc 1 (total durs) T), M, Qmult_1_l, (marked_all durs flags F Lf).
  destruct (chord_arrays _ _ _ _ _ _ _ Ev) as (gold & est & G & E & _). split.
  - intros H i d c e x Hd D Hc He Hx. destruct (P i d c e Hd) as (b & x' & Hb & Hx' & R); [lra|exact Hc|exact He|].
    rewrite Hx in Hx'. apply Ok_inj in Hx'. subst x'. apply R. apply (H i d b Hd); [lra|exact Hb].
  - intros H i d b Hd D Hb.
    assert (Hi : (i < length (p_notes p))%nat) by (rewrite <- L; apply nth_error_Some; congruence).
    destruct (chord_case p s gold est i G E C Sg Hi) as (_ & _ & c & e & Hc & He).
    destruct (P i d c e Hd D Hc He) as (b' & x & Hb' & Hx & R). rewrite Hb in Hb'. apply Some_inj in Hb'. subst b'.
    apply R. apply (H i d c e x Hd); [|exact Hc|exact He|exact Hx].
    rewrite Forall_forall in F. specialize (F d (nth_error_In _ _ Hd)). apply Qle_lteq in F. destruct F as [F|F]; [exact F|].
    symmetry in F. contradiction.
Qed.
Print Assumptions C40_chords_one.

(* The same for keys. *)
Lemma strictly_nth : forall l, strictly_increasing l -> forall j m a b,
  nth_error l j = Some a -> nth_error l (j + m) = Some b -> (a <= b)%nat.
Proof.
  induction l as [|x l IH]; intros H j m a b Ha Hb; [destruct j; discriminate Ha|].
  assert (X : forall m y, nth_error l m = Some y -> (x <= y)%nat).
  { clear -H. revert x H. induction l as [|z l IH]; intros x H m y Hm; [destruct m; discriminate Hm|].
    destruct H as [H1 H2]. destruct m as [|m]; [apply Some_inj in Hm; lia|]. specialize (IH z H2 m y Hm). lia. }
  destruct j as [|j].
  - apply Some_inj in Ha. subst x. destruct m as [|m]; [apply Some_inj in Hb; lia|]. now apply (X m).
  - apply (IH (match l return strictly_increasing (x :: l) -> strictly_increasing l with
      [] => fun _ => I | _ :: _ => fun H => proj2 H end H) j m a b Ha Hb).
Qed.
Lemma key_inputs p inputs : covered p -> keyed p -> key_change_inputs p = Ok inputs ->
  Forall2 (fun j a => nth_error (p_changes p) j = Some a) (p_key_changes p) inputs /\
  length inputs = length (p_keys p) /\ nth_error inputs 0 = Some 0%nat /\ non_decreasing (map Z.of_nat inputs).
Proof.
  intros (L & Z0 & Mono & _) (Lk & K0 & Inc & _) E. unfold key_change_inputs in E. apply mapM_ok in E.
  assert (F : Forall2 (fun j a => nth_error (p_changes p) j = Some a) (p_key_changes p) inputs).
  { clear -E. induction E as [|j a l1 l2 Ej F' IH]; constructor; auto.
    destruct (nth_error (p_changes p) j); [apply Ok_inj in Ej; congruence|discriminate Ej]. }
  split; [exact F|]. split; [rewrite <- Lk; symmetry; now apply Forall2_len in F|].
  destruct (Forall2_nth _ _ _ _ _ F K0) as (a0 & Ha0 & Ea0). split; [rewrite Ha0; congruence|].
  assert (N : forall i a b, nth_error inputs i = Some a -> nth_error inputs (S i) = Some b -> (a <= b)%nat).
  { intros i a b Ha Hb. destruct (Forall2_nth_r _ _ _ _ _ F Ha) as (j1 & J1 & C1).
    destruct (Forall2_nth_r _ _ _ _ _ F Hb) as (j2 & J2 & C2).
    replace (S i) with (i + 1)%nat in J2 by lia. pose proof (strictly_nth _ Inc _ _ _ _ J1 J2) as Le.
    replace j2 with (j1 + (j2 - j1))%nat in C2 by lia. eapply nat_mono; [exact Mono|exact C1|exact C2]. }
  clear -N. induction inputs as [|a l IH]; [exact I|]. destruct l as [|b l]; [exact I|]. cbn [map non_decreasing]. split.
  - specialize (N 0%nat a b eq_refl eq_refl). lia.
  - apply IH. intros i x y Hx Hy. exact (N (S i) x y Hx Hy).
Qed.

Lemma key_case p s gold est i : true_keys p = Ok gold -> estimated_keys p s = Ok est -> covered p -> keyed p ->
  (let (keys, changes) := get_keys s in segmentation keys changes (length (p_notes p))) ->
  (i < length (p_notes p))%nat ->
  (forall k, key_in_force p i k -> exists g, nth_error gold i = Some g /\
     get_key_from_one_hot_index g TPC false = Ok (k_rel k, k_rel_mode k)) /\
  (forall e, labelled (fst (get_keys s)) (snd (get_keys s)) i e -> nth_error est i = Some e) /\
  exists k e, key_in_force p i k /\ labelled (fst (get_keys s)) (snd (get_keys s)) i e.
Proof.
  intros G E C K Sg Hi. unfold estimated_keys in E. destruct (get_keys s) as [keys changes]. cbn [fst snd].
  unfold true_keys in G. apply bind_ok in G. destruct G as (inputs & Ei & G).
  destruct (key_inputs p inputs C K Ei) as (F & Li & I0 & Mono).
  assert (Fu : forall inputs', Forall2 (fun j a => nth_error (p_changes p) j = Some a) (p_key_changes p) inputs' -> inputs' = inputs).
  { revert F. clear. intros F. induction F as [|j a l1 l2 Ha F IH]; intros l F'; inversion F' as [|? b ? l' Hb F2 E1 E2]; subst; [reflexivity|].
    rewrite Ha in Hb. apply Some_inj in Hb. subst b. f_equal. now apply IH. }
  split; [|split].
  - intros k (inputs' & F' & U). rewrite (Fu inputs' F') in U.
    destruct (true_nth key_index _ _ _ _ i k G Li Mono Hi U) as (g & Hg & Hn). exists g. split; [exact Hn|].
    unfold key_index in Hg. apply C04_key_roundtrip in Hg. destruct Hg as [Hg _].
    assert (P : k_pt k = TPC).
    { destruct K as (_ & _ & _ & Pt). destruct U as (l1 & c0 & l2 & Ec & _).
      assert (In0 : In (c0, k) (combine inputs (p_keys p))) by (rewrite Ec; apply in_elt).
      apply in_combine_r in In0. rewrite Forall_forall in Pt. now apply Pt. }
    rewrite P in Hg. exact Hg.
  - intros e (j & a & b & Hj & Ha & Hb & Hab).
    eapply (estimated_nth _ (map Some keys)); [exact E| |].
    + destruct Sg as (S1 & S2 & S3 & S4). rewrite <- (map_length Some keys) in S1, S3. split; [exact S1|]. split; [exact S2|]. split; [exact S3|exact S4].
    + exists j, a, b. split; [|auto]. now rewrite nth_error_map, Hj.
  - destruct (force_exists (combine inputs (p_keys p)) i) as (k & Hk).
    + destruct inputs; [discriminate I0|]. destruct (p_keys p); [discriminate Li|]. discriminate.
    + intros c x H. apply nth_combine_some in H. destruct H as [H _]. rewrite I0 in H. apply Some_inj in H. lia.
    + now apply combine_mono.
    + destruct (labelled_exists _ _ _ _ Sg Hi) as (e & He). exists k, e. split; [|exact He]. exists inputs. auto.
Qed.

Theorem C40_keys : forall p durs s to acc,
  length durs = length (p_notes p) -> covered p -> keyed p ->
  (let (keys, changes) := get_keys s in segmentation keys changes (length (p_notes p))) ->
  evaluate_keys p durs s TPC to = Ok acc ->
  exists flags, length flags = length durs /\ ~ (total durs == 0)%Q /\
    (acc * total durs == marked_time durs flags)%Q /\
    forall i d k e, nth_error durs i = Some d -> ~ (d == 0)%Q -> key_in_force p i k ->
      labelled (fst (get_keys s)) (snd (get_keys s)) i e ->
      exists b est, nth_error flags i = Some b /\
        get_key_from_one_hot_index e TPC false = Ok est /\ (b = true <-> right_key to k est).
Proof.
  intros p durs s to acc L C K Sg Ev. destruct (key_arrays _ _ _ _ _ _ Ev) as (gold & est & G & E & Le & Av).
  destruct (average_flags _ (key_match TPC to) _ _ _ (fun x s0 => key_similarity_value TPC to x s0) Av)
    as (flags & Lf & T & M & P); [lia|].
  exists flags. split; [exact Lf|]. split; [exact T|]. split; [exact M|]. intros i d k e Hd D Hk He.
  assert (Hi : (i < length (p_notes p))%nat) by (rewrite <- L; apply nth_error_Some; congruence).
  destruct (key_case p s gold est i G E C K Sg Hi) as (Cg & Ce & _).
  destruct (Cg k Hk) as (g & Hg & Dg). specialize (Ce e He).
  destruct (P i d (e, g) Hd D) as (b & Hb & Pb & s0 & Sim); [now apply nth_combine_some|].
  cbn [fst snd] in Sim. unfold key_similarity in Sim. rewrite Dg in Sim. cbn [bind] in Sim.
  apply bind_ok in Sim. destruct Sim as (x & De & _).
  exists b, x. split; [exact Hb|]. split; [exact De|]. rewrite Pb. unfold key_match, right_key. cbn [fst snd].
  split.
  - intros (g' & e' & G' & H' & M1 & M2). rewrite Dg in G'. rewrite De in H'. apply Ok_inj in G', H'. subst g' e'. auto.
  - intros (M1 & M2). do 2 eexists. split; [exact Dg|]. split; [exact De|]. auto.
Qed.
Print Assumptions C40_keys.

Theorem C40_keys_one : forall p durs s to acc,
  length durs = length (p_notes p) -> Forall (fun d => 0 <= d)%Q durs -> covered p -> keyed p ->
  (let (keys, changes) := get_keys s in segmentation keys changes (length (p_notes p))) ->
  evaluate_keys p durs s TPC to = Ok acc ->
  (acc == 1)%Q <->
  forall i d k e est, nth_error durs i = Some d -> (0 < d)%Q -> key_in_force p i k ->
    labelled (fst (get_keys s)) (snd (get_keys s)) i e ->
    get_key_from_one_hot_index e TPC false = Ok est -> right_key to k est.
Proof.
  intros p durs s to acc L F C K Sg Ev.
  destruct (C40_keys p durs s to acc L C K Sg Ev) as (flags & Lf & T & M & P).
  rewrite <- (Qmult_inj_r acc 1 (total durs) T), M, Qmult_1_l, (marked_all durs flags F Lf).
  destruct (key_arrays _ _ _ _ _ _ Ev) as (gold & est & G & E & _). split.
  - intros H i d k e x Hd D Hk He Hx. destruct (P i d k e Hd) as (b & x' & Hb & Hx' & R); [lra|exact Hk|exact He|].
    rewrite Hx in Hx'. apply Ok_inj in Hx'. subst x'. apply R. apply (H i d b Hd); [lra|exact Hb].
  - intros H i d b Hd D Hb.
    assert (Hi : (i < length (p_notes p))%nat) by (rewrite <- L; apply nth_error_Some; congruence).
    destruct (key_case p s gold est i G E C K Sg Hi) as (_ & _ & k & e & Hk & He).
    destruct (P i d k e Hd D Hk He) as (b' & x & Hb' & Hx & R). rewrite Hb in Hb'. apply Some_inj in Hb'. subst b'.
    apply R. apply (H i d k e x Hd); [|exact Hk|exact He|exact Hx].
    rewrite Forall_forall in F. specialize (F d (nth_error_In _ _ Hd)). apply Qle_lteq in F. destruct F as [F|F]; [exact F|].
    symmetry in F. contradiction.
Qed.
Print Assumptions C40_keys_one.

(* The joint accuracy is the share of the time in which both are right. *)
Lemma joint_arrays p durs s rt tt ui red to acc : evaluate_jointly p durs s rt tt ui red to = Ok acc ->
  exists gc ec gk ek, true_chords p = Ok gc /\ estimated_chords p s = Ok ec /\ true_keys p = Ok gk /\ estimated_keys p s = Ok ek
    /\ length (combine ec gc) = length (p_notes p) /\ length (combine ek gk) = length (p_notes p)
    /\ average (fun x => let '(c, k) := x : (Z * Z) * (Z * Z) in
             let! a := chord_similarity rt ui red (fst c) (snd c) in
             let! b := key_similarity tt to (fst k) (snd k) in Ok (a * b)%Q)
          durs (combine (combine ec gc) (combine ek gk)) = Ok acc.
Proof.
  intros E. unfold evaluate_jointly in E.
  apply bind_ok in E. destruct E as (gc & G1 & E). apply bind_ok in E. destruct E as (ec & E1 & E).
  apply bind_ok in E. destruct E as (gk & G2 & E). apply bind_ok in E. destruct E as (ek & E2 & E).
  exists gc, ec, gk, ek. do 4 (split; [assumption|]).
  unfold true_keys in G2. apply bind_ok in G2. destruct G2 as (kc & _ & G2).
  apply true_length in G1, G2. unfold estimated_chords in E1. unfold estimated_keys in E2.
  destruct (get_chords s), (get_keys s). apply estimated_length in E1, E2.
  rewrite !combine_length. split; [lia|]. split; [lia|exact E].
Qed.
Lemma joint_value rt tt ui red to (x : (Z * Z) * (Z * Z)) s0 :
  (let '(c, k) := x in let! a := chord_similarity rt ui red (fst c) (snd c) in
   let! b := key_similarity tt to (fst k) (snd k) in Ok (a * b)%Q) = Ok s0 ->
  ((s0 == 1 /\ (chord_match rt ui red (fst x) /\ key_match tt to (snd x))) \/
   (s0 == 0 /\ ~ (chord_match rt ui red (fst x) /\ key_match tt to (snd x))))%Q.
Proof.
  destruct x as [c k]. intros H. cbn [fst snd] in *. apply bind_ok in H. destruct H as (a0 & Ha & H).
  apply bind_ok in H. destruct H as (b0 & Hb & H). apply Ok_inj in H. subst s0.
  apply chord_similarity_value in Ha. apply key_similarity_value in Hb.
  destruct Ha as [[A1 A2]|[A1 A2]], Hb as [[B1 B2]|[B1 B2]]; rewrite A1, B1; [left|right..]; (split; [ring|tauto]).
Qed.

Theorem C40_joint : forall p durs s ui red to acc,
  length durs = length (p_notes p) -> covered p -> keyed p ->
  (let (chords, changes) := get_chords s in segmentation chords changes (length (p_notes p))) ->
  (let (keys, changes) := get_keys s in segmentation keys changes (length (p_notes p))) ->
  evaluate_jointly p durs s TPC TPC ui red to = Ok acc ->
  exists flags, length flags = length durs /\ ~ (total durs == 0)%Q /\
    (acc * total durs == marked_time durs flags)%Q /\
    forall i d c k e f, nth_error durs i = Some d -> ~ (d == 0)%Q -> chord_in_force p i c -> key_in_force p i k ->
      labelled (fst (get_chords s)) (snd (get_chords s)) i (Some e) ->
      labelled (fst (get_keys s)) (snd (get_keys s)) i f ->
      exists b ec ek, nth_error flags i = Some b /\
        get_chord_from_one_hot_index e TPC true false false NO_REDUCTION = Ok ec /\
        get_key_from_one_hot_index f TPC false = Ok ek /\
        (b = true <-> right_chord ui red c ec /\ right_key to k ek).
Proof.
  intros p durs s ui red to acc L C K Sc Sk Ev.
  destruct (joint_arrays _ _ _ _ _ _ _ _ _ Ev) as (gc & ec & gk & ek & Gc & Ec & Gk & Ek & Lc & Lk & Av).
  destruct (average_flags _ _ _ _ _ (joint_value TPC TPC ui red to) Av)
    as (flags & Lf & T & M & P); [rewrite combine_length; lia|].
  exists flags. split; [exact Lf|]. split; [exact T|]. split; [exact M|]. intros i d c k e f Hd D Hc Hk He Hf.
  assert (Hi : (i < length (p_notes p))%nat) by (rewrite <- L; apply nth_error_Some; congruence).
  destruct (chord_case p s gc ec i Gc Ec C Sc Hi) as (Cg & Ce & _).
  destruct (key_case p s gk ek i Gk Ek C K Sk Hi) as (Kg & Ke & _).
  destruct (Cg c Hc) as (g & Hg & Dg). destruct (Kg k Hk) as (h & Hh & Dh). specialize (Ce e He). specialize (Ke f Hf).
  destruct (P i d ((e, g), (f, h)) Hd D) as (b & Hb & Pb & s0 & Sim).
  { apply nth_combine_some. split; now apply nth_combine_some. }
  cbn [fst snd] in Sim. unfold chord_similarity, key_similarity in Sim. rewrite Dg in Sim. cbn [bind] in Sim.
  apply bind_ok in Sim. destruct Sim as (q & Sq & Sim). apply bind_ok in Sq. destruct Sq as ([[r t] inv] & De & _).
  apply bind_ok in Sim. destruct Sim as (q' & Sq & _). rewrite Dh in Sq. cbn [bind] in Sq.
  apply bind_ok in Sq. destruct Sq as (y & Df & _).
  exists b, (r, t, inv), y. split; [exact Hb|]. split; [exact De|]. split; [exact Df|].
  rewrite Pb. unfold chord_match, key_match, right_chord, right_key. cbn [fst snd].
  split.
  - intros [(r1 & t1 & i1 & r2 & t2 & i2 & G' & H' & M1 & M2 & M3) (g' & e' & G2 & H2 & N1 & N2)].
    rewrite Dg in G'. rewrite De in H'. rewrite Dh in G2. rewrite Df in H2.
    apply Ok_inj in G', H', G2, H2. subst g' e'. split; [|auto]. repeat split; [congruence|congruence|].
    intros U. specialize (M3 U). congruence.
  - intros [(M1 & M2 & M3) (N1 & N2)]. split.
    + do 6 eexists. split; [exact Dg|]. split; [exact De|]. auto.
    + do 2 eexists. split; [exact Dh|]. split; [exact Df|]. auto.
Qed.
Print Assumptions C40_joint.

(* More lenient options never lower an accuracy, and are defined where stricter ones are. *)
Lemma one_zero (P R : Prop) s s' : ((s == 1 /\ P) \/ (s == 0 /\ ~ P))%Q -> ((s' == 1 /\ R) \/ (s' == 0 /\ ~ R))%Q ->
  (P -> R) -> (s <= s')%Q.
Proof. intros [[A B]|[A B]] [[E F]|[E F]] H; rewrite A, E; try (cbv; discriminate); tauto. Qed.
Theorem C40_lenient_chords : forall p durs s pt ui red ui' red' a,
  length durs = length (p_notes p) -> Forall (fun d => 0 <= d)%Q durs ->
  (ui' = true -> ui = true) -> (forall t u, red t = red u -> red' t = red' u) ->
  evaluate_chords p durs s pt ui red = Ok a ->
  exists b, evaluate_chords p durs s pt ui' red' = Ok b /\ (a <= b)%Q.
Proof.
  intros p durs s pt ui red ui' red' a L F Hi Hr E.
  destruct (chord_arrays _ _ _ _ _ _ _ E) as (gold & est & G & Es & Le & Av). unfold evaluate_chords. rewrite G, Es. cbn [bind].
  destruct (average_le (fun x => chord_similarity pt ui red (fst x) (snd x))
    (fun x => chord_similarity pt ui' red' (fst x) (snd x)) (fun x => x) durs (combine est gold) a)
    as (b & Hb & Hab); [|exact F|lia|exact Av|rewrite map_id in Hb; eauto].
  intros x s0 H.
  assert (D : exists s', chord_similarity pt ui' red' (fst x) (snd x) = Ok s').
  { unfold chord_similarity in H |- *. apply bind_ok in H. destruct H as (g & Hg & H). apply bind_ok in H. destruct H as (e & He & _).
    rewrite Hg, He. cbn [bind]. eauto. }
  destruct D as (s' & D). exists s'. split; [exact D|].
  eapply one_zero; [exact (chord_similarity_value _ _ _ x s0 H)|exact (chord_similarity_value _ _ _ x s' D)|].
  intros (r1 & t1 & i1 & r2 & t2 & i2 & G' & H' & M1 & M2 & M3). exists r1, t1, i1, r2, t2, i2. auto 8.
Qed.
Print Assumptions C40_lenient_chords.
Theorem C40_lenient_keys : forall p durs s pt a,
  length durs = length (p_notes p) -> Forall (fun d => 0 <= d)%Q durs ->
  evaluate_keys p durs s pt false = Ok a ->
  exists b, evaluate_keys p durs s pt true = Ok b /\ (a <= b)%Q.
Proof.
  intros p durs s pt a L F E.
  destruct (key_arrays _ _ _ _ _ _ E) as (gold & est & G & Es & Le & Av). unfold evaluate_keys. rewrite G, Es. cbn [bind].
  destruct (average_le (fun x => key_similarity pt false (fst x) (snd x))
    (fun x => key_similarity pt true (fst x) (snd x)) (fun x => x) durs (combine est gold) a)
    as (b & Hb & Hab); [|exact F|lia|exact Av|rewrite map_id in Hb; eauto].
  intros x s0 H.
  assert (D : exists s', key_similarity pt true (fst x) (snd x) = Ok s').
  { unfold key_similarity in H |- *. apply bind_ok in H. destruct H as (g & Hg & H). apply bind_ok in H. destruct H as (e & He & _).
    rewrite Hg, He. cbn [bind]. eauto. }
  destruct D as (s' & D). exists s'. split; [exact D|].
  eapply one_zero; [exact (key_similarity_value _ _ x s0 H)|exact (key_similarity_value _ _ x s' D)|].
  intros (g & e & Hg & He & M1 & M2). exists g, e. split; [exact Hg|]. split; [exact He|]. split; [exact M1|discriminate].
Qed.
Print Assumptions C40_lenient_keys.

(* The joint accuracy is at most each of the two. *)
Lemma map_fst_combine {A B} : forall (l : list A) (l' : list B), length l = length l' -> map fst (combine l l') = l.
Proof. induction l as [|a l IH]; intros [|b l'] E; try discriminate E; [reflexivity|]. cbn. f_equal. apply IH. now injection E. Qed.
Lemma map_snd_combine {A B} : forall (l : list A) (l' : list B), length l = length l' -> map snd (combine l l') = l'.
Proof. induction l as [|a l IH]; intros [|b l'] E; try discriminate E; [reflexivity|]. cbn. f_equal. apply IH. now injection E. Qed.
Theorem C40_joint_least : forall p durs s rt tt ui red to a,
  length durs = length (p_notes p) -> Forall (fun d => 0 <= d)%Q durs ->
  evaluate_jointly p durs s rt tt ui red to = Ok a ->
  exists b c, evaluate_chords p durs s rt ui red = Ok b /\ evaluate_keys p durs s tt to = Ok c /\ (a <= b /\ a <= c)%Q.
Proof.
  intros p durs s rt tt ui red to a L F E.
  destruct (joint_arrays _ _ _ _ _ _ _ _ _ E) as (gc & ec & gk & ek & Gc & Ec & Gk & Ek & Lc & Lk & Av).
  assert (Ln : length durs = length (combine (combine ec gc) (combine ek gk))) by (rewrite combine_length; lia).
  destruct (average_le (fun x => let '(c, k) := x : (Z * Z) * (Z * Z) in
             let! a := chord_similarity rt ui red (fst c) (snd c) in
             let! b := key_similarity tt to (fst k) (snd k) in Ok (a * b)%Q)
    (fun x => chord_similarity rt ui red (fst x) (snd x)) fst durs (combine (combine ec gc) (combine ek gk)) a)
    as (b & Hb & Hab); [|exact F|exact Ln|exact Av|].
  { intros x s0 H. pose proof (joint_value rt tt ui red to x s0 H) as V. destruct x as [x1 x2]. cbn [fst snd] in *. apply bind_ok in H. destruct H as (v & Hv & _).
    exists v. split; [exact Hv|]. eapply one_zero; [exact V|exact (chord_similarity_value _ _ _ x1 v Hv)|tauto]. }
  destruct (average_le (fun x => let '(c, k) := x : (Z * Z) * (Z * Z) in
             let! a := chord_similarity rt ui red (fst c) (snd c) in
             let! b := key_similarity tt to (fst k) (snd k) in Ok (a * b)%Q)
    (fun x => key_similarity tt to (fst x) (snd x)) snd durs (combine (combine ec gc) (combine ek gk)) a)
    as (c & Hc & Hac); [|exact F|exact Ln|exact Av|].
  { intros x s0 H. pose proof (joint_value rt tt ui red to x s0 H) as V. destruct x as [x1 x2]. cbn [fst snd] in *. apply bind_ok in H. destruct H as (u & _ & H).
    apply bind_ok in H. destruct H as (v & Hv & _).
    exists v. split; [exact Hv|]. eapply one_zero; [exact V|exact (key_similarity_value _ _ x2 v Hv)|tauto]. }
  exists b, c. rewrite map_fst_combine in Hb by lia. rewrite map_snd_combine in Hc by lia.
  unfold evaluate_chords, evaluate_keys. rewrite Gc, Ec, Gk, Ek. cbn [bind]. auto.
Qed.
Print Assumptions C40_joint_least.

(* ---- loaded pieces ---- *)
Lemma key_series_type r k : key_from_series TPC r = Some k -> k_pt k = TPC.
Proof.
  unfold key_from_series. intros E. destruct (key_of_row TPC r) as [k'|] eqn:K; [|discriminate E]. apply Some_inj in E. subst k'.
  unfold key_of_row in K. apply bind_ok in K. destruct K as (g & _ & K). apply bind_ok in K. destruct K as ([l lm] & _ & K).
  apply bind_ok in K. destruct K as ([r0 rm] & _ & K). apply Ok_inj in K. subst k. reflexivity.
Qed.
Lemma key_rows_bound : forall rows i prev x, In x (key_rows_from i prev rows) -> (i <= fst x < i + length rows)%nat.
Proof.
  induction rows as [|r rows IH]; intros i prev x H; [destruct H|]. cbn [key_rows_from] in H.
  match type of H with In _ (if ?b then _ else _) => destruct b end.
  - destruct H as [<-|H]; [cbn; lia|]. apply IH in H. cbn [length]. lia.
  - apply IH in H. cbn [length]. lia.
Qed.
Lemma apply_mask_in {A} : forall mask (l : list A) x, In x (apply_mask mask l) -> In x l.
Proof.
  induction mask as [|b mask IH]; intros [|y l] x H; try destruct H. cbn in H. destruct b; [destruct H as [H|H]; [now left|]|]; right; now apply IH.
Qed.
Lemma loaded_facts ts red ui ur us note_rows rows p : get_score_piece ts red ui ur us note_rows rows = Ok p ->
  length (p_changes p) = length (p_chords p) /\ p_chords p <> [] /\
  Forall (fun c => c_pt (pc c) = TPC /\ 0 <= c_root (pc c) < 35 /\ 0 <= c_inv (pc c) < zlen (CHORD_PITCHES TPC (c_type (pc c)))) (p_chords p) /\
  length (p_key_changes p) = length (p_keys p) /\ nth_error (p_key_changes p) 0 = Some 0%nat /\
  strictly_increasing (p_key_changes p) /\ Forall (fun j => (j < length (p_chords p))%nat) (p_key_changes p) /\
  Forall (fun k => k_pt k = TPC) (p_keys p).
Proof.
  intros H. destruct (C62_keys_in_force _ _ _ _ _ _ _ _ H) as (Lk & Inc & _).
  destruct (score_piece_inv _ _ _ _ _ _ _ _ H) as (gs & Mr & Ng & _ & Hch & Hcc & _ & keys & Hk & Lkr & Hkeys & Hkc).
  cbn zeta in *.
  split; [now rewrite Hcc, chord_changes_length, map_length|].
  split; [rewrite Hch; destruct gs; [congruence|discriminate]|].
  split.
  { destruct (C46_piece_chords _ _ _ _ _ _ _ _ H) as (gs' & (M1 & _) & F).
    apply Forall_forall. intros m Im. apply In_nth_error in Im. destruct Im as (j & Hj).
    destruct (Forall2_nth_r _ _ _ _ _ F Hj) as (g & Hg & (E & _)). rewrite E.
    assert (I0 : In (fst g) (somes (map (chord_from_series ts TPC red ui ur) rows))).
    { rewrite <- M1. apply in_concat. exists (fst g :: snd g). split; [|now left]. apply in_map_iff. exists g.
      split; [reflexivity|]. now apply nth_error_In in Hg. }
    rewrite in_somes, in_map_iff in I0. destruct I0 as (r & Er & _). clear -Er. unfold chord_from_series in Er.
    destruct (lr_numeral r) as [n|]; [|discriminate Er]. destruct (str_eqb n _); [discriminate Er|].
    destruct (key_from_series TPC r) as [k|]; [|discriminate Er]. cbn [bind] in Er.
    destruct (transpose_pitch (k_local k) (lr_root r) TPC) as [root|] eqn:Tr; [|discriminate Er]. cbn [bind] in Er.
    destruct (get_chord_type_from_string (lr_type r)) as [t|]; [|discriminate Er]. cbn [bind] in Er.
    destruct (if ui then get_chord_inversion (lr_figbass r) else Ok 0) as [i|]; [|discriminate Er]. cbn [bind] in Er.
    destruct (get_bass_note _ root _ TPC false) as [b|]; [|discriminate Er]. cbn [bind] in Er.
    destruct (negb _); [discriminate Er|].
    destruct (level_at ts (lr_on r)); [|discriminate Er]. cbn [bind] in Er.
    destruct (level_at ts (lr_off r)); [|discriminate Er]. cbn [bind or_none] in Er.
    apply Some_inj in Er. rewrite <- Er. cbn [pc c_pt c_root c_inv c_type]. split; [reflexivity|]. split.
    - rewrite transpose_pitch_eq in Tr. destruct (_ && _) eqn:B in Tr; [|discriminate Tr]. apply Ok_inj in Tr. lia.
    - apply Z.mod_pos_bound. destruct (red t); vm_compute; reflexivity. }
  split; [now rewrite Lk|].
  set (kr := key_rows_from 0 None (map (fun g => snd (fst g)) gs)) in *.
  split.
  { rewrite Hkc. destruct gs as [|g gs]; [congruence|]. cbn [map key_rows_from] in kr.
    assert (Ek : exists kr', kr = (0%nat, snd (fst g)) :: kr') by (eexists; reflexivity). destruct Ek as (kr' & ->).
    destruct keys as [|k keys]; [discriminate Lkr|]. reflexivity. }
  split; [exact Inc|]. split.
  - rewrite Hkc. apply Forall_forall. intros j I0. apply apply_mask_in in I0. apply in_map_iff in I0. destruct I0 as (x & <- & I0).
    unfold kr in I0. apply key_rows_bound in I0. rewrite Hch, !map_length in *. lia.
  - rewrite Hkeys, Hk. apply Forall_forall. intros k I0. apply apply_mask_in in I0. rewrite in_somes, in_map_iff in I0.
    destruct I0 as (x & E & _). now apply key_series_type in E.
Qed.

(* The hypotheses of C40_chords and C40_keys hold for loaded pieces that start with a chord. *)
Theorem C40_loaded : forall ts red ui ur us note_rows rows p n c,
  get_score_piece ts red ui ur us note_rows rows = Ok p ->
  nth_error (p_notes p) 0 = Some n -> nth_error (p_chords p) 0 = Some c -> ~ before (no_on n) (pc_on c) ->
  covered p /\ keyed p.
Proof.
  intros ts red ui ur us note_rows rows p n c H Hn Hc Hb.
  destruct (loaded_facts _ _ _ _ _ _ _ _ H) as (L & _ & F & Lk & K0 & Inc & _ & Fk). split; [|now repeat split].
  split; [exact L|]. split; [|split].
  - destruct (score_piece_inv _ _ _ _ _ _ _ _ H) as (_ & _ & _ & _ & _ & Hcc & _). rewrite Hcc.
    destruct (p_notes p) as [|n0 ns]; [discriminate Hn|]. apply Some_inj in Hn. subst n0.
    destruct (p_chords p) as [|c0 cs]; [discriminate Hc|]. apply Some_inj in Hc. subst c0. cbn [map chord_changes].
    rewrite <- pos_lt_iff in Hb. apply Bool.not_true_is_false in Hb.
    destruct ns as [|n1 ns]; cbn [map advance]; [reflexivity|]. rewrite Hb. reflexivity.
  - eapply C47_changes_monotone; [exact H|]. intros X. rewrite X in Hn. discriminate Hn.
  - revert F. apply Forall_impl. tauto.
Qed.
Print Assumptions C40_loaded.

(* The accuracies of a loaded piece exist, whatever the state says, if its labels are known ones and
   the piece has a duration. *)
Lemma fill_forall (P : Z -> Prop) l : forall arr, Forall P arr -> Forall (fun x => P (fst x)) l -> Forall P (fill_all arr l).
Proof.
  induction l as [|[v [a b]] l IH]; intros arr Fa Fl; [exact Fa|]. inversion Fl as [|? ? Fv Fl' E]; subst. cbn in Fv.
  apply (IH (fill_slice arr (Z.of_nat a) (Z.of_nat b) v)); [|exact Fl'].
  apply Forall_forall. intros x I0. apply In_nth_error in I0. destruct I0 as (i & Hi).
  rewrite Forall_forall in Fa. rewrite nth_error_fill in Hi by lia.
  destruct (_ && _) in Hi; [apply Some_inj in Hi; now subst x|]. now apply nth_error_In in Hi; apply Fa.
Qed.
Lemma mapM_total {A B} (f : A -> res B) l : Forall (fun x => exists y, f x = Ok y) l -> exists r, mapM f l = Ok r.
Proof. induction 1 as [|x l (y & E) F (r & IH)]; [exists []; reflexivity|]. exists (y :: r). cbn. now rewrite E, IH. Qed.
Lemma py_last_total {A} (l : list A) : l <> [] -> exists x, py_nth l (-1) = Ok x /\ In x l.
Proof.
  intros H. destruct (exists_last H) as (l' & x & ->). exists x. split; [|apply in_elt].
  unfold py_nth, zlen. rewrite app_length. cbn [length].
  replace (-1 <? 0) with true by reflexivity.
  replace (-1 + Z.of_nat (length l' + 1)) with (Z.of_nat (length l')) by lia.
  match goal with |- (if ?b then _ else _) = _ => replace b with false by (symmetry; apply Bool.orb_false_intro; lia) end.
  rewrite Nat2Z.id, nth_error_app2, Nat.sub_diag by lia. reflexivity.
Qed.
Lemma true_total {A} (index : A -> res Z) (hi : Z) n (things : list A) changes : 0 < hi ->
  Forall (fun x => exists i, index x = Ok i /\ 0 <= i < hi) things -> things <> [] -> length changes = length things ->
  exists arr, true_labels index n things changes = Ok arr /\ Forall (fun i => 0 <= i < hi) arr.
Proof.
  intros Hh F Nn L. unfold true_labels.
  destruct (mapM_total (fun x : A * (nat * nat) => let '(c, r) := x in let! i := index c in Ok (i, r))
    (combine things (combine changes (tl changes)))) as (l & M).
  { apply Forall_forall. intros [c r] I0. apply in_combine_l in I0. rewrite Forall_forall in F.
    destruct (F c I0) as (i & E & _). rewrite E. cbn. eauto. }
  rewrite M. cbn [bind]. destruct (py_last_total things Nn) as (c & Ec & Ic). rewrite Ec. cbn [bind].
  assert (F' := F). rewrite Forall_forall in F. destruct (F c Ic) as (i & Ei & Hi). rewrite Ei. cbn [bind].
  destruct (py_last_total changes) as (a & Ea & _); [intros ->; destruct things; [congruence|discriminate L]|].
  rewrite Ea. cbn [bind]. eexists. split; [reflexivity|].
  apply (fill_forall (fun i => 0 <= i < hi) [(i, (a, n))]); [|constructor; [exact Hi|constructor]].
  apply fill_forall; [apply Forall_forall; intros x I0; apply repeat_spec in I0; lia|].
  apply mapM_ok in M. apply Forall_forall. intros x I0. apply In_nth_error in I0. destruct I0 as (j & Hj).
  destruct (Forall2_nth_r _ _ _ _ _ M Hj) as ([c' r] & Hc' & E). apply bind_ok in E. destruct E as (v & Ev & E).
  apply Ok_inj in E. subst x. cbn [fst]. apply nth_error_In in Hc'. apply in_combine_l in Hc'.
  destruct (F c' Hc') as (v' & Ev' & Hv'). congruence.
Qed.
Lemma estimated_total hi n labels changes : 0 < hi -> Forall (fun x => exists e, x = Some e /\ 0 <= e < hi) labels ->
  exists arr, estimated_labels n labels changes = Ok arr /\ Forall (fun i => 0 <= i < hi) arr.
Proof.
  intros Hh F. unfold estimated_labels.
  destruct (mapM_total (fun x : option Z * (nat * nat) => match fst x with Some v => Ok (v, snd x) | None => Raise TypeError end)
    (combine labels (combine (removelast changes) (tl changes)))) as (l & M).
  { apply Forall_forall. intros [c r] I0. apply in_combine_l in I0. rewrite Forall_forall in F.
    destruct (F c I0) as (i & -> & _). cbn. eauto. }
  rewrite M. cbn [bind]. eexists. split; [reflexivity|].
  apply fill_forall; [apply Forall_forall; intros x I0; apply repeat_spec in I0; lia|].
  apply mapM_ok in M. apply Forall_forall. intros x I0. apply In_nth_error in I0. destruct I0 as (j & Hj).
  destruct (Forall2_nth_r _ _ _ _ _ M Hj) as ([c' r] & Hc' & E). cbn [fst snd] in E.
  apply nth_error_In in Hc'. apply in_combine_l in Hc'. rewrite Forall_forall in F. destruct (F c' Hc') as (e & -> & He).
  apply Ok_inj in E. subst x. exact He.
Qed.
Lemma weighted_total {A} (f : A -> res Q) : forall l acc, Forall (fun x => exists s, f (snd x) = Ok s) l ->
  exists r, weighted f l acc = Ok r.
Proof.
  induction l as [|[d x] l IH]; intros acc F; [eexists; reflexivity|]. inversion F as [|? ? (s0 & E) F' Eq]; subst. cbn.
  destruct (Qeq_bool d 0); [now apply IH|]. cbn in E. rewrite E. cbn [bind]. now apply IH.
Qed.
Lemma average_total {A} (f : A -> res Q) durs labels : Forall (fun x => exists s, f x = Ok s) labels ->
  ~ (total durs == 0)%Q -> exists a, average f durs labels = Ok a.
Proof.
  intros F T. unfold average. destruct (weighted_total f (combine durs labels) 0%Q) as (r & E).
  { apply Forall_forall. intros [d x] I0. apply in_combine_r in I0. rewrite Forall_forall in F. now apply F. }
  rewrite E. cbn [bind]. change (qsum durs) with (total durs).
  destruct (Qeq_bool (total durs) 0) eqn:B; [apply Qeq_bool_eq in B; contradiction|]. eauto.
Qed.

Theorem C40_defined : forall ts red ui ur us note_rows rows p durs s,
  get_score_piece ts red ui ur us note_rows rows = Ok p ->
  Forall (fun k => 0 <= k_rel k < 35) (p_keys p) -> ~ (total durs == 0)%Q ->
  Forall (fun c => exists e, c = Some e /\ 0 <= e < 1540) (fst (get_chords s)) ->
  Forall (fun k => 0 <= k < 70) (fst (get_keys s)) ->
  forall ui' red' to, exists a b c,
    evaluate_chords p durs s TPC ui' red' = Ok a /\ evaluate_keys p durs s TPC to = Ok b /\
    evaluate_jointly p durs s TPC TPC ui' red' to = Ok c.
Proof.
  intros ts red ui ur us note_rows rows p durs s H Hk T Hsc Hsk ui' red' to.
  destruct (loaded_facts _ _ _ _ _ _ _ _ H) as (L & Nn & F & Lk & K0 & Inc & Kb & Fk).
  destruct (true_total chord_index 1540 (length (p_notes p)) (p_chords p) (p_changes p)) as (gc & Gc & Rgc);
    [lia| |exact Nn|exact L|].
  { revert F. apply Forall_impl. intros c (Pt & Rt & Iv). unfold chord_index, chord_one_hot. cbn [bind]. rewrite Pt.
    destruct (C03_encoder_rejects_exactly (c_type (pc c)) (c_root (pc c)) TPC (c_inv (pc c)) true false false NO_REDUCTION)
      as [[_ B]|(i & E & _)].
    - exfalso. change (root_count TPC false false) with 35 in B.
      assert (X : positions (NO_REDUCTION (c_type (pc c))) = zlen (CHORD_PITCHES TPC (c_type (pc c)))) by (destruct (c_type (pc c)); reflexivity).
      rewrite X in B. lia.
    - exists i. split; [exact E|]. apply C02_index_in_range in E. exact E. }
  destruct (mapM_total (fun k => match nth_error (p_changes p) k with Some i => Ok i | None => Raise IndexError end)
    (p_key_changes p)) as (inputs & Ei).
  { revert Kb. apply Forall_impl. intros j Hj. destruct (nth_error (p_changes p) j) eqn:E; [eauto|].
    apply nth_error_None in E. lia. }
  destruct (true_total key_index 70 (length (p_notes p)) (p_keys p) inputs) as (gk & Gk & Rgk).
  { lia. }
  { rewrite Forall_forall in Hk, Fk |- *. intros k I0. unfold key_index. rewrite (Fk k I0).
    destruct (C04_key_rejects_exactly (k_rel_mode k) (k_rel k) TPC) as [[_ B]|(i & E & _)].
    - exfalso. apply B. apply (Hk k I0).
    - exists i. split; [exact E|]. apply C04_key_roundtrip in E. apply E. }
  { intros X. rewrite X in Lk. destruct (p_key_changes p); [discriminate K0|discriminate Lk]. }
  { apply mapM_ok in Ei. apply Forall2_len in Ei. lia. }
  assert (Ec : exists ec, estimated_chords p s = Ok ec /\ Forall (fun i => 0 <= i < 1540) ec).
  { unfold estimated_chords. destruct (get_chords s) as [chords changes]. apply estimated_total; [lia|exact Hsc]. }
  assert (Ek : exists ek, estimated_keys p s = Ok ek /\ Forall (fun i => 0 <= i < 70) ek).
  { unfold estimated_keys. destruct (get_keys s) as [keys changes]. apply estimated_total; [lia|].
    apply Forall_forall. intros x I0. apply in_map_iff in I0. destruct I0 as (k & <- & I0).
    exists k. cbn [fst] in Hsk. rewrite Forall_forall in Hsk. auto. }
  destruct Ec as (ec & Ec & Rec). destruct Ek as (ek & Ek & Rek).
  assert (Gk' : true_keys p = Ok gk) by (unfold true_keys, key_change_inputs; rewrite Ei; exact Gk).
  assert (Sc : forall x, In x (combine ec gc) -> exists s0, chord_similarity TPC ui' red' (fst x) (snd x) = Ok s0).
  { intros [e g] I0. rewrite Forall_forall in Rec, Rgc.
    destruct (C02_index_surjective g TPC true false false NO_REDUCTION) as (r1 & t1 & i1 & D1 & _).
    { apply Rgc. now apply in_combine_r in I0. }
    destruct (C02_index_surjective e TPC true false false NO_REDUCTION) as (r2 & t2 & i2 & D2 & _).
    { apply Rec. now apply in_combine_l in I0. }
    unfold chord_similarity. cbn [fst snd]. rewrite D1, D2. cbn [bind]. eauto. }
  assert (Sk : forall x, In x (combine ek gk) -> exists s0, key_similarity TPC to (fst x) (snd x) = Ok s0).
  { intros [e g] I0. rewrite Forall_forall in Rek, Rgk.
    destruct (C04_key_inverse g TPC) as (r1 & t1 & D1 & _).
    { apply Rgk. now apply in_combine_r in I0. }
    destruct (C04_key_inverse e TPC) as (r2 & t2 & D2 & _).
    { apply Rek. now apply in_combine_l in I0. }
    unfold key_similarity. cbn [fst snd]. rewrite D1, D2. cbn [bind]. eauto. }
  unfold evaluate_chords, evaluate_keys, evaluate_jointly, true_chords. rewrite Gc, Ec, Gk', Ek. cbn [bind].
  destruct (average_total (fun x => chord_similarity TPC ui' red' (fst x) (snd x)) durs (combine ec gc)) as (a & Ea);
    [now apply Forall_forall|exact T|].
  destruct (average_total (fun x => key_similarity TPC to (fst x) (snd x)) durs (combine ek gk)) as (b & Eb);
    [now apply Forall_forall|exact T|].
  destruct (average_total (fun x => let '(c, k) := x : (Z * Z) * (Z * Z) in
             let! a := chord_similarity TPC ui' red' (fst c) (snd c) in
             let! b := key_similarity TPC to (fst k) (snd k) in Ok (a * b)%Q) durs (combine (combine ec gc) (combine ek gk))) as (c & Ecc).
  { apply Forall_forall. intros [c k] I0. destruct (Sc c) as (s1 & E1); [now apply in_combine_l in I0|].
    destruct (Sk k) as (s2 & E2); [now apply in_combine_r in I0|]. rewrite E1, E2. cbn [bind]. eauto. }
  { exact T. }
  exists a, b, c. auto.
Qed.
Print Assumptions C40_defined.

(* ---- examples ---- *)
(* A chain of states: the change, chord and key of each step. *)
Definition state_of (c : option Z) (k : Z) (i : nat) (prev : option state) : state :=
  mkState c k i 0 prev None [] false None None None.
Fixpoint chain (s : state) (l : list (nat * Z * Z)) : state :=
  match l with [] => s | (i, c, k) :: r => chain (state_of (Some c) k i (Some s)) r end.
Definition states (l : list (nat * Z * Z)) : state := chain (state_of None 0 0 None) l.
Definition load (rel : bool) (notes : list note_row) (rows : list label_row) : piece :=
  match get_score_piece ts44 (fun t => t) true rel false notes rows with Ok p => p | _ => mkPiece [] [] [] [] [] [] end.
Definition durs1 : list Q := [1#2; 1#2; 0; 3#4; 1#4; 1]%Q.
Definition p1 := load false notes1 rows1.
Definition s1 := states [(2%nat, 45, 15); (4%nat, 625, 15); (6%nat, 48, 16)].
Example C40_example :
  covered p1 /\ keyed p1 /\ length durs1 = length (p_notes p1) /\
  segmentation (fst (get_chords s1)) (snd (get_chords s1)) 6 /\ segmentation (fst (get_keys s1)) (snd (get_keys s1)) 6 /\
  (exists a b c d e, evaluate_chords p1 durs1 s1 TPC true NO_REDUCTION = Ok a /\ (a == 1#2)%Q /\
     evaluate_chords p1 durs1 s1 TPC false NO_REDUCTION = Ok b /\ (b == 2#3)%Q /\
     evaluate_keys p1 durs1 s1 TPC false = Ok c /\ (c == 1)%Q /\
     evaluate_jointly p1 durs1 s1 TPC TPC true NO_REDUCTION false = Ok d /\ (d == 1#2)%Q /\
     evaluate_chords p1 durs1 s1 TPC false TRIAD_REDUCTION = Ok e /\ (e == 2#3)%Q).
Proof.
  split; [|split; [|split; [reflexivity|split; [|split]]]].
  - split; [reflexivity|]. split; [reflexivity|]. split; [vm_compute; repeat split; discriminate|].
    apply Forall_forall. intros c I0. vm_compute in I0. repeat (destruct I0 as [<-|I0]; [reflexivity|]). destruct I0.
  - split; [reflexivity|]. split; [reflexivity|]. split; [vm_compute; repeat split; lia|].
    apply Forall_forall. intros c I0. vm_compute in I0. repeat (destruct I0 as [<-|I0]; [reflexivity|]). destruct I0.
  - split; [reflexivity|]. split; [reflexivity|]. split; [reflexivity|]. vm_compute.
    intros [|[|[|[|k]]]] a b Ha Hb; try discriminate Ha; try discriminate Hb; injection Ha as <-; try (injection Hb as <-; lia).
  - split; [reflexivity|]. split; [reflexivity|]. split; [reflexivity|]. vm_compute.
    intros [|[|[|k]]] a b Ha Hb; try discriminate Ha; try discriminate Hb; injection Ha as <-; try (injection Hb as <-; lia).
  - do 5 eexists. repeat (split; [vm_compute; reflexivity|]). vm_compute. reflexivity.
Qed.

(* Notes before the first label are compared with chord 0 (F with three flats, major), whatever the
   estimate is: a major chord is counted as wrong there unless it is that one. *)
Definition rows_late : list label_row :=
  [lab (L"I") 0 (L"M") (L"6") (L"I") (0, (1#2)%Q) (1, 0%Q) (1#2);
   lab (L"V") 1 (L"Mm7") (L"65") (L"I") (1, 0%Q) (1, (1#2)%Q) (1#2)].
Definition s_late (first : Z) := states [(1%nat, first, 15); (2%nat, 46, 15); (6%nat, 625, 15)].
Definition p_late := load false notes1 rows_late.
Definition acc_is (r : res Q) (one : bool) : bool :=
  match r with Ok a => Bool.eqb (Qeq_bool a 1) one | _ => false end.
Theorem C40_pickup_refuted : exists p n c,
  get_score_piece ts44 (fun t => t) true false false notes1 rows_late = Ok p /\
  nth_error (p_notes p) 0 = Some n /\ nth_error (p_chords p) 0 = Some c /\ before (no_on n) (pc_on c) /\
  forall first, 0 <= first < 105 ->
    exists a, evaluate_chords p durs1 (s_late first) TPC true NO_REDUCTION = Ok a /\ ((a == 1)%Q <-> first = 0).
Proof.
  exists p_late. eexists. eexists. split; [vm_compute; reflexivity|]. split; [vm_compute; reflexivity|].
  split; [vm_compute; reflexivity|]. split; [vm_compute; auto|].
  assert (X : forallb (fun f => acc_is (evaluate_chords p_late durs1 (s_late f) TPC true NO_REDUCTION) (f =? 0)) (zrange 0 105) = true)
    by (vm_compute; reflexivity).
  intros first Hf. rewrite forallb_forall in X. specialize (X first). rewrite in_zrange in X. specialize (X Hf).
  destruct (evaluate_chords p_late durs1 (s_late first) TPC true NO_REDUCTION) as [a|]; [|discriminate X].
  exists a. split; [reflexivity|]. cbn [acc_is] in X. apply Bool.eqb_prop in X. split.
  - intros E. apply Qeq_bool_iff in E. rewrite E in X. symmetry in X. now apply Z.eqb_eq in X.
  - intros E. apply Qeq_bool_iff. rewrite X. now apply Z.eqb_eq.
Qed.
Print Assumptions C40_pickup_refuted.

(* A piece loaded without applied keys (use_relative = False) whose first label is an applied chord:
   every label is in C major, but the true key is taken to be the applied one (G major) for the whole
   section, so that the right answer counts as wrong all the time. *)
Definition rows_applied : list label_row :=
  [mkLR (Some (L"V")) 2 (L"M") [] (L"C") false (L"I") false (Some (L"V")) (0, 0%Q) (0, (1#2)%Q) (1#2) None;
   lab (L"V") 1 (L"M") [] (L"I") (0, (1#2)%Q) (1, 0%Q) (1#2); lab (L"I") 0 (L"M") [] (L"I") (1, 0%Q) (3, 0%Q) 2].
Theorem C40_applied_refuted : exists p k,
  get_score_piece ts44 (fun t => t) true false false notes1 rows_applied = Ok p /\
  Forall (fun c => c_tonic (pc c) = 15 /\ c_mode (pc c) = MAJOR) (p_chords p) /\
  p_keys p = [k] /\ k_local k = 15 /\ k_local_mode k = MAJOR /\ k_rel k = 16 /\
  (* C major throughout *)
  get_key_from_one_hot_index 15 TPC false = Ok (15, MAJOR) /\
  exists a, evaluate_keys p durs1 (states [(6%nat, 45, 15)]) TPC true = Ok a /\ (a == 0)%Q.
Proof.
  do 2 eexists. split; [vm_compute; reflexivity|]. split; [repeat constructor|]. split; [reflexivity|].
  do 4 (split; [reflexivity|]). eexists. split; [vm_compute; reflexivity|reflexivity].
Qed.
Print Assumptions C40_applied_refuted.

(* True chords are always given as spelled (TPC) pitches, but their indexes are read with the pitch
   type of the estimate: with MIDI pitches a right answer counts as wrong, or the evaluation fails. *)
Theorem C40_midi_refuted :
  (exists p, get_score_piece ts44 (fun t => t) true false false notes1 rows_applied = Ok p /\
     nth_error (map (fun c => (c_root (pc c), c_type (pc c))) (p_chords p)) 2 = Some (15, Maj) /\
     (* C major in MIDI pitches *)
     get_chord_from_one_hot_index 0 MIDI true false false NO_REDUCTION = Ok (0, Maj, 0) /\
     exists a, evaluate_chords p [0; 0; 1; 1; 1; 1]%Q (states [(6%nat, 0, 0)]) MIDI true NO_REDUCTION = Ok a /\ (a == 0)%Q) /\
  (exists p, get_score_piece ts44 (fun t => t) true false false notes1 rows1 = Ok p /\
     forall a, evaluate_chords p durs1 (states [(6%nat, 0, 0)]) MIDI true NO_REDUCTION <> Ok a).
Proof.
  split; eexists; (split; [vm_compute; reflexivity|]).
  - split; [reflexivity|]. split; [reflexivity|]. eexists. split; [vm_compute; reflexivity|reflexivity].
  - vm_compute. discriminate.
Qed.
Print Assumptions C40_midi_refuted.

(* ---- C41: tables of labels ---- *)
Lemma annotation_inv p durs s rt tt rows : get_annotation p durs s rt tt = Ok rows ->
  length durs = length (p_notes p) ->
  exists chord_list key_list chords keys l,
    get_chord_label_list rt true false None false NO_REDUCTION = Ok chord_list /\
    get_key_label_list tt false None = Ok key_list /\
    estimated_chords p s = Ok chords /\ estimated_keys p s = Ok keys /\
    rows = annotate None l /\ length l = length (p_notes p) /\
    forall i d n kt ct, nth_error l i = Some (d, n, (kt, ct)) ->
      nth_error durs i = Some d /\ nth_error (p_notes p) i = Some n /\
      exists c k, nth_error chords i = Some c /\ nth_error keys i = Some k /\
        (~ (d == 0)%Q -> py_nth chord_list c = Ok ct /\ py_nth key_list k = Ok kt).
Proof.
  intros E L. unfold get_annotation in E. apply bind_ok in E. destruct E as (chords & Ec & E).
  apply bind_ok in E. destruct E as (keys & Ek & E). apply bind_ok in E. destruct E as (cl & Ecl & E).
  apply bind_ok in E. destruct E as (kl & Ekl & E). apply bind_ok in E. destruct E as (texts & Et & E). apply Ok_inj in E.
  exists cl, kl, chords, keys, (combine (combine durs (p_notes p)) texts). do 4 (split; [assumption|]). split; [now symmetry|].
  assert (Lc : length chords = length (p_notes p)).
  { unfold estimated_chords in Ec. destruct (get_chords s). now apply estimated_length in Ec. }
  assert (Lk : length keys = length (p_notes p)).
  { unfold estimated_keys in Ek. destruct (get_keys s). now apply estimated_length in Ek. }
  apply mapM_ok in Et. assert (Lt := Forall2_len _ _ _ Et). rewrite !combine_length in Lt.
  split; [rewrite !combine_length; lia|].
  intros i d n kt ct H. apply nth_combine_some in H. destruct H as [H Ht]. apply nth_combine_some in H. destruct H as [Hd Hn].
  split; [exact Hd|]. split; [exact Hn|]. destruct (Forall2_nth_r _ _ _ _ _ Et Ht) as ([d' [c k]] & Hx & Ex).
  apply nth_combine_some in Hx. destruct Hx as [Hd' Hx]. apply nth_combine_some in Hx. destruct Hx as [Hc Hk].
  rewrite Hd in Hd'. apply Some_inj in Hd'. subst d'. exists c, k. split; [exact Hc|]. split; [exact Hk|]. intros D.
  destruct (Qeq_bool d 0) eqn:B; [apply Qeq_bool_iff in B; contradiction|].
  apply bind_ok in Ex. destruct Ex as (ct' & E1 & Ex). apply bind_ok in Ex. destruct Ex as (kt' & E2 & Ex). apply Ok_inj in Ex.
  injection Ex as -> ->. auto.
Qed.
Lemma annotation_columns p durs s rt tt rows : get_annotation p durs s rt tt = Ok rows ->
  length durs = length (p_notes p) ->
  exists chord_list key_list chords keys (kc cc : list (Q * note * pystr)),
    get_chord_label_list rt true false None false NO_REDUCTION = Ok chord_list /\
    get_key_label_list tt false None = Ok key_list /\
    estimated_chords p s = Ok chords /\ estimated_keys p s = Ok keys /\
    filter (fun r => key_text (fst r)) rows = column None kc /\
    filter (fun r => negb (key_text (fst r))) rows = column None cc /\
    length kc = length (p_notes p) /\ length cc = length (p_notes p) /\
    (forall i d n t, nth_error kc i = Some (d, n, t) -> nth_error durs i = Some d /\ nth_error (p_notes p) i = Some n /\
       exists k, nth_error keys i = Some k /\ (~ (d == 0)%Q -> py_nth key_list k = Ok t)) /\
    (forall i d n t, nth_error cc i = Some (d, n, t) -> nth_error durs i = Some d /\ nth_error (p_notes p) i = Some n /\
       exists c, nth_error chords i = Some c /\ (~ (d == 0)%Q -> py_nth chord_list c = Ok t)).
Proof.
  intros E L. destruct (annotation_inv _ _ _ _ _ _ E L) as (cl & kl & chords & keys & l & Ecl & Ekl & Ec & Ek & -> & Ll & P).
  destruct (texts_kinds rt tt cl kl Ecl Ekl) as [Tc Tk].
  destruct (annotate_columns l None) as [C1 C2].
  { intros d n k c I0 D. apply In_nth_error in I0. destruct I0 as (i & Hi). destruct (P i d n k c Hi) as (_ & _ & x & y & _ & _ & Q0).
    destruct (Q0 D) as [Q1 Q2]. split; [apply Tk; eapply py_nth_in; exact Q2|apply Tc; eapply py_nth_in; exact Q1]. }
  exists cl, kl, chords, keys, (map (fun x => (fst x, fst (snd x))) l), (map (fun x => (fst x, snd (snd x))) l).
  do 4 (split; [assumption|]). split; [exact C1|]. split; [exact C2|]. rewrite !map_length. split; [exact Ll|]. split; [exact Ll|].
  split; intros i d n t H; rewrite nth_error_map in H; (destruct (nth_error l i) as [[[d0 n0] [k0 c0]]|] eqn:Hl; [|discriminate H]);
    apply Some_inj in H; injection H as <- <- <-; destruct (P i d0 n0 k0 c0 Hl) as (P1 & P2 & x & y & P3 & P4 & P5);
    (split; [exact P1|]; split; [exact P2|]); eexists; (split; [eassumption|]); intros D; apply (P5 D).
Qed.

(* Reading the table at an input with a duration gives the label of the input. *)
Theorem C41_lossless : forall p durs ms last s rt tt rows,
  get_annotation p durs s rt tt = Ok rows ->
  get_duration_cache (map no_on (p_notes p)) last ms = Ok durs -> in_order (map no_on (p_notes p)) ->
  (let (chords, changes) := get_chords s in segmentation chords changes (length (p_notes p))) ->
  (let (keys, changes) := get_keys s in segmentation keys changes (length (p_notes p))) ->
  exists chord_labels key_labels,
    get_chord_label_list rt true false None false NO_REDUCTION = Ok chord_labels /\
    get_key_label_list tt false None = Ok key_labels /\
    forall i n d e f, nth_error (p_notes p) i = Some n -> nth_error durs i = Some d -> ~ (d == 0)%Q -> 0 <= e -> 0 <= f ->
      labelled (fst (get_chords s)) (snd (get_chords s)) i (Some e) ->
      labelled (fst (get_keys s)) (snd (get_keys s)) i f ->
      exists chord key, nth_error chord_labels (Z.to_nat e) = Some chord /\ nth_error key_labels (Z.to_nat f) = Some key /\
        reads (filter (fun r => negb (key_text (fst r))) rows) (no_on n) chord /\
        reads (filter (fun r => key_text (fst r)) rows) (no_on n) key.
Proof.
  intros p durs ms last s rt tt rows E Ed O Sc Sk.
  assert (L : length durs = length (p_notes p)).
  { assert (X := Ed). unfold get_duration_cache in X. apply mapM_ok, Forall2_len in X. rewrite combine_length, map_length in X.
    destruct (p_notes p) as [|n0 ns]; [cbn in X |- *; lia|]. cbn [map tl] in X. rewrite app_length, map_length in X. cbn [length] in *. lia. }
  destruct (annotation_columns _ _ _ _ _ _ E L) as (cl & kl & chords & keys & kc & cc & Ecl & Ekl & Ec & Ek & C1 & C2 & L1 & L2 & Pk & Pc).
  exists cl, kl. split; [exact Ecl|]. split; [exact Ekl|]. intros i n d e f Hn Hd D He0 Hf0 He Hf. rewrite C1, C2.
  assert (Hi : (i < length (p_notes p))%nat) by (apply nth_error_Some; congruence).
  assert (Xe : nth_error chords i = Some e).
  { unfold estimated_chords in Ec. destruct (get_chords s). eapply estimated_nth; eassumption. }
  assert (Xf : nth_error keys i = Some f).
  { unfold estimated_keys in Ek. destruct (get_keys s) as [ks changes]. cbn [fst snd] in Hf.
    destruct Hf as (j & a & b & Hj & Ha & Hb & Hab). eapply (estimated_nth _ (map Some ks)); [exact Ek| |].
    + destruct Sk as (S1 & S2 & S3 & S4). rewrite <- (map_length Some ks) in S1, S3. split; [exact S1|]. split; [exact S2|]. split; [exact S3|exact S4].
    + exists j, a, b. split; [|auto]. now rewrite nth_error_map, Hj. }
  assert (Adv : forall (l : list (Q * note * pystr)),
    (forall i d n t, nth_error l i = Some (d, n, t) -> nth_error durs i = Some d /\ nth_error (p_notes p) i = Some n) -> advancing l).
  { intros l H a b x y z x' y' z' Lab E1 E2 E3. apply H in E1, E3. destruct E1 as [E1 E1'], E3 as [E3 E3'].
    eapply (duration_advances _ _ _ _ Ed O a b); [exact Lab| | |exact E1|exact E2]; rewrite nth_error_map; [rewrite E1'|rewrite E3']; reflexivity. }
  destruct (nth_error cc i) as [[[d1 n1] ct]|] eqn:Hcc; [|apply nth_error_None in Hcc; lia].
  destruct (nth_error kc i) as [[[d2 n2] kt]|] eqn:Hkc; [|apply nth_error_None in Hkc; lia].
  destruct (Pc i d1 n1 ct Hcc) as (A1 & A2 & c & A3 & A4). destruct (Pk i d2 n2 kt Hkc) as (B1 & B2 & k & B3 & B4).
  rewrite Hd in A1, B1. rewrite Hn in A2, B2. rewrite Xe in A3. rewrite Xf in B3.
  apply Some_inj in A1, A2, A3, B1, B2, B3. subst d1 n1 c d2 n2 k. specialize (A4 D). specialize (B4 D).
  exists ct, kt. split; [now apply py_nth_pos'|]. split; [now apply py_nth_pos'|]. split.
  - destruct (column_reads cc None i d n ct) as [R|[R _]]; [|exact Hcc|exact D|exact R|discriminate R].
    apply Adv. intros i' d' n' t' H. destruct (Pc i' d' n' t' H) as (X1 & X2 & _). auto.
  - destruct (column_reads kc None i d n kt) as [R|[R _]]; [|exact Hkc|exact D|exact R|discriminate R].
    apply Adv. intros i' d' n' t' H. destruct (Pk i' d' n' t' H) as (X1 & X2 & _). auto.
Qed.
Print Assumptions C41_lossless.

(* Nothing else is in the table: a row gives a label of an input with a duration, at that input;
   and successive rows of a kind differ. *)
Theorem C41_rows : forall p durs s rt tt rows t n,
  get_annotation p durs s rt tt = Ok rows -> length durs = length (p_notes p) ->
  (let (chords, changes) := get_chords s in segmentation chords changes (length (p_notes p))) ->
  (let (keys, changes) := get_keys s in segmentation keys changes (length (p_notes p))) ->
  In (t, n) rows -> exists i d labels, nth_error (p_notes p) i = Some n /\ nth_error durs i = Some d /\ ~ (d == 0)%Q /\
    ((key_text t = true /\ get_key_label_list tt false None = Ok labels /\
        exists f, labelled (fst (get_keys s)) (snd (get_keys s)) i f /\ py_nth labels f = Ok t) \/
     (key_text t = false /\ get_chord_label_list rt true false None false NO_REDUCTION = Ok labels /\
        exists e, labelled (fst (get_chords s)) (snd (get_chords s)) i (Some e) /\ py_nth labels e = Ok t)).
Proof.
  intros p durs s rt tt rows t n E L Sc Sk H.
  destruct (annotation_columns _ _ _ _ _ _ E L) as (cl & kl & chords & keys & kc & cc & Ecl & Ekl & Ec & Ek & C1 & C2 & L1 & L2 & Pk & Pc).
  destruct (key_text t) eqn:Kt.
  - assert (I0 : In (t, n) (column None kc)) by (rewrite <- C1; apply filter_In; auto).
    apply column_in in I0. destruct I0 as (i & d & Hi & D). destruct (Pk i d n t Hi) as (A1 & A2 & k & A3 & A4).
    exists i, d, kl. do 3 (split; [assumption|]). left. split; [reflexivity|]. split; [exact Ekl|].
    assert (Hl : (i < length (p_notes p))%nat) by (apply nth_error_Some; congruence).
    unfold estimated_keys in Ek. destruct (get_keys s) as [ks changes]. cbn [fst snd].
    destruct (labelled_exists _ _ _ _ Sk Hl) as (f & Hf). exists f. split; [exact Hf|].
    assert (Xf : nth_error keys i = Some f).
    { destruct Hf as (j & a & b & Hj & Ha & Hb & Hab). eapply (estimated_nth _ (map Some ks)); [exact Ek| |].
      + destruct Sk as (S1 & S2 & S3 & S4). rewrite <- (map_length Some ks) in S1, S3. split; [exact S1|]. split; [exact S2|]. split; [exact S3|exact S4].
      + exists j, a, b. split; [|auto]. now rewrite nth_error_map, Hj. }
    rewrite Xf in A3. apply Some_inj in A3. subst k. now apply A4.
  - assert (I0 : In (t, n) (column None cc)) by (rewrite <- C2; apply filter_In; cbn [fst]; rewrite Kt; auto).
    apply column_in in I0. destruct I0 as (i & d & Hi & D). destruct (Pc i d n t Hi) as (A1 & A2 & c & A3 & A4).
    exists i, d, cl. do 3 (split; [assumption|]). right. split; [reflexivity|]. split; [exact Ecl|].
    assert (Hl : (i < length (p_notes p))%nat) by (apply nth_error_Some; congruence).
    unfold estimated_chords in Ec. destruct (get_chords s) as [cs changes]. cbn [fst snd].
    destruct (labelled_exists _ _ _ _ Sc Hl) as (x & Hx). destruct (estimated_some _ _ _ _ _ _ Ec Sc Hx) as (e & ->).
    exists e. split; [exact Hx|]. rewrite (estimated_nth _ _ _ _ _ _ Ec Sc Hx) in A3. apply Some_inj in A3. subst c. now apply A4.
Qed.
Print Assumptions C41_rows.
Theorem C41_differ : forall p durs s rt tt rows,
  get_annotation p durs s rt tt = Ok rows -> length durs = length (p_notes p) ->
  no_adjacent_equal (map fst (filter (fun r => key_text (fst r)) rows)) /\
  no_adjacent_equal (map fst (filter (fun r => negb (key_text (fst r))) rows)).
Proof.
  intros p durs s rt tt rows E L.
  destruct (annotation_columns _ _ _ _ _ _ E L) as (cl & kl & chords & keys & kc & cc & _ & _ & _ & _ & C1 & C2 & _).
  rewrite C1, C2. split; apply column_differ.
Qed.
Print Assumptions C41_differ.

(* Inputs without a duration: in a harmony that changes only at onsets (C70_onsets) they have the
   label of the next input with one, which is at the same position. *)
Theorem C41_every_input : forall (A : Type) (labels : list A) changes n durs i j x,
  segmentation labels changes n -> (forall k, In k changes -> (0 < k < n)%nat -> nth (k - 1) durs 0 <> 0) ->
  (i <= j < n)%nat -> (forall k, (i <= k < j)%nat -> nth k durs 0 = 0) ->
  labelled labels changes i x -> labelled labels changes j x.
Proof.
  intros A labels changes n durs i j x (S1 & S2 & S3 & S4) Ho Hij Hz (k & a & b & Hk & Ha & Hb & Hi).
  exists k, a, b. do 3 (split; [assumption|]). split; [lia|].
  destruct (Nat.lt_ge_cases j b) as [|Ge]; [assumption|exfalso].
  apply (Ho b); [now apply nth_error_In in Hb|lia|]. apply Hz. lia.
Qed.
Print Assumptions C41_every_input.

(* The table exists if the labels of the state are known ones. *)
Theorem C41_defined : forall p durs s rt tt,
  Forall (fun c => exists e, c = Some e /\ 0 <= e < get_chord_vector_length rt true false true false NO_REDUCTION) (fst (get_chords s)) ->
  Forall (fun k => 0 <= k < 2 * pitch_count tt) (fst (get_keys s)) ->
  exists rows, get_annotation p durs s rt tt = Ok rows.
Proof.
  intros p durs s rt tt Hc Hk.
  destruct (C05_chord_labels_aligned rt true false None false NO_REDUCTION) as (cl & Ecl & Lcl & _).
  destruct (C05_key_labels_aligned tt false None) as (kl & Ekl & Lkl & _).
  assert (Ec : exists ec, estimated_chords p s = Ok ec /\ Forall (fun i => 0 <= i < zlen cl) ec).
  { unfold estimated_chords. destruct (get_chords s) as [chords changes]. rewrite Lcl.
    apply estimated_total; [destruct rt; vm_compute; reflexivity|exact Hc]. }
  assert (Ek : exists ek, estimated_keys p s = Ok ek /\ Forall (fun i => 0 <= i < zlen kl) ek).
  { unfold estimated_keys. destruct (get_keys s) as [keys changes]. rewrite Lkl. apply estimated_total; [destruct tt; vm_compute; reflexivity|].
    apply Forall_forall. intros x I0. apply in_map_iff in I0. destruct I0 as (k & <- & I0).
    exists k. cbn [fst] in Hk. rewrite Forall_forall in Hk. auto. }
  destruct Ec as (ec & Ec & Rec). destruct Ek as (ek & Ek & Rek). unfold get_annotation. rewrite Ec, Ek, Ecl, Ekl. cbn [bind].
  destruct (mapM_total (fun x => let '(d, (c, k)) := x : Q * (Z * Z) in
                       if Qeq_bool d 0%Q then Ok ([], []) else
                       let! ct := py_nth cl c in let! kt := py_nth kl k in Ok (kt, ct)) (combine durs (combine ec ek))) as (texts & Et).
  { apply Forall_forall. intros [d [c k]] I0. apply in_combine_r in I0. destruct (Qeq_bool d 0); [eauto|].
    rewrite Forall_forall in Rec, Rek.
    destruct (py_nth_in_range cl c) as (x & Ex & _); [apply Rec; now apply in_combine_l in I0|].
    destruct (py_nth_in_range kl k) as (y & Ey & _); [apply Rek; now apply in_combine_r in I0|].
    rewrite Ex, Ey. cbn [bind]. eauto. }
  rewrite Et. cbn [bind]. eauto.
Qed.
Print Assumptions C41_defined.

Example C41_example :
  match get_annotation p1 durs1 s1 TPC TPC with
  | Ok rows => map (fun r => (fst r, no_on (snd r))) rows =
      [(L"C:KeyMode.MAJOR", (0, 0%Q)); (L"C:M, inv:0", (0, 0%Q)); (L"G:Mm7, inv:1", (1, 0%Q));
       (L"G:KeyMode.MAJOR", (1, (3#4)%Q)); (L"G:M, inv:0", (1, (3#4)%Q))]
  | _ => False
  end.
Proof. vm_compute. reflexivity. Qed.
(* Two estimates in the same onset, which a harmony that changes only at onsets does not have: the
   first is lost. *)
Theorem C41_zero_duration_refuted : exists s rows,
  segmentation (fst (get_chords s)) (snd (get_chords s)) 6 /\ labelled (fst (get_chords s)) (snd (get_chords s)) 2 (Some 625) /\
  get_annotation p1 durs1 s TPC TPC = Ok rows /\
  (exists l, get_chord_label_list TPC true false None false NO_REDUCTION = Ok l /\ nth_error l 625 = Some (L"G:Mm7, inv:1")) /\
  forall n, ~ In (L"G:Mm7, inv:1", n) rows.
Proof.
  exists (states [(2%nat, 45, 15); (3%nat, 625, 15); (6%nat, 48, 16)]). eexists. split.
  { split; [reflexivity|]. split; [reflexivity|]. split; [reflexivity|]. vm_compute.
    intros [|[|[|[|k]]]] a b Ha Hb; try discriminate Ha; try discriminate Hb; injection Ha as <-; injection Hb as <-; lia. }
  split; [exists 1%nat, 2%nat, 3%nat; repeat (split; [reflexivity|]); lia|].
  split; [vm_compute; reflexivity|]. split; [eexists; split; vm_compute; reflexivity|].
  intros n H. repeat (destruct H as [H|H]; [discriminate H|]). destruct H.
Qed.
Print Assumptions C41_zero_duration_refuted.
