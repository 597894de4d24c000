(* C75, C76: the search returns, and finds a result whenever the ranges lead through the piece
   (joint_model.py:839-1103 beam_search). *)
From Verif Require Import Spec_Total Spec_Beam Proof_Base Proof_Beam Proof_Transpose Proof_Search Proof_Total Proof_Found.
From Coq Require Import Permutation.
Open Scope Z_scope.

(* ---- C75 ---- *)
Theorem C75_returns g o pd chord_ranges logs rejoins classifications : searchable g o pd chord_ranges classifications ->
  exists r, beam_search g o pd chord_ranges logs rejoins classifications = Ok r.
Proof.
  intros H. destruct (ranges_total g o pd chord_ranges logs rejoins classifications H) as (rs & Ers & Hmade).
  destruct (search_total g o pd chord_ranges classifications H rs Hmade) as (sr & Esr).
  unfold beam_search. rewrite Ers. cbn [bind]. rewrite Esr. cbn [bind].
  destruct (run_search_inv g o pd rs (in_ranges g o pd chord_ranges classifications H rs Hmade) (sb_beam _ _ _ _ _ (sb_base _ _ _ _ _ H)) sr Esr) as [HL HS HD].
  destruct (nth_error (sr_beams sr) (length (p_durs pd))) as [b|] eqn:Eb; [|apply nth_error_None in Eb; lia].
  destruct (HS _ b (le_n _) Eb) as (seen & B & Hbi & _ & _ & _ & HB). destruct (ab_top_ok _ _ _ Hbi) as (t & Et & Ht).
  apply hget_nth in Eb. rewrite Eb. cbn [bind]. rewrite Et. cbn [bind]. destruct t as [x|]; [|eexists; reflexivity].
  destruct (HB x (proj1 Ht)) as (s & E & _). apply hget_nth in E. rewrite E. eexists. reflexivity.
Qed.
Print Assumptions C75_returns.

(* ---- C76 ---- *)
Lemma derived_covered g o pd chord_ranges logs rejoins priors rs f : ranges_of g o chord_ranges logs rejoins priors rs ->
  derived g o pd rs f -> covered chord_ranges 0 (st_change f).
Proof.
  intros Hrs Hd. induction Hd as [k keys s Ek Hk Es|s0 s r n prob m f Hd IH Hrd Hr Er Hb Hp Hk Hc|s0 s r n prob m f Hd IH Hrd Hr Er Hb Hp Hk Hc].
  - destruct (initial_facts g o pd k keys s Ek Hk Es) as (ks & k' & tn & md & _ & _ & _ & ->). constructor.
  - rewrite (csm_change g o pd m f Hc), (keep_change g o pd _ _ _ Hk), (branch_change g o pd _ _ _ Hb).
    destruct (Hrs r Hr) as (i & Hi & _). apply (covered_more _ _ (st_change s0)); [exact IH|]. rewrite <- (ready_change o _ _ Hrd), <- Er. exact (nth_error_In _ _ Hi).
  - rewrite (key_change g o pd _ _ Hc), (change_change g o pd _ _ _ Hk), (branch_change g o pd _ _ _ Hb).
    destruct (Hrs r Hr) as (i & Hi & _). apply (covered_more _ _ (st_change s0)); [exact IH|]. rewrite <- (ready_change o _ _ Hrd), <- Er. exact (nth_error_In _ _ Hi).
Qed.

(* a result is returned if the last beam is not empty *)
Lemma found_iff g o pd chord_ranges logs rejoins classifications : searchable g o pd chord_ranges classifications ->
  length logs = length chord_ranges -> length rejoins = length chord_ranges -> length classifications = length chord_ranges ->
  (forall rs sr, (forall r, In r rs -> made g o chord_ranges classifications r) -> run_search g o pd rs = Ok sr ->
     leads rs (length (p_durs pd)) -> lit sr (length (p_durs pd))) ->
  ((exists s, beam_search g o pd chord_ranges logs rejoins classifications = Ok (Some s))
   <-> covered chord_ranges 0 (length (p_durs pd))).
Proof.
  intros H L1 L2 L3 Hlit. split.
  - intros (s & E). destruct (result_derived g o pd chord_ranges logs rejoins classifications s) as (rs & Hrs & Hd & Hc & _);
      [exact (sb_beam _ _ _ _ _ (sb_base _ _ _ _ _ H))|exact (sb_ranges _ _ _ _ _ (sb_base _ _ _ _ _ H))|exact E|].
    rewrite <- Hc. exact (derived_covered _ _ _ _ _ _ _ _ _ Hrs Hd).
  - intros Hcov. destruct (C75_returns g o pd chord_ranges logs rejoins classifications H) as (r & E). rewrite E. destruct r as [s|]; [eauto|]. exfalso.
    destruct (ranges_total g o pd chord_ranges logs rejoins classifications H) as (rs & Ers & Hmade).
    destruct (search_total g o pd chord_ranges classifications H rs Hmade) as (sr & Esr).
    destruct (Hlit rs sr Hmade Esr (ranges_leads g o chord_ranges logs rejoins classifications rs Ers L1 L2 L3 _ Hcov)) as (b & Eb & Hl).
    destruct (run_search_inv g o pd rs (in_ranges g o pd chord_ranges classifications H rs Hmade) (sb_beam _ _ _ _ _ (sb_base _ _ _ _ _ H)) sr Esr) as [HL HS HD].
    destruct (HS _ b (le_n _) Eb) as (seen & B & Hbi & _ & _ & _ & HB). destruct (ab_top_ok _ _ _ Hbi) as (t & Et & Ht). destruct (ab_list_ok _ _ _ Hbi) as [_ EL].
    unfold beam_search in E. rewrite Ers in E. cbn [bind] in E. rewrite Esr in E. cbn [bind] in E. apply hget_nth in Eb. rewrite Eb in E. cbn [bind] in E.
    rewrite Et in E. cbn [bind] in E. destruct t as [x|]; [apply bind_ok in E as (s & _ & E); apply Ok_inj in E; discriminate|].
    subst B. apply Hl. rewrite EL. reflexivity.
Qed.

(* with pitches in semitones; JointModel's constructor asserts min_key <= max_no_key (296) *)
Theorem C76_found_partial g o pd chord_ranges logs rejoins classifications :
  searchable g o pd chord_ranges classifications -> g_cpt g = MIDI -> g_min_key g <= g_max_no_key g ->
  length logs = length chord_ranges -> length rejoins = length chord_ranges -> length classifications = length chord_ranges ->
  ((exists s, beam_search g o pd chord_ranges logs rejoins classifications = Ok (Some s))
   <-> covered chord_ranges 0 (length (p_durs pd))).
Proof.
  intros H Hm Hmk L1 L2 L3. apply (found_iff g o pd chord_ranges logs rejoins classifications H L1 L2 L3). intros rs sr Hmade Esr Hl.
  assert (Hk : g_kpt g = MIDI) by (rewrite <- Hm; symmetry; exact (sb_types _ _ _ _ _ (sb_base _ _ _ _ _ H))).
  apply (search_found g o pd chord_ranges classifications H rs Hmade (fun _ => True) sr Hmk); try assumption.
  - intros c k root t inv bass tonic mode _ Hg _ En Ek. destruct (chord_notes_ok _ c Hg) as (r1 & t1 & i1 & b1 & En1 & _ & _ & Hr & Hb & _).
    rewrite En in En1. apply Ok_inj in En1. injection En1 as <- <- <- <-. rewrite Hm in Hr, Hb. rewrite Hk in Ek.
    assert (Ht : 0 <= tonic < 12).
    { assert (Ek' : In (tonic, mode) (key_labels MIDI)) by (apply py_nth_ok_inv in Ek as [[_ Ek]|[_ Ek]]; exact (nth_error_In _ _ Ek)). clear -Ek'. assert (Ha : forallb (fun x => (0 <=? fst x) && (fst x <? 12)) (key_labels MIDI) = true) by (vm_compute; reflexivity).
      rewrite forallb_forall in Ha. apply Ha in Ek'. cbn [fst] in Ek'. lia. }
    cbn [pitch_count] in Hr, Hb. unfold outside. rewrite !orb_false_iff, !Z.ltb_ge, !Z.leb_gt. change MIN_RELATIVE_TPC with (-14). change MAX_RELATIVE_TPC with 15. lia.
  - intros keys E. split; [|auto]. unfold initial_keys in E. apply bind_ok in E as (k & _ & E). apply Ok_inj in E. subst keys. destruct (k =? -1); [|discriminate].
    rewrite Hk. vm_compute. discriminate.
  - auto.
  - intros k f _ _ Hkr Hfr. destruct (key_label _ _ Hkr) as (t0 & m0 & E0 & _). destruct (key_label _ _ Hfr) as (t1 & m1 & E1 & _).
    apply (reach_any _ k f t0 m0 t1 m1 Hkr Hfr E0 E1). rewrite Hk. discriminate.
  - left. auto.
Qed.
Print Assumptions C76_found_partial.

(* with either kind of pitch, if the keys are given *)
Theorem C76_given g o pd chord_ranges logs rejoins classifications :
  searchable g o pd chord_ranges classifications -> keys_given g o pd classifications -> g_min_key g <= g_max_no_key g ->
  length logs = length chord_ranges -> length rejoins = length chord_ranges -> length classifications = length chord_ranges ->
  ((exists s, beam_search g o pd chord_ranges logs rejoins classifications = Ok (Some s))
   <-> covered chord_ranges 0 (length (p_durs pd))).
Proof.
  intros H [G1 G2 G3 G4] Hmk L1 L2 L3. destruct (g_cpt g) eqn:Hpt; [|apply C76_found_partial; assumption].
  apply (found_iff g o pd chord_ranges logs rejoins classifications H L1 L2 L3). intros rs sr Hmade Esr Hl.
  assert (Hty := sb_types _ _ _ _ _ (sb_base _ _ _ _ _ H)). assert (Hfk := sb_forced_k _ _ _ _ _ (sb_base _ _ _ _ _ H)). assert (Hpc := sb_piece _ _ _ _ _ (sb_base _ _ _ _ _ H)).
  apply (search_found g o pd chord_ranges classifications H rs Hmade (fun k => In k (p_forced_k pd) /\ k <> -1) sr Hmk); try assumption.
  - intros c k root t inv bass tonic mode Ht Hg [Hk1 Hk2] En Ek. destruct (chord_notes_ok _ c Hg) as (r1 & t1 & i1 & b1 & En1 & El & Eb & Hr & Hb & Hi).
    rewrite En in En1. apply Ok_inj in En1. injection En1 as <- <- <- <-.
    assert (Hlen : length (chord_fifths t) = Z.to_nat (positions t)) by (destruct t; reflexivity).
    destruct (nth_error (chord_fifths t) (Z.to_nat inv)) as [f|] eqn:Ef; [|apply nth_error_None in Ef; lia].
    rewrite Hpt, bass_note_spec in Eb. cbv zeta in Eb. rewrite (proj2 (Z.ltb_ge inv 0)) in Eb by lia. rewrite Ef in Eb.
    destruct (_ || _); [discriminate|]. destruct (_ && _); [|discriminate]. apply Ok_inj in Eb. subst bass.
    rewrite <- Hty, Hpt in Ek. rewrite Hpt in El. destruct (G3 c k Ht Hk1 Hk2 eq_refl root t inv f tonic mode El Ef Ek) as [N1 N2].
    unfold outside. rewrite !orb_false_iff, !Z.ltb_ge, !Z.leb_gt. change MIN_RELATIVE_TPC with (-14). change MAX_RELATIVE_TPC with 15. lia.
  - intros keys E. unfold initial_keys in E. apply bind_ok in E as (k & Ek & E). apply Ok_inj in E. apply hget_nth in Ek.
    destruct (Z.eqb_spec k (-1)) as [->|Hne]; [congruence|]. subst keys. split; [discriminate|]. intros k' [<-|[]]. split; [exact (nth_error_In _ _ Ek)|exact Hne].
  - auto.
  - intros k f [Hk1 Hk2] [Hf1 Hf2] Hkr Hfr. destruct (key_label _ _ Hkr) as (t0 & m0 & E0 & _). destruct (key_label _ _ Hfr) as (t1 & m1 & E1 & _).
    apply (reach_any _ k f t0 m0 t1 m1 Hkr Hfr E0 E1). intros Ep. exact (G4 k f Hk1 Hf1 Hk2 Hf2 Ep t0 m0 t1 m1 E0 E1).
  - right. intros prob m0 p Hp Hb E. destruct G2 as [G2|[G2 G2']].
    + exfalso. unfold pick in E. apply nth_error_None in E. unfold forced_set in E.
      assert (Hne : exists k, In k (py_slice (p_forced_k pd) (Z.of_nat (st_change p)) (Z.of_nat (st_change m0)))).
      { rewrite py_slice_spec by lia. rewrite <- Nat2Z.inj_sub by lia. rewrite !Nat2Z.id. destruct Hfk as [Hfl _].
        destruct (nth_error (p_forced_k pd) (st_change p)) as [k|] eqn:Ek; [|apply nth_error_None in Ek; lia]. exists k.
        destruct (st_change m0 - st_change p)%nat as [|d] eqn:Ed; [lia|]. apply nth_error_split in Ek as (l1 & l2 & -> & Hl1).
        rewrite <- Hl1, skipn_app, skipn_all, Nat.sub_diag. left. reflexivity. }
      destruct Hne as (k & Hk). assert (Hin : In k (forced_set (p_forced_k pd) (st_change p) (st_change m0))).
      { unfold forced_set. apply nodup_In, filter_In. split; [exact Hk|]. apply py_slice_in in Hk. apply negb_true_iff, Z.eqb_neq. intros ->. contradiction. }
      unfold forced_set in Hin. destruct (nodup _ _) as [|y l]; [contradiction|]. assert (Hlt := Nat.mod_upper_bound (o_pick o (y :: l)) (length (y :: l)) ltac:(discriminate)). lia.
    + destruct Hp as [[_ ->]|[_ (step & l & i & _ & ->)]]; [exact G2|apply G2'].
Qed.
Print Assumptions C76_given.

(* ---- a case meeting the hypotheses: three inputs, four overlapping ranges ---- *)
Definition gt (pt : pitch_type) (red : reduction) : search_cfg :=
  {| g_cpt := pt; g_kpt := pt; g_beam_size := 3; g_hash_length := Some 2; g_min_key := 20; g_max_no_key := 80;
     g_target_chord := 100; g_max_chord := 2; g_target_key := 100; g_max_key := 2; g_ksm_exp := 1; g_use_inv := true;
     g_red := red; g_pitch_based := false |}.
Definition ot (pt : pitch_type) (red : reduction) : oracle :=
  {| o_ktm := fun _ _ _ => 90; o_ksm := fun _ _ _ => repeat (-3) (Z.to_nat (key_change_count pt));
     o_csm := fun _ _ _ => repeat (-2) (Z.to_nat (get_chord_vector_length pt true true true false red));
     o_stop := fun _ _ => true; o_icm := fun _ => repeat (-1) (Z.to_nat (44 * root_count pt true false));
     o_argsort := fun l => zrange 0 (zlen l); o_exp := fun _ => 60; o_log := fun _ => -7; o_one := 100;
     o_pitch_log := fun _ _ => 0; o_pick := fun _ => 0%nat |}.
Definition pdt (forced_c forced_k : list Z) : piece_data :=
  {| p_forced_c := forced_c; p_forced_k := forced_k; p_durs := repeat 1 (length forced_k); p_levels := repeat 2 (S (length forced_k)) |}.
Definition rowst (pt : pitch_type) (k : nat) : list (list Z) := repeat (repeat (-1) (Z.to_nat (chord_count pt))) k.
Definition crt : list (nat * nat) := [(0, 1); (1, 2); (2, 3); (1, 3)]%nat.

Lemma well_formed_t pt red cr k forced_c forced_k : 0 <= get_chord_vector_length pt true true true false red -> valid_ranges cr (length forced_k) -> forced_k <> [] ->
  (forall x, In x forced_k -> x = -1 \/ 0 <= x < key_count pt) -> (forall x, In x forced_c -> x = -1 \/ 0 <= x < chord_count pt) ->
  well_formed (gt pt red) (ot pt red) (pdt forced_c forced_k) cr (rowst pt k).
Proof.
  intros Hred Hcr Hne Hk Hc. assert (Hl : length (p_durs (pdt forced_c forced_k)) = length forced_k) by (apply repeat_length).
  constructor; rewrite ?Hl; cbn [gt ot g_cpt g_kpt g_beam_size g_max_chord g_pitch_based g_use_inv g_red o_ksm o_icm o_csm o_argsort pdt p_levels p_forced_k p_forced_c p_durs].
  - reflexivity.
  - lia.
  - lia.
  - destruct forced_k; [contradiction|discriminate].
  - split; [apply repeat_length|]. intros l H. apply repeat_spec in H. lia.
  - split; [reflexivity|exact Hk].
  - exact Hc.
  - exact Hcr.
  - intros row H. apply repeat_spec in H. subst row. rewrite zlen_repeat. destruct pt; reflexivity.
  - intros _ _ _. rewrite zlen_repeat. destruct pt; reflexivity.
  - intros _. rewrite zlen_repeat. destruct pt; reflexivity.
  - intros _ _ _. rewrite zlen_repeat. apply Z2Nat.id. exact Hred.
  - reflexivity.
Qed.
Lemma valid_crt : valid_ranges crt 3.
Proof. intros a b [[= <- <-]|[[= <- <-]|[[= <- <-]|[[= <- <-]|[]]]]]; lia. Qed.
Lemma covered_crt : covered crt 0 3.
Proof. apply (covered_more _ _ 1); [apply (covered_more _ _ 0); [constructor|left; reflexivity]|right; right; right; left; reflexivity]. Qed.
Example C75_ex : searchable (gt MIDI NO_REDUCTION) (ot MIDI NO_REDUCTION) (pdt [-1; 40; -1] [-1; -1; 5]) crt (rowst MIDI 4).
Proof.
  constructor.
  - apply well_formed_t; [vm_compute; discriminate|exact valid_crt|discriminate| |]; intros x [<-|[<-|[<-|[]]]]; cbn; lia.
  - intros _ t. destruct t; cbn; lia.
  - intros c _ Hpt. discriminate.
Qed.
Example C76_ex : match beam_search (gt MIDI NO_REDUCTION) (ot MIDI NO_REDUCTION) (pdt [-1; 40; -1] [-1; -1; 5]) crt [-1; -2; -3; -4] [0; 0; 0; 0] (rowst MIDI 4) with
  | Ok (Some s) => st_change s = 3%nat /\ st_key s = 5
  | _ => False end.
Proof. vm_compute. split; reflexivity. Qed.
(* on the line of fifths: the first options, and the forced chord, can be spelled *)
Example C75_ex2 : searchable (gt TPC NO_REDUCTION) (ot TPC NO_REDUCTION) (pdt [-1; 43; -1] [-1; 15; 16]) crt (rowst TPC 4).
Proof.
  constructor.
  - apply well_formed_t; [vm_compute; discriminate|exact valid_crt|discriminate| |]; intros x [<-|[<-|[<-|[]]]]; cbn; lia.
  - intros _ t. destruct t; cbn; lia.
  - assert (Hp : forall c, In c [43; 0; 1] -> playable TPC c).
    { intros c Hc _ root t inv f E Ef. destruct Hc as [<-|[<-|[<-|[]]]]; vm_compute in E; injection E as <- <- <-; injection Ef as <-; lia. }
    intros c [[Hn Hc]|(row & rank & Hrow & Hrank & E)]; apply Hp.
    + destruct Hc as [<-|[<-|[<-|[]]]]; try contradiction. left. reflexivity.
    + apply repeat_spec in Hrow. subst row. cbn [gt g_max_chord] in Hrank. right.
      destruct rank as [|[|rank]]; [left|right; left|lia]; vm_compute in E; injection E as <-; reflexivity.
Qed.

(* the keys are given, and the search follows them through the piece *)
Example C76_given_ex : searchable (gt TPC NO_REDUCTION) (ot TPC NO_REDUCTION) (pdt [-1; 43; -1] [10; 12; 10]) crt (rowst TPC 4)
  /\ keys_given (gt TPC NO_REDUCTION) (ot TPC NO_REDUCTION) (pdt [-1; 43; -1] [10; 12; 10]) (rowst TPC 4)
  /\ covered crt 0 3
  /\ match beam_search (gt TPC NO_REDUCTION) (ot TPC NO_REDUCTION) (pdt [-1; 43; -1] [10; 12; 10]) crt [-1; -2; -3; -4] [0; 0; 0; 0] (rowst TPC 4) with
     | Ok (Some s) => st_change s = 3%nat
     | _ => False end.
Proof.
  assert (Ht : forall c, tried (gt TPC NO_REDUCTION) (ot TPC NO_REDUCTION) (pdt [-1; 43; -1] [10; 12; 10]) (rowst TPC 4) c -> In c [43; 0; 1]).
  { intros c [[Hn Hc]|(row & rank & Hrow & Hrank & E)].
    - destruct Hc as [<-|[<-|[<-|[]]]]; try contradiction. left. reflexivity.
    - apply repeat_spec in Hrow. subst row. cbn [gt g_max_chord] in Hrank. right.
      destruct rank as [|[|rank]]; [left|right; left|lia]; vm_compute in E; injection E as <-; reflexivity. }
  split; [|split; [|split]].
  - constructor.
    + apply well_formed_t; [vm_compute; discriminate|exact valid_crt|discriminate| |]; intros x [<-|[<-|[<-|[]]]]; cbn; lia.
    + intros _ t. destruct t; cbn; lia.
    + intros c Hc _ root t inv f E Ef. apply Ht in Hc. destruct Hc as [<-|[<-|[<-|[]]]]; vm_compute in E; injection E as <- <- <-; injection Ef as <-; lia.
  - constructor.
    + discriminate.
    + left. intros [H|[H|[H|[]]]]; discriminate.
    + intros c k Hc Hk _ _ root t inv f tonic mode E Ef Ek. apply Ht in Hc.
      destruct Hc as [<-|[<-|[<-|[]]]]; vm_compute in E; injection E as <- <- <-; injection Ef as <-;
        (destruct Hk as [<-|[<-|[<-|[]]]]; vm_compute in Ek; injection Ek as <- <-; lia).
    + intros k k' Hk Hk' _ _ _ t1 m1 t2 m2 E1 E2.
      destruct Hk as [<-|[<-|[<-|[]]]]; vm_compute in E1; injection E1 as <- <-;
        (destruct Hk' as [<-|[<-|[<-|[]]]]; vm_compute in E2; injection E2 as <- <-; lia).
  - apply (covered_more _ _ 2); [apply (covered_more _ _ 1); [apply (covered_more _ _ 0); [constructor|]|]|]; cbn; auto.
  - vm_compute. reflexivity.
Qed.

(* ---- without the two conditions on the chords the search raises ---- *)
(* A sharp-side chord in first inversion (id 103: root at the sharp end, its third is beyond it)
   is a chord of the vocabulary; forced, or the first option, it stops the search. *)
Theorem C75_spelling_refuted : exists g o pd chord_ranges logs rejoins classifications,
  well_formed g o pd chord_ranges classifications /\ (g_use_inv g = true -> forall t, positions t <= positions (g_red g t))
  /\ beam_search g o pd chord_ranges logs rejoins classifications = Raise ValueError.
Proof.
  exists (gt TPC NO_REDUCTION), (ot TPC NO_REDUCTION), (pdt [103] [-1]), [(0, 1)]%nat, [0], [0], (rowst TPC 1). split; [|split].
  - apply well_formed_t; [vm_compute; discriminate| |discriminate| |].
    + intros a b [[= <- <-]|[]]. cbn. lia.
    + intros x [<-|[]]; cbn; lia.
    + intros x [<-|[]]; cbn; lia.
  - intros _ t. destruct t; cbn; lia.
  - vm_compute. reflexivity.
Qed.
Print Assumptions C75_spelling_refuted.
(* A chord sequence model trained on triads with inversions has no class for a seventh chord in
   third inversion. *)
Theorem C75_inversion_refuted : exists g o pd chord_ranges logs rejoins classifications,
  well_formed g o pd chord_ranges classifications /\ (forall c, tried g o pd classifications c -> playable (g_cpt g) c)
  /\ beam_search g o pd chord_ranges logs rejoins classifications = Raise ValueError.
Proof.
  exists (gt MIDI TRIAD_REDUCTION), (ot MIDI TRIAD_REDUCTION), (pdt [0; 147] [0; 0]), [(0, 1); (1, 2)]%nat, [0; 0], [0; 0], (rowst MIDI 2). split; [|split].
  - apply well_formed_t; [vm_compute; discriminate| |discriminate| |].
    + intros a b [[= <- <-]|[[= <- <-]|[]]]; cbn; lia.
    + intros x [<-|[<-|[]]]; cbn; lia.
    + intros x [<-|[<-|[]]]; cbn; lia.
  - intros c _ Hpt. discriminate.
  - vm_compute. reflexivity.
Qed.
Print Assumptions C75_inversion_refuted.
(* a piece without inputs *)
Theorem C75_empty_refuted g o durs levels chord_ranges logs rejoins classifications :
  beam_search g o {| p_forced_c := []; p_forced_k := []; p_durs := durs; p_levels := levels |} chord_ranges logs rejoins classifications
  = match mapM (make_range g o) (zip4 chord_ranges logs rejoins classifications) with Ok _ => Raise IndexError | Raise e => Raise e end.
Proof. unfold beam_search. destruct (mapM _ _); reflexivity. Qed.
Print Assumptions C75_empty_refuted.

(* On the line of fifths the ranges may lead through the piece and every chord be spelled, and
   still nothing is found: the only chord offered lies too far from the forced key. *)
Theorem C76_fifths_refuted : exists g o pd chord_ranges logs rejoins classifications,
  searchable g o pd chord_ranges classifications /\ g_min_key g <= g_max_no_key g
  /\ length logs = length chord_ranges /\ length rejoins = length chord_ranges /\ length classifications = length chord_ranges
  /\ covered chord_ranges 0 (length (p_durs pd))
  /\ beam_search g o pd chord_ranges logs rejoins classifications = Ok None.
Proof.
  exists (gt TPC NO_REDUCTION), (ot TPC NO_REDUCTION), (pdt [84] [7]), [(0, 1)]%nat, [0], [0], (rowst TPC 1). split; [|split; [cbn; lia|]].
  - constructor.
    + apply well_formed_t; [vm_compute; discriminate| |discriminate| |].
      * intros a b [[= <- <-]|[]]. cbn. lia.
      * intros x [<-|[]]; cbn; lia.
      * intros x [<-|[]]; cbn; lia.
    + intros _ t. destruct t; cbn; lia.
    + assert (Hp : forall c, In c [84; 0; 1] -> playable TPC c).
      { intros c Hc _ root t inv f E Ef. destruct Hc as [<-|[<-|[<-|[]]]]; vm_compute in E; injection E as <- <- <-; injection Ef as <-; lia. }
      intros c [[Hn Hc]|(row & rank & Hrow & Hrank & E)]; apply Hp.
      * destruct Hc as [<-|[]]; left; reflexivity.
      * apply repeat_spec in Hrow. subst row. cbn [gt g_max_chord] in Hrank. right.
        destruct rank as [|[|rank]]; [left|right; left|lia]; vm_compute in E; injection E as <-; reflexivity.
  - split; [reflexivity|]. split; [reflexivity|]. split; [reflexivity|]. split.
    + apply (covered_more _ _ 0); [constructor|left; reflexivity].
    + vm_compute. reflexivity.
Qed.
Print Assumptions C76_fifths_refuted.
