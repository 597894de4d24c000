(* Lemmas about putting the joint model together. *)
From Coq Require Import String Ascii QArith.
From Verif Require Import PyBase Proof_Base Spec_Models Proof_Codec Proof_CodecSpec Proof_Widths Proof_Total Prop_Codec.
From Coq Require Import List Lia. Import ListNotations.
Close Scope Q_scope.
Open Scope Z_scope.

Lemma assert_ok b : py_assert b = Ok tt <-> b = true.
Proof. unfold py_assert. destruct b; split; congruence. Qed.
Lemma assert_cases b : (b = true /\ py_assert b = Ok tt) \/ (b = false /\ py_assert b = Raise AssertionError).
Proof. destruct b; auto. Qed.
Lemma pt_eqb_iff a b : pt_eqb a b = true <-> a = b.
Proof. destruct a, b; cbn; split; congruence. Qed.
Lemma piece_type_eqb_iff a b : piece_type_eqb a b = true <-> a = b.
Proof. destruct a, b; cbn; split; congruence. Qed.

Lemma check_iff cc ct cs kt ks ic : check_input_output_types cc ct cs kt ks ic = Ok tt <-> agree cc ct cs kt ks ic.
Proof.
  unfold check_input_output_types. split.
  - intros H. do 9 (apply bind_ok in H as ([] & ? & H)).
    repeat match goal with E : py_assert _ = Ok tt |- _ => apply assert_ok in E end. rewrite ?pt_eqb_iff, ?piece_type_eqb_iff in *.
    constructor; [assumption|assumption| |]; repeat split; congruence.
  - intros [E1 E2 (A & B & C & D) (E & F & G)].
    assert (P : forall a b, a = b -> py_assert (pt_eqb a b) = Ok tt) by (intros a b ->; destruct b; reflexivity).
    assert (R : forall a b, a = b -> py_assert (piece_type_eqb a b) = Ok tt) by (intros a b ->; destruct b; reflexivity).
    rewrite (R _ _ E1), (P _ _ E2), (P (cc_out cc) (cs_chord cs)), (P (cs_out cs) (ks_chord ks)), (P (cs_out cs) (cs_chord cs)),
      (P _ _ E), (P _ _ F), (P _ _ G), (P _ _ D) by congruence. reflexivity.
Qed.
Lemma check_raises cc ct cs kt ks ic e : check_input_output_types cc ct cs kt ks ic = Raise e -> e = AssertionError.
Proof.
  unfold check_input_output_types.
  repeat match goal with |- context [py_assert ?b] => destruct (assert_cases b) as [[_ ->]|[_ ->]]; cbn [bind]; [|congruence] end. discriminate.
Qed.
Lemma take_ok {A} models name (as_class : component -> option A) m : take_model models name as_class = Ok m <->
  exists c, str_lookup name models = Some c /\ as_class c = Some m.
Proof.
  unfold take_model. destruct (str_lookup name models) as [c|]; [destruct (as_class c) as [x|] eqn:E|]; split; try discriminate.
  - intros H. apply Ok_inj in H. subst x. eauto.
  - intros (c' & H & H'). injection H as <-. congruence.
  - intros (c' & H & H'). injection H as <-. congruence.
  - intros (c' & H & _). discriminate.
Qed.
Lemma take_raises {A} models name (as_class : component -> option A) e : take_model models name as_class = Raise e -> e = AssertionError.
Proof. unfold take_model. destruct (str_lookup name models) as [c|]; [destruct (as_class c)|]; congruence. Qed.

Lemma joint_made models p j : HarmonicInferenceModel models p = Ok j <->
  (exists cc ct cs kt ks ic,
    (str_lookup (L"ccm") models = Some (Ccm cc) /\ str_lookup (L"ctm") models = Some (Ctm ct) /\ str_lookup (L"csm") models = Some (Csm cs)
     /\ str_lookup (L"ktm") models = Some (Ktm kt) /\ str_lookup (L"ksm") models = Some (Ksm ks) /\ str_lookup (L"icm") models = Some (Icm ic))
    /\ agree cc ct cs kt ks ic
    /\ ((min_chord_change_prob p <= max_no_chord_change_prob p)%Q /\ (min_key_change_prob p <= max_no_key_change_prob p)%Q)
    /\ j = mkJoint cc ct cs kt ks ic (cc_input cc) (cs_out cs) (ks_out ks) (chord_labels (cs_out cs)) (key_labels (ks_out ks)) (relative_key_labels (ks_out ks)) p).
Proof.
  unfold HarmonicInferenceModel. split.
  - intros H. apply bind_ok in H as (cc & H1 & H). apply bind_ok in H as (ct & H2 & H). apply bind_ok in H as (cs & H3 & H).
    apply bind_ok in H as (kt & H4 & H). apply bind_ok in H as (ks & H5 & H). apply bind_ok in H as (ic & H6 & H).
    apply bind_ok in H as ([] & H7 & H). apply bind_ok in H as ([] & H8 & H). apply bind_ok in H as ([] & H9 & H). apply Ok_inj in H.
    apply assert_ok in H8, H9. apply Qle_bool_iff in H8, H9. apply check_iff in H7.
    apply take_ok in H1 as (c1 & L1 & K1). apply take_ok in H2 as (c2 & L2 & K2). apply take_ok in H3 as (c3 & L3 & K3).
    apply take_ok in H4 as (c4 & L4 & K4). apply take_ok in H5 as (c5 & L5 & K5). apply take_ok in H6 as (c6 & L6 & K6).
    destruct c1; try discriminate K1. destruct c2; try discriminate K2. destruct c3; try discriminate K3.
    destruct c4; try discriminate K4. destruct c5; try discriminate K5. destruct c6; try discriminate K6.
    apply Some_inj in K1, K2, K3, K4, K5, K6. subst m m0 m1 m2 m3 m4.
    exists cc, ct, cs, kt, ks, ic. split; [repeat split; assumption|]. split; [exact H7|]. split; [auto|]. congruence.
  - intros (cc & ct & cs & kt & ks & ic & (L1 & L2 & L3 & L4 & L5 & L6) & Hag & [Hc Hk] & ->).
    rewrite (proj2 (take_ok models (L"ccm") as_ccm cc)) by eauto. rewrite (proj2 (take_ok models (L"ctm") as_ctm ct)) by eauto.
    rewrite (proj2 (take_ok models (L"csm") as_csm cs)) by eauto. rewrite (proj2 (take_ok models (L"ktm") as_ktm kt)) by eauto.
    rewrite (proj2 (take_ok models (L"ksm") as_ksm ks)) by eauto. rewrite (proj2 (take_ok models (L"icm") as_icm ic)) by eauto. cbn [bind].
    rewrite (proj2 (check_iff cc ct cs kt ks ic) Hag). cbn [bind]. apply Qle_bool_iff in Hc, Hk. rewrite Hc, Hk. reflexivity.
Qed.
Lemma joint_raises models p e : HarmonicInferenceModel models p = Raise e -> e = AssertionError.
Proof.
  unfold HarmonicInferenceModel.
  repeat match goal with |- context [take_model ?a ?b ?c] => let E := fresh in destruct (take_model a b c) eqn:E; cbn [bind];
    [clear E|apply take_raises in E; congruence] end.
  match goal with |- context [check_input_output_types ?a ?b ?c ?d ?e ?f] => let E := fresh in destruct (check_input_output_types a b c d e f) eqn:E; cbn [bind];
    [clear E|apply check_raises in E; congruence] end.
  repeat match goal with |- context [py_assert ?b] => destruct (assert_cases b) as [[_ ->]|[_ ->]]; cbn [bind]; [|congruence] end. discriminate.
Qed.

(* ---- rows ---- *)
Definition row_width (pt : pitch_type) (pad : bool) : Z :=
  get_chord_vector_length pt false true true pad NO_REDUCTION + get_key_change_vector_length pt false + 1.
Section Rows.
Variables (cpt kpt : pitch_type) (durs levels : list Z).
Lemma state_chord_pt s c : state_chord cpt kpt durs levels s = Ok c -> c_pt (fc c) = cpt.
Proof.
  unfold state_chord. intros H. repeat (apply bind_ok in H as (? & ? & H)).
  repeat match type of H with context [let '(_, _) := ?x in _] => destruct x end.
  repeat (apply bind_ok in H as (? & ? & H)). repeat match type of H with context [let '(_, _) := ?x in _] => destruct x end.
  repeat (apply bind_ok in H as (? & ? & H)). repeat match type of H with context [let '(_, _) := ?x in _] => destruct x end.
  repeat (apply bind_ok in H as (? & ? & H)). apply Ok_inj in H. subst c. reflexivity.
Qed.
Lemma key_part_len s k : key_part cpt kpt s = Ok k -> zlen k = get_key_change_vector_length cpt false + 1.
Proof.
  assert (Z0 : zlen (repeat 0 (Z.to_nat (get_key_change_vector_length cpt false)) ++ [0]) = get_key_change_vector_length cpt false + 1).
  { unfold zlen. rewrite app_length, repeat_length. destruct cpt; vm_compute; reflexivity. }
  unfold key_part. destruct (st_prev s) as [q|]; [|intros H; apply Ok_inj in H; subst k; exact Z0].
  destruct (st_key q =? st_key s); [intros H; apply Ok_inj in H; subst k; exact Z0|]. intros H.
  apply bind_ok in H as ([t0 m0] & _ & H). apply bind_ok in H as ([t1 m1] & _ & H). apply bind_ok in H as (v & Hv & H).
  apply Ok_inj in H. subst k. apply key_change_len in Hv. unfold zlen in *. rewrite app_length. cbn [length]. lia.
Qed.
Lemma csm_width s v : csm_input cpt kpt durs levels s = Ok v -> zlen v = row_width cpt false.
Proof.
  unfold csm_input. intros H. apply bind_ok in H as (k & Hk & H). apply bind_ok in H as (c & Hc & H). apply bind_ok in H as (w & Hw & H).
  apply Ok_inj in H. subst v. apply key_part_len in Hk. apply to_vec_len in Hw. rewrite (state_chord_pt _ _ Hc) in Hw.
  unfold row_width, zlen in *. rewrite app_length. lia.
Qed.
Lemma ktm_width s v : ktm_input cpt kpt durs levels s = Ok v -> zlen v = row_width cpt true.
Proof.
  unfold ktm_input. intros H. apply bind_ok in H as (k & Hk & H). apply bind_ok in H as (c & Hc & H). apply bind_ok in H as (w & Hw & H).
  apply Ok_inj in H. subst v. apply key_part_len in Hk. apply to_vec_len in Hw. rewrite (state_chord_pt _ _ Hc) in Hw.
  unfold row_width, zlen in *. rewrite app_length. lia.
Qed.
Lemma ksm_eq stop s : ksm_input cpt kpt durs levels stop s =
  let! v := ktm_input cpt kpt durs levels s in
  match st_prev s with
  | None => Ok [v]
  | Some p => match st_prev p with
      | None => Ok [v]
      | Some _ => if stop s then Ok [v] else let! vs := ksm_input cpt kpt durs levels stop p in Ok (v :: vs)
      end
  end.
Proof. destruct s; reflexivity. Qed.
Fixpoint depth (s : state) : nat := match st_prev s with None => 0%nat | Some p => S (depth p) end.
Lemma depth_prev s p : st_prev s = Some p -> depth s = S (depth p).
Proof. destruct s; cbn. intros ->. reflexivity. Qed.
Lemma ksm_width stop : forall n s vs, depth s = n -> ksm_input cpt kpt durs levels stop s = Ok vs ->
  vs <> [] /\ forall v, In v vs -> zlen v = row_width cpt true.
Proof.
  induction n as [n IH] using lt_wf_ind. intros s vs En H. rewrite ksm_eq in H. apply bind_ok in H as (v & Hv & H). apply ktm_width in Hv.
  assert (H1 : forall v', In v' [v] -> zlen v' = row_width cpt true) by (intros v' [<-|[]]; exact Hv).
  destruct (st_prev s) as [q|] eqn:Eq; [|apply Ok_inj in H; subst vs; split; [discriminate|exact H1]].
  destruct (st_prev q); [|apply Ok_inj in H; subst vs; split; [discriminate|exact H1]].
  destruct (stop s); [apply Ok_inj in H; subst vs; split; [discriminate|exact H1]|].
  apply bind_ok in H as (ws & Hw & H). apply Ok_inj in H. subst vs. split; [discriminate|].
  apply (IH (depth q)) in Hw; [|rewrite <- En, (depth_prev _ _ Eq); lia|reflexivity].
  intros v' [<-|Hv']; [exact Hv|exact (proj2 Hw v' Hv')].
Qed.
End Rows.

Lemma note_width x v : note_to_vec x = Ok v -> zlen v = get_note_vector_length (nv_pt x).
Proof.
  unfold note_to_vec. intros H. repeat (apply bind_ok in H as (? & ? & H)).
  destruct (nv_metrical x) as [[m1 m2] m3], (nv_durations x) as [d1 d2]. apply Ok_inj in H. subst v.
  unfold zlen. rewrite !app_length. cbn [length].
  repeat match goal with E : one_hot_vec _ _ = Ok _ |- _ => apply one_hot_vec_len in E; rewrite E; clear E end.
  destruct (nv_pt x); vm_compute; reflexivity.
Qed.

(* ---- reductions that are the identity ---- *)
Lemma types_ext red : (forall t, red t = t) -> reduced_types red = reduced_types NO_REDUCTION.
Proof. intros H. unfold reduced_types. apply filter_ext. intros t. unfold NO_REDUCTION. induction all_chord_types as [|u r IH]; [reflexivity|]. cbn [existsb]. now rewrite H, IH. Qed.
Lemma classes_full m : cc_inv m = true -> (forall t, cc_red m t = t) -> ccm_classes m = chord_count (cc_out m).
Proof.
  intros H1 H2. unfold ccm_classes, get_chord_vector_length. rewrite H1, (types_ext _ H2). destruct (cc_out m); vm_compute; reflexivity.
Qed.
