(* Lemmas for C84. *)
From Coq Require Import QArith String Ascii.
From Verif Require Import PyBase Model_Types Model_Harmony Model_Strings Model_Dict Spec_Dict Proof_Base Proof_Strings.
From Coq Require Import List.
Import ListNotations.
Close Scope Q_scope.
Open Scope Z_scope.

Lemma str_dec (a b : pystr) : {a = b} + {a <> b}.
Proof. apply (list_eq_dec ascii_dec). Qed.

Lemma lookup_in {V} (d : list (pystr * V)) f v : str_lookup f d = Some v -> In (f, v) d.
Proof.
  induction d as [|[g w] d IH]; cbn [str_lookup]; [discriminate|]. destruct (str_eqb f g) eqn:E.
  - apply str_eqb_eq in E. subst g. intros H. apply Some_inj in H. subst. now left.
  - intros H. right. auto.
Qed.
Lemma lookup_none {V} (d : list (pystr * V)) f : str_lookup f d = None <-> ~ In f (map fst d).
Proof.
  induction d as [|[g w] d IH]; cbn [str_lookup map fst]; [split; [intros _ []|reflexivity]|].
  destruct (str_eqb f g) eqn:E.
  - apply str_eqb_eq in E. subst g. split; [discriminate|]. intros H. exfalso. apply H. now left.
  - rewrite IH. split; [|intros H X; apply H; now right]. intros H [X|X]; [|contradiction].
    subst g. rewrite str_eqb_refl in E. discriminate E.
Qed.
Lemma lookup_nodup {V} (d : list (pystr * V)) f v : NoDup (map fst d) -> In (f, v) d -> str_lookup f d = Some v.
Proof.
  induction d as [|[g w] d IH]; intros N I; [destruct I|]. cbn in N. inversion N as [|? ? N1 N2]; subst. cbn [str_lookup].
  destruct I as [I|I].
  - apply pair_equal_spec in I. destruct I as [-> ->]. now rewrite str_eqb_refl.
  - rewrite str_eqb_neq; [auto|]. intros ->. apply N1. apply in_map_iff. exists (g, v). auto.
Qed.
Lemma lookup_some {V} (d : list (pystr * V)) f : In f (map fst d) -> exists v, str_lookup f d = Some v.
Proof. intros I. destruct (str_lookup f d) eqn:E; [eauto|]. apply lookup_none in E. contradiction. Qed.

Lemma params_nodup c : NoDup (params c).
Proof.
  destruct c; cbn; repeat (constructor; [cbn; intuition discriminate|]); constructor.
Qed.

(* ---- dict_set ---- *)
Lemma set_keys d f v : In f (map fst d) -> map fst (dict_set d f v) = map fst d.
Proof.
  induction d as [|[g w] d IH]; intros I; [destruct I|]. cbn [dict_set]. destruct (str_eqb g f) eqn:E; [reflexivity|].
  cbn [map fst]. f_equal. apply IH. destruct I as [I|I]; [|exact I]. cbn in I. subst g. rewrite str_eqb_refl in E. discriminate E.
Qed.
Lemma set_lookup d f v g : In f (map fst d) ->
  str_lookup g (dict_set d f v) = if str_eqb g f then Some v else str_lookup g d.
Proof.
  induction d as [|[k w] d IH]; intros I; [destruct I|]. cbn [dict_set]. destruct (str_eqb k f) eqn:E.
  - apply str_eqb_eq in E. subst k. cbn [str_lookup]. now destruct (str_eqb g f).
  - cbn [str_lookup]. destruct (str_eqb g k) eqn:G.
    + apply str_eqb_eq in G. subst k. now rewrite E.
    + apply IH. destruct I as [I|I]; [|exact I]. cbn in I. subst k. rewrite str_eqb_refl in E. discriminate E.
Qed.

(* two dictionaries with the same distinct names and the same values *)
Lemma dict_ext {V} : forall (d e : list (pystr * V)), map fst d = map fst e -> NoDup (map fst d) ->
  (forall f, In f (map fst d) -> str_lookup f d = str_lookup f e) -> d = e.
Proof.
  induction d as [|[f v] d IH]; intros [|[g w] e] K N H; cbn in K; try discriminate K; [reflexivity|].
  inversion K as [[Kf Kr]]. subst g. cbn in N. inversion N as [|? ? N1 N2]; subst. f_equal.
  - pose proof (H f (or_introl eq_refl)) as X. cbn [str_lookup] in X. rewrite str_eqb_refl in X. apply Some_inj in X. now subst.
  - apply IH; [exact Kr|exact N2|]. intros g I. pose proof (H g (or_intror I)) as X. cbn [str_lookup] in X.
    rewrite str_eqb_neq in X; [exact X|]. intros ->. contradiction.
Qed.

(* ---- calls ---- *)
Lemma bind_inv sig kw d : bind_args sig kw = Ok d ->
  map fst d = map fst sig /\ (forall f v, str_lookup f kw = Some v -> In f (map fst sig)) /\
  (NoDup (map fst sig) -> forall f dv, In (f, dv) sig ->
     str_lookup f d = match str_lookup f kw with Some v => Some v | None => dv end).
Proof.
  unfold bind_args. destruct (forallb _ kw) eqn:A; [|discriminate]. intros H.
  split; [|split].
  - revert d H. clear A. induction sig as [|[f dv] sig IH]; intros d H; cbn [mapM] in H; [apply Ok_inj in H; now subst|].
    apply bind_ok in H. destruct H as ((g, v) & E & H). apply bind_ok in H. destruct H as (r & Er & H). apply Ok_inj in H. subst d.
    cbn [map fst]. rewrite (IH r Er). f_equal. cbn [fst snd] in E.
    destruct (str_lookup f kw); [|destruct dv; [|discriminate E]]; apply Ok_inj in E; congruence.
  - intros f v E. apply lookup_in in E. rewrite forallb_forall in A. specialize (A _ E). cbn [fst] in A.
    apply existsb_exists in A. destruct A as (g & I & X). apply str_eqb_eq in X. now subst.
  - intros N f dv I. revert d H N I. clear A. induction sig as [|[g gv] sig IH]; intros d H N I; [destruct I|].
    cbn [mapM] in H. apply bind_ok in H. destruct H as ((g', v) & E & H). apply bind_ok in H. destruct H as (r & Er & H). apply Ok_inj in H. subst d.
    cbn [fst snd] in E. cbn in N. inversion N as [|? ? N1 N2]; subst.
    assert (Eg : g' = g /\ Some v = match str_lookup g kw with Some v => Some v | None => gv end)
      by (destruct (str_lookup g kw); [|destruct gv; [|discriminate E]]; apply Ok_inj in E; split; congruence).
    destruct Eg as [-> Ev]. cbn [str_lookup]. destruct I as [I|I].
    + apply pair_equal_spec in I. destruct I as [-> ->]. rewrite str_eqb_refl. exact Ev.
    + rewrite str_eqb_neq; [apply (IH r Er N2 I)|]. intros ->. apply N1. apply in_map_iff. exists (g, dv). auto.
Qed.

Lemma bind_same sig d : NoDup (map fst sig) -> map fst d = map fst sig -> bind_args sig d = Ok d.
Proof.
  intros N K. unfold bind_args. replace (forallb _ d) with true.
  2:{ symmetry. apply forallb_forall. intros [f v] I. apply existsb_exists. exists f. split; [|apply str_eqb_refl].
      rewrite <- K. apply in_map_iff. exists (f, v). auto. }
  assert (X : forall s e, map fst e = map fst s -> (forall f v, In (f, v) e -> str_lookup f d = Some v) ->
    mapM (fun pd : pystr * option pyval => match str_lookup (fst pd) d, snd pd with
                    | Some v, _ => Ok (fst pd, v)
                    | None, Some d => Ok (fst pd, d)
                    | None, None => Raise TypeError
                    end) s = Ok e).
  { induction s as [|[f dv] s IH]; intros [|[g v] e] Ke H; cbn in Ke; try discriminate Ke; [reflexivity|].
    inversion Ke as [[E1 E2]]. subst g. cbn [mapM fst snd]. rewrite (H f v) by now left. cbn [bind].
    rewrite (IH e E2) by (intros; apply H; now right). reflexivity. }
  apply X; [exact K|]. intros f v I. apply lookup_nodup; [rewrite K; exact N|exact I].
Qed.

(* ---- objects ---- *)
Definition wf (c : class) (o : obj) : Prop :=
  o_class o = c /\ map fst (o_attrs o) = params c /\
  (c = CNote -> str_lookup (L"mc_onset") (o_attrs o) <> Some VNone).

Lemma attr_get (d : dict) f : In f (map fst d) -> exists v, dict_get d f = Ok v /\ str_lookup f d = Some v.
Proof. intros I. destruct (lookup_some d f I) as (v & E). exists v. unfold dict_get. now rewrite E. Qed.

Lemma built_wf c o : built c o -> wf c o.
Proof.
  intros (kw & H). unfold construct in H. apply bind_ok in H. destruct H as (d & B & H).
  destruct (bind_inv _ _ _ B) as (K & _). fold (params c) in K.
  destruct c.
  - apply bind_ok in H. destruct H as (mc & Em & H).
    assert (Lm : str_lookup (L"mc_onset") d = Some mc).
    { unfold dict_get in Em. destruct (str_lookup (L"mc_onset") d); [|discriminate Em]. apply Ok_inj in Em. congruence. }
    assert (In (L"mc_onset") (map fst d)) as I by (rewrite K; cbn; tauto).
    destruct mc; try (apply Ok_inj in H; subst o; split; [reflexivity|]; split; [exact K|]; cbn [o_attrs]; intros _ X; rewrite Lm in X; discriminate X).
    apply bind_ok in H. destruct H as (on & Eo & H). destruct on; try discriminate H. apply Ok_inj in H. subst o.
    split; [reflexivity|]. cbn [o_attrs]. split; [rewrite set_keys; assumption|]. intros _ X.
    rewrite set_lookup in X by assumption. rewrite str_eqb_refl in X. discriminate X.
  - apply Ok_inj in H. subst o. split; [reflexivity|]. split; [exact K|discriminate].
  - apply Ok_inj in H. subst o. split; [reflexivity|]. split; [exact K|discriminate].
Qed.

Lemma construct_same c o : wf c o -> construct c (o_attrs o) = Ok o.
Proof.
  intros (Ec & K & M). unfold construct.
  rewrite (bind_same (signature c) (o_attrs o) (params_nodup c) K). cbn [bind].
  destruct o as [c' d]. cbn [o_class o_attrs] in *. subst c'. destruct c; try reflexivity.
  destruct (attr_get d (L"mc_onset")) as (v & E & E'); [rewrite K; cbn; tauto|]. rewrite E. cbn [bind].
  destruct v; try reflexivity. exfalso. now apply M.
Qed.

Lemma dict_same c o : wf c o -> to_dict o = Ok (o_attrs o).
Proof.
  intros (Ec & K & _). unfold to_dict. rewrite Ec.
  assert (X : forall e, (forall f v, In (f, v) e -> str_lookup f (o_attrs o) = Some v) ->
    mapM (fun f => let! v := getattr o f in Ok (f, v)) (map fst e) = Ok e).
  { induction e as [|[f v] e IH]; intros H; [reflexivity|]. cbn [map fst mapM]. unfold getattr at 1.
    rewrite (H f v) by now left. cbn [bind]. rewrite IH by (intros; apply H; now right). reflexivity. }
  rewrite <- K. apply X. intros f v I. apply lookup_nodup; [rewrite K; apply params_nodup|exact I].
Qed.

Lemma wf_get c o f : wf c o -> In f (params c) -> exists v, getattr o f = Ok v.
Proof. intros (_ & K & _) I. destruct (lookup_some (o_attrs o) f) as (v & E); [now rewrite K|]. exists v. unfold getattr. now rewrite E. Qed.

Lemma wf_ext c o p : wf c o -> wf c p -> (forall f, In f (params c) -> getattr o f = getattr p f) -> o = p.
Proof.
  intros (C1 & K1 & _) (C2 & K2 & _) H. destruct o as [c1 d1], p as [c2 d2]. cbn [o_class o_attrs] in *. subst c1 c2. f_equal.
  apply dict_ext; [congruence|rewrite K1; apply params_nodup|]. intros f I. rewrite K1 in I. specialize (H f I).
  unfold getattr in H. cbn [o_attrs] in H. destruct (str_lookup f d1), (str_lookup f d2); try discriminate H; [apply Ok_inj in H; congruence|reflexivity].
Qed.

(* ---- equality ---- *)
Lemma type_eqb_eq a b : ct_eqb a b = true <-> a = b.
Proof. split; [|intros ->; unfold ct_eqb; apply Z.eqb_refl]. destruct a, b; try reflexivity; vm_compute; discriminate. Qed.

Lemma val_eqb_iff a b : val_eqb a b = true <-> same_value a b.
Proof.
  split.
  - intros H. destruct a, b; cbn in H; try discriminate H; try (left; reflexivity).
    + left. f_equal. lia.
    + right. left. eexists; eexists; repeat split. now apply Qeq_bool_iff.
    + right. left. eexists; eexists; repeat split. symmetry. now apply Qeq_bool_iff.
    + right. left. eexists; eexists; repeat split. now apply Qeq_bool_iff.
    + right. right. apply andb_true_iff in H. destruct H as [H1 H2]. apply Z.eqb_eq in H1. subst.
      eexists; eexists; eexists; repeat split. now apply Qeq_bool_iff.
    + left. f_equal. destruct m, m0; (reflexivity || discriminate H).
    + left. f_equal. now apply type_eqb_eq.
    + left. f_equal. destruct p, p0; (reflexivity || discriminate H).
    + left. f_equal. now apply str_eqb_eq.
  - intros [->|[(q & r & H1 & H2 & E)|(m & q & r & -> & -> & E)]].
    + destruct b; cbn; try reflexivity; try (apply Qeq_bool_iff; reflexivity); try apply Z.eqb_refl; try apply str_eqb_refl.
      * rewrite Z.eqb_refl. apply Qeq_bool_iff. reflexivity.
      * now destruct m.
      * now destruct p.
    + destruct a; cbn in H1; try discriminate H1; destruct b; cbn in H2; try discriminate H2;
        apply Some_inj in H1; apply Some_inj in H2; subst; cbn.
      * apply Z.eqb_eq. unfold Qeq in E. cbn in E. lia.
      * now apply Qeq_bool_iff.
      * apply Qeq_bool_iff. now symmetry.
      * now apply Qeq_bool_iff.
    + cbn. rewrite Z.eqb_refl. now apply Qeq_bool_iff.
Qed.

Lemma same_refl a : same_value a a.
Proof. now left. Qed.
Lemma same_sym a b : same_value a b -> same_value b a.
Proof.
  intros [->|[(q & r & H1 & H2 & E)|(m & q & r & -> & -> & E)]]; [now left| |].
  - right. left. exists r, q. repeat split; auto. now symmetry.
  - right. right. exists m, r, q. repeat split; auto. now symmetry.
Qed.
Lemma same_trans a b c : same_value a b -> same_value b c -> same_value a c.
Proof.
  intros [->|[(q & r & H1 & H2 & E)|(m & q & r & -> & -> & E)]] H; [exact H| |].
  - destruct H as [->|[(q' & r' & K1 & K2 & E')|(m & q' & r' & -> & -> & E')]].
    + right. left. exists q, r. auto.
    + right. left. exists q, r'. rewrite H2 in K1. apply Some_inj in K1. subst. repeat split; auto. now rewrite E.
    + discriminate H2.
  - destruct H as [<-|[(q' & r' & K1 & K2 & E')|(m' & q' & r' & X & -> & E')]].
    + right. right. exists m, q, r. auto.
    + discriminate K1.
    + inversion X; subst. right. right. exists m', q, r'. repeat split; auto. now rewrite E.
Qed.

Lemma fields_equal_iff c o p : wf c o -> wf c p -> forall fs, (forall f, In f fs -> In f (params c)) ->
  exists b, fields_equal o p fs = Ok b /\
    (b = true <-> forall f v w, In f fs -> getattr o f = Ok v -> getattr p f = Ok w -> same_value v w).
Proof.
  intros Wo Wp. induction fs as [|f fs IH]; intros H; cbn [fields_equal].
  - exists true. split; [reflexivity|]. split; [intros _ f v w []|reflexivity].
  - destruct (wf_get _ _ f Wo (H f (or_introl eq_refl))) as (v & Ev). destruct (wf_get _ _ f Wp (H f (or_introl eq_refl))) as (w & Ew).
    rewrite Ev, Ew. cbn [bind]. destruct (val_eqb v w) eqn:E; cbn [negb].
    + destruct IH as (b & Eb & Hb); [intros; apply H; now right|]. exists b. split; [exact Eb|]. rewrite Hb. split.
      * intros X g v' w' [<-|I] G1 G2; [|eapply X; eauto]. rewrite Ev in G1. rewrite Ew in G2. apply Ok_inj in G1. apply Ok_inj in G2. subst. now apply val_eqb_iff.
      * intros X g v' w' I. apply X. now right.
    + exists false. split; [reflexivity|]. split; [discriminate|]. intros X. exfalso.
      assert (val_eqb v w = true) by (apply val_eqb_iff; apply (X f v w); [now left|exact Ev|exact Ew]). congruence.
Qed.
