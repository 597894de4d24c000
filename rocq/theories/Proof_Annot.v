(* Tables of labels. *)
From Coq Require Import QArith Lqa String Ascii.
From Verif Require Import Model_Strings Model_Rhythm Model_Piece Model_Eval Spec_Search Spec_Piece Spec_Eval
  Proof_Base Proof_Strings Proof_Piece Proof_Eval.
From Coq Require Import List Lia.
Import ListNotations.
Close Scope Q_scope.
Open Scope Z_scope.

(* the rows of one column *)
Fixpoint column (prev : option pystr) (l : list (Q * note * pystr)) : list (pystr * note) :=
  match l with
  | [] => []
  | (d, n, t) :: r =>
      if Qeq_bool d 0%Q then column prev r else
      (if match prev with Some k => str_eqb t k | None => false end then [] else [(t, n)]) ++ column (Some t) r
  end.
Lemma annotate_columns : forall l prev,
  (forall d n k c, In (d, n, (k, c)) l -> ~ (d == 0)%Q -> key_text k = true /\ key_text c = false) ->
  filter (fun r => key_text (fst r)) (annotate prev l) =
    column (option_map fst prev) (map (fun x => (fst x, fst (snd x))) l) /\
  filter (fun r => negb (key_text (fst r))) (annotate prev l) =
    column (option_map snd prev) (map (fun x => (fst x, snd (snd x))) l).
Proof.
  induction l as [|[[d n] [k c]] l IH]; intros prev H; [split; reflexivity|].
  cbn [annotate map column fst snd]. destruct (Qeq_bool d 0) eqn:D.
  - apply IH. intros d' n' k' c' I0. apply (H d' n' k' c'). now right.
  - destruct (H d n k c (or_introl eq_refl)) as [Hk Hc].
    { intros E. apply Qeq_bool_iff in E. congruence. }
    destruct (IH (Some (k, c))) as [IH1 IH2].
    { intros d' n' k' c' I0. apply (H d' n' k' c'). now right. }
    cbn [option_map fst snd] in IH1, IH2. rewrite !filter_app, IH1, IH2. clear IH1 IH2 IH H.
    destruct prev as [[pk pc']|]; cbn [option_map fst snd].
    + destruct (str_eqb k pk), (str_eqb c pc'); cbn [filter fst app negb]; rewrite ?Hk, ?Hc; split; reflexivity.
    + cbn [filter fst app negb]. rewrite Hk, Hc. split; reflexivity.
Qed.

Definition advancing (l : list (Q * note * pystr)) : Prop :=
  forall i j d n t d' n' t', (i < j)%nat -> nth_error l i = Some (d, n, t) -> ~ (d == 0)%Q ->
    nth_error l j = Some (d', n', t') -> before (no_on n) (no_on n').
Lemma column_in : forall l prev t n, In (t, n) (column prev l) -> exists i d, nth_error l i = Some (d, n, t) /\ ~ (d == 0)%Q.
Proof.
  induction l as [|[[d0 n0] t0] l IH]; intros prev t n H; [destruct H|]. cbn [column] in H.
  destruct (Qeq_bool d0 0) eqn:D.
  - destruct (IH _ _ _ H) as (i & d & E). exists (S i), d. exact E.
  - apply in_app_or in H. destruct H as [H|H].
    + exists 0%nat, d0. assert (E : (t0, n0) = (t, n)).
      { destruct (match prev with Some k => str_eqb t0 k | None => false end); [destruct H|]. destruct H as [H|[]]. exact H. }
      injection E as -> ->. split; [reflexivity|]. intros E. apply Qeq_bool_iff in E. congruence.
    + destruct (IH _ _ _ H) as (i & d & E). exists (S i), d. exact E.
Qed.
Lemma before_irrefl a : ~ before a a.
Proof. unfold before. intros [H|[_ H]]; [lia|]. now apply Qlt_irrefl in H. Qed.
Lemma column_reads : forall l prev i d n t, advancing l -> nth_error l i = Some (d, n, t) -> ~ (d == 0)%Q ->
  reads (column prev l) (no_on n) t \/
  (prev = Some t /\ forall r, In r (column prev l) -> before (no_on n) (no_on (snd r))).
Proof.
  induction l as [|[[d0 n0] t0] l IH]; intros prev i d n t A H Hd; [destruct i; discriminate H|].
  assert (A' : advancing l).
  { intros a b x y z x' y' z' L E1 E2 E3. apply (A (S a) (S b) x y z x' y' z'); [lia|exact E1|exact E2|exact E3]. }
  cbn [column]. destruct i as [|i].
  - apply Some_inj in H. injection H as -> -> ->. destruct (Qeq_bool d 0) eqn:D; [apply Qeq_bool_iff in D; contradiction|].
    assert (L : forall r, In r (column (Some t) l) -> before (no_on n) (no_on (snd r))).
    { intros [t1 n1] I0. apply column_in in I0. destruct I0 as (j & d1 & Ej & _).
      apply (A 0%nat (S j) d n t d1 n1 t1); [lia|reflexivity|exact Hd|exact Ej]. }
    destruct (match prev with Some k => str_eqb t k | None => false end) eqn:Ep.
    + right. destruct prev as [k|]; [|discriminate Ep]. apply str_eqb_eq in Ep. subst k. split; [reflexivity|exact L].
    + left. exists [], n, (column (Some t) l). split; [reflexivity|]. split; [apply before_irrefl|exact L].
  - cbn in H. destruct (Qeq_bool d0 0) eqn:D; [apply (IH prev i d n t A' H Hd)|].
    assert (D0 : ~ (d0 == 0)%Q) by (intros E; apply Qeq_bool_iff in E; congruence).
    assert (B : before (no_on n0) (no_on n)) by (apply (A 0%nat (S i) d0 n0 t0 d n t); [lia|reflexivity|exact D0|exact H]).
    destruct (IH (Some t0) i d n t A' H Hd) as [(l1 & m & l2 & E & E1 & E2)|[Et L]].
    + left. rewrite E. eexists (_ ++ l1), m, l2. rewrite <- app_assoc. split; [reflexivity|auto].
    + injection Et as ->. destruct (match prev with Some k => str_eqb t k | None => false end) eqn:Ep.
      * right. destruct prev as [k|]; [|discriminate Ep]. apply str_eqb_eq in Ep. subst k. split; [reflexivity|exact L].
      * left. exists [], n0, (column (Some t) l). split; [reflexivity|]. split; [|exact L].
        intros X. apply (before_irrefl (no_on n)). eapply before_trans; [exact X|exact B].
Qed.
Lemma column_differ : forall l prev, (forall t r, nth_error (map fst (column prev l)) 0 = Some t -> prev = Some r -> r <> t) /\
  no_adjacent_equal (map fst (column prev l)).
Proof.
  induction l as [|[[d0 n0] t0] l IH]; intros prev; [split; [intros t r H; discriminate H|intros k x y H; destruct k; discriminate H]|].
  cbn [column]. destruct (Qeq_bool d0 0); [apply IH|]. destruct (IH (Some t0)) as [H1 H2].
  destruct (match prev with Some k => str_eqb t0 k | None => false end) eqn:Ep.
  - destruct prev as [k|]; [|discriminate Ep]. apply str_eqb_eq in Ep. subst k. cbn [app]. split; [exact H1|exact H2].
  - cbn [app map fst]. split.
    + intros t r H ->. apply Some_inj in H. subst t. intros <-. rewrite (proj2 (str_eqb_eq r r) eq_refl) in Ep. discriminate Ep.
    + intros [|k] x y Hx Hy; [|exact (H2 k x y Hx Hy)]. apply Some_inj in Hx. subst x. exact (H1 y t0 Hy eq_refl).
Qed.

(* ---- texts ---- *)
Lemma texts_kinds rt tt chord_list key_list :
  get_chord_label_list rt true false None false NO_REDUCTION = Ok chord_list ->
  get_key_label_list tt false None = Ok key_list ->
  (forall t, In t chord_list -> key_text t = false) /\ (forall t, In t key_list -> key_text t = true).
Proof.
  intros C K. split.
  - assert (X : match get_chord_label_list rt true false None false NO_REDUCTION with Ok l => forallb (fun t => negb (key_text t)) l | _ => false end = true)
      by (destruct rt; vm_compute; reflexivity).
    rewrite C in X. intros t I0. rewrite forallb_forall in X. specialize (X t I0). now destruct (key_text t).
  - assert (X : match get_key_label_list tt false None with Ok l => forallb key_text l | _ => false end = true)
      by (destruct tt; vm_compute; reflexivity).
    rewrite K in X. intros t I0. rewrite forallb_forall in X. now apply X.
Qed.

(* ---- durations ---- *)
Lemma zero_length a b ms d : get_range_length a b ms = Ok d -> same_pos a b -> (d == 0)%Q.
Proof.
  intros E [E1 E2]. unfold get_range_length in E. destruct a as [ma ba], b as [mb bb]. cbn [fst snd] in *. subst mb.
  destruct (pos_gt (ma, ba) (ma, bb)).
  - rewrite Z.eqb_refl in E. apply Ok_inj in E. subst d. rewrite E2. ring.
  - rewrite Z.eqb_refl in E. apply Ok_inj in E. subst d. rewrite E2. ring.
Qed.
Lemma in_order_nth : forall l, in_order l -> forall i j a b, (i <= j)%nat -> nth_error l i = Some a -> nth_error l j = Some b -> ~ before b a.
Proof.
  induction l as [|x l IH]; intros O i j a b L Hi Hj; [destruct i; discriminate Hi|].
  assert (O' : in_order l) by (destruct l; [exact I|apply O]).
  destruct i as [|i], j as [|j]; try lia.
  - apply Some_inj in Hi. apply Some_inj in Hj. subst. apply before_irrefl.
  - apply Some_inj in Hi. subst a. destruct l as [|y l]; [destruct j; discriminate Hj|]. destruct O as [O1 _].
    specialize (IH O' 0%nat j y b ltac:(lia) eq_refl Hj). eapply not_before_trans; eassumption.
  - apply (IH O' i j a b ltac:(lia) Hi Hj).
Qed.
Lemma duration_advances onsets last ms durs : get_duration_cache onsets last ms = Ok durs -> in_order onsets ->
  forall i j a b d, (i < j)%nat -> nth_error onsets i = Some a -> nth_error onsets j = Some b -> nth_error durs i = Some d ->
    ~ (d == 0)%Q -> before a b.
Proof.
  intros E O i j a b d L Ha Hb Hd D. unfold get_duration_cache in E. apply mapM_ok in E.
  destruct (Forall2_nth_r _ _ _ _ _ E Hd) as ([x y] & Hxy & El). cbn [fst snd] in El.
  apply nth_combine_some in Hxy. destruct Hxy as [Hx Hy]. rewrite Ha in Hx. apply Some_inj in Hx. subst x.
  assert (Ly : nth_error onsets (S i) = Some y).
  { destruct onsets as [|o os]; [destruct i; discriminate Ha|]. cbn in Hy |- *.
    rewrite nth_error_app1 in Hy; [exact Hy|]. assert (nth_error (o :: os) j <> None) by congruence. apply nth_error_Some in H. cbn in H. lia. }
  assert (N1 := in_order_nth _ O i (S i) a y ltac:(lia) Ha Ly).
  assert (N2 := in_order_nth _ O (S i) j y b ltac:(lia) Ly Hb).
  assert (B : before a y).
  { assert (X : ~ same_pos a y) by (intros S0; apply D; eapply zero_length; eassumption).
    unfold before, same_pos in *. destruct (Z.lt_trichotomy (fst a) (fst y)) as [H|[H|H]]; [now left| |exfalso; apply N1; left; lia].
    right. split; [exact H|]. apply Qnot_le_lt. intros Le. apply Qle_lteq in Le. destruct Le as [Lt|Eq]; [apply N1; right; split; [lia|exact Lt]|].
    apply X. split; [exact H|now symmetry]. }
  clear -B N2. unfold before in *.
  destruct (Z.lt_trichotomy (fst y) (fst b)) as [H|[H|H]]; [left; lia| |exfalso; apply N2; left; lia].
  destruct B as [B|[B1 B2]]; [left; lia|]. right. split; [lia|]. eapply Qlt_le_trans; [exact B2|].
  apply Qnot_lt_le. intros X. apply N2. right. split; [lia|exact X].
Qed.
Lemma py_nth_in {A} (l : list A) i x : py_nth l i = Ok x -> In x l.
Proof. intros H. apply py_nth_ok_inv in H. destruct H as [[_ H]|[_ H]]; eapply nth_error_In; exact H. Qed.
Lemma py_nth_pos' {A} (l : list A) i x : 0 <= i -> py_nth l i = Ok x -> nth_error l (Z.to_nat i) = Some x.
Proof. intros H E. apply py_nth_ok_inv in E. destruct E as [[_ E]|[X _]]; [exact E|lia]. Qed.
