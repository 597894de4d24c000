(* Lemmas about the validation of forced labels. *)
From Verif Require Export Spec_Infer Proof_Base Proof_Paths Proof_Ranges.
Open Scope Z_scope.

Lemma for_each_ok {A} (f : A -> res unit) l : for_each f l = Ok tt <-> forall x, In x l -> f x = Ok tt.
Proof.
  unfold for_each. induction l as [|a l IH]; cbn [mapM bind].
  - split; [intros _ x []|reflexivity].
  - split.
    + intros H x [<-|Hx].
      * destruct (f a) as [[]|e]; [reflexivity|discriminate].
      * destruct (f a) as [[]|e]; [|discriminate]. cbn [bind] in H. apply IH; [|exact Hx].
        destruct (mapM f l); [reflexivity|discriminate].
    + intros H. rewrite (H a (or_introl eq_refl)). cbn [bind].
      assert (E := proj2 IH (fun x Hx => H x (or_intror Hx))). destruct (mapM f l); [reflexivity|discriminate].
Qed.
Lemma for_each_unit {A} (f : A -> res unit) l u : for_each f l = Ok u -> forall x, In x l -> f x = Ok tt.
Proof. destruct u. apply for_each_ok. Qed.

Lemma nth_repeat_some {A} (x : A) : forall n i, (i < n)%nat -> nth_error (repeat x n) i = Some x.
Proof. induction n; intros [|i] H; [lia|lia|reflexivity|]. apply IHn. lia. Qed.
Lemma nth_error_fill ids a b x i : 0 <= a -> 0 <= b ->
  nth_error (fill_slice ids a b x) i =
  if (a <=? Z.of_nat i) && (Z.of_nat i <? b) && (i <? length ids)%nat then Some x else nth_error ids i.
Proof.
  intros Ha Hb. unfold fill_slice, py_bound, zlen. set (n := Z.of_nat (length ids)).
  replace (a <? 0) with false by lia. replace (b <? 0) with false by lia.
  set (a' := Z.max 0 (Z.min n a)). set (b' := Z.max a' (Z.max 0 (Z.min n b))).
  assert (La : length (firstn (Z.to_nat a') ids) = Z.to_nat a') by (rewrite firstn_length; lia).
  destruct (Nat.lt_ge_cases i (Z.to_nat a')) as [H1|H1].
  - rewrite nth_error_app1 by lia. replace ((a <=? Z.of_nat i) && _ && _) with false by lia.
    rewrite <- (firstn_skipn (Z.to_nat a') ids) at 2. rewrite nth_error_app1 by lia. reflexivity.
  - rewrite nth_error_app2 by lia. rewrite La. destruct (Nat.lt_ge_cases i (Z.to_nat b')) as [H2|H2].
    + rewrite nth_error_app1 by (rewrite repeat_length; lia).
      
      rewrite nth_repeat_some by lia. replace ((a <=? Z.of_nat i) && _ && _) with true by lia. reflexivity.
    + rewrite nth_error_app2 by (rewrite repeat_length; lia). rewrite repeat_length.
      replace ((a <=? Z.of_nat i) && _ && _) with false by lia.
      rewrite <- (firstn_skipn (Z.to_nat b') ids) at 2. rewrite nth_error_app2 by (rewrite firstn_length; lia).
      f_equal. rewrite firstn_length. lia.
Qed.
Lemma fill_length ids a b x : length (fill_slice ids a b x) = length ids.
Proof.
  unfold fill_slice, py_bound, zlen. set (n := Z.of_nat (length ids)).
  set (a' := Z.max 0 _). set (b' := Z.max a' _). rewrite !app_length, firstn_length, repeat_length, skipn_length.
  assert (0 <= a' <= n) by lia. assert (a' <= b' <= n) by lia. lia.
Qed.
Lemma slice_forall (ids : list Z) a b f : 0 <= a -> 0 <= b ->
  forallb f (py_slice ids a b) = true <->
  forall i x, a <= Z.of_nat i < b -> nth_error ids i = Some x -> f x = true.
Proof.
  intros Ha Hb. rewrite forallb_forall. unfold py_slice, py_bound, zlen. set (n := Z.of_nat (length ids)).
  replace (a <? 0) with false by lia. replace (b <? 0) with false by lia. split.
  - intros H i x Hi Hx. assert (Hl : (i < length ids)%nat) by (apply nth_error_Some; congruence). apply H.
    assert (E : nth_error (firstn (Z.to_nat (Z.max 0 (Z.min n b) - Z.max 0 (Z.min n a))) (skipn (Z.to_nat (Z.max 0 (Z.min n a))) ids)) (i - Z.to_nat a) = Some x); [|exact (nth_error_In _ _ E)].
    rewrite nth_error_firstn_lt by lia. rewrite nth_error_skipn'. rewrite <- Hx. f_equal. lia.
  - intros H x Hx. apply In_nth_error in Hx as (k & Hk).
    assert (Hl : (k < Z.to_nat (Z.max 0 (Z.min n b) - Z.max 0 (Z.min n a)))%nat).
    { assert (k < length (firstn (Z.to_nat (Z.max 0 (Z.min n b) - Z.max 0 (Z.min n a))) (skipn (Z.to_nat (Z.max 0 (Z.min n a))) ids)))%nat by (apply nth_error_Some; congruence).
      rewrite firstn_length in H0. lia. }
    rewrite nth_error_firstn_lt in Hk by lia. rewrite nth_error_skipn' in Hk.
    apply (H (Z.to_nat (Z.max 0 (Z.min n a)) + k)%nat); [|exact Hk]. assert (Hl2 : (Z.to_nat (Z.max 0 (Z.min n a)) + k < length ids)%nat) by (apply nth_error_Some; congruence). lia.
Qed.

(* what the array and the labels not yet loaded force *)
Definition has (ids : list Z) (labels : list (Z * Z * Z)) (i : nat) (x : Z) : Prop :=
  (nth_error ids i = Some x /\ x <> -1) \/ ((i < length ids)%nat /\ forced_to labels (Z.of_nat i) x).
Definition in_vocab (m : Z) (labels : list (Z * Z * Z)) := forall a b x, In (a, b, x) labels -> 0 <= x < m.
Definition nat_labels (labels : list (Z * Z * Z)) := forall a b x, In (a, b, x) labels -> 0 <= a /\ 0 <= b.

Lemma has_fill ids a b x r i y : 0 <= a -> 0 <= b -> 0 <= x ->
  (forall i y, a <= Z.of_nat i < b -> nth_error ids i = Some y -> (y =? -1) || (y =? x) = true) ->
  has (fill_slice ids a b x) r i y <-> has ids ((a, b, x) :: r) i y.
Proof.
  intros Ha Hb Hx Hc. unfold has. rewrite fill_length, nth_error_fill by assumption.
  destruct ((a <=? Z.of_nat i) && (Z.of_nat i <? b) && (i <? length ids)%nat) eqn:E.
  - split.
    + intros [[H1 H2]|[Hl (a' & b' & H1 & H2)]].
      * apply Some_inj in H1. subst y. right. split; [lia|]. exists a, b. split; [left; reflexivity|lia].
      * right. split; [exact Hl|]. exists a', b'. split; [right; exact H1|exact H2].
    + intros [[H1 H2]|[Hl (a' & b' & [H1|H1] & H2)]].
      * left. assert (Hq := Hc i y ltac:(lia) H1). split; [f_equal; lia|exact H2].
      * left. injection H1 as -> -> ->. split; [reflexivity|lia].
      * right. split; [exact Hl|]. exists a', b'. split; assumption.
  - split.
    + intros [H|[Hl (a' & b' & H1 & H2)]]; [left; exact H|]. right. split; [exact Hl|]. exists a', b'. split; [right; exact H1|exact H2].
    + intros [H|[Hl (a' & b' & [H1|H1] & H2)]]; [left; exact H| |].
      * injection H1 as -> -> ->. lia.
      * right. split; [exact Hl|]. exists a', b'. split; assumption.
Qed.

Lemma load_labels_spec m : forall labels ids, nat_labels labels ->
  (forall ids', load_labels m ids labels = Ok ids' ->
     length ids' = length ids /\ in_vocab m labels
     /\ (forall i x y, has ids labels i x -> has ids labels i y -> x = y)
     /\ forall i x, has ids' [] i x <-> has ids labels i x)
  /\ (in_vocab m labels -> (forall i x y, has ids labels i x -> has ids labels i y -> x = y) ->
      exists ids', load_labels m ids labels = Ok ids').
Proof.
  induction labels as [|[[a b] x] r IH]; intros ids Hn.
  - split.
    + intros ids' H. apply Ok_inj in H. subst ids'. split; [reflexivity|]. split; [intros ? ? ? []|]. split; [|reflexivity].
      intros i x y [[H1 _]|[_ (?&?&[]&_)]] [[H2 _]|[_ (?&?&[]&_)]]. congruence.
    + intros _ _. eexists. reflexivity.
  - cbn [load_labels]. destruct (Hn a b x (or_introl eq_refl)) as [Ha Hb].
    assert (Hn' : nat_labels r) by (intros a' b' x' H; exact (Hn a' b' x' (or_intror H))).
    destruct (IH (fill_slice ids a b x) Hn') as [IH1 IH2]. split.
    + intros ids' H. destruct ((x <? 0) || (m <=? x)) eqn:Ev; [discriminate|].
      destruct (forallb _ _) eqn:Ef; [|discriminate].
      assert (Ec := proj1 (slice_forall ids a b _ Ha Hb) Ef). cbn beta in Ec.
      destruct (IH1 _ H) as (L & V & U & Hh). rewrite fill_length in L. split; [exact L|]. split; [|split].
      * intros a' b' x' [E|E]; [injection E as <- <- <-; lia|exact (V a' b' x' E)].
      * intros i y z H1 H2. apply (U i); apply has_fill; try assumption; lia.
      * intros i y. rewrite Hh. apply has_fill; try assumption; lia.
    + intros V U. assert (Hx := V a b x (or_introl eq_refl)). replace ((x <? 0) || (m <=? x)) with false by lia.
      assert (Ec : forall i y, a <= Z.of_nat i < b -> nth_error ids i = Some y -> (y =? -1) || (y =? x) = true).
      { intros i y Hi Hy. destruct (Z.eq_dec y (-1)) as [->|Ey]; [reflexivity|].
        assert (y = x); [|lia]. apply (U i); [left; split; assumption|]. right. split; [apply nth_error_Some; congruence|].
        exists a, b. split; [left; reflexivity|exact Hi]. }
      rewrite (proj2 (slice_forall ids a b _ Ha Hb) Ec). apply IH2.
      * intros a' b' x' E. exact (V a' b' x' (or_intror E)).
      * intros i y z H1 H2. apply (U i y z); [apply (proj1 (has_fill ids a b x r i y Ha Hb (proj1 Hx) Ec)); exact H1|apply (proj1 (has_fill ids a b x r i z Ha Hb (proj1 Hx) Ec)); exact H2].
Qed.

Lemma has_repeat n labels i x : has (repeat (-1) n) labels i x <-> (i < n)%nat /\ forced_to labels (Z.of_nat i) x.
Proof.
  unfold has. rewrite repeat_length. split.
  - intros [[H1 H2]|H]; [|exact H]. exfalso. apply H2. apply nth_error_In, repeat_spec in H1. exact H1.
  - intros H. right. exact H.
Qed.
Lemma has_nil ids i x : has ids [] i x <-> nth_error ids i = Some x /\ x <> -1.
Proof. unfold has. split; [intros [H|[_ (?&?&[]&_)]]; exact H|intros H; left; exact H]. Qed.

Lemma load_loaded m labels n ids : nat_labels labels -> load_labels m (repeat (-1) n) labels = Ok ids ->
  loaded ids labels n /\ in_vocab m labels
  /\ forall i x y, (i < n)%nat -> forced_to labels (Z.of_nat i) x -> forced_to labels (Z.of_nat i) y -> x = y.
Proof.
  intros Hn H. destruct (proj1 (load_labels_spec m labels (repeat (-1) n) Hn) _ H) as (L & V & U & Hh).
  rewrite repeat_length in L. split; [|split; [exact V|]].
  - split; [exact L|]. intros i Hi. destruct (nth_error ids i) as [x|] eqn:E; [|apply nth_error_None in E; lia].
    exists x. split; [reflexivity|]. intros y. split.
    + intros Hy. assert (Hq : has ids [] i y) by (apply Hh, has_repeat; split; assumption).
      apply has_nil in Hq. destruct Hq as [Hq1 Hq2]. split; congruence.
    + intros [-> Hx]. apply (has_repeat n). apply Hh, has_nil. split; assumption.
  - intros i x y Hi Hx Hy. apply (U i); apply has_repeat; split; assumption.
Qed.
Lemma load_total m labels n : nat_labels labels -> in_vocab m labels ->
  (forall i x y, 0 <= i < Z.of_nat n -> forced_to labels i x -> forced_to labels i y -> x = y) ->
  exists ids, load_labels m (repeat (-1) n) labels = Ok ids.
Proof.
  intros Hn V U. apply (proj2 (load_labels_spec m labels (repeat (-1) n) Hn)); [exact V|].
  intros i x y Hx Hy. apply has_repeat in Hx as [Hi Hx]. apply has_repeat in Hy as [_ Hy]. apply (U (Z.of_nat i)); [lia|exact Hx|exact Hy].
Qed.

Lemma loaded_at ids labels n i : loaded ids labels n -> 0 <= i < Z.of_nat n ->
  exists x, py_nth ids i = Ok x /\ nth_error ids (Z.to_nat i) = Some x /\ forall y, forced_to labels i y <-> y = x /\ x <> -1.
Proof.
  intros [L H] Hi. destruct (H (Z.to_nat i) ltac:(lia)) as (x & E & Hx). exists x.
  rewrite Z2Nat.id in Hx by lia. split; [|split; [exact E|exact Hx]].
  apply py_nth_pos; [lia|exact E].
Qed.

Lemma check_changes_spec durs ch non : (forall c, In c ch -> 0 <= c) ->
  (forall ch', check_changes durs ch non = Ok ch' ->
     ch' = filter (fun c => negb (c =? 0)) ch
     /\ (forall c, In c ch -> 0 < c -> c < zlen durs /\ nth (Z.to_nat (c - 1)) durs 0 <> 0 /\ ~ In c non)
     /\ forall c, In c non -> c < zlen durs)
  /\ ((forall c, In c ch -> 0 < c -> c < zlen durs /\ nth (Z.to_nat (c - 1)) durs 0 <> 0 /\ ~ In c non) ->
      (forall c, In c non -> c < zlen durs) ->
      check_changes durs ch non = Ok (filter (fun c => negb (c =? 0)) ch)).
Proof.
  intros Hn. unfold check_changes, change_checks. set (l := filter _ ch).
  assert (Hl : forall c, In c l <-> In c ch /\ 0 < c).
  { intros c. unfold l. rewrite filter_In. split; intros [H1 H2]; (split; [exact H1|]); specialize (Hn c H1); lia. }
  assert (Hd : forall c, 0 < c < zlen durs ->
    ((let! d := py_nth durs (c - 1) in if d =? 0 then argument_error else Ok tt) = Ok tt <-> nth (Z.to_nat (c - 1)) durs 0 <> 0)).
  { intros c Hc. destruct (nth_error durs (Z.to_nat (c - 1))) as [d|] eqn:E.
    - rewrite (py_nth_pos durs (c - 1) d ltac:(lia) E). rewrite (nth_error_nth _ _ 0 E). cbn [bind]. destruct (d =? 0) eqn:Ed; split; intros H; try discriminate; try reflexivity; try lia.
    - apply nth_error_None in E. unfold zlen in Hc. lia. }
  split.
  - intros ch' H. destruct (existsb (fun c => zlen durs <=? c) l) eqn:E1; [discriminate|].
    destruct (existsb (fun c => zlen durs <=? c) non) eqn:E2; [discriminate|].
    destruct (existsb (fun c => existsb (Z.eqb c) non) l) eqn:E3; [discriminate|].
    destruct (for_each _ l) as [u|] eqn:E4; [|discriminate]. apply Ok_inj in H. split; [symmetry; exact H|].
    assert (F1 : forall c, In c l -> c < zlen durs).
    { intros c Hc. destruct (Z.lt_ge_cases c (zlen durs)) as [?|?]; [assumption|].
      assert (existsb (fun c => zlen durs <=? c) l = true) by (apply existsb_exists; exists c; split; [exact Hc|lia]). congruence. }
    split.
    + intros c Hc H0. assert (Hcl : In c l) by (apply Hl; split; assumption). specialize (F1 c Hcl). split; [exact F1|]. split.
      * apply Hd; [lia|]. exact (for_each_unit _ _ _ E4 c Hcl).
      * intros Hx. assert (existsb (fun c => existsb (Z.eqb c) non) l = true); [|congruence].
        apply existsb_exists. exists c. split; [exact Hcl|]. apply existsb_exists. exists c. split; [exact Hx|lia].
    + intros c Hc. destruct (Z.lt_ge_cases c (zlen durs)) as [?|?]; [assumption|].
      assert (existsb (fun c => zlen durs <=? c) non = true) by (apply existsb_exists; exists c; split; [exact Hc|lia]). congruence.
  - intros H1 H2.
    assert (Hf : forall (f : Z -> bool) l', (forall c, In c l' -> f c = false) -> existsb f l' = false).
    { intros f l'. induction l' as [|a l' IH]; intros H; [reflexivity|]. cbn [existsb]. rewrite (H a (or_introl eq_refl)). apply IH. intros c Hc. apply H. right. exact Hc. }
    rewrite (Hf _ l). 2:{ intros c Hc. apply Hl in Hc as [Hc H0]. destruct (H1 c Hc H0). lia. }
    rewrite (Hf _ non). 2:{ intros c Hc. specialize (H2 c Hc). lia. }
    rewrite (Hf _ l). 2:{ intros c Hc. apply Hl in Hc as [Hc H0]. destruct (H1 c Hc H0) as (_ & _ & H3). apply Hf. intros c' Hc'.
      destruct (Z.eqb_spec c c') as [->|]; [contradiction|reflexivity]. }
    rewrite (proj2 (for_each_ok _ l)); [reflexivity|]. intros c Hc. apply Hl in Hc as [Hc H0]. destruct (H1 c Hc H0) as (H3 & H4 & _).
    apply Hd; [lia|exact H4].
Qed.

Lemma existsb_forallb {A} (f : A -> bool) l : existsb f l = negb (forallb (fun x => negb (f x)) l).
Proof. induction l as [|a l IH]; [reflexivity|]. cbn. rewrite IH. destruct (f a); reflexivity. Qed.

(* the tests at one index *)
Lemma same_test {A} ids labels n c (v : res A) u : loaded ids labels n -> 0 < c < Z.of_nat n -> (forall w, v <> Ok w) ->
  (let! a := py_nth ids (c - 1) in let! b := py_nth ids c in if (a =? b) && negb (b =? -1) then v else Ok u) = Ok u
  <-> forall x, ~ (forced_to labels (c - 1) x /\ forced_to labels c x).
Proof.
  intros HL Hc Hv. destruct (loaded_at _ _ _ (c - 1) HL ltac:(lia)) as (a & Ea & _ & Ha).
  destruct (loaded_at _ _ _ c HL ltac:(lia)) as (b & Eb & _ & Hb). rewrite Ea, Eb. cbn [bind].
  destruct ((a =? b) && negb (b =? -1)) eqn:E.
  - split; [intros H; exfalso; exact (Hv u H)|]. intros H. exfalso. apply (H b). rewrite Ha, Hb. lia.
  - split; [|reflexivity]. intros _ x [H1 H2]. apply Ha in H1. apply Hb in H2. lia.
Qed.
Lemma differ_test {A} ids labels n c (v : res A) u : loaded ids labels n -> 0 < c < Z.of_nat n -> (forall w, v <> Ok w) ->
  (let! a := py_nth ids (c - 1) in let! b := py_nth ids c in
   if negb (a =? b) && negb (existsb (Z.eqb (-1)) (py_slice ids (c - 1) (c + 1))) then v else Ok u) = Ok u
  <-> forall x y, forced_to labels (c - 1) x -> forced_to labels c y -> x = y.
Proof.
  intros HL Hc Hv. destruct (loaded_at _ _ _ (c - 1) HL ltac:(lia)) as (a & Ea & Na & Ha).
  destruct (loaded_at _ _ _ c HL ltac:(lia)) as (b & Eb & Nb & Hb). rewrite Ea, Eb. cbn [bind].
  rewrite existsb_forallb, negb_involutive.
  assert (Hs : forallb (fun x => negb (-1 =? x)) (py_slice ids (c - 1) (c + 1)) = true <-> a <> -1 /\ b <> -1).
  { rewrite slice_forall by lia. split.
    - intros H. split.
      + specialize (H (Z.to_nat (c - 1)) a ltac:(lia) Na). lia.
      + specialize (H (Z.to_nat c) b ltac:(lia) Nb). lia.
    - intros [H1 H2] i x Hi Hx. assert (Hor : i = Z.to_nat (c - 1) \/ i = Z.to_nat c) by lia.
      destruct Hor as [-> | ->]; [rewrite Na in Hx|rewrite Nb in Hx]; apply Some_inj in Hx; lia. }
  destruct (forallb _ _) eqn:Ef; rewrite ?andb_true_r, ?andb_false_r.
  - destruct (proj1 Hs eq_refl) as [Ka Kb]. destruct (a =? b) eqn:E; cbn [negb].
    + split; [|reflexivity]. intros _ x y H1 H2. apply Ha in H1. apply Hb in H2. lia.
    + split; [intros H; exfalso; exact (Hv u H)|]. intros H. specialize (H a b (proj2 (Ha a) (conj eq_refl Ka)) (proj2 (Hb b) (conj eq_refl Kb))). lia.
  - split; [|reflexivity]. intros _ x y H1 H2. apply Ha in H1. apply Hb in H2.
    assert (a <> -1 /\ b <> -1) as Hab by (split; tauto). apply Hs in Hab. congruence.
Qed.
Lemma change_test {A} ids labels n c (v : res A) u : loaded ids labels n -> 0 < c < Z.of_nat n -> (forall w, v <> Ok w) ->
  (let! a := py_nth ids (c - 1) in let! b := py_nth ids c in if negb (a =? b) then v else Ok u) = Ok u
  <-> forall x, forced_to labels (c - 1) x <-> forced_to labels c x.
Proof.
  intros HL Hc Hv. destruct (loaded_at _ _ _ (c - 1) HL ltac:(lia)) as (a & Ea & _ & Ha).
  destruct (loaded_at _ _ _ c HL ltac:(lia)) as (b & Eb & _ & Hb). rewrite Ea, Eb. cbn [bind].
  destruct (a =? b) eqn:E; cbn [negb].
  - split; [|reflexivity]. intros _ x. rewrite Ha, Hb. lia.
  - split; [intros H; exfalso; exact (Hv u H)|]. intros H. exfalso.
    destruct (Z.eq_dec a (-1)) as [->|Ka].
    + assert (Kb : b <> -1) by lia. assert (H1 := proj2 (H b) (proj2 (Hb b) (conj eq_refl Kb))). apply Ha in H1. lia.
    + assert (H1 := proj1 (H a) (proj2 (Ha a) (conj eq_refl Ka))). apply Hb in H1. lia.
Qed.

Lemma check_labels_spec changes non ids labels n : loaded ids labels n ->
  (forall c, In c changes -> 0 < c < Z.of_nat n) -> (forall c, In c non -> 0 <= c < Z.of_nat n) ->
  (forall u, check_labels changes non ids = Ok u ->
     (forall c, In c changes -> forall x, ~ (forced_to labels (c - 1) x /\ forced_to labels c x))
     /\ forall c, In c non -> 0 < c -> forall x y, forced_to labels (c - 1) x -> forced_to labels c y -> x = y)
  /\ (~ In 0 non ->
      (forall c, In c changes -> forall x, ~ (forced_to labels (c - 1) x /\ forced_to labels c x)) ->
      (forall c, In c non -> forall x y, forced_to labels (c - 1) x -> forced_to labels c y -> x = y) ->
      check_labels changes non ids = Ok tt).
Proof.
  intros HL Hc Hn. unfold check_labels. split.
  - intros u H. destruct (for_each _ changes) as [[]|] eqn:E1; [|discriminate]. cbn [bind] in H. split.
    + intros c Hcc. apply (same_test ids labels n c (@argument_error unit) tt HL (Hc c Hcc) ltac:(discriminate)).
      exact (for_each_unit _ _ _ E1 c Hcc).
    + intros c Hcc H0. specialize (Hn c Hcc).
      apply (differ_test ids labels n c (Raise KeyError) tt HL ltac:(lia) ltac:(discriminate)).
      exact (for_each_unit _ _ _ H c Hcc).
  - intros N0 H1 H2. rewrite (proj2 (for_each_ok _ changes)).
    + cbn [bind]. apply for_each_ok. intros c Hcc. specialize (Hn c Hcc).
      assert (c <> 0) by (intros ->; contradiction).
      apply (differ_test ids labels n c (Raise KeyError) tt HL ltac:(lia) ltac:(discriminate)). exact (H2 c Hcc).
    + intros c Hcc. apply (same_test ids labels n c (@argument_error unit) tt HL (Hc c Hcc) ltac:(discriminate)). exact (H1 c Hcc).
Qed.

Lemma load_type_sound durs m ch non labels ch' ids :
  (forall c, In c ch -> 0 <= c) -> (forall c, In c non -> 0 <= c) -> nat_labels labels ->
  load_type durs m ch non labels = Ok (ch', ids) ->
  consistent_type durs m ch non labels /\ loaded ids labels (length durs)
  /\ ch' = filter (fun c => negb (c =? 0)) ch.
Proof.
  intros H1 H2 Hl H. unfold load_type in H. destruct (bind_ok _ _ _ H) as (cc & Ec & H'). cbn beta in H'.
  destruct (bind_ok _ _ _ H') as (i' & Ei & H''). cbn beta in H''.
  destruct (bind_ok _ _ _ H'') as (u & Eu & H3). apply Ok_inj in H3. injection H3 as -> ->.
  destruct (proj1 (check_changes_spec durs ch non H1) _ Ec) as (-> & C1 & C2).
  destruct (load_loaded _ _ _ _ Hl Ei) as (HL & V & U).
  destruct (proj1 (check_labels_spec (filter (fun c => negb (c =? 0)) ch) non ids labels (length durs) HL
     ltac:(intros c Hc; apply filter_In in Hc as [Hc Hz]; specialize (H1 c Hc); destruct (C1 c Hc ltac:(lia)); unfold zlen in *; lia)
     ltac:(intros c Hc; specialize (H2 c Hc); specialize (C2 c Hc); unfold zlen in *; lia)) u Eu) as [T1 T2].
  split; [|split; [exact HL|reflexivity]]. split; [|split; [|split]].
  - intros c Hc H0. destruct (C1 c Hc H0) as (A & B & C). split; [exact A|]. split; [exact B|]. split; [exact C|].
    apply T1. apply filter_In. split; [exact Hc|lia].
  - intros c Hc. split; [exact (C2 c Hc)|exact (T2 c Hc)].
  - exact V.
  - intros i x y Hi Hx Hy. unfold zlen in Hi. rewrite <- (Z2Nat.id i) in Hx, Hy by lia. apply (U (Z.to_nat i)); [lia|exact Hx|exact Hy].
Qed.
Lemma load_type_total durs m ch non labels :
  (forall c, In c ch -> 0 <= c) -> (forall c, In c non -> 0 < c) -> nat_labels labels ->
  consistent_type durs m ch non labels ->
  exists ids, load_type durs m ch non labels = Ok (filter (fun c => negb (c =? 0)) ch, ids).
Proof.
  intros H1 H2 Hl (C1 & C2 & V & U). unfold load_type.
  rewrite (proj2 (check_changes_spec durs ch non H1)).
  2:{ intros c Hc H0. destruct (C1 c Hc H0) as (A & B & C & _). repeat split; assumption. }
  2:{ intros c Hc. exact (proj1 (C2 c Hc)). }
  cbn [bind]. destruct (load_total m labels (length durs) Hl V U) as (ids & Ei). rewrite Ei. cbn [bind].
  destruct (load_loaded _ _ _ _ Hl Ei) as (HL & _ & _).
  rewrite (proj2 (check_labels_spec (filter (fun c => negb (c =? 0)) ch) non ids labels (length durs) HL
     ltac:(intros c Hc; apply filter_In in Hc as [Hc Hz]; specialize (H1 c Hc); destruct (C1 c Hc ltac:(lia)); unfold zlen in *; lia)
     ltac:(intros c Hc; specialize (H2 c Hc); destruct (C2 c Hc); unfold zlen in *; lia))).
  - exists ids. reflexivity.
  - intros H0. specialize (H2 0 H0). lia.
  - intros c Hc. apply filter_In in Hc as [Hc Hz]. specialize (H1 c Hc). exact (proj2 (proj2 (proj2 (C1 c Hc ltac:(lia))))).
  - intros c Hc. exact (proj2 (C2 c Hc) (H2 c Hc)).
Qed.

Lemma validate_ok durs mc mk q cc cids kids : natural q -> validate durs mc mk q = Ok (cc, cids, kids) ->
  consistent durs mc mk q /\ loaded cids (q_chords q) (length durs) /\ loaded kids (q_keys q) (length durs)
  /\ cc = filter (fun c => negb (c =? 0)) (q_chord_changes q)
  /\ (forall c, In c (q_chord_non q) -> 0 < c -> forall x, forced_to (q_keys q) (c - 1) x <-> forced_to (q_keys q) c x).
Proof.
  intros [Nc Nl] H. unfold validate in H. destruct (bind_ok _ _ _ H) as ([c1 i1] & E1 & H'). cbn beta iota in H'.
  destruct (bind_ok _ _ _ H') as ([c2 i2] & E2 & H''). cbn beta iota in H''.
  destruct (bind_ok _ _ _ H'') as (u & Eb & H3). apply Ok_inj in H3. injection H3 as -> -> ->.
  assert (I4 : forall A (x : A) a b c d, In x (a ++ b ++ c ++ d) <-> In x a \/ In x b \/ In x c \/ In x d) by (intros; rewrite !in_app_iff; tauto).
  apply load_type_sound in E1.
  2:{ intros c Hc. apply Nc, I4. tauto. } 2:{ intros c Hc. apply Nc, I4. tauto. }
  2:{ intros a b x Hx. apply (Nl a b x). apply in_app_iff. tauto. }
  apply load_type_sound in E2.
  2:{ intros c Hc. apply Nc, I4. tauto. } 2:{ intros c Hc. apply Nc, I4. tauto. }
  2:{ intros a b x Hx. apply (Nl a b x). apply in_app_iff. tauto. }
  destruct E1 as (K1 & L1 & ->). destruct E2 as (K2 & L2 & ->).
  unfold check_both in Eb. destruct (for_each _ (filter _ (q_key_changes q))) as [[]|] eqn:F1; [|discriminate]. cbn [bind] in Eb.
  assert (P : forall c, In c (q_chord_non q) -> 0 < c -> forall x, forced_to (q_keys q) (c - 1) x <-> forced_to (q_keys q) c x).
  { intros c Hc H0. destruct (proj1 (proj2 K1) c Hc) as [Hn _].
    apply (change_test kids (q_keys q) (length durs) c (Raise TypeError) tt L2 ltac:(unfold zlen in *; lia) ltac:(discriminate)).
    exact (for_each_unit _ _ _ Eb c Hc). }
  split; [|split; [exact L1|split; [exact L2|split; [reflexivity|exact P]]]].
  split; [exact K1|]. split; [exact K2|]. split.
  - intros c Hc H0. destruct (proj1 K2 c Hc H0) as (Hn & _).
    assert (T := for_each_unit _ _ _ F1 c ltac:(apply filter_In; split; [exact Hc|lia])). cbn beta in T.
    destruct (existsb (Z.eqb c) (q_chord_non q)) eqn:Ex; [discriminate|]. split.
    + intros Hin. assert (existsb (Z.eqb c) (q_chord_non q) = true); [|congruence]. apply existsb_exists. exists c. split; [exact Hin|lia].
    + exact (proj1 (same_test cids (q_chords q) (length durs) c (@argument_error unit) tt L1 ltac:(unfold zlen in *; lia) ltac:(discriminate)) T).
  - intros c Hc H0 x y Hx Hy. apply (P c Hc H0) in Hx. destruct (loaded_at _ _ _ c L2) as (z & _ & _ & Hz).
    { destruct (proj1 (proj2 K1) c Hc). unfold zlen in *. lia. }
    apply Hz in Hx, Hy. lia.
Qed.
Lemma validate_total durs mc mk q : natural q -> consistent durs mc mk q ->
  ~ In 0 (q_chord_non q) -> ~ In 0 (q_key_non q) ->
  (forall c, In c (q_chord_non q) -> forall x, forced_to (q_keys q) (c - 1) x <-> forced_to (q_keys q) c x) ->
  exists r, validate durs mc mk q = Ok r.
Proof.
  intros [Nc Nl] (K1 & K2 & K3 & K4) Z1 Z2 P. unfold validate.
  assert (I4 : forall A (x : A) a b c d, In x (a ++ b ++ c ++ d) <-> In x a \/ In x b \/ In x c \/ In x d) by (intros; rewrite !in_app_iff; tauto).
  assert (Pos : forall c l, In c l -> ~ In 0 l -> 0 <= c -> 0 < c).
  { intros c l Hc H0 Hp. destruct (Z.eq_dec c 0) as [->|]; [contradiction|lia]. }
  destruct (load_type_total durs mc (q_chord_changes q) (q_chord_non q) (q_chords q)) as (i1 & E1); try exact K1.
  { intros c Hc. apply Nc, I4. tauto. } { intros c Hc. apply (Pos c _ Hc Z1), Nc, I4. tauto. }
  { intros a b x Hx. apply (Nl a b x). apply in_app_iff. tauto. }
  destruct (load_type_total durs mk (q_key_changes q) (q_key_non q) (q_keys q)) as (i2 & E2); try exact K2.
  { intros c Hc. apply Nc, I4. tauto. } { intros c Hc. apply (Pos c _ Hc Z2), Nc, I4. tauto. }
  { intros a b x Hx. apply (Nl a b x). apply in_app_iff. tauto. }
  rewrite E1, E2. cbn [bind].
  apply load_type_sound in E1.
  2:{ intros c Hc. apply Nc, I4. tauto. } 2:{ intros c Hc. apply Nc, I4. tauto. }
  2:{ intros a b x Hx. apply (Nl a b x). apply in_app_iff. tauto. }
  apply load_type_sound in E2.
  2:{ intros c Hc. apply Nc, I4. tauto. } 2:{ intros c Hc. apply Nc, I4. tauto. }
  2:{ intros a b x Hx. apply (Nl a b x). apply in_app_iff. tauto. }
  destruct E1 as (_ & L1 & _). destruct E2 as (_ & L2 & _).
  unfold check_both. rewrite (proj2 (for_each_ok _ (filter _ (q_key_changes q)))).
  - cbn [bind]. rewrite (proj2 (for_each_ok _ (q_chord_non q))); [eexists; reflexivity|].
    intros c Hc. assert (H0 : 0 < c) by (apply (Pos c _ Hc Z1), Nc, I4; tauto).
    destruct (proj1 (proj2 K1) c Hc) as [Hn _].
    apply (change_test i2 (q_keys q) (length durs) c (Raise TypeError) tt L2 ltac:(unfold zlen in *; lia) ltac:(discriminate)).
    exact (P c Hc).
  - intros c Hc. apply filter_In in Hc as [Hc Hz]. assert (H0 : 0 <= c) by (apply Nc, I4; tauto).
    destruct (K3 c Hc ltac:(lia)) as [Hi Hx]. destruct (existsb (Z.eqb c) (q_chord_non q)) eqn:Ex.
    { apply existsb_exists in Ex as (c' & Hc' & Ee). apply Z.eqb_eq in Ee. subst c'. contradiction. }
    destruct (proj1 K2 c Hc ltac:(lia)) as [Hn _].
    exact (proj2 (same_test i1 (q_chords q) (length durs) c (@argument_error unit) tt L1 ltac:(unfold zlen in *; lia) ltac:(discriminate)) Hx).
Qed.

(* the errors of a refused request *)
Lemma py_nth_total {A} (l : list A) i : - zlen l <= i < zlen l -> exists x, py_nth l i = Ok x.
Proof.
  intros H. unfold py_nth. set (j := if i <? 0 then i + zlen l else i).
  assert (Hj : 0 <= j < zlen l) by (unfold j; destruct (i <? 0) eqn:E; lia).
  replace ((j <? 0) || (zlen l <=? j)) with false by lia.
  destruct (nth_error l (Z.to_nat j)) as [x|] eqn:E; [eauto|]. apply nth_error_None in E. unfold zlen in Hj. lia.
Qed.
Lemma for_each_raise {A} (f : A -> res unit) l e : for_each f l = Raise e -> exists x, In x l /\ f x = Raise e.
Proof.
  unfold for_each. induction l as [|a l IH]; cbn [mapM bind]; intros H; [discriminate|].
  destruct (f a) as [u|e'] eqn:E; cbn [bind] in H.
  - destruct (mapM f l) as [y|e']; cbn [bind] in *; [discriminate|]. destruct (IH H) as (x & Hx & Ex). exists x. split; [right; exact Hx|exact Ex].
  - exists a. split; [left; reflexivity|]. congruence.
Qed.
Lemma bind_raise {A B} (x : res A) (f : A -> res B) e : bind x f = Raise e -> x = Raise e \/ exists a, x = Ok a /\ f a = Raise e.
Proof. destruct x; cbn [bind]; intros H; [right; eauto|left; congruence]. Qed.
Notation some_error e := (In e [TypeError; AttributeError; KeyError]) (only parsing).
Ltac is_error := cbn [In]; tauto.
Lemma load_labels_raise m e : forall labels ids, load_labels m ids labels = Raise e -> some_error e.
Proof.
  induction labels as [|[[a b] x] r IH]; intros ids H; [discriminate|]. cbn [load_labels] in H.
  destruct ((x <? 0) || (m <=? x)); [injection H as <-; is_error|]. destruct (forallb _ _); [exact (IH _ H)|].
  injection H as <-. is_error.
Qed.
Lemma check_changes_raise durs ch non e : (forall c, In c ch -> 0 <= c) -> check_changes durs ch non = Raise e -> some_error e.
Proof.
  intros Hn. unfold check_changes, change_checks. set (l := filter _ ch). intros H.
  destruct (existsb (fun c => zlen durs <=? c) l) eqn:E1; [injection H as <-; is_error|].
  destruct (existsb (fun c => zlen durs <=? c) non) eqn:E2; [injection H as <-; is_error|].
  destruct (existsb (fun c => existsb (Z.eqb c) non) l) eqn:E3; [injection H as <-; is_error|].
  apply bind_raise in H as [H|(u & _ & H)]; [|discriminate]. apply for_each_raise in H as (c & Hc & H).
  assert (Hlt : c < zlen durs).
  { destruct (Z.lt_ge_cases c (zlen durs)) as [?|?]; [assumption|].
    assert (existsb (fun c => zlen durs <=? c) l = true) by (apply existsb_exists; exists c; split; [exact Hc|lia]). congruence. }
  unfold l in Hc. apply filter_In in Hc as [Hc Hz]. specialize (Hn c Hc).
  destruct (py_nth_total durs (c - 1) ltac:(lia)) as (d & Ed). rewrite Ed in H. cbn [bind] in H. destruct (d =? 0); [|discriminate].
  injection H as <-. is_error.
Qed.
Lemma check_labels_raise ch non ids e : (forall c, In c (ch ++ non) -> 0 <= c < zlen ids) ->
  check_labels ch non ids = Raise e -> some_error e.
Proof.
  intros Hn H. unfold check_labels in H.
  assert (Hi : forall c, In c (ch ++ non) -> exists a b, py_nth ids (c - 1) = Ok a /\ py_nth ids c = Ok b).
  { intros c Hc. specialize (Hn c Hc). destruct (py_nth_total ids (c - 1) ltac:(lia)) as (a & Ea).
    destruct (py_nth_total ids c ltac:(lia)) as (b & Eb). eauto. }
  apply bind_raise in H as [H|(u & _ & H)]; apply for_each_raise in H as (c & Hc & H).
  - destruct (Hi c ltac:(apply in_app_iff; tauto)) as (a & b & Ea & Eb). rewrite Ea, Eb in H. cbn [bind] in H.
    destruct ((a =? b) && negb (b =? -1)); [|discriminate]. injection H as <-. is_error.
  - destruct (Hi c ltac:(apply in_app_iff; tauto)) as (a & b & Ea & Eb). rewrite Ea, Eb in H. cbn [bind] in H.
    destruct (_ && _); [|discriminate]. injection H as <-. is_error.
Qed.
Lemma load_type_raise durs m ch non labels e :
  (forall c, In c (ch ++ non) -> 0 <= c) -> nat_labels labels -> load_type durs m ch non labels = Raise e -> some_error e.
Proof.
  intros Hn Hl H. unfold load_type in H. assert (Hn1 : forall c, In c ch -> 0 <= c) by (intros c Hc; apply Hn, in_app_iff; tauto).
  apply bind_raise in H as [H|(cc & Ec & H)]; [exact (check_changes_raise _ _ _ _ Hn1 H)|].
  apply bind_raise in H as [H|(ids & Ei & H)]; [exact (load_labels_raise _ _ _ _ H)|].
  apply bind_raise in H as [H|(u & Eu & H)]; [|discriminate].
  destruct (proj1 (check_changes_spec durs ch non Hn1) _ Ec) as (-> & C1 & C2).
  destruct (load_loaded _ _ _ _ Hl Ei) as ([L _] & _). refine (check_labels_raise _ _ _ _ _ H).
  intros c Hc. unfold zlen in *. apply in_app_iff in Hc as [Hc|Hc].
  - apply filter_In in Hc as [Hc Hz]. specialize (Hn1 c Hc). destruct (C1 c Hc ltac:(lia)). lia.
  - specialize (C2 c Hc). specialize (Hn c (proj2 (in_app_iff _ _ _) (or_intror Hc))). lia.
Qed.
Lemma validate_errors durs mc mk q e : natural q -> validate durs mc mk q = Raise e -> some_error e.
Proof.
  intros [Nc Nl] H. unfold validate in H.
  assert (N1 : forall c, In c (q_chord_changes q ++ q_chord_non q) -> 0 <= c) by (intros c Hc; apply Nc; rewrite !in_app_iff in *; tauto).
  assert (N2 : forall c, In c (q_key_changes q ++ q_key_non q) -> 0 <= c) by (intros c Hc; apply Nc; rewrite !in_app_iff in *; tauto).
  assert (L1 : nat_labels (q_chords q)) by (intros a b x Hx; apply (Nl a b x), in_app_iff; tauto).
  assert (L2 : nat_labels (q_keys q)) by (intros a b x Hx; apply (Nl a b x), in_app_iff; tauto).
  apply bind_raise in H as [H|([c1 i1] & E1 & H)]; [exact (load_type_raise _ _ _ _ _ _ N1 L1 H)|]. cbn beta iota in H.
  apply bind_raise in H as [H|([c2 i2] & E2 & H)]; [exact (load_type_raise _ _ _ _ _ _ N2 L2 H)|]. cbn beta iota in H.
  apply bind_raise in H as [H|(u & _ & H)]; [|discriminate].
  apply load_type_sound in E1; [|intros c Hc; apply N1, in_app_iff; tauto|intros c Hc; apply N1, in_app_iff; tauto|exact L1].
  apply load_type_sound in E2; [|intros c Hc; apply N2, in_app_iff; tauto|intros c Hc; apply N2, in_app_iff; tauto|exact L2].
  destruct E1 as (K1 & [G1 _] & ->). destruct E2 as (K2 & [G2 _] & ->). unfold check_both in H.
  apply bind_raise in H as [H|(u & _ & H)]; apply for_each_raise in H as (c & Hc & H).
  - destruct (existsb (Z.eqb c) (q_chord_non q)); [injection H as <-; is_error|].
    apply filter_In in Hc as [Hc Hz]. assert (H0 : 0 <= c) by (apply N2, in_app_iff; tauto).
    destruct (proj1 K2 c Hc ltac:(lia)) as [Hlt _]. unfold zlen in Hlt.
    destruct (py_nth_total i1 (c - 1) ltac:(unfold zlen; lia)) as (a & Ea). destruct (py_nth_total i1 c ltac:(unfold zlen; lia)) as (b & Eb).
    rewrite Ea, Eb in H. cbn [bind] in H. destruct (_ && _); [|discriminate]. injection H as <-. is_error.
  - assert (H0 : 0 <= c) by (apply N1, in_app_iff; tauto). destruct (proj1 (proj2 K1) c Hc) as [Hlt _]. unfold zlen in Hlt.
    destruct (py_nth_total i2 (c - 1) ltac:(unfold zlen; lia)) as (a & Ea). destruct (py_nth_total i2 c ltac:(unfold zlen; lia)) as (b & Eb).
    rewrite Ea, Eb in H. cbn [bind] in H. destruct (negb _); [|discriminate]. injection H as <-. is_error.
Qed.

(* what an accepted request is made of *)
Lemma validate_parts durs mc mk q r : validate durs mc mk q = Ok r ->
  load_type durs mc (q_chord_changes q) (q_chord_non q) (q_chords q) = Ok (fst (fst r), snd (fst r))
  /\ load_labels mk (repeat (-1) (length durs)) (q_keys q) = Ok (snd r).
Proof.
  intros H. unfold validate in H. apply bind_ok in H as ([c1 i1] & E1 & H). cbn beta iota in H.
  apply bind_ok in H as ([c2 i2] & E2 & H). cbn beta iota in H. apply bind_ok in H as (u & _ & H). apply Ok_inj in H. subst r.
  cbn [fst snd]. split; [exact E1|]. unfold load_type in E2. apply bind_ok in E2 as (cc & _ & E2).
  apply bind_ok in E2 as (ids & Ei & E2). apply bind_ok in E2 as (u' & _ & E2). apply Ok_inj in E2. congruence.
Qed.

Lemma assign_all_length ps v : forall idx ps' , assign_all ps idx v = Ok ps' -> length ps' = length ps.
Proof.
  intros idx. revert ps. induction idx as [|i r IH]; intros ps ps' H; cbn [assign_all] in H; [apply Ok_inj in H; subst; reflexivity|].
  apply bind_ok in H as (p1 & E & H). rewrite (IH _ _ H). unfold py_upd in E.
  destruct (_ || _); [discriminate|]. apply Ok_inj in E. subst p1. apply upd_nat_length.
Qed.

Lemma harmony_facts g cfg w o durs levels q s : inferred g cfg w o durs levels q s ->
  exists cids kids ps ranges logs rejoins,
    let a := {| probs := ps; change_log := map (n_log w) ps; no_change_log := map (n_log_not w) ps;
                durs := durs; forced_c := cids; forced_k := kids |} in
    let pd := {| p_forced_c := cids; p_forced_k := kids; p_durs := durs; p_levels := levels |} in
    let mc := get_chord_vector_length (g_cpt g) true false (n_inv w) false (n_red w) in
    consistent durs mc (NUM_PITCHES (g_kpt g) * 2) q
    /\ loaded cids (q_chords q) (length durs) /\ loaded kids (q_keys q) (length durs)
    /\ apply_forced_chord_changes (n_one w) (n_change w) (filter (fun c => negb (c =? 0)) (q_chord_changes q)) (q_chord_non q) = Ok ps
    /\ length ps = length durs /\ well_shaped a
    /\ get_chord_ranges cfg a = Ok (ranges, logs, rejoins)
    /\ valid_ranges ranges (length (p_durs pd))
    /\ beam_search g o pd ranges logs rejoins (n_classify w ranges) = Ok (Some s).
Proof.
  intros (Hb & Hcfg & Hlen & Hnat & H). unfold get_harmony in H.
  apply bind_ok in H as ([[cc cids] kids] & V & H). cbn beta iota in H.
  apply bind_ok in H as (ps & Ea & H). apply bind_ok in H as ([[ranges logs] rejoins] & Er & H). cbn beta iota in H.
  destruct (validate_ok _ _ _ _ _ _ _ Hnat V) as (K & L1 & L2 & -> & _).
  assert (Lp : length ps = length durs).
  { unfold apply_forced_chord_changes in Ea. apply bind_ok in Ea as (p1 & E1 & E2).
    rewrite (assign_all_length _ _ _ _ E2), (assign_all_length _ _ _ _ E1). exact Hlen. }
  assert (W : well_shaped {| probs := ps; change_log := map (n_log w) ps; no_change_log := map (n_log_not w) ps;
                durs := durs; forced_c := cids; forced_k := kids |}).
  { unfold well_shaped. cbn. rewrite !map_length. destruct L1 as [L1 _], L2 as [L2 _]. repeat split; congruence. }
  exists cids, kids, ps, ranges, logs, rejoins. cbn zeta. repeat (split; [assumption|]). split; [|exact H].
  intros x y Hxy. destruct (ranges_iff _ _ _ _ _ W Hcfg Er) as (Hin & _). apply Hin in Hxy as [_ (Hse & _)]. cbn in Hse. cbn [p_durs]. lia.
Qed.

(* the end of an assembled chord is the end of a range, its parts are ranges *)
Lemma joined_end crs logs rj pri c a b wt : joined crs logs rj pri c a b wt -> exists a', In (a', b) crs.
Proof. intros [a' b' lg r p pr (i & Hi & _) _|a' b' e w' lg r p pr _ (i & Hi & _) _]; eexists; exact (nth_error_In _ _ Hi). Qed.
Lemma joined_lt crs logs rj pri c n : valid_ranges crs n -> forall a b wt, joined crs logs rj pri c a b wt -> (a < b)%nat.
Proof.
  intros V a b wt H. induction H as [a b lg r p pr (i & Hi & _) _|a b e w' lg r p pr _ IH (i & Hi & _) _];
  assert (Hv := V _ _ (nth_error_In _ _ Hi)); lia.
Qed.
(* an index inside an assembled chord is inside one of its ranges or a junction *)
Lemma joined_inside crs logs rj pri c n : valid_ranges crs n -> forall a b wt, joined crs logs rj pri c a b wt ->
  forall i, (a < i < b)%nat ->
  (exists x y, In (x, y) crs /\ (x < i < y)%nat)
  \/ exists e w1 lg r p, joined crs logs rj pri c a i w1 /\ offered crs logs rj pri i e lg r p /\ (e <= b)%nat.
Proof.
  intros V a b wt H. induction H as [a b lg r p pr (k & Hk & _) _|a b e w' lg r p pr Hj IH Ho _]; intros i Hi.
  - left. exists a, b. split; [exact (nth_error_In _ _ Hk)|exact Hi].
  - destruct Ho as (k & Hk & Ho). assert (Hv := V _ _ (nth_error_In _ _ Hk)). destruct (Nat.lt_trichotomy i b) as [Hlt|[->|Hgt]].
    + destruct (IH i ltac:(lia)) as [L|(e' & w1 & lg' & r' & p' & J & O & Hle)]; [left; exact L|].
      right. exists e', w1, lg', r', p'. repeat (split; [assumption|]). lia.
    + right. exists e, w', lg, r, p. split; [exact Hj|]. split; [exists k; split; assumption|lia].
    + left. exists b, e. split; [exact (nth_error_In _ _ Hk)|lia].
Qed.
(* a change inside the piece is the end of a chord *)
Lemma change_ends {A} (labels : list A) changes n i : segmentation labels changes n -> In i changes -> (0 < i)%nat ->
  exists k x a, nth_error labels k = Some x /\ nth_error changes k = Some a /\ nth_error changes (S k) = Some i.
Proof.
  intros (H1 & H2 & H3 & H4) Hi H0. apply In_nth_error in Hi as (k & Hk).
  destruct k as [|k]; [rewrite H2 in Hk; apply Some_inj in Hk; lia|].
  assert (Hl : (S k < length changes)%nat) by (apply nth_error_Some; congruence).
  destruct (nth_error labels k) as [x|] eqn:Ex; [|apply nth_error_None in Ex; lia].
  destruct (nth_error changes k) as [a|] eqn:Ea; [|apply nth_error_None in Ea; lia].
  exists k, x, a. repeat split; assumption.
Qed.

(* the last input of the onset of input j, if this is not the last onset *)
Lemma onset_end durs : forall m j, (length durs - j <= m)%nat -> (j < length durs)%nat -> ~ last_onset durs j ->
  exists e, (j <= e)%nat /\ (S e < length durs)%nat /\ nth e durs 0 <> 0 /\ forall k, (j <= k < e)%nat -> nth k durs 0 = 0.
Proof.
  induction m as [|m IH]; intros j Hm Hj Hl; [lia|].
  destruct (Nat.eq_dec (S j) (length durs)) as [E|E]; [exfalso; apply Hl; split; [exact Hj|intros k Hk Hk'; lia]|].
  destruct (Z.eq_dec (nth j durs 0) 0) as [Ez|Ez].
  - destruct (IH (S j)) as (e & H1 & H2 & H3 & H4); [lia|lia| |].
    + intros [_ Hs]. apply Hl. split; [exact Hj|]. intros k Hk Hk'. destruct (Nat.eq_dec k j) as [->|]; [exact Ez|apply Hs; lia].
    + exists e. split; [lia|]. split; [exact H2|]. split; [exact H3|]. intros k Hk. destruct (Nat.eq_dec k j) as [->|]; [exact Ez|apply H4; lia].
  - exists j. split; [lia|]. split; [lia|]. split; [exact Ez|]. intros k Hk. lia.
Qed.
Lemma onset_label durs labels x : same_in_onset durs labels -> forall j e, (j <= e)%nat -> (e < length durs)%nat ->
  (forall k, (j <= k < e)%nat -> nth k durs 0 = 0) -> forced_to labels (Z.of_nat j) x -> forced_to labels (Z.of_nat e) x.
Proof.
  intros Hs j e He. induction He as [|e He IH]; intros Hl Hz Hx; [exact Hx|].
  apply (Hs e x Hl); [apply Hz; lia|]. apply IH; [lia| |exact Hx]. intros k Hk. apply Hz. lia.
Qed.
