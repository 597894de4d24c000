From Verif Require Import Model_Ranges Spec_Ranges Proof_Base Proof_Heap.
From Coq Require Import Permutation Sorted.
Ltac Zify.zify_post_hook ::= Z.div_mod_to_equations.
Open Scope nat_scope.

Section P.
Variables (cfg : range_cfg) (a : range_in).
Notation n := (length (probs a)).
Hypothesis shape : well_shaped a.

Notation nheap := (is_heap Z.of_nat 0).
Lemma nlt_score x y : (x <? y) = (Z.of_nat x <? Z.of_nat y)%Z.
Proof. destruct (Nat.ltb_spec x y), (Z.ltb_spec (Z.of_nat x) (Z.of_nat y)); lia. Qed.

(* ---- the mask ---- *)
Lemma mask_length : length (invalid_mask (durs a)) = n.
Proof.
  destruct shape as (_ & _ & Hd & _). rewrite <- Hd. unfold invalid_mask.
  destruct (rev (map (fun d => Z.eqb d 0) (durs a))) as [|x r] eqn:E.
  - apply (f_equal (@length bool)) in E. rewrite rev_length, map_length in E. simpl in E. symmetry. exact E.
  - apply (f_equal (@length bool)) in E. rewrite rev_length, map_length in E. simpl in E.
    simpl. rewrite rev_length. symmetry. exact E.
Qed.
Lemma mask_nth i : 0 < i < n -> nth i (invalid_mask (durs a)) true = Z.eqb (nth (i - 1) (durs a) 0%Z) 0%Z.
Proof.
  intros Hi. destruct shape as (_ & _ & Hd & _). rewrite <- Hd in Hi. unfold invalid_mask.
  destruct (rev (map (fun d => Z.eqb d 0) (durs a))) as [|x r] eqn:E.
  - apply (f_equal (@length bool)) in E. rewrite rev_length, map_length in E. simpl in E. lia.
  - assert (Em : map (fun d => Z.eqb d 0) (durs a) = rev r ++ [x]).
    { rewrite <- (rev_involutive (map _ (durs a))), E. reflexivity. }
    assert (EL : length (durs a) = S (length (rev r))).
    { apply (f_equal (@length bool)) in Em. rewrite map_length, app_length in Em. simpl in Em. lia. }
    destruct i as [|i]; [lia|]. simpl nth. rewrite Nat.sub_0_r.
    change true with (Z.eqb 0 0) at 1. rewrite <- (app_nth1 (rev r) [x]) by lia. rewrite <- Em.
    apply (map_nth (fun d => Z.eqb d 0)).
Qed.
Lemma hget_mask i : 0 < i < n -> hget (invalid_mask (durs a)) i = Ok (negb (onset_atb a i)).
Proof.
  intros Hi. rewrite (hget_ok true) by (rewrite mask_length; lia). rewrite mask_nth by exact Hi.
  unfold onset_atb. destruct (Nat.ltb_spec 0 i); [|lia]. destruct (Nat.ltb_spec i n); [|lia].
  simpl. rewrite negb_involutive. reflexivity.
Qed.
Lemma onset_atb_iff i : onset_atb a i = true <-> onset_at a i.
Proof.
  unfold onset_atb, onset_at. rewrite !andb_true_iff, negb_true_iff, Z.eqb_neq, !Nat.ltb_lt. tauto.
Qed.

(* ---- pure version of the scan ---- *)
Fixpoint walk (k i : nat) (fcs fks : list Z) (lp rd : Z) : list (nat * Z) :=
  match k with
  | O => [(i, lp)]
  | S k' =>
      if negb (onset_atb a i) then walk k' (S i) fcs fks lp rd else
      let fc := nth (i - 1) (forced_c a) (-1)%Z in
      let fk := nth (i - 1) (forced_k a) (-1)%Z in
      let fcs' := if Z.eqb fc (-1) then fcs else set_add fc fcs in
      let fks' := if Z.eqb fk (-1) then fks else set_add fk fks in
      let rd' := (rd + nth (i - 1) (durs a) 0)%Z in
      if negb (Z.eqb fc (-1)) && (1 <? length fcs') then [] else
      if negb (Z.eqb fk (-1)) && (1 <? length fks') then [] else
      if Z.ltb (max_length cfg) rd' then [] else
      if Z.leb (min_change cfg) (prob_at a i) then
        (i, (lp + nth i (change_log a) 0)%Z) ::
        (if Z.ltb (max_no_change cfg) (prob_at a i) then []
         else walk k' (S i) fcs' fks' (lp + nth i (no_change_log a) 0)%Z rd')
      else walk k' (S i) fcs' fks' (lp + nth i (no_change_log a) 0)%Z rd'
  end.

Lemma skipn_cons {A} (l : list A) i d : i < length l -> skipn i l = nth i l d :: skipn (S i) l.
Proof.
  revert i; induction l as [|x l IH]; intros i H; simpl in H; [lia|].
  destruct i; [reflexivity|]. simpl. rewrite (IH i) by lia. destruct l; [simpl in H; lia|reflexivity].
Qed.

Record winv (D : list nat) (w : wl) : Prop := {
  wi_heap : nheap (w_starts w);
  wi_len : length (w_in w) = n;
  wi_mark : forall i, i < n -> (nth i (w_in w) false = true <-> In i (D ++ w_starts w));
  wi_nodup : NoDup (D ++ w_starts w);
  wi_lt : forall i, In i (D ++ w_starts w) -> i < n
}.

Lemma scan_ok s D : forall k i fcs fks lp rd w, 0 < i -> i + k = n -> winv D w ->
  exists w' reached lp' es,
    scan cfg (invalid_mask (durs a)) s i
      (skipn i (probs a)) (skipn i (change_log a)) (skipn i (no_change_log a))
      (skipn (i - 1) (durs a)) (skipn (i - 1) (forced_c a)) (skipn (i - 1) (forced_k a))
      fcs fks lp rd w = Ok (w', reached, lp')
    /\ winv D w'
    /\ (forall x, In x (D ++ w_starts w') <-> In x (D ++ w_starts w) \/ In x (map fst es))
    /\ w_ranges w' = w_ranges w ++ map (fun e => (s, fst e)) es
    /\ w_logs w' = w_logs w ++ map snd es
    /\ walk k i fcs fks lp rd = es ++ (if reached then [(n, lp')] else [])
    /\ (forall e, In e es -> i <= fst e < n).
Proof.
  destruct shape as (Hcl & Hncl & Hd & Hfc & Hfk).
  induction k as [|k IH]; intros i fcs fks lp rd w Hi Hk Hw.
  - rewrite (skipn_all2 (probs a)) by lia. cbn [scan walk].
    exists w, true, lp, []. split; [reflexivity|]. split; [exact Hw|]. simpl. rewrite !app_nil_r.
    split; [tauto|]. split; [reflexivity|]. split; [reflexivity|]. split; [|contradiction].
    replace i with n by lia. reflexivity.
  - rewrite (skipn_cons (probs a) i 0%Z), (skipn_cons (change_log a) i 0%Z),
      (skipn_cons (no_change_log a) i 0%Z), (skipn_cons (durs a) (i - 1) 0%Z),
      (skipn_cons (forced_c a) (i - 1) (-1)%Z), (skipn_cons (forced_k a) (i - 1) (-1)%Z) by lia.
    replace (S (i - 1)) with (S i - 1) by lia.
    cbn [scan walk]. rewrite hget_mask by lia. cbn [bind].
    destruct (negb (onset_atb a i)) eqn:Eo.
    { destruct (IH (S i) fcs fks lp rd w) as (w' & r & lp' & es & E & H1 & H2 & H3 & H4 & H5 & H6); [lia|lia|exact Hw|].
      exists w', r, lp', es. repeat (split; [assumption|]). intros e He. specialize (H6 e He). lia. }
    assert (Hstop : exists w' reached lp' es, Ok (w, false, lp) = Ok (w', reached, lp')
      /\ winv D w' /\ (forall x, In x (D ++ w_starts w') <-> In x (D ++ w_starts w) \/ In x (map fst es))
      /\ w_ranges w' = w_ranges w ++ map (fun e => (s, fst e)) es
      /\ w_logs w' = w_logs w ++ map snd es
      /\ [] = es ++ (if reached then [(n, lp')] else [])
      /\ (forall e : nat * Z, In e es -> i <= fst e < n)).
    { exists w, false, lp, []. split; [reflexivity|]. split; [exact Hw|]. simpl. rewrite !app_nil_r. intuition. }
    set (fc := nth (i - 1) (forced_c a) (-1)%Z). set (fk := nth (i - 1) (forced_k a) (-1)%Z).
    set (fcs' := if Z.eqb fc (-1) then fcs else set_add fc fcs).
    set (fks' := if Z.eqb fk (-1) then fks else set_add fk fks).
    destruct (negb (Z.eqb fc (-1)) && (1 <? length fcs')); [exact Hstop|].
    destruct (negb (Z.eqb fk (-1)) && (1 <? length fks')); [exact Hstop|].
    set (rd' := (rd + nth (i - 1) (durs a) 0)%Z).
    destruct (Z.ltb (max_length cfg) rd'); [exact Hstop|]. clear Hstop.
    fold (prob_at a i). destruct (Z.leb (min_change cfg) (prob_at a i)).
    + destruct Hw as [Wh Wl Wm Wn Wt].
      rewrite (hget_ok false) by lia. cbn [bind].
      set (lc := (lp + nth i (change_log a) 0)%Z).
      assert (K : exists st', (if nth i (w_in w) false then Ok (w_starts w)
                 else heappush Nat.ltb (w_starts w) i) = Ok st'
          /\ winv D {| w_starts := st'; w_in := if nth i (w_in w) false then w_in w else upd_nat (w_in w) i true;
                      w_ranges := w_ranges w ++ [(s, i)]; w_logs := w_logs w ++ [lc] |}
          /\ (forall x, In x (D ++ st') <-> In x (D ++ w_starts w) \/ x = i)).
      { destruct (nth i (w_in w) false) eqn:Em.
        - exists (w_starts w). split; [reflexivity|]. apply (Wm i ltac:(lia)) in Em. split.
          + constructor; assumption.
          + intros x. split; [auto|]. intros [H| ->]; assumption.
        - destruct (heappush_correct Z.of_nat Nat.ltb nlt_score 0 (w_starts w) i Wh) as (st' & E & Hh & HP).
          exists st'. split; [exact E|].
          assert (HP' : Permutation (D ++ st') (i :: D ++ w_starts w)).
          { rewrite HP. symmetry. apply Permutation_middle. }
          assert (Hni : ~ In i (D ++ w_starts w)).
          { intros H. apply (Wm i ltac:(lia)) in H. congruence. }
          assert (Hin : forall x, In x (D ++ st') <-> In x (D ++ w_starts w) \/ x = i).
          { intros x. split; intros H.
            - apply (Permutation_in _ HP') in H as [->|H]; auto.
            - apply (Permutation_in _ (Permutation_sym HP')). destruct H as [H| ->]; [right; exact H|left; reflexivity]. }
          split; [|exact Hin]. constructor; cbn [w_starts w_in].
          + exact Hh.
          + rewrite upd_nat_length. exact Wl.
          + intros j Hj. rewrite (nth_upd false) by lia. rewrite Hin. destruct (Nat.eqb_spec i j) as [->|Hne].
            * split; auto.
            * rewrite (Wm j Hj). split; [auto|]. intros [H|H]; [exact H|congruence].
          + apply (Permutation_NoDup (Permutation_sym HP')). constructor; assumption.
          + intros j Hj. apply Hin in Hj as [Hj| ->]; [auto|lia]. }
      destruct K as (st' & Est & Hw1 & Hin1). rewrite Est. cbn [bind]. fold lc.
      destruct (Z.ltb (max_no_change cfg) (prob_at a i)).
      * eexists _, false, lp, [(i, lc)]. split; [reflexivity|]. split; [exact Hw1|].
        split; [intros x; cbn [w_starts]; rewrite Hin1; simpl; intuition|].
        split; [reflexivity|]. split; [reflexivity|]. split; [reflexivity|].
        intros e [<-|[]]. simpl. lia.
      * match goal with |- context [scan _ _ _ _ _ _ _ _ _ _ _ _ _ _ ?w1] => set (w1' := w1) in * end.
        destruct (IH (S i) fcs' fks' (lp + nth i (no_change_log a) 0)%Z rd' w1') as (w' & r & lp' & es & E & H1 & H2 & H3 & H4 & H5 & H6); [lia|lia|exact Hw1|].
        exists w', r, lp', ((i, lc) :: es). split; [exact E|]. split; [exact H1|].
        split; [|split; [|split; [|split]]].
        -- intros x. rewrite H2. unfold w1' at 1. cbn [w_starts]. rewrite Hin1. simpl. intuition.
        -- rewrite H3. unfold w1'. cbn [w_ranges]. rewrite <- app_assoc. reflexivity.
        -- rewrite H4. unfold w1'. cbn [w_logs]. rewrite <- app_assoc. reflexivity.
        -- rewrite H5. reflexivity.
        -- intros e [<-|He]; [simpl; lia|]. specialize (H6 e He). lia.
    + destruct (IH (S i) fcs' fks' (lp + nth i (no_change_log a) 0)%Z rd' w) as (w' & r & lp' & es & E & H1 & H2 & H3 & H4 & H5 & H6); [lia|lia|exact Hw|].
      exists w', r, lp', es. repeat (split; [assumption|]). intros e He. specialize (H6 e He). lia.
Qed.

Definition walk_from (s : nat) : list (nat * Z) :=
  walk (n - S s) (S s) [] [] 0%Z (if s =? 0 then nth 0 (durs a) 0%Z else 0%Z).

(* ---- the outer loop ---- *)
Record oinv (D : list nat) (w : wl) : Prop := {
  oi_w : winv D w;
  oi_sort : StronglySorted (fun x y => x < y) D;
  oi_gt : forall x y, In x D -> In y (w_starts w) -> x < y;
  oi_ranges : w_ranges w = flat_map (fun s => map (fun e => (s, fst e)) (walk_from s)) D;
  oi_logs : w_logs w = flat_map (fun s => map snd (walk_from s)) D;
  oi_closed : forall s e, In s D -> In e (map fst (walk_from s)) -> e < n -> In e (D ++ w_starts w);
  oi_reach : forall x, In x (D ++ w_starts w) -> x = 0 \/ exists s, In s D /\ In x (map fst (walk_from s)) /\ x < n;
  oi_zero : In 0 (D ++ w_starts w)
}.

Lemma sorted_snoc D x : StronglySorted (fun x y => x < y) D -> (forall y, In y D -> y < x) ->
  StronglySorted (fun x y => x < y) (D ++ [x]).
Proof.
  induction 1 as [|y D Hs IH Hf]; intros H; simpl; [constructor; constructor|].
  constructor.
  - apply IH. intros z Hz. apply H. right; exact Hz.
  - apply Forall_app. split; [exact Hf|]. constructor; [apply H; left; reflexivity|constructor].
Qed.

Lemma loop_ok : forall fuel D w, oinv D w -> n < fuel + length D ->
  exists D' w', ranges_loop fuel cfg a w = Ok w' /\ oinv D' w' /\ w_starts w' = [].
Proof.
  induction fuel as [|fuel IH]; intros D w Ho Hf.
  - (* no fuel: D would have more than n distinct elements below n *)
    exfalso. destruct Ho as [[_ _ _ Wn Wt] _ _ _ _ _ _ _].
    assert (length (D ++ w_starts w) <= n).
    { rewrite <- (seq_length n 0). apply NoDup_incl_length; [exact Wn|]. intros x Hx. apply in_seq. specialize (Wt x Hx). lia. }
    rewrite app_length in H. lia.
  - cbn [ranges_loop]. destruct (w_starts w) as [|s0 r0] eqn:Es.
    { exists D, w. auto. }
    destruct Ho as [Hw Hsort Hgt Hr Hl Hcl Hre Hz]. rewrite Es in *.
    destruct Hw as [Wh Wl Wm Wn Wt]. rewrite Es in *.
    destruct (heappop_correct Z.of_nat Nat.ltb nlt_score 0 (s0 :: r0) s0 r0 Wh eq_refl) as (st & E & Hh & HP).
    rewrite E. cbn [bind].
    pose proof (heap_min Z.of_nat 0 (s0 :: r0) s0 r0 Wh eq_refl) as Hmin.
    assert (Hs0 : s0 < n) by (apply Wt, in_app_iff; right; left; reflexivity).
    assert (Ed : (if s0 =? 0 then hget (durs a) s0 else Ok 0%Z) = Ok (if s0 =? 0 then nth 0 (durs a) 0%Z else 0%Z)).
    { destruct (Nat.eqb_spec s0 0) as [->|]; [|reflexivity]. apply hget_ok. destruct shape as (_ & _ & Hd & _). lia. }
    rewrite Ed. cbn [bind].
    set (w1 := {| w_starts := st; w_in := w_in w; w_ranges := w_ranges w; w_logs := w_logs w |}).
    assert (HPD : Permutation ((D ++ [s0]) ++ st) (D ++ s0 :: r0)).
    { rewrite <- app_assoc. simpl. apply Permutation_app_head. exact HP. }
    assert (Hw1 : winv (D ++ [s0]) w1).
    { constructor; cbn [w1 w_starts w_in].
      - exact Hh.
      - exact Wl.
      - intros i Hi. rewrite (Wm i Hi). split; intros H; [apply (Permutation_in _ (Permutation_sym HPD)), H|apply (Permutation_in _ HPD), H].
      - exact (Permutation_NoDup (Permutation_sym HPD) Wn).
      - intros i Hi. apply Wt. apply (Permutation_in _ HPD), Hi. }
    destruct (scan_ok s0 (D ++ [s0]) (n - S s0) (S s0) [] [] 0%Z (if s0 =? 0 then nth 0 (durs a) 0%Z else 0%Z) w1)
      as (w' & reached & lp' & es & E2 & Hw' & Hin & Hr' & Hl' & Ewalk & Hes); [lia|lia|exact Hw1|].
    replace (S s0 - 1) with s0 in E2 by lia.
    rewrite E2. cbn [bind].
    set (w2 := if reached then _ else w').
    assert (Es2 : w_starts w2 = w_starts w' /\ w_in w2 = w_in w') by (unfold w2; destruct reached; auto).
    destruct Es2 as [Es2 Ei2].
    fold (walk_from s0) in Ewalk.
    destruct (IH (D ++ [s0]) w2) as (D' & wf & Ef & Hof & Hnil); [|rewrite app_length; simpl; lia|exists D', wf; auto].
    assert (Hdis : forall x, In x (w_starts w') -> ~ In x (D ++ [s0])).
    { intros x Hx HxD. destruct Hw' as [_ _ _ Hn _]. apply in_split in HxD as (l1 & l2 & El).
      rewrite El in Hn. rewrite <- app_assoc in Hn. simpl in Hn. apply NoDup_remove_2 in Hn. apply Hn.
      rewrite !in_app_iff. auto. }
    constructor.
    + destruct Hw' as [A1 A2 A3 A4 A5]. constructor; rewrite ?Es2, ?Ei2; assumption.
    + apply sorted_snoc; [exact Hsort|]. intros y Hy. apply (Hgt y s0 Hy). left; reflexivity.
    + intros x y Hx Hy. rewrite Es2 in Hy.
      assert (Hy2 : In y ((D ++ [s0]) ++ st) \/ In y (map fst es)) by (apply Hin, in_app_iff; right; exact Hy).
      pose proof (Hdis y Hy) as HyD.
      assert (Hys : s0 < y).
      { destruct Hy2 as [Hy2|Hy2].
        - apply in_app_iff in Hy2 as [Hy2|Hy2]; [contradiction|].
          assert (In y (s0 :: r0)) as Hyr by (apply (Permutation_in _ HP); right; exact Hy2).
          specialize (Hmin y Hyr). assert (y <> s0) by (intros ->; apply HyD, in_app_iff; right; left; reflexivity). lia.
        - apply in_map_iff in Hy2 as (e & <- & He). specialize (Hes e He). lia. }
      apply in_app_iff in Hx as [Hx|[<-|[]]]; [|exact Hys].
      specialize (Hgt x s0 Hx (or_introl eq_refl)). lia.
    + rewrite flat_map_app. simpl. rewrite app_nil_r, <- Hr, Ewalk, map_app, app_assoc.
      change (w_ranges w) with (w_ranges w1). rewrite <- Hr'. unfold w2. destruct reached; cbn [w_ranges map]; [reflexivity|rewrite app_nil_r; reflexivity].
    + rewrite flat_map_app. simpl. rewrite app_nil_r, <- Hl, Ewalk, map_app, app_assoc.
      change (w_logs w) with (w_logs w1). rewrite <- Hl'. unfold w2. destruct reached; cbn [w_logs map]; [reflexivity|rewrite app_nil_r; reflexivity].
    + intros s e Hs He Hen. rewrite Es2. apply Hin. apply in_app_iff in Hs as [Hs|[<-|[]]].
      * left. apply (Permutation_in _ (Permutation_sym HPD)). eapply Hcl; eauto.
      * right. rewrite Ewalk, map_app in He. apply in_app_iff in He as [He|He]; [exact He|].
        destruct reached; simpl in He; [destruct He as [He|[]]; lia|contradiction].
    + intros x Hx. rewrite Es2 in Hx. apply Hin in Hx as [Hx|Hx].
      * apply (Permutation_in _ HPD) in Hx. destruct (Hre x Hx) as [->|(s & H1 & H2 & H3)]; [auto|].
        right. exists s. rewrite in_app_iff. auto.
      * right. exists s0. split; [apply in_app_iff; right; left; reflexivity|]. split.
        -- rewrite Ewalk, map_app, in_app_iff. left. exact Hx.
        -- apply in_map_iff in Hx as (e & <- & He). specialize (Hes e He). lia.
    + rewrite Es2. apply Hin. left. apply (Permutation_in _ (Permutation_sym HPD)). exact Hz.
Qed.

(* ---- what the walk yields ---- *)
Lemma walk_ge k i fcs fks lp rd e : In e (walk k i fcs fks lp rd) -> i <= fst e <= i + k.
Proof.
  revert i fcs fks lp rd; induction k as [|k IH]; intros i fcs fks lp rd; cbn [walk].
  - intros [<-|[]]. simpl. lia.
  - repeat match goal with |- context [if ?b then _ else _] => destruct b end;
      intros H; try contradiction;
      try (apply IH in H; lia);
      (destruct H as [<-|H]; [simpl; lia|try contradiction; apply IH in H; lia]).
Qed.

Lemma walk_sorted k i fcs fks lp rd : StronglySorted (fun x y => x < y) (map fst (walk k i fcs fks lp rd)).
Proof.
  revert i fcs fks lp rd; induction k as [|k IH]; intros i fcs fks lp rd; cbn [walk].
  - repeat constructor.
  - repeat match goal with |- context [if ?b then _ else _] => destruct b end; simpl; try (constructor; fail); auto;
    (constructor; [try constructor; apply IH|]; try (constructor; fail); apply Forall_forall; intros x Hx; apply in_map_iff in Hx as (e & <- & He); apply walk_ge in He; lia).
Qed.

(* the two forced sets: at most one label seen so far *)
Definition labels_ok (forced acc : list Z) (i e : nat) : Prop :=
  forall x y, (In x acc \/ exists j, onset_at a j /\ i <= j <= e /\ x = nth (j - 1) forced (-1)%Z /\ x <> (-1)%Z) ->
              (In y acc \/ exists j, onset_at a j /\ i <= j <= e /\ y = nth (j - 1) forced (-1)%Z /\ y <> (-1)%Z) -> x = y.

Lemma labels_skip forced acc i e : ~ onset_at a i -> i <= e -> labels_ok forced acc i e <-> labels_ok forced acc (S i) e.
Proof.
  intros Hn Hie.
  assert (K : forall x, (exists j, onset_at a j /\ i <= j <= e /\ x = nth (j - 1) forced (-1)%Z /\ x <> (-1)%Z)
    <-> (exists j, onset_at a j /\ S i <= j <= e /\ x = nth (j - 1) forced (-1)%Z /\ x <> (-1)%Z)).
  { intros x. split; intros (j & H1 & H2 & H3 & H4); exists j; (split; [exact H1|]); (split; [|split; assumption]).
    - assert (j <> i) by (intros ->; contradiction). lia.
    - lia. }
  unfold labels_ok. setoid_rewrite K. reflexivity.
Qed.

Lemma set_add_in x y s : In y (set_add x s) <-> y = x \/ In y s.
Proof.
  unfold set_add. destruct (existsb (Z.eqb x) s) eqn:E.
  - apply existsb_exists in E as (z & Hz & Ez). apply Z.eqb_eq in Ez. subst z. split; [auto|]. intros [->|H]; auto.
  - simpl. split; intros [H|H]; auto.
Qed.
Lemma set_add_nodup x s : NoDup s -> NoDup (set_add x s).
Proof.
  unfold set_add. destruct (existsb (Z.eqb x) s) eqn:E; [auto|]. intros H. constructor; [|exact H].
  intros Hi. assert (existsb (Z.eqb x) s = true); [|congruence]. apply existsb_exists. exists x. split; [exact Hi|apply Z.eqb_refl].
Qed.
Lemma small_set s : NoDup s -> (length s <= 1 <-> forall x y : Z, In x s -> In y s -> x = y).
Proof.
  intros H. split.
  - intros Hl x y Hx Hy. destruct s as [|z [|z' s]]; simpl in *; [contradiction| |lia].
    destruct Hx as [<-|[]], Hy as [<-|[]]. reflexivity.
  - intros Ha. destruct s as [|z [|z' s]]; simpl; try lia. exfalso.
    inversion H as [|? ? Hn Hd]; subst. apply Hn. rewrite (Ha z z'); simpl; auto.
Qed.

Lemma labels_step forced acc i e fc : onset_at a i -> i <= e -> NoDup acc ->
  fc = nth (i - 1) forced (-1)%Z -> length acc <= 1 ->
  let acc' := if Z.eqb fc (-1) then acc else set_add fc acc in
  NoDup acc' /\
  ((negb (Z.eqb fc (-1)) && (1 <? length acc')) = true -> ~ labels_ok forced acc i e) /\
  ((negb (Z.eqb fc (-1)) && (1 <? length acc')) = false -> length acc' <= 1 /\ (labels_ok forced acc i e <-> labels_ok forced acc' (S i) e)).
Proof.
  intros Ho Hie Hnd Efc Hlen acc'.
  assert (Hnd' : NoDup acc') by (unfold acc'; destruct (Z.eqb fc (-1)); [exact Hnd|apply set_add_nodup, Hnd]).
  assert (K : forall x, (In x acc \/ exists j, onset_at a j /\ i <= j <= e /\ x = nth (j - 1) forced (-1)%Z /\ x <> (-1)%Z)
     <-> (In x acc' \/ exists j, onset_at a j /\ S i <= j <= e /\ x = nth (j - 1) forced (-1)%Z /\ x <> (-1)%Z)).
  { intros x. unfold acc'. destruct (Z.eqb_spec fc (-1)) as [E|E].
    - split; (intros [H|(j & H1 & H2 & H3 & H4)]; [left; exact H|right; exists j; (split; [exact H1|]); (split; [|split; assumption])]).
      + assert (j <> i) by (intros ->; congruence). lia.
      + lia.
    - rewrite set_add_in. split.
      + intros [H|(j & H1 & H2 & H3 & H4)]; [left; right; exact H|].
        destruct (Nat.eq_dec j i) as [->|Hne]; [left; left; congruence|].
        right. exists j. split; [exact H1|]. split; [lia|split; assumption].
      + intros [[->|H]|(j & H1 & H2 & H3 & H4)]; [|left; exact H|].
        * right. exists i. split; [exact Ho|]. split; [lia|]. split; assumption.
        * right. exists j. split; [exact H1|]. split; [lia|]. split; assumption. }
  split; [exact Hnd'|]. split.
  - intros E Hok. apply andb_true_iff in E as [_ E]. apply Nat.ltb_lt in E.
    assert (length acc' <= 1); [|lia]. apply small_set; [exact Hnd'|].
    intros x y Hx Hy. apply Hok; apply K; left; assumption.
  - intros E. split; [|unfold labels_ok; setoid_rewrite K; reflexivity].
    unfold acc' in *. destruct (Z.eqb fc (-1)); [exact Hlen|]. simpl in E. apply Nat.ltb_ge in E. exact E.
Qed.

Definition dur_ok (i e : nat) (rd : Z) : Prop :=
  forall j, onset_at a j -> i <= j <= e -> (rd + zsum (firstn (j - (i - 1)) (skipn (i - 1) (durs a))) <= max_length cfg)%Z.

Lemma zsum_step i j : 0 < i -> i <= j -> i <= n ->
  zsum (firstn (j - (i - 1)) (skipn (i - 1) (durs a)))
  = (nth (i - 1) (durs a) 0 + zsum (firstn (j - i) (skipn i (durs a))))%Z.
Proof.
  intros H0 Hj Hn. destruct shape as (_ & _ & Hd & _).
  rewrite (skipn_cons (durs a) (i - 1) 0%Z) by lia. replace (S (i - 1)) with i by lia.
  replace (j - (i - 1)) with (S (j - i)) by lia. reflexivity.
Qed.

Definition good (i : nat) (fcs fks : list Z) (lp rd : Z) (e : nat) (l : Z) : Prop :=
   i <= e <= n
   /\ (e < n -> onset_at a e /\ (min_change cfg <= prob_at a e)%Z)
   /\ (forall j, onset_at a j -> i <= j < e ->
        ~ ((min_change cfg <= prob_at a j)%Z /\ (max_no_change cfg < prob_at a j)%Z))
   /\ labels_ok (forced_c a) fcs i e /\ labels_ok (forced_k a) fks i e
   /\ dur_ok i e rd
   /\ l = (lp + (zsum (map (fun j => if onset_atb a j then nth j (no_change_log a) 0%Z else 0%Z) (seq i (e - i)))
           + if (e <? n)%nat then nth e (change_log a) 0%Z else 0%Z))%Z.

Lemma good_skip i fcs fks lp rd e l : 0 < i < n -> ~ onset_at a i ->
  (good i fcs fks lp rd e l <-> good (S i) fcs fks lp rd e l).
Proof.
  intros Hi Hn.
  assert (H0 : nth (i - 1) (durs a) 0%Z = 0%Z).
  { destruct (Z.eq_dec (nth (i - 1) (durs a) 0%Z) 0%Z) as [E|E]; [exact E|]. exfalso. apply Hn. split; auto. }
  assert (Hb : onset_atb a i = false) by (destruct (onset_atb a i) eqn:E; [apply onset_atb_iff in E; contradiction|reflexivity]).
  assert (Hlog : i < e -> zsum (map (fun j => if onset_atb a j then nth j (no_change_log a) 0%Z else 0%Z) (seq i (e - i)))
     = zsum (map (fun j => if onset_atb a j then nth j (no_change_log a) 0%Z else 0%Z) (seq (S i) (e - S i)))).
  { intros Hie. replace (e - i) with (S (e - S i)) by lia. cbn [seq map zsum]. rewrite Hb. lia. }
  assert (Hdur : dur_ok i e rd <-> dur_ok (S i) e rd).
  { unfold dur_ok. split; intros H j Ho Hj.
    - specialize (H j Ho ltac:(lia)). rewrite zsum_step, H0 in H by lia. replace (S i - 1) with i by lia. lia.
    - assert (j <> i) by (intros ->; contradiction). specialize (H j Ho ltac:(lia)).
      replace (S i - 1) with i in H by lia. rewrite zsum_step, H0 by lia. lia. }
  unfold good. split.
  - intros (H1 & H2 & H3 & H4 & H5 & H6 & H7).
    assert (Hie : i < e).
    { destruct (Nat.eq_dec e i) as [->|]; [|lia]. exfalso. apply Hn. apply H2. lia. }
    split; [lia|]. split; [exact H2|]. split; [intros j Hj Hr; apply H3; [exact Hj|lia]|].
    rewrite <- !labels_skip by (auto; lia). rewrite <- Hdur, <- Hlog by exact Hie. auto.
  - intros (H1 & H2 & H3 & H4 & H5 & H6 & H7).
    rewrite <- !labels_skip in * by (auto; lia).
    split; [lia|]. split; [exact H2|]. split; [|rewrite Hdur, Hlog by lia; auto].
    intros j Hj Hr. apply H3; [exact Hj|]. assert (j <> i) by (intros ->; contradiction). lia.
Qed.

Lemma walk_spec : forall k i fcs fks lp rd e l, 0 < i -> i + k = n ->
  NoDup fcs -> NoDup fks -> length fcs <= 1 -> length fks <= 1 ->
  (In (e, l) (walk k i fcs fks lp rd) <-> good i fcs fks lp rd e l).
Proof.
  induction k as [|k IH]; intros i fcs fks lp rd e l Hi Hk Nc Nk Lc Lk.
  - cbn [walk]. unfold good. split.
    + intros [[= <- <-]|[]]. split; [lia|]. split; [lia|]. split; [intros j Ho Hj; lia|].
      assert (G : forall forced acc, NoDup acc -> length acc <= 1 -> labels_ok forced acc i i).
      { intros forced acc Hn Hl x y Hx Hy.
        destruct Hx as [Hx|(j & Ho & Hj & _)]; [|destruct Ho; lia]. destruct Hy as [Hy|(j & Ho & Hj & _)]; [|destruct Ho; lia].
        apply (proj1 (small_set acc Hn) Hl); assumption. }
      split; [apply G; assumption|]. split; [apply G; assumption|]. split; [intros j Ho Hj; destruct Ho; lia|].
      rewrite Nat.sub_diag. cbn [seq map zsum]. destruct (Nat.ltb_spec i n); lia.
    + intros (H1 & _ & _ & _ & _ & _ & H7). left. assert (e = i) by lia. subst e.
      rewrite Nat.sub_diag in H7. cbn [seq map zsum] in H7. destruct (Nat.ltb_spec i n); [lia|]. f_equal. lia.
  - cbn [walk]. destruct (onset_atb a i) eqn:Eo; cbn [negb].
    2: { rewrite good_skip; [|lia|intros H; apply onset_atb_iff in H; congruence].
         apply IH; auto; lia. }
    pose proof (proj1 (onset_atb_iff i) Eo) as Ho.
    set (fc := nth (i - 1) (forced_c a) (-1)%Z). set (fk := nth (i - 1) (forced_k a) (-1)%Z).
    set (fcs' := if Z.eqb fc (-1) then fcs else set_add fc fcs).
    set (fks' := if Z.eqb fk (-1) then fks else set_add fk fks).
    set (rd' := (rd + nth (i - 1) (durs a) 0)%Z).
    pose proof (fun e H => labels_step (forced_c a) fcs i e fc Ho H Nc eq_refl Lc) as Sc.
    pose proof (fun e H => labels_step (forced_k a) fks i e fk Ho H Nk eq_refl Lk) as Sk.
    cbv zeta in Sc, Sk. fold fcs' in Sc. fold fks' in Sk.
    destruct (negb (Z.eqb fc (-1)) && (1 <? length fcs')) eqn:Ec.
    { split; [contradiction|]. intros (H1 & _ & _ & H4 & _). exfalso. apply (Sc e ltac:(lia)); auto. }
    destruct (negb (Z.eqb fk (-1)) && (1 <? length fks')) eqn:Ek.
    { split; [contradiction|]. intros (H1 & _ & _ & _ & H5 & _). exfalso. apply (Sk e ltac:(lia)); auto. }
    assert (Hself : zsum (firstn (i - (i - 1)) (skipn (i - 1) (durs a))) = nth (i - 1) (durs a) 0%Z).
    { rewrite zsum_step by lia. rewrite Nat.sub_diag. cbn [firstn zsum]. lia. }
    destruct (Z.ltb_spec (max_length cfg) rd') as [Ed|Ed].
    { split; [contradiction|]. intros (H1 & _ & _ & _ & _ & H6 & _). exfalso.
      specialize (H6 i Ho ltac:(lia)). rewrite Hself in H6. unfold rd' in Ed. lia. }
    assert (Hstep : i < e -> ~ ((min_change cfg <= prob_at a i)%Z /\ (max_no_change cfg < prob_at a i)%Z) ->
       (good i fcs fks lp rd e l <-> good (S i) fcs' fks' (lp + nth i (no_change_log a) 0)%Z rd' e l)).
    { intros Hie Hnm.
      destruct (Sc e ltac:(lia)) as (_ & _ & Sc3). destruct (Sc3 eq_refl) as [_ Sc4].
      destruct (Sk e ltac:(lia)) as (_ & _ & Sk3). destruct (Sk3 eq_refl) as [_ Sk4].
      assert (Hdur : dur_ok i e rd <-> dur_ok (S i) e rd').
      { unfold dur_ok. split; intros H j Hoj Hj.
        - specialize (H j Hoj ltac:(lia)). rewrite zsum_step in H by lia. replace (S i - 1) with i by lia. unfold rd'. lia.
        - destruct (Nat.eq_dec j i) as [->|Hne]; [rewrite Hself; unfold rd' in Ed; lia|].
          specialize (H j Hoj ltac:(lia)). replace (S i - 1) with i in H by lia. rewrite zsum_step by lia. unfold rd' in H. lia. }
      unfold good. rewrite Sc4, Sk4, Hdur. replace (e - i) with (S (e - S i)) by lia. cbn [seq map zsum]. rewrite Eo.
      split; intros (H1 & H2 & H3 & H4 & H5 & H6 & H7); (split; [lia|]); (split; [exact H2|]); (split; [|split; [exact H4|split; [exact H5|split; [exact H6|lia]]]]).
      - intros j Hj Hr. apply H3; [exact Hj|lia].
      - intros j Hj Hr. destruct (Nat.eq_dec j i) as [->|Hne]; [exact Hnm|]. apply H3; [exact Hj|lia]. }
    assert (HIH : In (e, l) (walk k (S i) fcs' fks' (lp + nth i (no_change_log a) 0)%Z rd') <->
       good (S i) fcs' fks' (lp + nth i (no_change_log a) 0)%Z rd' e l).
    { destruct (Sc i (le_n i)) as (Sc1 & _ & Sc3). destruct (Sc3 eq_refl) as [Sc5 _].
      destruct (Sk i (le_n i)) as (Sk1 & _ & Sk3). destruct (Sk3 eq_refl) as [Sk5 _]. apply IH; auto; lia. }
    assert (Heq : e = i -> (min_change cfg <= prob_at a i)%Z ->
        (good i fcs fks lp rd e l <-> l = (lp + nth i (change_log a) 0)%Z)).
    { intros -> Hm. unfold good. rewrite Nat.sub_diag. cbn [seq map zsum]. destruct (Nat.ltb_spec i n); [|lia].
      split; [intros (_ & _ & _ & _ & _ & _ & H7); lia|]. intros ->. split; [lia|]. split; [auto|].
      split; [intros j Hj Hr; lia|].
      split; [|split; [|split; [|lia]]].
      - destruct (Sc i (le_n i)) as (Sc1 & _ & Sc3). destruct (Sc3 eq_refl) as [Sc5 Sc4]. rewrite Sc4.
        intros x y Hx Hy. destruct Hx as [Hx|(j & Hoj & Hj & _)]; [|lia]. destruct Hy as [Hy|(j & Hoj & Hj & _)]; [|lia].
        apply (proj1 (small_set fcs' Sc1) Sc5); assumption.
      - destruct (Sk i (le_n i)) as (Sk1 & _ & Sk3). destruct (Sk3 eq_refl) as [Sk5 Sk4]. rewrite Sk4.
        intros x y Hx Hy. destruct Hx as [Hx|(j & Hoj & Hj & _)]; [|lia]. destruct Hy as [Hy|(j & Hoj & Hj & _)]; [|lia].
        apply (proj1 (small_set fks' Sk1) Sk5); assumption.
      - intros j Hj Hr. assert (j = i) by lia. subst j. rewrite Hself. unfold rd' in Ed. lia. }
    destruct (Z.leb_spec (min_change cfg) (prob_at a i)) as [Em|Em].
    + cbn [In].
      destruct (Nat.eq_dec e i) as [He|He].
      * rewrite (Heq He Em). subst e. split.
        -- intros [[= <-]|H]; [reflexivity|exfalso].
           destruct (Z.ltb (max_no_change cfg) (prob_at a i)); [contradiction|]. apply walk_ge in H. simpl in H. lia.
        -- intros ->. left; reflexivity.
      * split.
        -- intros [[= H _]|H]; [congruence|].
           destruct (Z.ltb_spec (max_no_change cfg) (prob_at a i)) as [Ex|Ex]; [contradiction|].
           pose proof (walk_ge _ _ _ _ _ _ _ H) as Hge. simpl in Hge. apply Hstep; [lia|lia|]. apply HIH, H.
        -- intros H. right. assert (Hie : i < e) by (destruct H as (H1 & _); lia).
           destruct (Z.ltb_spec (max_no_change cfg) (prob_at a i)) as [Ex|Ex].
           ++ exfalso. destruct H as (H1 & H2 & H3 & _). apply (H3 i Ho); [lia|auto].
           ++ apply HIH, Hstep; [exact Hie|lia|exact H].
    + split.
      * intros H. pose proof (walk_ge _ _ _ _ _ _ _ H) as Hge. simpl in Hge. apply Hstep; [lia|lia|]. apply HIH, H.
      * intros H. destruct (Nat.eq_dec e i) as [->|He].
        -- exfalso. destruct H as (H1 & H2 & _). destruct (H2 ltac:(lia)). lia.
        -- assert (Hie : i < e) by (destruct H as (H1 & _); lia). apply HIH, Hstep; [exact Hie|lia|exact H].
Qed.

Hypothesis thresholds : (min_change cfg <= max_no_change cfg)%Z.

Lemma walk_from_spec s e l : s < n ->
  (In (e, l) (walk_from s) <-> admissible cfg a s e /\ l = log_of a s e).
Proof.
  intros Hs. unfold walk_from. rewrite walk_spec; [|lia|lia|constructor|constructor|simpl; lia|simpl; lia].
  unfold good, admissible, log_of.
  assert (L : forall forced, labels_ok forced [] (S s) e <-> one_label a forced s e).
  { intros forced. unfold labels_ok, one_label. split.
    - intros H i j Hi Hj Ri Rj Fi Fj. apply H; right; [exists i|exists j]; (split; [assumption|]; split; [lia|]; split; [reflexivity|assumption]).
    - intros H x y [[]|(i & Hi & Ri & -> & Fi)] [[]|(j & Hj & Rj & -> & Fj)]. apply H; auto; lia. }
  rewrite !L. unfold dur_ok, counted, span.
  assert (Dk : (forall j, onset_at a j -> S s <= j <= e ->
     ((if (s =? 0)%nat then nth 0 (durs a) 0 else 0) + zsum (firstn (j - (S s - 1)) (skipn (S s - 1) (durs a))) <= max_length cfg)%Z)
     <-> (forall i, onset_at a i -> s < i <= e ->
     ((if (s =? 0)%nat then nth 0 (durs a) 0 else 0) + zsum (firstn (i - s) (skipn s (durs a))) <= max_length cfg)%Z)).
  { replace (S s - 1) with s by lia. split; intros H j Hj Hr; apply H; auto; lia. }
  rewrite Dk. rewrite Z.add_0_l.
  split.
  - intros (H1 & H2 & H3 & H4 & H5 & H6 & H7). split; [|exact H7].
    split; [lia|]. split; [exact H2|]. split; [|auto].
    intros i Hi Hr Hm. apply (H3 i Hi); [lia|]. split; [lia|exact Hm].
  - intros ((H1 & H2 & H3 & H4 & H5 & H6) & H7).
    split; [lia|]. split; [exact H2|]. split; [|auto].
    intros i Hi Hr [_ Hm]. apply (H3 i Hi); [lia|exact Hm].
Qed.

Lemma combine_split_map {A B C} (f : A -> B) (g : A -> C) l :
  combine (map f l) (map g l) = map (fun x => (f x, g x)) l.
Proof. induction l; simpl; congruence. Qed.

Lemma flat_map_combine {A B C D} (f : A -> list B) (p : A -> B -> C) (q : B -> D) l :
  combine (flat_map (fun s => map (p s) (f s)) l) (flat_map (fun s => map q (f s)) l)
  = flat_map (fun s => map (fun e => (p s e, q e)) (f s)) l.
Proof.
  induction l as [|x l IH]; simpl; [reflexivity|]. rewrite <- IH. clear IH.
  induction (f x) as [|y r IHr]; simpl; [reflexivity|]. rewrite IHr. reflexivity.
Qed.

Lemma flat_map_length_eq {A B C D} (f : A -> list B) (p : A -> B -> C) (q : B -> D) l :
  length (flat_map (fun s => map (p s) (f s)) l) = length (flat_map (fun s => map q (f s)) l).
Proof. induction l as [|x l IH]; simpl; [reflexivity|]. rewrite !app_length, !map_length, IH. reflexivity. Qed.

Lemma sorted_app {A} (R : A -> A -> Prop) l r : StronglySorted R l -> StronglySorted R r ->
  (forall x y, In x l -> In y r -> R x y) -> StronglySorted R (l ++ r).
Proof.
  induction 1 as [|x l Hs IH Hf]; intros Hr Hlr; simpl; [exact Hr|]. constructor.
  - apply IH; auto. intros; apply Hlr; [right|]; assumption.
  - apply Forall_app. split; [exact Hf|]. apply Forall_forall. intros y Hy. apply Hlr; [left; reflexivity|exact Hy].
Qed.

Lemma sorted_ranges D : StronglySorted (fun x y => x < y) D ->
  StronglySorted range_lt (flat_map (fun s => map (fun e => (s, fst e)) (walk_from s)) D).
Proof.
  induction 1 as [|s D Hs IH Hf]; simpl; [constructor|].
  apply sorted_app; [|exact IH|].
  - pose proof (walk_sorted (n - S s) (S s) [] [] 0%Z (if s =? 0 then nth 0 (durs a) 0%Z else 0%Z)) as Hw.
    fold (walk_from s) in Hw. induction (walk_from s) as [|e r IHr]; simpl in *; [constructor|].
    inversion Hw as [|? ? H1 H2]; subst. constructor; [auto|].
    apply Forall_forall. intros x Hx. apply in_map_iff in Hx as (e' & <- & He').
    rewrite Forall_forall in H2. right. simpl. split; [reflexivity|]. apply H2, in_map, He'.
  - intros x y Hx Hy. apply in_map_iff in Hx as (e & <- & _). apply in_flat_map in Hy as (s' & Hs' & Hy).
    apply in_map_iff in Hy as (e' & <- & _). left. simpl. rewrite Forall_forall in Hf. apply Hf, Hs'.
Qed.

Lemma sorted_nodup l : StronglySorted range_lt l -> NoDup l.
Proof.
  induction 1 as [|x l Hs IH Hf]; constructor; [|exact IH].
  intros Hi. rewrite Forall_forall in Hf. specialize (Hf x Hi). destruct Hf as [H|[_ H]]; lia.
Qed.

Theorem ranges_correct : n <> 0 ->
  exists ranges logs rejoin,
    get_chord_ranges cfg a = Ok (ranges, logs, rejoin)
    /\ length logs = length ranges
    /\ (forall s e l, In ((s, e), l) (combine ranges logs) <->
          reachable cfg a s /\ admissible cfg a s e /\ l = log_of a s e)
    /\ StronglySorted range_lt ranges
    /\ rejoin = map (fun r => (nth (fst r) (no_change_log a) 0 - nth (fst r) (change_log a) 0)%Z) ranges.
Proof.
  intros Hn. unfold get_chord_ranges. destruct (Nat.eqb_spec n 0) as [E|_]; [contradiction|].
  set (w0 := {| w_starts := [0]; w_in := upd_nat (repeat false n) 0 true; w_ranges := []; w_logs := [] |}).
  assert (Ho : oinv [] w0).
  { constructor; cbn [w0 w_starts w_in w_ranges w_logs app].
    - constructor; cbn [w0 w_starts w_in app].
      + intros i Hi. simpl in Hi. lia.
      + rewrite upd_nat_length, repeat_length. reflexivity.
      + intros i Hi. rewrite (nth_upd false) by (rewrite repeat_length; lia). rewrite nth_repeat.
        destruct (Nat.eqb_spec 0 i) as [<-|Hne]; [split; [intros _; left; reflexivity|reflexivity]|]. split; [discriminate|]. intros [H|[]]. congruence.
      + repeat constructor. simpl. tauto.
      + intros i [<-|[]]. lia.
    - constructor.
    - intros x y [].
    - reflexivity.
    - reflexivity.
    - intros s e [].
    - intros x [<-|[]]. left; reflexivity.
    - left; reflexivity. }
  destruct (loop_ok (S n) [] w0 Ho ltac:(simpl; lia)) as (D & w & E & Hof & Hnil).
  rewrite E. cbn [bind].
  destruct Hof as [[Wh Wl Wm Wn Wt] Hsort Hgt Hr Hl Hcl Hre Hz]. rewrite Hnil, app_nil_r in *.
  assert (HD : forall s, In s D <-> reachable cfg a s).
  { intros s. split.
    - intros Hs. (* by strong induction on s: the predecessor is smaller *)
      induction s as [s IHs] using (well_founded_induction Wf_nat.lt_wf).
      destruct (Hre s Hs) as [->|(s' & Hs' & He & Hlt)]; [constructor|].
      apply in_map_iff in He as ([e l] & Ee & He). simpl in Ee. subst e.
      apply walk_from_spec in He as [Had _]; [|apply Wt, Hs'].
      apply (reach_step _ _ s' s); [|exact Had|exact Hlt]. apply IHs; [destruct Had as (H1 & _); lia|exact Hs'].
    - induction 1 as [|s e Hs IHs Had Hen]; [exact Hz|].
      apply (Hcl s e IHs); [|exact Hen]. apply in_map_iff. exists (e, log_of a s e). split; [reflexivity|].
      apply walk_from_spec; auto. }
  assert (Hin : forall s e, In (s, e) (w_ranges w) -> In s D).
  { intros s e Hi. rewrite Hr in Hi. apply in_flat_map in Hi as (s' & Hs' & Hi).
    apply in_map_iff in Hi as (e' & [= <- _] & _). exact Hs'. }
  assert (Erej : mapM (fun r : nat * nat => let! x := hget (no_change_log a) (fst r) in
                                let! y := hget (change_log a) (fst r) in Ok (x - y)%Z) (w_ranges w)
     = Ok (map (fun r => (nth (fst r) (no_change_log a) 0 - nth (fst r) (change_log a) 0)%Z) (w_ranges w))).
  { assert (Hlt : forall r, In r (w_ranges w) -> fst r < n) by (intros [s e] Hi; apply Wt, (Hin s e Hi)).
    destruct shape as (Hcll & Hncl & _).
    clear -Hlt Hcll Hncl. induction (w_ranges w) as [|r rs IH]; [reflexivity|]. cbn [mapM map].
    pose proof (Hlt r (or_introl eq_refl)).
    rewrite (hget_ok 0%Z) by lia. cbn [bind]. rewrite (hget_ok 0%Z) by lia. cbn [bind].
    rewrite IH by (intros r' Hr'; apply Hlt; right; exact Hr'). reflexivity. }
  rewrite Erej. cbn [bind]. do 3 eexists. split; [reflexivity|].
  split; [rewrite Hr, Hl; symmetry; apply flat_map_length_eq|].
  split; [|split; [rewrite Hr; apply sorted_ranges, Hsort|reflexivity]].
  intros s e l. rewrite Hr, Hl, flat_map_combine, in_flat_map. split.
  - intros (s' & Hs' & Hi). apply in_map_iff in Hi as ([e' l'] & Ei & Hi). simpl in Ei. injection Ei as -> -> ->.
    split; [apply HD, Hs'|]. apply walk_from_spec; [apply Wt, Hs'|exact Hi].
  - intros (Hre' & Hadm). apply HD in Hre'. exists s. split; [exact Hre'|]. apply in_map_iff.
    exists (e, l). split; [reflexivity|]. apply walk_from_spec; [apply Wt, Hre'|exact Hadm].
Qed.
End P.

(* ---- consequences ---- *)
Section Consequences.
Variables (cfg : range_cfg) (a : range_in).
Notation n := (length (probs a)).

Lemma combine_in_l {A B} (l : list A) (r : list B) x : length r = length l ->
  In x l -> exists y, In (x, y) (combine l r).
Proof.
  revert r; induction l as [|z l IH]; intros r E H; [contradiction|].
  destruct r as [|y r]; [discriminate|]. simpl in E. destruct H as [->|H].
  - exists y. left; reflexivity.
  - destruct (IH r ltac:(lia) H) as (y' & Hy). exists y'. right; exact Hy.
Qed.

Lemma ranges_iff ranges logs rejoin : well_shaped a -> (min_change cfg <= max_no_change cfg)%Z ->
  get_chord_ranges cfg a = Ok (ranges, logs, rejoin) ->
  (forall s e, In (s, e) ranges <-> reachable cfg a s /\ admissible cfg a s e)
  /\ StronglySorted range_lt ranges /\ length logs = length ranges
  /\ (forall s e l, In ((s, e), l) (combine ranges logs) -> l = log_of a s e)
  /\ rejoin = map (fun r => (nth (fst r) (no_change_log a) 0 - nth (fst r) (change_log a) 0)%Z) ranges.
Proof.
  intros Hsh Hth E.
  assert (Hn : n <> 0).
  { intros H0. unfold get_chord_ranges in E. rewrite H0 in E. discriminate. }
  destruct (ranges_correct cfg a Hsh Hth Hn) as (r & l & j & E' & HL & Hin & Hs & Hj).
  rewrite E in E'. apply Ok_inj in E'. injection E' as <- <- <-.
  split; [|split; [exact Hs|split; [exact HL|split; [|exact Hj]]]].
  - intros s e. split.
    + intros H. destruct (combine_in_l ranges logs (s, e) HL H) as (x & Hx). apply Hin in Hx as (H1 & H2 & _). auto.
    + intros [H1 H2]. apply (in_combine_l ranges logs (s, e) (log_of a s e)). apply Hin. auto.
  - intros s e x Hx. apply Hin in Hx as (_ & _ & H). exact H.
Qed.

Lemma chain_le s l e : (forall x, In x l -> fst x < snd x) -> chain s l e -> s <= e.
Proof.
  intros H Hc. induction Hc as [s|s m e l Hc IH]; [lia|].
  pose proof (H (s, m) (or_introl eq_refl)) as Hm. simpl in Hm.
  specialize (IH (fun x Hx => H x (or_intror Hx))). lia.
Qed.

Definition covers (i : nat) (r : nat * nat) : bool := (fst r <=? i) && (i <? snd r).

Lemma chain_once s l e i : (forall x, In x l -> fst x < snd x) -> chain s l e -> s <= i < e ->
  length (filter (covers i) l) = 1.
Proof.
  intros H Hc. induction Hc as [s|s m e l Hc IH]; intros Hi; [lia|].
  pose proof (H (s, m) (or_introl eq_refl)) as Hm. simpl in Hm.
  pose proof (fun x Hx => H x (or_intror Hx)) as H'. specialize (IH H').
  cbn [filter]. unfold covers at 1. simpl fst. simpl snd.
  destruct (Nat.ltb_spec i m) as [Him|Him].
  - destruct (Nat.leb_spec s i); [|lia]. simpl. f_equal.
    clear IH. assert (G : forall m' l, chain m' l e -> (forall x, In x l -> fst x < snd x) -> i < m' -> filter (covers i) l = []).
    { clear. intros m' l Hc. induction Hc as [s|s m e l Hc IH]; intros H Hlt; [reflexivity|].
      cbn [filter]. unfold covers at 1. simpl fst. destruct (Nat.leb_spec s i); [lia|]. simpl.
      apply IH; [intros x Hx; apply H; right; exact Hx|].
      pose proof (H (s, m) (or_introl eq_refl)) as Hm. simpl in Hm. lia. }
    rewrite (G m l Hc H' Him). reflexivity.
  - rewrite andb_false_r. apply IH. lia.
Qed.

(* log probabilities along a chain *)
Lemma seq_app_plus len1 len2 st : seq st (len1 + len2) = seq st len1 ++ seq (st + len1) len2.
Proof. apply seq_app. Qed.

Definition term (ends : list nat) (i : nat) : Z :=
  if onset_atb a i then (if existsb (Nat.eqb i) ends then nth i (change_log a) 0%Z else nth i (no_change_log a) 0%Z) else 0%Z.

Lemma existsb_eqb_false i l : (forall x, In x l -> i <> x) -> existsb (Nat.eqb i) l = false.
Proof.
  intros H. induction l as [|x l IH]; [reflexivity|]. simpl.
  destruct (Nat.eqb_spec i x) as [->|]; [exfalso; apply (H x); [left|]; reflexivity|]. apply IH. intros; apply H; right; assumption.
Qed.

Lemma chain_ends s l e : (forall x, In x l -> fst x < snd x) -> chain s l e -> forall x, In x (map snd l) -> s < x.
Proof.
  intros H Hc. induction Hc as [s|s m e l Hc IH]; intros x Hx; [contradiction|].
  pose proof (H (s, m) (or_introl eq_refl)) as Hm. simpl in Hm. destruct Hx as [<-|Hx]; [exact Hm|].
  specialize (IH (fun x Hx => H x (or_intror Hx)) x Hx). lia.
Qed.

Lemma chain_log s l : forall e, (forall x, In x l -> fst x < snd x <= n) -> (forall x, In x l -> snd x < n -> onset_at a (snd x)) ->
  chain s l e -> e = n -> s < n ->
  zsum (map (fun r => log_of a (fst r) (snd r)) l) = zsum (map (term (map snd l)) (seq (S s) (n - S s))).
Proof.
  intros e H Ho Hc. induction Hc as [s|s m e l Hc IH]; intros He Hs; [lia|]. subst e.
  pose proof (H (s, m) (or_introl eq_refl)) as Hm. simpl in Hm.
  pose proof (fun x Hx => H x (or_intror Hx)) as H'. pose proof (fun x Hx => Ho x (or_intror Hx)) as Ho'.
  assert (Hends : forall x, In x (map snd l) -> m < x).
  { apply (chain_ends m l n); [intros x Hx; apply H'; exact Hx|exact Hc]. }
  cbn [map zsum fst snd]. unfold log_of at 1.
  assert (Epre : zsum (map (fun i => if onset_atb a i then nth i (no_change_log a) 0%Z else 0%Z) (seq (S s) (m - S s)))
     = zsum (map (term (m :: map snd l)) (seq (S s) (m - S s)))).
  { apply zsum_map_ext. intros i Hi. apply in_seq in Hi. unfold term.
    rewrite existsb_eqb_false; [reflexivity|]. intros x [<-|Hx]; [lia|]. specialize (Hends x Hx). lia. }
  destruct (Nat.ltb_spec m n) as [Hmn|Hmn].
  - rewrite (IH H' Ho' eq_refl Hmn).
    replace (n - S s) with ((m - S s) + S (n - S m)) by lia.
    rewrite seq_app_plus, map_app, zsum_app. replace (S s + (m - S s)) with m by lia. cbn [seq map zsum].
    rewrite Epre.
    assert (Em : term (m :: map snd l) m = nth m (change_log a) 0%Z).
    { unfold term. rewrite (proj2 (onset_atb_iff a m)).
      - cbn [existsb]. rewrite Nat.eqb_refl. reflexivity.
      - apply (Ho (s, m)); [left; reflexivity|exact Hmn]. }
    rewrite Em.
    rewrite (zsum_map_ext (term (m :: map snd l)) (term (map snd l)) (seq (S m) (n - S m))); [lia|].
    intros i Hi. apply in_seq in Hi. unfold term. cbn [existsb]. destruct (Nat.eqb_spec i m); [lia|]. reflexivity.
  - assert (m = n) by lia. subst m.
    assert (l = []) as ->.
    { inversion Hc as [|? m' ? l' Hc']; subst; [reflexivity|].
      pose proof (H' (n, m') (or_introl eq_refl)) as K. simpl in K. lia. }
    cbn [map zsum] in *. rewrite Epre. lia.
Qed.

Lemma rejoin_log s m e : s < m < e -> e <= n -> onset_at a m ->
  (log_of a s m + (log_of a m e + (nth m (no_change_log a) 0 - nth m (change_log a) 0)) = log_of a s e)%Z.
Proof.
  intros Hs He Ho. unfold log_of.
  destruct (Nat.ltb_spec m n); [|lia].
  replace (e - S s) with ((m - S s) + S (e - S m)) by lia.
  rewrite seq_app_plus, map_app, zsum_app. replace (S s + (m - S s)) with m by lia. cbn [seq map zsum].
  rewrite (proj2 (onset_atb_iff a m) Ho). lia.
Qed.

(* lengths *)
Hypothesis durs_nonneg : forall d, In d (durs a) -> (0 <= d)%Z.

Lemma nth_durs_nonneg i : (0 <= nth i (durs a) 0)%Z.
Proof.
  destruct (Nat.ltb_spec i (length (durs a))) as [H|H].
  - apply durs_nonneg, nth_In, H.
  - rewrite nth_overflow by exact H. lia.
Qed.

Lemma zsum_firstn_le l k k' : (forall d, In d l -> (0 <= d)%Z) -> k <= k' -> (zsum (firstn k l) <= zsum (firstn k' l))%Z.
Proof.
  revert k k'; induction l as [|x l IH]; intros k k' H Hk; [rewrite !firstn_nil; lia|].
  destruct k, k'; cbn [firstn zsum]; try lia.
  - pose proof (H x (or_introl eq_refl)). specialize (IH 0 k' (fun d Hd => H d (or_intror Hd)) ltac:(lia)).
    cbn [firstn zsum] in IH. lia.
  - specialize (IH k k' (fun d Hd => H d (or_intror Hd)) ltac:(lia)). lia.
Qed.

Lemma span_mono s i j : i <= j -> (span a s i <= span a s j)%Z.
Proof.
  intros H. unfold span. apply zsum_firstn_le; [|lia].
  intros d Hd. apply durs_nonneg. clear -Hd. revert s Hd; induction (durs a) as [|x l IH]; intros s Hd; [destruct s; contradiction|].
  destruct s; simpl in Hd; [exact Hd|right; apply (IH s Hd)].
Qed.

Lemma span_nonneg s i : (0 <= span a s i)%Z.
Proof.
  pose proof (span_mono s 0 i ltac:(lia)) as H. unfold span in H at 1. replace (0 - s) with 0 in H by lia. exact H.
Qed.

Lemma counted_ge s i : (span a s i <= counted a s i)%Z.
Proof. unfold counted. pose proof (nth_durs_nonneg 0). destruct (s =? 0)%nat; lia. Qed.

Lemma span_snoc s i : s <= i -> i < length (durs a) -> span a s (S i) = (span a s i + nth i (durs a) 0)%Z.
Proof.
  intros Hs Hi. unfold span. replace (S i - s) with (S (i - s)) by lia.
  revert s Hs Hi. generalize (durs a) as l. clear.
  intros l s Hs Hi. revert i l Hs Hi. induction s as [|s IH]; intros i l Hs Hi.
  - rewrite Nat.sub_0_r. cbn [skipn]. revert l Hi. clear Hs. induction i as [|i IHi]; intros l Hi.
    + destruct l; [simpl in Hi; lia|]. cbn [firstn zsum nth]. lia.
    + destruct l as [|x l]; [simpl in Hi; lia|]. change (firstn (S (S i)) (x :: l)) with (x :: firstn (S i) l).
      change (firstn (S i) (x :: l)) with (x :: firstn i l). cbn [zsum nth]. rewrite IHi by (simpl in Hi; lia). lia.
  - destruct i as [|i]; [lia|]. destruct l as [|x l]; [simpl in Hi; lia|]. cbn [skipn nth].
    apply (IH i l); simpl in Hi; lia.
Qed.

(* the time up to the last input is the time up to the last onset *)
Lemma span_last_onset s m : length (durs a) = n -> s <= m < n ->
  span a s m = 0%Z \/ exists i, onset_at a i /\ s < i <= m /\ span a s m = span a s i.
Proof.
  intros Hd. induction m as [|m IH]; intros Hm.
  - left. unfold span. rewrite Nat.sub_0_l. reflexivity.
  - destruct (Nat.eq_dec s (S m)) as [->|Hne].
    + left. unfold span. rewrite Nat.sub_diag. reflexivity.
    + destruct (Z.eq_dec (nth m (durs a) 0%Z) 0%Z) as [E|E].
      * rewrite span_snoc, E by lia. rewrite Z.add_0_r. destruct (IH ltac:(lia)) as [H|(i & Hi & Hr & H)]; [left; exact H|].
        right. exists i. split; [exact Hi|]. split; [lia|exact H].
      * right. exists (S m). split; [|split; [lia|reflexivity]]. split; [lia|]. replace (S m - 1) with m by lia. exact E.
Qed.

Lemma range_length s e : well_shaped a -> (0 <= max_length cfg)%Z -> admissible cfg a s e ->
  (e < n -> (span a s e <= max_length cfg)%Z) /\ (e = n -> (span a s (n - 1) <= max_length cfg)%Z).
Proof.
  intros (_ & _ & Hd & _) H0 (H1 & H2 & H3 & H4 & H5 & H6). split.
  - intros Hlt. destruct (H2 Hlt) as [Ho _]. specialize (H6 e Ho ltac:(lia)). pose proof (counted_ge s e). lia.
  - intros ->. destruct (span_last_onset s (n - 1) Hd ltac:(lia)) as [E|(i & Hi & Hr & E)]; [lia|].
    specialize (H6 i Hi ltac:(lia)). pose proof (counted_ge s i). lia.
Qed.

Lemma range_length_complete s e : (s <> 0 \/ nth 0 (durs a) 0%Z = 0%Z) ->
  s < e -> e < n -> onset_at a e -> (min_change cfg <= prob_at a e)%Z ->
  (forall i, onset_at a i -> s < i < e -> ~ (max_no_change cfg < prob_at a i)%Z) ->
  one_label a (forced_c a) s e -> one_label a (forced_k a) s e ->
  (span a s e <= max_length cfg)%Z -> admissible cfg a s e.
Proof.
  intros Hs0 Hse Hen Ho Hmin Hmax Hc Hk Hlen. split; [lia|]. split; [auto|]. split; [exact Hmax|]. split; [exact Hc|].
  split; [exact Hk|]. intros i Hi Hr. unfold counted. pose proof (span_mono s i e ltac:(lia)).
  destruct (Nat.eqb_spec s 0) as [->|_]; [destruct Hs0 as [?|E0]; [lia|rewrite E0; lia]|lia].
Qed.
End Consequences.

(* forced changes *)
Lemma py_upd_nonneg (l : list Z) i v : (0 <= i < zlen l)%Z -> py_upd l i v = Ok (upd_nat l (Z.to_nat i) v).
Proof.
  intros H. unfold py_upd. destruct (Z.ltb_spec i 0); [lia|].
  destruct (Z.leb_spec (zlen l) i); [lia|]. destruct (Z.ltb_spec i 0); [lia|]. reflexivity.
Qed.
Lemma assign_all_ok idx v : forall ps, (forall i, In i idx -> (0 <= i < zlen ps)%Z) ->
  exists ps', assign_all ps idx v = Ok ps' /\ length ps' = length ps
    /\ forall j, j < length ps -> nth j ps' 0%Z = if existsb (Z.eqb (Z.of_nat j)) idx then v else nth j ps 0%Z.
Proof.
  induction idx as [|i idx IH]; intros ps H; cbn [assign_all].
  - exists ps. auto.
  - pose proof (H i (or_introl eq_refl)) as Hi.
    rewrite py_upd_nonneg by exact Hi. cbn [bind].
    destruct (IH (upd_nat ps (Z.to_nat i) v)) as (ps' & E & HL & Hnth).
    + intros k Hk. unfold zlen. rewrite upd_nat_length. apply H. right; exact Hk.
    + exists ps'. rewrite upd_nat_length in *. split; [exact E|]. split; [exact HL|].
      intros j Hj. rewrite (Hnth j Hj). cbn [existsb].
      unfold zlen in Hi. rewrite nth_upd_nat by lia.
      destruct (Z.eqb_spec (Z.of_nat j) i) as [Eq|Ne]; simpl.
      * destruct (existsb (Z.eqb (Z.of_nat j)) idx); [reflexivity|].
        destruct (Nat.eqb_spec (Z.to_nat i) j); [reflexivity|lia].
      * destruct (existsb (Z.eqb (Z.of_nat j)) idx); [reflexivity|].
        destruct (Nat.eqb_spec (Z.to_nat i) j); [lia|reflexivity].
Qed.
Lemma existsb_zeqb x l : existsb (Z.eqb x) l = true <-> In x l.
Proof.
  rewrite existsb_exists. split; [intros (y & Hy & E); apply Z.eqb_eq in E; subst; exact Hy|].
  intros H. exists x. split; [exact H|apply Z.eqb_refl].
Qed.
Lemma apply_forced_ok one ps ch nch :
  (forall i, In i ch -> (0 <= i < zlen ps)%Z) -> (forall i, In i nch -> (0 <= i < zlen ps)%Z) ->
  exists ps', apply_forced_chord_changes one ps ch nch = Ok ps' /\ length ps' = length ps
   /\ forall j, j < length ps ->
       (In (Z.of_nat j) nch -> nth j ps' 0%Z = 0%Z)
       /\ (In (Z.of_nat j) ch -> ~ In (Z.of_nat j) nch -> nth j ps' 0%Z = one)
       /\ (~ In (Z.of_nat j) ch -> ~ In (Z.of_nat j) nch -> nth j ps' 0%Z = nth j ps 0%Z).
Proof.
  intros Hc Hn. unfold apply_forced_chord_changes.
  destruct (assign_all_ok ch one ps Hc) as (p1 & E1 & L1 & N1). rewrite E1. cbn [bind].
  destruct (assign_all_ok nch 0%Z p1) as (p2 & E2 & L2 & N2).
  { intros i Hi. unfold zlen. rewrite L1. apply Hn, Hi. }
  exists p2. split; [exact E2|]. split; [congruence|]. intros j Hj.
  rewrite (N2 j) by congruence. rewrite (N1 j Hj).
  pose proof (existsb_zeqb (Z.of_nat j) nch) as En. pose proof (existsb_zeqb (Z.of_nat j) ch) as Ec.
  destruct (existsb (Z.eqb (Z.of_nat j)) nch), (existsb (Z.eqb (Z.of_nat j)) ch);
    (split; [|split]); try reflexivity; intros; exfalso; intuition congruence.
Qed.
