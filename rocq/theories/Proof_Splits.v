(* Lemmas about the splits of a corpus. *)
From Coq Require Import QArith Qround Qabs Lqa Permutation Lia.
From Verif Require Import Proof_Base Spec_Dataset.
Close Scope Q_scope.
Open Scope Z_scope.

Lemma py_round_near x : Qle (Qabs (x - inject_Z (py_round x))) (1 # 2).
Proof.
  assert (H1 := Qfloor_le x). assert (H2 := Qlt_floor x). rewrite inject_Z_plus in H2.
  assert (E1 : Qeq (inject_Z 1) 1%Q) by reflexivity.
  apply Qabs_Qle_condition. unfold py_round. cbv zeta.
  destruct (Qcompare_spec (x - inject_Z (Qfloor x)) (1 # 2)) as [H|H|H].
  - destruct (Z.even (Qfloor x)); rewrite ?inject_Z_plus; lra.
  - lra.
  - rewrite inject_Z_plus. lra.
Qed.
Lemma inject_Z_lt a b : (inject_Z a < inject_Z b)%Q -> a < b.
Proof. unfold Qlt, inject_Z. cbn. lia. Qed.
Lemma py_round_mono x y : (x <= y)%Q -> py_round x <= py_round y.
Proof.
  intros H. destruct (Z_le_gt_dec (py_round x) (py_round y)) as [|G]; [assumption|exfalso].
  assert (Hx := py_round_near x). assert (Hy := py_round_near y). apply Qabs_Qle_condition in Hx. apply Qabs_Qle_condition in Hy.
  assert (G' : (inject_Z (py_round y) + 1 <= inject_Z (py_round x))%Q).
  { change 1%Q with (inject_Z 1). rewrite <- inject_Z_plus, <- Zle_Qle. lia. }
  assert (Exy : Qeq x y) by lra.
  assert (Er : py_round x = py_round y).
  { unfold py_round. rewrite (Qfloor_comp x y Exy). cbv zeta.
    assert (Ec : Qcompare (x - inject_Z (Qfloor y)) (1 # 2) = Qcompare (y - inject_Z (Qfloor y)) (1 # 2)) by (apply Qcompare_comp; [rewrite Exy; reflexivity|reflexivity]).
    now rewrite Ec. }
  lia.
Qed.
Lemma py_round_close x n : (Qabs (x - inject_Z n) < 1 # 2)%Q -> py_round x = n.
Proof.
  intros H. apply Qabs_Qlt_condition in H. assert (Hx := py_round_near x). apply Qabs_Qle_condition in Hx.
  assert (A : (inject_Z (py_round x) < inject_Z n + 1)%Q) by lra.
  assert (B : (inject_Z n < inject_Z (py_round x) + 1)%Q) by lra.
  change 1%Q with (inject_Z 1) in A, B. rewrite <- inject_Z_plus in A, B. apply inject_Z_lt in A, B. lia.
Qed.
Lemma py_round_Z n : py_round (inject_Z n) = n.
Proof. apply py_round_close. rewrite Qabs_Qlt_condition. split; ring_simplify (inject_Z n - inject_Z n)%Q; lra. Qed.
Lemma py_round_comp x y : (x == y)%Q -> py_round x = py_round y.
Proof. intros H. apply Z.le_antisymm; apply py_round_mono; lra. Qed.

(* ---- slices ---- *)
Definition cut {A} (l : list A) (a b : Z) : list A := firstn (Z.to_nat (b - a)) (skipn (Z.to_nat a) l).
Lemma skipn_plus {A} (l : list A) : forall n m, skipn (m + n) l = skipn m (skipn n l).
Proof.
  intros n. revert l. induction n as [|n IH]; intros l m; [now rewrite Nat.add_0_r|]. rewrite Nat.add_succ_r.
  destruct l as [|x l]; [now rewrite !skipn_nil|]. cbn [skipn]. apply IH.
Qed.
Lemma cut_app {A} (l : list A) a b c : 0 <= a <= b -> b <= c -> cut l a b ++ cut l b c = cut l a c.
Proof.
  intros H1 H2. unfold cut. replace (Z.to_nat (c - a)) with (Z.to_nat (b - a) + Z.to_nat (c - b))%nat by lia.
  replace (Z.to_nat b) with (Z.to_nat (b - a) + Z.to_nat a)%nat by lia. rewrite skipn_plus.
  generalize (skipn (Z.to_nat a) l). clear. intros l. generalize (Z.to_nat (c - b)). generalize (Z.to_nat (b - a)).
  intros n m. revert l. induction n as [|n IH]; intros l; [reflexivity|]. destruct l as [|x l]; [cbn; now rewrite firstn_nil|].
  cbn [Nat.add firstn skipn app]. f_equal. apply IH.
Qed.
Lemma cut_length {A} (l : list A) a b : 0 <= a <= b -> b <= zlen l -> length (cut l a b) = Z.to_nat (b - a).
Proof. intros H1 H2. unfold cut. rewrite firstn_length, skipn_length. unfold zlen in H2. lia. Qed.

Section Loop.
Context {P : Type}.
Variables (fadd fmul : Q -> Q -> Q).
Hypothesis add_up : forall x s, (0 <= s -> x <= fadd x s)%Q.
Hypothesis mul_up : forall x y n, (0 <= n -> x <= y -> fmul x n <= fmul y n)%Q.

Lemma fold_up : forall splits x, Forall (fun s => 0 <= s)%Q splits -> (x <= fold_left fadd splits x)%Q.
Proof.
  induction splits as [|s r IH]; intros x F; cbn; [lra|]. inversion F; subst. assert (A := add_up x s H1).
  assert (B := IH (fadd x s) H2). lra.
Qed.

Lemma pick_cut {A} (l : list A) a b : 0 <= a <= b -> b <= zlen l ->
  (if b - a =? 0 then Ok [] else if b - a =? 1 then let! i := py_nth l a in Ok [i] else Ok (py_slice l a b)) = Ok (cut l a b).
Proof.
  intros H1 H2. destruct (Z.eqb_spec (b - a) 0) as [E|E]; [unfold cut; rewrite E; reflexivity|].
  destruct (Z.eqb_spec (b - a) 1) as [E1|E1].
  - unfold cut. rewrite E1. change (Z.to_nat 1) with 1%nat. destruct (skipn (Z.to_nat a) l) as [|x r] eqn:Es.
    + exfalso. assert (length (skipn (Z.to_nat a) l) = 0%nat) by now rewrite Es. rewrite skipn_length in H. unfold zlen in H2. lia.
    + rewrite (py_nth_pos l a x); [reflexivity|lia|]. rewrite <- (firstn_skipn (Z.to_nat a) l), Es.
      rewrite nth_error_app2; rewrite firstn_length; [|lia]. rewrite Nat.min_l; [|unfold zlen in H2; lia]. now rewrite Nat.sub_diag.
  - f_equal. rewrite py_slice_spec by lia. reflexivity.
Qed.

Lemma split_loop_spec (ids : list Z) (pieces : list P) (n := inject_Z (zlen pieces)) : zlen ids = zlen pieces ->
  forall splits prop, Forall (fun s => 0 <= s)%Q splits -> 0 <= py_round (fmul prop n) ->
  py_round (fmul (fold_left fadd splits prop) n) <= zlen pieces ->
  exists ri rp, split_loop fadd fmul ids pieces prop splits = Ok (ri, rp)
    /\ length ri = length splits /\ Forall2 (fun a b => length a = length b) ri rp
    /\ (forall k, (k <= length splits)%nat ->
          concat (firstn k ri) = cut ids (py_round (fmul prop n)) (py_round (fmul (fold_left fadd (firstn k splits) prop) n))
          /\ concat (firstn k rp) = cut pieces (py_round (fmul prop n)) (py_round (fmul (fold_left fadd (firstn k splits) prop) n))).
Proof.
  intros Hl. assert (Hn : (0 <= n)%Q) by (unfold n; change 0%Q with (inject_Z 0); rewrite <- Zle_Qle; unfold zlen; lia).
  induction splits as [|s r IH]; intros prop F Hlo Hhi.
  - exists [], []. split; [reflexivity|]. split; [reflexivity|]. split; [constructor|]. intros [|k] Hk; [|cbn in Hk; lia].
    cbn. unfold cut. rewrite Z.sub_diag. auto.
  - inversion F as [|? ? Hs F']; subst. cbn [fold_left] in Hhi.
    assert (M1 : py_round (fmul prop n) <= py_round (fmul (fadd prop s) n)) by (apply py_round_mono, mul_up; auto).
    assert (M2 : py_round (fmul (fadd prop s) n) <= py_round (fmul (fold_left fadd r (fadd prop s)) n)).
    { apply py_round_mono, mul_up; [auto|]. now apply fold_up. }
    destruct (IH (fadd prop s) F' ltac:(lia) Hhi) as (ri & rp & E & L & F2 & C).
    cbn [split_loop]. unfold split_one. fold n. rewrite !pick_cut by lia. cbn [bind]. rewrite E. cbn [bind].
    eexists _, _. split; [reflexivity|]. split; [cbn; now rewrite L|]. split.
    { constructor; [|exact F2]. rewrite !cut_length by lia. reflexivity. }
    intros [|k] Hk; [cbn; unfold cut; rewrite Z.sub_diag; auto|]. cbn in Hk. destruct (C k ltac:(lia)) as [C1 C2].
    cbn [firstn concat fold_left]. rewrite C1, C2.
    assert (M3 : py_round (fmul (fadd prop s) n) <= py_round (fmul (fold_left fadd (firstn k r) (fadd prop s)) n)).
    { apply py_round_mono, mul_up; [auto|]. apply fold_up. rewrite <- (firstn_skipn k r) in F'. apply Forall_app in F'. tauto. }
    split; apply cut_app; lia.
Qed.

Lemma shuffle_perm {A} (l : list A) perm : Permutation perm (seq 0 (length l)) ->
  exists sh, mapM (hget l) perm = Ok sh /\ Permutation sh l.
Proof.
  intros H. destruct l as [|d l0].
  - cbn in H. apply Permutation_sym, Permutation_nil in H. subst. exists []. split; [reflexivity|constructor].
  - set (l := d :: l0) in *. exists (map (fun i => nth i l d) perm). split.
    + assert (G : forall i, In i perm -> (i < length l)%nat) by (intros i Hi; apply (Permutation_in _ H) in Hi; apply in_seq in Hi; lia).
      clear H. induction perm as [|i perm IH]; [reflexivity|]. cbn [mapM map]. unfold hget at 1.
      rewrite (nth_error_nth' l d) by (apply G; now left). cbn [bind]. rewrite IH by (intros; apply G; now right). reflexivity.
    + apply Permutation_trans with (map (fun i => nth i l d) (seq 0 (length l))); [now apply Permutation_map|].
      replace (map (fun i => nth i l d) (seq 0 (length l))) with l; [reflexivity|].
      clear H. clearbody l. clear l0. induction l as [|x l IH]; [reflexivity|]. cbn [length seq map nth]. f_equal.
      rewrite <- seq_shift, map_map. exact IH.
Qed.
End Loop.
