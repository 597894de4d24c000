(* Lemmas about the aggregation of the tables. *)
From Coq Require Import String Ascii.
From Verif Require Import Model_Aggregate Spec_Aggregate Proof_Base Proof_Strings.
From Coq Require Import List Lia Sorted.
Import ListNotations.
Open Scope Z_scope.

Section Agg.
Context {R : Type}.
Variable read_table : path -> option (list R).
Notation run fs := (fold_left (aggregate_step read_table) fs no_lists).
Definition table_of (k : pystr) (p : path) : option (list R) :=
  read_table (parent (parent p) ++ [k; path_name p]).
Definition kind_pairs (k : pystr) (fs : list path) : list (Z * list R) :=
  flat_map (fun '(n, p) => match table_of k p with Some t => [(Z.of_nat n, t)] | None => [] end) (combine (seq 0 (List.length fs)) fs).

Lemma combine_snoc {A B} (a : list A) (b : list B) x y : List.length a = List.length b ->
  combine (a ++ [x]) (b ++ [y]) = combine a b ++ [(x, y)].
Proof. revert b. induction a as [|u a IH]; intros [|v b] E; try discriminate E; [reflexivity|]. cbn [app combine]. rewrite IH by (cbn in E; lia). reflexivity. Qed.
Lemma kind_pairs_snoc k fs p : kind_pairs k (fs ++ [p]) =
  kind_pairs k fs ++ match table_of k p with Some t => [(Z.of_nat (List.length fs), t)] | None => [] end.
Proof.
  unfold kind_pairs. rewrite app_length. cbn [List.length]. rewrite Nat.add_1_r, seq_S, combine_snoc, flat_map_app by now rewrite seq_length.
  cbn [flat_map Nat.add]. now rewrite app_nil_r.
Qed.
Lemma files_eq fs : files_dict (run fs) = map (fun p => (path_name (parent (parent p)), path_name p)) fs.
Proof.
  induction fs as [|p fs IH] using rev_ind; [reflexivity|]. rewrite fold_left_app, map_app. cbn [fold_left map]. rewrite <- IH. reflexivity.
Qed.
Lemma kinds_eq fs :
  (combine (chord_indexes (run fs)) (chord_df_list (run fs)) = kind_pairs (L"harmonies") fs /\ List.length (chord_indexes (run fs)) = List.length (chord_df_list (run fs))) /\
  (combine (note_indexes (run fs)) (note_df_list (run fs)) = kind_pairs (L"notes") fs /\ List.length (note_indexes (run fs)) = List.length (note_df_list (run fs))) /\
  (combine (measure_indexes (run fs)) (measure_df_list (run fs)) = kind_pairs (L"measures") fs /\ List.length (measure_indexes (run fs)) = List.length (measure_df_list (run fs))).
Proof.
  induction fs as [|p fs IH] using rev_ind; [repeat split|].
  assert (N : zlen (files_dict (run fs)) = Z.of_nat (List.length fs)) by (unfold zlen; rewrite files_eq, map_length; reflexivity).
  rewrite fold_left_app. cbn [fold_left]. rewrite !kind_pairs_snoc.
  revert IH N. generalize (run fs). intros s ((C & Cl) & (Nn & Nl) & (M & Ml)) N.
  unfold aggregate_step. cbn [chord_indexes chord_df_list note_indexes note_df_list measure_indexes measure_df_list]. rewrite N.
  change (read_table (parent (parent p) ++ [L"harmonies"; path_name p])) with (table_of (L"harmonies") p).
  change (read_table (parent (parent p) ++ [L"notes"; path_name p])) with (table_of (L"notes") p).
  change (read_table (parent (parent p) ++ [L"measures"; path_name p])) with (table_of (L"measures") p).
  assert (K : forall (t : option (list R)) ix l kp, combine ix l = kp -> List.length ix = List.length l ->
     combine (add_index t (Z.of_nat (List.length fs)) ix) (add_table t l) = kp ++ match t with Some t => [(Z.of_nat (List.length fs), t)] | None => [] end /\
     List.length (add_index t (Z.of_nat (List.length fs)) ix) = List.length (add_table t l)).
  { intros [t|] ix l kp <- E; cbn [add_index add_table]; [|rewrite app_nil_r; split; [reflexivity|exact E]].
    rewrite combine_snoc by exact E. split; [reflexivity|]. rewrite !app_length, E. reflexivity. }
  split; [now apply K|]. split; now apply K.
Qed.

(* ---- the combined table ------------------------------------------------------------------ *)
Definition all_rows (kp : list (Z * list R)) : indexed R :=
  flat_map (fun '(i, t) => map (fun '(j, r) => (i, j, r)) (number_rows t)) kp.
Lemma number_rows_in (t : list R) j r : In (j, r) (number_rows t) <-> exists m, j = Z.of_nat m /\ nth_error t m = Some r.
Proof.
  unfold number_rows, zrange, zlen. rewrite Z.sub_0_r, Nat2Z.id.
  assert (K : forall o, In (j, r) (combine (map (fun k => 0 + Z.of_nat k) (seq o (List.length t))) t) <-> exists m, j = Z.of_nat (o + m) /\ nth_error t m = Some r).
  { induction t as [|x t IH]; intros o; cbn [List.length seq map combine].
    - split; [intros []|intros (m & _ & H); destruct m; discriminate H].
    - cbn [In]. rewrite IH. split.
      + intros [H|(m & -> & H)].
        * apply pair_equal_spec in H. destruct H as (<- & ->). exists O. split; [f_equal; lia|reflexivity].
        * exists (S m). split; [f_equal; lia|exact H].
      + intros ([|m] & -> & H).
        * left. cbn in H. apply Some_inj in H. subst x. f_equal. rewrite Nat.add_0_r. reflexivity.
        * right. exists m. split; [f_equal; lia|exact H]. }
  apply (K O).
Qed.
Lemma kind_in k fs i t : In (i, t) (kind_pairs k fs) <-> exists n p, i = Z.of_nat n /\ nth_error fs n = Some p /\ table_of k p = Some t.
Proof.
  induction fs as [|p fs IH] using rev_ind.
  - split; [intros []|intros (n & p & _ & H & _); destruct n; discriminate H].
  - rewrite kind_pairs_snoc, in_app_iff, IH. split.
    + intros [(n & q & -> & H & T)|H].
      * exists n, q. split; [reflexivity|]. split; [|exact T]. rewrite nth_error_app1; [exact H|]. apply nth_error_Some. congruence.
      * destruct (table_of k p) as [t'|] eqn:T; [|destruct H]. destruct H as [H|[]]. apply pair_equal_spec in H. destruct H as (<- & ->).
        exists (List.length fs), p. split; [reflexivity|]. split; [|exact T]. rewrite nth_error_app2, Nat.sub_diag by lia. reflexivity.
    + intros (n & q & -> & H & T). destruct (Nat.lt_ge_cases n (List.length fs)) as [Hn|Hn].
      * left. exists n, q. rewrite nth_error_app1 in H by exact Hn. auto.
      * right. rewrite nth_error_app2 in H by exact Hn. destruct (n - List.length fs)%nat as [|d] eqn:D; [|destruct d; discriminate H].
        cbn in H. apply Some_inj in H. subst q. rewrite T. left. f_equal. f_equal. lia.
Qed.
Lemma shape_table k p : three_parts p -> forall q, beside k p q <-> q = parent (parent p) ++ [k; path_name p].
Proof.
  intros (base & d & file & ->) q.
  assert (E1 : path_name (base ++ [d; file]) = file).
  { unfold path_name. change [d; file] with ([d] ++ [file]). rewrite app_assoc. apply last_last. }
  assert (E2 : parent (parent (base ++ [d; file])) = base).
  { unfold parent. change [d; file] with ([d] ++ [file]). rewrite app_assoc, removelast_last, removelast_last. reflexivity. }
  rewrite E1, E2. split.
  - intros (base' & d' & file' & E & ->). change [d; file] with ([d] ++ [file]) in E. change [d'; file'] with ([d'] ++ [file']) in E.
    rewrite !app_assoc in E. apply app_inj_tail in E. destruct E as (E & ->). apply app_inj_tail in E. destruct E as (-> & ->). reflexivity.
  - intros ->. exists base, d, file. split; reflexivity.
Qed.
Lemma rows_hold k fs : Forall three_parts fs -> holds_rows read_table k fs (all_rows (kind_pairs k fs)).
Proof.
  intros F i j r. rewrite Forall_forall in F. unfold all_rows. rewrite in_flat_map. split.
  - intros ((i', t) & Hi & H). apply kind_in in Hi. destruct Hi as (n & p & -> & Hp & T). apply in_map_iff in H.
    destruct H as ((j', r') & E & H). injection E as <- <- <-. apply number_rows_in in H. destruct H as (m & -> & Hm).
    exists n, m, p. eexists _, t. split; [reflexivity|]. split; [reflexivity|]. split; [exact Hp|].
    split; [apply shape_table; [exact (F p (nth_error_In _ _ Hp))|reflexivity]|]. split; [exact T|exact Hm].
  - intros (n & m & p & q & rows & -> & -> & Hp & B & T & Hm). apply shape_table in B; [|exact (F p (nth_error_In _ _ Hp))]. subst q.
    exists (Z.of_nat n, rows). split; [apply kind_in; exists n, p; split; [reflexivity|split; [exact Hp|exact T]]|].
    apply in_map_iff. exists (Z.of_nat m, r). split; [reflexivity|]. apply number_rows_in. exists m. split; [reflexivity|exact Hm].
Qed.

(* ---- its order ------------------------------------------------------------------------------ *)
Definition row_lt (x y : Z * Z * R) : Prop := let '(i, j, _) := x in let '(i', j', _) := y in i < i' \/ (i = i' /\ j < j').
Lemma SSorted_app {A} (P : A -> A -> Prop) a b : StronglySorted P a -> StronglySorted P b -> (forall x y, In x a -> In y b -> P x y) -> StronglySorted P (a ++ b).
Proof.
  intros Ha Hb H. induction Ha as [|x a Ha IH F]; [exact Hb|]. cbn [app]. constructor.
  - apply IH. intros u v Hu Hv. apply H; [now right|exact Hv].
  - apply Forall_app. split; [exact F|]. apply Forall_forall. intros y Hy. apply H; [now left|exact Hy].
Qed.
Lemma SSorted_nth {A} (P : A -> A -> Prop) l : StronglySorted P l -> forall a b x y, (a < b)%nat -> nth_error l a = Some x -> nth_error l b = Some y -> P x y.
Proof.
  induction 1 as [|z l H IH F]; intros a b x y L Ha Hb; [destruct a; discriminate Ha|].
  destruct b as [|b]; [lia|]. destruct a as [|a]; cbn [nth_error] in Ha, Hb.
  - apply Some_inj in Ha. subst z. rewrite Forall_forall in F. exact (F y (nth_error_In _ _ Hb)).
  - apply (IH a b x y); [lia|exact Ha|exact Hb].
Qed.
Lemma block_sorted i (t : list R) : StronglySorted row_lt (map (fun '(j, r) => (i, j, r)) (number_rows t)).
Proof.
  unfold number_rows, zrange, zlen. rewrite Z.sub_0_r, Nat2Z.id. generalize O. induction t as [|x t IH]; intros o; [constructor|].
  cbn [List.length seq map combine]. constructor; [apply IH|]. apply Forall_forall. intros ((i', j'), r') H.
  apply in_map_iff in H. destruct H as ((j2, r2) & E & H). injection E as <- <- <-. apply in_combine_l in H. apply in_map_iff in H.
  destruct H as (k & <- & H). apply in_seq in H. right. split; [reflexivity|]. lia.
Qed.
Lemma rows_sorted k fs : StronglySorted row_lt (all_rows (kind_pairs k fs)).
Proof.
  induction fs as [|p fs IH] using rev_ind; [constructor|]. rewrite kind_pairs_snoc. unfold all_rows in *. rewrite flat_map_app.
  apply SSorted_app; [exact IH| |].
  - destruct (table_of k p) as [t|]; [|constructor]. cbn [flat_map]. rewrite app_nil_r. apply block_sorted.
  - intros ((i, j), r) ((i', j'), r') H H'. apply in_flat_map in H. destruct H as ((i2, t) & Hi & H). apply kind_in in Hi. destruct Hi as (n & q & -> & Hq & _).
    apply in_map_iff in H. destruct H as ((j2, r2) & E & _). injection E as <- <- <-.
    assert (n < List.length fs)%nat by (apply nth_error_Some; congruence).
    destruct (table_of k p) as [t'|]; [|destruct H']. cbn [flat_map] in H'. rewrite app_nil_r in H'. apply in_map_iff in H'.
    destruct H' as ((j3, r3) & E & _). injection E as <- <- <-. left. lia.
Qed.
Lemma rows_in_order k fs : in_order (all_rows (kind_pairs k fs)).
Proof.
  intros a b i j r i' j' r' Ha Hb. assert (S1 := SSorted_nth _ _ (rows_sorted k fs)). split.
  - intros L. exact (S1 a b _ _ L Ha Hb).
  - intros G. destruct (Nat.lt_trichotomy a b) as [H|[H|H]]; [exact H| |].
    + subst b. rewrite Ha in Hb. injection Hb as <- <- <-. lia.
    + assert (K := S1 b a _ _ H Hb Ha). cbn in K. lia.
Qed.
End Agg.
