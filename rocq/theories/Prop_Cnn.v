(* C107: the convolutional chord classifier and transposition. *)
From Coq Require Import Lia PeanoNat.
From Verif Require Import PyBase Model_Cnn Spec_Cnn Proof_Base.
From Coq Require Import List.
Import ListNotations.
Open Scope nat_scope.

Lemma nth_ext_err {A} (l l' : list A) : (forall i, nth_error l i = nth_error l' i) -> l = l'.
Proof.
  revert l'. induction l as [|a l IH]; intros [|b l'] H; auto.
  - specialize (H 0). discriminate.
  - specialize (H 0). discriminate.
  - f_equal; [specialize (H 0); cbn in H; congruence|]. apply IH. intro i. apply (H (S i)).
Qed.
Lemma nth_skipn {A} n (l : list A) i : nth_error (skipn n l) i = nth_error l (n + i).
Proof. revert l. induction n; intros [|a l]; cbn; auto. destruct i; reflexivity. Qed.
Lemma nth_take {A} n (l : list A) i : nth_error (firstn n l) i = if i <? n then nth_error l i else None.
Proof.
  revert l i. induction n; intros [|a l] [|i]; cbn [firstn nth_error]; auto.
  - destruct (S i <? S n); reflexivity.
  - rewrite IHn. reflexivity.
Qed.
Lemma circular_nth {A} (r : list A) n : 0 < length r -> n < 3 * length r ->
  nth_error (circular (length r) r) n = nth_error r (n mod length r).
Proof.
  intros P H. unfold circular. rewrite Nat.sub_diag, firstn_all. cbn [skipn].
  destruct (Nat.lt_ge_cases n (length r)) as [a|a].
  - rewrite nth_error_app1 by auto. rewrite Nat.mod_small by auto. reflexivity.
  - rewrite nth_error_app2 by auto. destruct (Nat.lt_ge_cases n (2 * length r)) as [b|b].
    + rewrite nth_error_app1 by lia. f_equal. symmetry. replace n with (n - length r + 1 * length r) at 1 by lia.
      rewrite Nat.mod_add by lia. apply Nat.mod_small. lia.
    + rewrite nth_error_app2 by lia. f_equal. symmetry. replace n with (n - length r - length r + 2 * length r) at 1 by lia.
      rewrite Nat.mod_add by lia. apply Nat.mod_small. lia.
Qed.
Lemma circular_len {A} (r : list A) : length (circular (length r) r) = 3 * length r.
Proof. unfold circular. rewrite !app_length, firstn_all, Nat.sub_diag. cbn [skipn]. lia. Qed.
Lemma windows_nth {A} p (r : list A) i : i < length r + 1 - p ->
  nth_error (windows p r) i = Some (firstn p (skipn i r)).
Proof.
  intro H. unfold windows. rewrite nth_error_map.
  rewrite (nth_error_nth' (seq 0 (length r + 1 - p)) 0) by (rewrite seq_length; auto).
  rewrite seq_nth by auto. reflexivity.
Qed.
(* the window at position i of the transposed row *)
Lemma window_moved {A} k (r r' : list A) i : 0 < length r -> transposed k r r' -> i <= 2 * length r ->
  firstn (length r) (skipn i (circular (length r') r')) =
  firstn (length r) (skipn ((i + k) mod length r) (circular (length r) r)).
Proof.
  intros P (E & T) I. apply nth_ext_err. intro j. rewrite !nth_take, !nth_skipn.
  destruct (j <? length r) eqn:J; [|reflexivity]. apply Nat.ltb_lt in J.
  assert (M : (i + k) mod length r < length r) by (apply Nat.mod_upper_bound; lia).
  rewrite !circular_nth by lia. rewrite E, T by (apply Nat.mod_upper_bound; lia).
  f_equal. rewrite Nat.add_mod_idemp_l by lia. rewrite Nat.add_mod_idemp_l by lia. f_equal. lia.
Qed.

Section P.
Variable A : Type.
Variables add mul : A -> A -> A.
Variable relu : A -> A.
Notation conv_row := (conv_row add mul relu).
Notation features := (features add mul relu).
Notation lin := (lin add mul relu).
Notation layers := (layers add mul relu).
Notation parallel := (parallel add mul relu).
Notation cnn_forward := (cnn_forward add mul relu).

Definition channel (net : cnn A) (c : list (list A) * A) (r : list A) (i : nat) : A :=
  relu (dot add mul (snd c) (concat (fst c)) (firstn (cn_width net) (skipn i (circular (cn_width net) r)))).
Lemma conv_at net r i : length r = cn_width net -> i <= 2 * cn_width net ->
  at_position i (conv_row net r) (map (fun c => channel net c r i) (cn_conv net)).
Proof.
  intros E I. unfold at_position, Model_Cnn.conv_row.
  induction (cn_conv net) as [|c l IH]; constructor; auto.
  rewrite nth_error_map, windows_nth. { reflexivity. }
  rewrite <- E, circular_len, E. lia.
Qed.
Lemma lin_ok l rows : lin l (l_in l) rows =
  Ok (length (l_rows l), map (fun r => map (fun o : list A * A => relu (dot add mul (snd o) (fst o) r)) (l_rows l)) rows).
Proof. unfold Model_Cnn.lin. rewrite Nat.eqb_refl. reflexivity. Qed.
Lemma norm_map (n : option (list A -> list A)) : exists g : list A -> list A, forall rows, norm n rows = map g rows.
Proof. destruct n as [f|]; [exists f|exists (fun r => r)]; intro rows; cbn; auto. rewrite map_id. reflexivity. Qed.
Lemma hidden_ok h n m : chained n h m ->
  exists g : list A -> list A, forall rows,
  fold_left (fun (acc : res (nat * list (list A))) (h : linear A * option (list A -> list A)) =>
               let! y := acc in
               let! z := lin (fst h) (fst y) (snd y) in
               Ok (fst z, norm (snd h) (snd z))) h (Ok (n, rows)) = Ok (m, map g rows).
Proof.
  induction 1 as [n|n l f r m E C (g & G)].
  - exists (fun r => r). intro rows. cbn. rewrite map_id. reflexivity.
  - destruct (norm_map f) as (f' & F).
    eexists. intro rows. cbn [fold_left bind fst snd]. rewrite <- E, lin_ok. cbn [bind fst snd]. rewrite F, G, !map_map.
    reflexivity.
Qed.
Lemma parallel_ok net : constructed net -> exists g : list A -> list A, forall rows,
  parallel net (length (cn_conv net)) rows = Ok (map g rows).
Proof.
  intros (K & P & E & m & C & M). destruct (hidden_ok _ _ _ C) as (g & G). destruct (norm_map (cn_norm net)) as (f & F).
  eexists. intro rows. unfold Model_Cnn.parallel, Model_Cnn.layers. rewrite <- E, lin_ok. cbn [bind fst snd].
  rewrite F, G. cbn [bind fst snd]. rewrite <- M, lin_ok. cbn [bind fst snd]. rewrite !map_map. reflexivity.
Qed.

(* The feed-forward network is applied to each row by itself. *)
Theorem C107_copies : forall net rows, constructed net ->
  exists outs, parallel net (length (cn_conv net)) rows = Ok outs /\
  Forall2 (fun r o => parallel net (length (cn_conv net)) [r] = Ok [o]) rows outs.
Proof.
  intros net rows C. destruct (parallel_ok net C) as (g & G). exists (map g rows). split; [apply G|].
  induction rows; constructor; auto. rewrite G. reflexivity.
Qed.

(* Transposing the rows transposes what the convolution finds in them, and what the network says about each
   position: the answers for root i are those that were given for root i + k. *)
Theorem C107_transposed_partial : forall net k rows rows',
  constructed net -> cn_inputs net = 1 ->
  Forall (fun r => length r = cn_width net) rows -> Forall2 (transposed k) rows rows' ->
  exists ms ms',
    features net (T2 (cn_width net) rows) = Ok ms /\ features net (T2 (cn_width net) rows') = Ok ms' /\
    Forall2 (same_answers net k (fun column o => parallel net (length (cn_conv net)) [column] = Ok [o])) ms ms'.
Proof.
  intros net k rows rows' C I R T. pose proof C as (K & P & _).
  destruct (parallel_ok net C) as (g & G).
  exists (map (conv_row net) rows), (map (conv_row net) rows').
  unfold Model_Cnn.features. rewrite I. cbn [Nat.eqb negb].
  replace (cn_width net =? 0) with false by (symmetry; apply Nat.eqb_neq; lia).
  rewrite Nat.ltb_irrefl. split; [reflexivity|]. split; [reflexivity|].
  induction T as [|r r' rows rows' t T IH]; cbn [map]; constructor.
  - inversion R as [|? ? L R']; subst. intros i Hi.
    exists (map (fun c => channel net c r' i) (cn_conv net)). eexists. split; [|split].
    + apply conv_at; [|lia]. destruct t as (t & _). congruence.
    + replace (map (fun c => channel net c r' i) (cn_conv net))
        with (map (fun c => channel net c r ((i + k) mod cn_width net)) (cn_conv net)).
      { apply conv_at; auto. pose proof (Nat.mod_upper_bound (i + k) (cn_width net)). lia. }
      apply map_ext. intro c. unfold channel. do 2 f_equal. symmetry.
      pose proof (window_moved k r r' i) as W. destruct t as (t & t'). rewrite t, L in W. apply W; [lia|split; auto; congruence|lia].
    + rewrite G. reflexivity.
  - apply IH. inversion R; auto.
Qed.

Lemma concat_len (l : list (list A)) n : Forall (fun x => length x = n) l -> length (concat l) = length l * n.
Proof. induction 1; cbn; auto. rewrite app_length. lia. Qed.
Lemma conv_len net r : length r = cn_width net ->
  length (concat (conv_row net r)) = length (cn_conv net) * (2 * cn_width net + 1).
Proof.
  intro E. rewrite concat_len with (n := 2 * cn_width net + 1).
  - unfold Model_Cnn.conv_row. rewrite map_length. reflexivity.
  - unfold Model_Cnn.conv_row. apply Forall_forall. intros x X. apply in_map_iff in X. destruct X as (c & <- & _).
    rewrite map_length. unfold windows. rewrite map_length, seq_length, <- E, circular_len. lia.
Qed.
(* No data is ever classified. *)
Theorem C107_never : forall net x o, cnn_forward net x <> Ok o.
Proof.
  intros net x o. unfold Model_Cnn.cnn_forward, combine_out. destruct (features net x); cbn; [|discriminate].
  destruct (reshape _ _); cbn; [|discriminate]. destruct (parallel _ _ _); cbn; discriminate.
Qed.
(* Data of the documented kind is refused before the last step: with a channel dimension by the convolution, without
   it because the convolution gives each row 2 * width + 1 positions, not 12. *)
Theorem C107_refuted : forall net x, constructed net -> rectangular x ->
  match x with T2 w _ => w = cn_width net | T3 _ _ => True end ->
  cnn_forward net x = Raise RuntimeError.
Proof.
  intros net [w rows|w rows] C R W; [|reflexivity]. subst w. destruct R as (N & R). pose proof C as (K & P & E & _).
  unfold Model_Cnn.cnn_forward, Model_Cnn.features. destruct (cn_inputs net =? 1); [|reflexivity]. cbn [negb].
  destruct (cn_width net =? 0); [reflexivity|]. rewrite Nat.ltb_irrefl. cbn [bind]. rewrite map_length, map_map.
  set (entries := concat _).
  assert (L : length entries = length rows * (length (cn_conv net) * (2 * cn_width net + 1))).
  { unfold entries. rewrite concat_len with (n := length (cn_conv net) * (2 * cn_width net + 1)).
    - rewrite map_length. reflexivity.
    - apply Forall_forall. intros x X. apply in_map_iff in X. destruct X as (r & <- & X).
      apply conv_len. rewrite Forall_forall in R. auto. }
  assert (B : 0 < length rows) by (destruct rows; [congruence|cbn; lia]).
  unfold reshape. destruct (length rows * 12 =? 0) eqn:Z. { apply Nat.eqb_eq in Z. lia. }
  destruct (length entries mod (length rows * 12) =? 0) eqn:D; [|reflexivity]. cbn [negb bind fst snd].
  apply Nat.eqb_eq in D. apply Nat.div_exact in D; [|lia].
  set (q := length entries / (length rows * 12)) in *.
  assert (Q : length (cn_conv net) * (2 * cn_width net + 1) = 12 * q).
  { apply (Nat.mul_cancel_l _ _ (length rows)); [lia|]. rewrite <- L, D. lia. }
  assert (q <> length (cn_conv net)) as NQ.
  { intro H. rewrite H in Q. assert (2 * cn_width net + 1 = 12) by (apply (Nat.mul_cancel_l _ _ (length (cn_conv net))); lia). lia. }
  unfold Model_Cnn.parallel, Model_Cnn.layers, Model_Cnn.lin. rewrite E.
  replace (q =? length (cn_conv net)) with false by (symmetry; apply Nat.eqb_neq; auto). reflexivity.
Qed.
End P.
Print Assumptions C107_copies.
Print Assumptions C107_transposed_partial.
Print Assumptions C107_never.
Print Assumptions C107_refuted.

(* The joint model does the stages that are asked for, the encoder first, whatever their order. *)
Theorem C107_joint : forall D (enc cls : option D -> res (option D)) data stages,
  joint_forward enc cls data stages =
  match in_dec Nat.eq_dec 0 stages, in_dec Nat.eq_dec 1 stages with
  | left _, left _ => match enc data with Ok d => cls d | Raise e => Raise e end
  | left _, right _ => enc data
  | right _, left _ => cls data
  | right _, right _ => Ok data
  end.
Proof.
  intros. assert (X : forall n l, existsb (Nat.eqb n) l = if in_dec Nat.eq_dec n l then true else false).
  { intros n l. destruct (in_dec Nat.eq_dec n l) as [i|i].
    - apply existsb_exists. exists n. split; auto. apply Nat.eqb_refl.
    - destruct (existsb (Nat.eqb n) l) eqn:e; auto. apply existsb_exists in e. destruct e as (m & a & b).
      apply Nat.eqb_eq in b. subst. contradiction. }
  unfold joint_forward. rewrite !X. destruct (in_dec _ 0 _), (in_dec _ 1 _); cbn; auto.
  - destruct (enc data); auto.
Qed.
Print Assumptions C107_joint.
(* With the encoder of this file nothing comes out of the first stage, and the second one fails. *)
Theorem C107_joint_refuted : forall D (cls : D -> res D) data stages, In 0 stages ->
  joint_forward encoder_forward (on_tensor cls) data stages = (if in_dec Nat.eq_dec 1 stages then Raise AttributeError else Ok None).
Proof.
  intros. rewrite C107_joint. destruct (in_dec Nat.eq_dec 0 stages); [|contradiction].
  destruct (in_dec Nat.eq_dec 1 stages); reflexivity.
Qed.
Print Assumptions C107_joint_refuted.

(* A network with two channels over three pitches: a row, the row moved by one, what the convolution finds, and what
   the network says about the first position. *)
Definition tiny : cnn nat :=
  {| cn_inputs := 1; cn_width := 3; cn_conv := [([[1; 2; 0]], 0); ([[0; 1; 5]], 1)];
     cn_input := {| l_in := 2; l_rows := [([1; 1], 0); ([2; 0], 3)] |}; cn_norm := None;
     cn_hidden := [({| l_in := 2; l_rows := [([1; 2], 0)] |}, Some (map S))];
     cn_output := {| l_in := 1; l_rows := [([1], 0); ([3], 1)] |} |}.
Definition id_nat (n : nat) : nat := n.
Example C107_ex :
  constructed tiny /\ transposed 1 [4; 7; 9] [7; 9; 4] /\
  features Nat.add Nat.mul id_nat tiny (T2 3 [[4; 7; 9]; [7; 9; 4]]) =
    Ok [[[18; 25; 17; 18; 25; 17; 18]; [53; 30; 40; 53; 30; 40; 53]];
        [[25; 17; 18; 25; 17; 18; 25]; [30; 40; 53; 30; 40; 53; 30]]] /\
  parallel Nat.add Nat.mul id_nat tiny 2 [[18; 53]; [25; 30]] = Ok [[150; 451]; [162; 487]] /\
  cnn_forward Nat.add Nat.mul id_nat tiny (T2 3 [[4; 7; 9]]) = Raise RuntimeError.
Proof.
  split. { split; [cbn; lia|]. split; [cbn; lia|]. split; [reflexivity|]. exists 1. split; [|reflexivity].
    apply ch_cons; [reflexivity|]. apply ch_nil. }
  split. { split; [reflexivity|]. intros [|[|[|i]]] H; try reflexivity. cbn in H. lia. }
  repeat split; vm_compute; reflexivity.
Qed.
