(* Lemmas for the piece properties. *)
From Coq Require Import QArith Lqa String Ascii.
From Verif Require Import PyBase Model_Types Model_Harmony Model_Strings Model_Rhythm Model_Piece
  Spec_Piece Proof_Base Proof_Codec Proof_Strings Proof_Rhythm.
From Coq Require Import List.
Import ListNotations.
Close Scope Q_scope.
Open Scope Z_scope.

(* ---- equality tests ---- *)
Lemma pt_eqb_iff a b : pt_eqb a b = true <-> a = b.
Proof. destruct a, b; cbn; split; congruence. Qed.
Lemma km_eqb_iff a b : km_eqb a b = true <-> a = b.
Proof. destruct a, b; cbn; split; congruence. Qed.
Lemma ostr_eqb_iff a b : ostr_eqb a b = true <-> a = b.
Proof.
  destruct a as [a|], b as [b|]; cbn [ostr_eqb]; try (split; congruence).
  rewrite str_eqb_eq. split; congruence.
Qed.

Lemma chord_repeated_iff ui us a b : chord_repeated ui us a b = true <-> same_chord ui us a b.
Proof.
  unfold chord_repeated, same_chord.
  rewrite !andb_true_iff, pt_eqb_iff, ct_eqb_eq, Z.eqb_eq.
  destruct ui, us; rewrite ?Z.eqb_eq, ?ostr_eqb_iff; intuition congruence.
Qed.
Lemma key_repeated_iff ur a b : key_repeated ur a b = true <-> same_key ur a b.
Proof.
  unfold key_repeated, same_key. rewrite andb_true_iff, pt_eqb_iff.
  destruct ur; rewrite andb_true_iff, Z.eqb_eq, km_eqb_iff; intuition congruence.
Qed.

Lemma same_chord_sym ui us a b : same_chord ui us a b -> same_chord ui us b a.
Proof. unfold same_chord. intuition. Qed.
Lemma same_chord_trans ui us a b c : same_chord ui us a b -> same_chord ui us b c -> same_chord ui us a c.
Proof. unfold same_chord. intuition; congruence. Qed.
Lemma same_key_sym ur a b : same_key ur a b -> same_key ur b a.
Proof. unfold same_key. intuition. Qed.
Lemma same_key_trans ur a b c : same_key ur a b -> same_key ur b c -> same_key ur a c.
Proof. unfold same_key. intuition; congruence. Qed.

(* ---- runs ---- *)
Definition run_mask {A} (gs : list (A * list A)) : list bool :=
  concat (map (fun g => true :: map (fun _ => false) (snd g)) gs).

Lemma mask_from_runs {A} (rep : A -> A -> bool)
  (T : forall a b c, rep a b = true -> rep b c = true -> rep a c = true) :
  forall l prev h, (prev = h \/ (rep prev h = true /\ rep h prev = true)) ->
  (forall a b, rep a b = true -> rep b a = true) ->
  exists t gs, l = t ++ concat (map (fun g => fst g :: snd g) gs) /\
    mask_from rep prev l = map (fun _ => false) t ++ run_mask gs /\
    (forall x, In x t -> rep x h = true) /\
    (forall g x, In g gs -> In x (snd g) -> rep x (fst g) = true) /\
    heads_differ (fun a b => rep a b = true) ((h, t) :: gs).
Proof.
  induction l as [|x l IH]; intros prev h P Sy.
  - exists [], []. cbn. intuition.
  - cbn [mask_from]. destruct (rep x prev) eqn:E.
    + assert (R : rep x h = true).
      { destruct P as [->|[P _]]; [exact E|]. now apply T with prev. }
      destruct (IH x h) as (t & gs & L & M & H1 & H2 & H3); [right; auto|auto|].
      exists (x :: t), gs. split; [now rewrite L|]. split; [cbn; now rewrite M|].
      split; [intros y [<-|I]; auto|]. split; [auto|]. exact H3.
    + destruct (IH x x) as (t & gs & L & M & H1 & H2 & H3); [now left|auto|].
      exists [], ((x, t) :: gs). split; [cbn; now rewrite L|].
      split; [unfold run_mask; cbn; now rewrite M|].
      split; [intros y []|]. split.
      * intros g y [<-|I] J; cbn in *; eauto.
      * cbn [heads_differ]. split; [cbn [fst]|exact H3].
        intros X. destruct P as [->|[_ P]]; [congruence|]. assert (rep x prev = true) by eauto. congruence.
Qed.

Lemma mask_runs {A} (rep : A -> A -> bool)
  (T : forall a b c, rep a b = true -> rep b c = true -> rep a c = true)
  (Sy : forall a b, rep a b = true -> rep b a = true) l :
  exists gs, maximal_runs (fun a b => rep a b = true) l gs /\ get_reduction_mask rep l = run_mask gs.
Proof.
  destruct l as [|x l].
  - exists []. repeat split; intros g x [].
  - destruct (mask_from_runs rep T l x x) as (t & gs & L & M & H1 & H2 & H3); [now left|auto|].
    exists ((x, t) :: gs). split.
    + split; [cbn; now rewrite L|]. split; [|exact H3].
      intros g y [<-|I] J; cbn in *; eauto.
    + cbn [get_reduction_mask]. rewrite M. reflexivity.
Qed.

Lemma heads_differ_iff {A} (R R' : A -> A -> Prop) (E : forall a b, R a b <-> R' a b) gs :
  heads_differ R gs -> heads_differ R' gs.
Proof.
  induction gs as [|g gs IH]; intros H; [exact I|]. destruct gs as [|g' gs]; [exact I|].
  destruct H as [H1 H2]. split; [now rewrite <- E|now apply IH].
Qed.
Lemma maximal_runs_iff {A} (R R' : A -> A -> Prop) (E : forall a b, R a b <-> R' a b) l gs :
  maximal_runs R l gs -> maximal_runs R' l gs.
Proof.
  intros (H1 & H2 & H3). split; [exact H1|]. split; [|eapply heads_differ_iff; eauto].
  intros g x Ig Ix. apply E. eauto.
Qed.

Lemma apply_mask_app {A} (m1 m2 : list bool) (l1 l2 : list A) : List.length m1 = List.length l1 ->
  apply_mask (m1 ++ m2) (l1 ++ l2) = apply_mask m1 l1 ++ apply_mask m2 l2.
Proof.
  revert l1; induction m1 as [|b m1 IH]; intros [|x l1] L; try discriminate L; [reflexivity|].
  cbn in *. injection L as L. rewrite IH by exact L. destruct b; reflexivity.
Qed.
Lemma apply_mask_false {A B} (l : list A) (k : list B) : List.length l = List.length k ->
  apply_mask (map (fun _ => false) k) l = [].
Proof. revert l; induction k as [|y k IH]; intros [|x l] L; try discriminate L; cbn in *; auto. Qed.
(* the mask applied to any list aligned with the runs *)
Lemma apply_run_mask {A} (gs : list (A * list A)) :
  apply_mask (run_mask gs) (concat (map (fun g => fst g :: snd g) gs)) = map fst gs.
Proof.
  induction gs as [|[h t] gs IH]; [reflexivity|]. unfold run_mask in *. cbn -[apply_mask].
  cbn [apply_mask]. rewrite apply_mask_app by (now rewrite map_length).
  rewrite apply_mask_false by reflexivity. cbn. now rewrite IH.
Qed.

(* position by position *)
Lemma mask_from_nth {A} (rep : A -> A -> bool) : forall l prev i,
  nth_error (mask_from rep prev l) i =
  match nth_error l i, nth_error (prev :: l) i with
  | Some x, Some p => Some (negb (rep x p))
  | _, _ => None
  end.
Proof.
  induction l as [|x l IH]; intros prev i; [now destruct i|].
  destruct i as [|i]; [reflexivity|]. cbn [mask_from nth_error]. rewrite IH. reflexivity.
Qed.
Lemma mask_nth {A} (rep : A -> A -> bool) l i :
  nth_error (get_reduction_mask rep l) i =
  match i with
  | O => match l with [] => None | _ => Some true end
  | S j => match nth_error l (S j), nth_error l j with
           | Some x, Some p => Some (negb (rep x p))
           | _, _ => None
           end
  end.
Proof.
  destruct l as [|x l]; [destruct i as [|[|i]]; reflexivity|].
  destruct i as [|i]; [reflexivity|]. cbn [get_reduction_mask nth_error]. rewrite mask_from_nth. reflexivity.
Qed.

(* ---- merging ---- *)
Lemma merge_repeats_false acc m t rest :
  merge_repeats (m :: acc) (combine t (map (fun _ => false) t) ++ rest) =
  merge_repeats (fold_left merge_with t m :: acc) rest.
Proof. revert m; induction t as [|x t IH]; intros m; [reflexivity|]. cbn. apply IH. Qed.

Lemma combine_app {A B} (l1 l2 : list A) (m1 m2 : list B) : List.length l1 = List.length m1 ->
  combine (l1 ++ l2) (m1 ++ m2) = combine l1 m1 ++ combine l2 m2.
Proof. revert m1; induction l1 as [|x l1 IH]; intros [|y m1] L; try discriminate L; cbn in *; [reflexivity|]. now rewrite IH by lia. Qed.

Lemma merge_repeats_runs gs : forall acc,
  merge_repeats acc (combine (concat (map (fun g => fst g :: snd g) gs)) (run_mask gs)) =
  Ok (rev acc ++ map (fun g => fold_left merge_with (snd g) (fst g)) gs).
Proof.
  induction gs as [|[h t] gs IH]; intros acc.
  - cbn. now rewrite app_nil_r.
  - unfold run_mask in *. cbn -[merge_repeats]. cbn [merge_repeats].
    rewrite combine_app by (now rewrite map_length). rewrite merge_repeats_false, IH. cbn.
    now rewrite <- app_assoc.
Qed.

Lemma fold_merge t : forall m, let r := fold_left merge_with t m in
  pc r = pc m /\ pc_on r = pc_on m /\ pc_on_level r = pc_on_level m /\ pc_susp r = pc_susp m /\
  pc_off r = pc_off (List.last t m) /\ pc_off_level r = pc_off_level (List.last t m) /\
  (pc_dur r == pc_dur m + total (map pc_dur t))%Q.
Proof.
  induction t as [|x t IH]; intros m; cbn zeta.
  - cbn. do 6 (split; [reflexivity|]). lra.
  - cbn [fold_left]. destruct (IH (merge_with m x)) as (A1 & A2 & A3 & A4 & A5 & A6 & A7).
    rewrite A1, A2, A3, A4, A5, A6. do 4 (split; [reflexivity|]).
    assert (L : List.last (x :: t) m = List.last t x) by (destruct t; [reflexivity|]; cbn [List.last];
      clear; revert x m p; induction t as [|y t IH]; intros; [reflexivity|apply IH; assumption]).
    split; [|split].
    + destruct t as [|y t]; [reflexivity|]. rewrite L. f_equal.
      clear. revert y; induction t as [|z t IH]; intros y; [reflexivity|]. cbn [List.last]. apply (IH z).
    + destruct t as [|y t]; [reflexivity|]. rewrite L. f_equal.
      clear. revert y; induction t as [|z t IH]; intros y; [reflexivity|]. cbn [List.last]. apply (IH z).
    + rewrite A7. cbn [map total fold_right merge_with pc_dur]. unfold total. lra.
Qed.

(* totals and touching chords survive the merge *)
Lemma total_app l r : (total (l ++ r) == total l + total r)%Q.
Proof.
  induction l as [|x l IH]; cbn [app]; [change (total []) with 0%Q; lra|].
  change (total (x :: l ++ r)) with (x + total (l ++ r))%Q.
  change (total (x :: l)) with (x + total l)%Q. rewrite IH. lra.
Qed.

Lemma last_cons {A} (x d : A) l : List.last (x :: l) d = List.last l x.
Proof.
  revert x d; induction l as [|y l IH]; intros x d; [reflexivity|].
  change (List.last (x :: y :: l) d) with (List.last (y :: l) d). now rewrite !IH.
Qed.

Lemma touching_tail t : forall h rest, touching (h :: t ++ rest) ->
  touching rest /\ (forall b r, rest = b :: r -> same_pos (pc_off (List.last t h)) (pc_on b)).
Proof.
  induction t as [|x t IH]; intros h rest H.
  - cbn [app List.last] in *. destruct rest as [|b r]; [split; [exact I|discriminate]|].
    destruct H as [H1 H2]. split; [exact H2|]. intros b' r' E. injection E as <- <-. exact H1.
  - cbn [app] in H. destruct H as [_ H]. rewrite (last_cons x h). now apply IH.
Qed.
Definition merge_group (g : pchord * list pchord) : pchord := fold_left merge_with (snd g) (fst g).
Lemma touching_merged gs : touching (concat (map (fun g => fst g :: snd g) gs)) -> touching (map merge_group gs).
Proof.
  induction gs as [|[h t] gs IH]; intros H; [exact I|]. cbn [map concat fst snd app] in H.
  apply touching_tail in H. destruct H as [H1 H2]. specialize (IH H1).
  destruct gs as [|[h' t'] gs]; [exact I|]. cbn [map concat fst snd app] in H2, IH |- *.
  split; [|exact IH]. specialize (H2 h' _ eq_refl).
  destruct (fold_merge t h) as (_ & _ & _ & _ & Off & _). destruct (fold_merge t' h') as (_ & On & _).
  unfold merge_group. cbn [fst snd]. rewrite Off, On. exact H2.
Qed.
Lemma total_merged gs :
  (total (map pc_dur (map merge_group gs)) ==
   total (map pc_dur (concat (map (fun g => fst g :: snd g) gs))))%Q.
Proof.
  induction gs as [|[h t] gs IH]; [reflexivity|]. cbn [map concat fst snd app].
  rewrite map_app. change (total (pc_dur h :: map pc_dur t ++ map pc_dur (concat (map (fun g => fst g :: snd g) gs))))
    with (pc_dur h + total (map pc_dur t ++ map pc_dur (concat (map (fun g => fst g :: snd g) gs))))%Q.
  rewrite total_app, <- IH.
  change (total (pc_dur (merge_group (h, t)) :: map pc_dur (map merge_group gs)))
    with (pc_dur (merge_group (h, t)) + total (map pc_dur (map merge_group gs)))%Q.
  destruct (fold_merge t h) as (_ & _ & _ & _ & _ & _ & Du).
  change (merge_group (h, t)) with (fold_left merge_with t h). rewrite Du. lra.
Qed.

(* ---- score order ---- *)
Lemma pos_lt_iff a b : pos_lt a b = true <-> before a b.
Proof.
  unfold pos_lt, pos_gt, before. rewrite orb_true_iff, andb_true_iff, negb_true_iff, Z.ltb_lt, Z.eqb_eq.
  split; intros [H|[H1 H2]]; [left; lia|right|left; lia|right]; split; try lia.
  - destruct (Qlt_le_dec (snd a) (snd b)) as [L|L]; [exact L|]. apply Qle_bool_iff in L. congruence.
  - destruct (Qle_bool (snd b) (snd a)) eqn:E; [|reflexivity]. apply Qle_bool_iff in E. lra.
Qed.
Lemma pos_lt_false a b : pos_lt a b = false <-> ~ before a b.
Proof. rewrite <- pos_lt_iff. now destruct (pos_lt a b). Qed.
Lemma before_trans a b c : before a b -> before b c -> before a c.
Proof. unfold before. intros [H|[H1 H2]] [K|[K1 K2]]; [left; lia..|right; split; [lia|lra]]. Qed.
Lemma before_not a b c : before a b -> ~ before c b -> before a c.
Proof.
  unfold before. intros H K. destruct (Z.lt_trichotomy (fst c) (fst b)) as [L|[L|L]].
  - exfalso. apply K. now left.
  - assert (Q : (snd b <= snd c)%Q).
    { destruct (Qlt_le_dec (snd c) (snd b)) as [X|X]; [|exact X]. exfalso. apply K. right. now split. }
    destruct H as [H|[H1 H2]]; [left; lia|right; split; [lia|lra]].
  - left. destruct H as [H|[H1 H2]]; lia.
Qed.
Lemma not_before_trans a b c : ~ before b a -> ~ before c b -> ~ before c a.
Proof. intros H K X. apply K. eapply before_not; [exact X|exact H]. Qed.

Lemma in_order_head a l : in_order (a :: l) -> forall x, In x l -> ~ before x a.
Proof.
  revert a; induction l as [|b l IH]; intros a O x I; [destruct I|].
  destruct O as [H1 H2]. destruct I as [<-|I]; [exact H1|]. eapply not_before_trans; [exact H1|]. now apply IH.
Qed.
Lemma in_order_nth l : in_order l -> forall i j a b, (i <= j)%nat -> nth_error l i = Some a ->
  nth_error l j = Some b -> ~ before b a.
Proof.
  induction l as [|x l IH]; intros O i j a b L Hi Hj; [now destruct i|].
  destruct i as [|i], j as [|j]; cbn in Hi, Hj.
  - injection Hi as ->. injection Hj as ->. unfold before. intros [H|[_ H]]; [lia|lra].
  - injection Hi as ->. eapply in_order_head; [exact O|]. eapply nth_error_In; eauto.
  - lia.
  - eapply (IH) with (i := i) (j := j); eauto; [|lia]. destruct l; [exact I|apply O].
Qed.

(* ---- change indexes ---- *)
Lemma advance_spec : forall rest pre o rest' i, rest <> [] ->
  advance rest (List.length pre) o = (rest', i) ->
  exists pre', pre ++ rest = pre' ++ rest' /\ List.length pre' = i /\ rest' <> [] /\
    (List.length pre <= i)%nat /\
    (forall j x, (List.length pre <= j < i)%nat -> nth_error (pre ++ rest) j = Some x -> before x o) /\
    (forall x, nth_error (pre ++ rest) i = Some x -> ~ before x o \/ S i = List.length (pre ++ rest)).
Proof.
  induction rest as [|x rest IH]; intros pre o rest' i N E; [congruence|].
  destruct rest as [|y rest].
  - cbn in E. injection E as <- <-. exists pre. split; [reflexivity|]. split; [reflexivity|].
    split; [discriminate|]. split; [lia|]. split; [intros; lia|].
    intros z _. right. rewrite app_length. cbn. lia.
  - cbn [advance] in E. destruct (pos_lt x o) eqn:P.
    + assert (L : List.length (pre ++ [x]) = S (List.length pre)) by (rewrite app_length; cbn; lia).
      rewrite <- L in E. destruct (IH (pre ++ [x]) o rest' i) as (pre' & H1 & H2 & H3 & H4 & H5 & H6);
        [discriminate|exact E|].
      rewrite <- app_assoc in H1, H5, H6. cbn [app] in H1, H5, H6. exists pre'.
      split; [exact H1|]. split; [exact H2|]. split; [exact H3|]. split; [lia|]. split; [|exact H6].
      intros j z J Z1. destruct (Nat.eq_dec j (List.length pre)) as [->|D].
      * rewrite nth_error_app2, Nat.sub_diag in Z1 by lia. cbn in Z1. injection Z1 as <-.
        now apply pos_lt_iff.
      * apply H5 with j; [lia|exact Z1].
    + injection E as <- <-. exists pre. split; [reflexivity|]. split; [reflexivity|].
      split; [discriminate|]. split; [lia|]. split; [intros; lia|].
      intros z Z1. rewrite nth_error_app2, Nat.sub_diag in Z1 by lia. cbn in Z1. injection Z1 as <-.
      left. now apply pos_lt_false.
Qed.

Lemma chord_changes_length rest i os : List.length (chord_changes rest i os) = List.length os.
Proof.
  revert rest i; induction os as [|o os IH]; intros rest i; [reflexivity|].
  cbn [chord_changes]. destruct (advance rest i o) as [r' i']. cbn. now rewrite IH.
Qed.

Lemma chord_changes_spec : forall os pre rest k o i, rest <> [] ->
  (forall x, In x pre -> forall o', nth_error os 0 = Some o' -> before x o') ->
  in_order os ->
  nth_error os k = Some o -> nth_error (chord_changes rest (List.length pre) os) k = Some i ->
  first_or_last (fun x => ~ before x o) (pre ++ rest) i /\ (List.length pre <= i)%nat.
Proof.
  induction os as [|o1 os IH]; intros pre rest k o i N B O Ko Ki; [now destruct k|].
  cbn [chord_changes] in Ki. destruct (advance rest (List.length pre) o1) as [rest' i1] eqn:A.
  destruct (advance_spec _ _ _ _ _ N A) as (pre' & H1 & H2 & H3 & H4 & H5 & H6).
  assert (P : forall j x, (j < i1)%nat -> nth_error (pre ++ rest) j = Some x -> before x o1).
  { intros j x J X. destruct (Nat.lt_ge_cases j (List.length pre)) as [L|L].
    - rewrite nth_error_app1 in X by lia. eapply B; [eapply nth_error_In; eauto|reflexivity].
    - apply H5 with j; auto. }
  destruct k as [|k]; cbn in Ko, Ki.
  - injection Ko as <-. injection Ki as <-. split; [|exact H4]. split; [|split].
    + rewrite H1, app_length, H2. destruct rest'; [congruence|]. cbn. lia.
    + intros j x J X K. apply K. eapply P; eauto.
    + exact H6.
  - rewrite <- H2 in Ki. destruct (IH pre' rest' k o i) as (F & L); auto.
    + intros x X o' Eo. destruct (In_nth_error _ _ X) as (j & J).
      assert (Jl : (j < i1)%nat) by (rewrite <- H2; apply nth_error_Some; congruence).
      assert (X1 : before x o1) by (apply (P j); [exact Jl|rewrite H1, nth_error_app1; [exact J|rewrite H2; exact Jl]]).
      eapply before_not; [exact X1|]. destruct os as [|o2 os]; [discriminate Eo|].
      cbn in Eo. injection Eo as <-. apply O.
    + destruct os; [exact I|apply O].
    + rewrite <- H1 in F. split; [exact F|lia].
Qed.

Lemma chord_changes_mono : forall os (pre : list pos) rest k i j, rest <> [] ->
  nth_error (chord_changes rest (List.length pre) os) k = Some i ->
  nth_error (chord_changes rest (List.length pre) os) (S k) = Some j -> (i <= j)%nat.
Proof.
  induction os as [|o1 os IH]; intros pre rest k i j N Ki Kj; [now destruct k|].
  cbn [chord_changes] in *. destruct (advance rest (List.length pre) o1) as [rest' i1] eqn:A.
  destruct (advance_spec _ _ _ _ _ N A) as (pre' & H1 & H2 & H3 & H4 & _).
  destruct k as [|k]; cbn in Ki, Kj.
  - injection Ki as <-. destruct os as [|o2 os]; [discriminate Kj|]. cbn [chord_changes] in Kj.
    rewrite <- H2 in Kj. destruct (advance rest' (List.length pre') o2) as [rest2 i2] eqn:A2.
    cbn in Kj. injection Kj as <-. destruct (advance_spec _ _ _ _ _ H3 A2) as (_ & _ & _ & _ & L & _). lia.
  - rewrite <- H2 in *. apply (IH pre' rest' k i j); auto.
Qed.

(* ---- range starts ---- *)
Lemma range_start_from_spec o : forall notes k, exists n,
  range_start_from k o notes = (k + n)%nat /\ (n <= List.length notes)%nat /\
  (forall j m, (j < n)%nat -> nth_error notes j = Some m -> before (no_on m) o /\ ~ before o (no_off m)) /\
  (forall m, nth_error notes n = Some m -> ~ before (no_on m) o \/ before o (no_off m)).
Proof.
  induction notes as [|m notes IH]; intros k.
  - exists 0%nat. cbn. split; [lia|]. split; [lia|]. split; [intros; lia|discriminate].
  - cbn [range_start_from]. destruct (negb (pos_lt (no_on m) o) || pos_lt o (no_off m)) eqn:E.
    + exists 0%nat. split; [lia|]. split; [lia|]. split; [intros; lia|]. intros x X. cbn in X.
      injection X as <-. apply orb_true_iff in E. rewrite negb_true_iff, pos_lt_false, pos_lt_iff in E. exact E.
    + destruct (IH (S k)) as (n & H1 & H2 & H3 & H4). exists (S n). split; [lia|]. split; [cbn; lia|].
      apply orb_false_iff in E. rewrite negb_false_iff, pos_lt_false, pos_lt_iff in E.
      split.
      * intros j x J X. destruct j as [|j]; cbn in X; [injection X as <-; exact E|]. apply H3 with j; [lia|exact X].
      * intros x X. apply H4. exact X.
Qed.

(* ---- bisect ---- *)
Lemma bisect_loop_spec {A} (lt : A -> A -> bool) l x :
  (forall i j a b, (i <= j)%nat -> nth_error l i = Some a -> nth_error l j = Some b ->
     lt b x = true -> lt a x = true) ->
  forall fuel lo hi, (lo <= hi)%nat -> (hi <= List.length l)%nat -> (hi - lo < fuel)%nat ->
  (forall i a, (hi <= i)%nat -> nth_error l i = Some a -> lt a x = false) ->
  exists k, bisect_loop lt fuel l x lo hi = Ok k /\ (lo <= k <= hi)%nat /\
    (forall i a, (lo <= i < k)%nat -> nth_error l i = Some a -> lt a x = true) /\
    (forall i a, (k <= i)%nat -> nth_error l i = Some a -> lt a x = false).
Proof.
  intros M. induction fuel as [|fuel IH]; intros lo hi L H F B; [lia|].
  cbn [bisect_loop]. destruct (lo <? hi)%nat eqn:E.
  - apply Nat.ltb_lt in E. set (mid := ((lo + hi) / 2)%nat).
    assert (Hm : (lo <= mid < hi)%nat).
    { unfold mid. split; [apply Nat.div_le_lower_bound; lia|apply Nat.div_lt_upper_bound; lia]. }
    destruct (nth_error l mid) as [y|] eqn:Y; [|apply nth_error_None in Y; lia].
    destruct (lt y x) eqn:C.
    + destruct (IH (S mid) hi) as (k & E1 & K & P & Q); [lia..|auto|]. exists k. rewrite E1.
      split; [reflexivity|]. split; [lia|]. split; [|exact Q].
      intros i a I Ia. destruct (Nat.le_gt_cases i mid) as [J|J].
      * eapply M; [exact J|exact Ia|exact Y|exact C].
      * apply P with i; [lia|exact Ia].
    + destruct (IH lo mid) as (k & E1 & K & P & Q); [lia..| |].
      * intros i a I Ia. destruct (lt a x) eqn:C2; [|reflexivity].
        assert (lt y x = true) by (eapply M; [exact I|exact Y|exact Ia|exact C2]). congruence.
      * exists k. rewrite E1. split; [reflexivity|]. split; [lia|]. split; [exact P|exact Q].
  - apply Nat.ltb_ge in E. exists lo. split; [reflexivity|]. split; [lia|]. split; [intros; lia|].
    intros i a I. apply B. lia.
Qed.
Lemma bisect_left_spec {A} (lt : A -> A -> bool) l x lo :
  (forall i j a b, (i <= j)%nat -> nth_error l i = Some a -> nth_error l j = Some b ->
     lt b x = true -> lt a x = true) -> (lo <= List.length l)%nat ->
  exists k, bisect_left lt l x lo = Ok k /\ (lo <= k <= List.length l)%nat /\
    (forall i a, (lo <= i < k)%nat -> nth_error l i = Some a -> lt a x = true) /\
    (forall i a, (k <= i)%nat -> nth_error l i = Some a -> lt a x = false).
Proof.
  intros M L. apply bisect_loop_spec; auto; [lia|]. intros i a I Ia.
  assert (i < List.length l)%nat by (apply nth_error_Some; congruence). lia.
Qed.
