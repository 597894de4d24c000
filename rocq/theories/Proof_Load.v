(* Lemmas about loading pieces. *)
From Coq Require Import String Ascii.
From Verif Require Import Model_Load Spec_Load Proof_Base.
From Coq Require Import List.
Import ListNotations.
Open Scope Z_scope.

Lemma last_dot_app s t : forall i f, last_dot (s ++ t) i f = last_dot t (i + List.length s) (last_dot s i f).
Proof.
  induction s as [|c s IH]; intros i f; cbn [app last_dot List.length]; [rewrite Nat.add_0_r; reflexivity|].
  rewrite IH. f_equal. lia.
Qed.
Lemma label_unique s c : label_of s c -> label_csv_path s = c.
Proof.
  intros (dirs & folder & name & Hn & -> & ->). unfold label_csv_path, parent, stem, path_name.
  replace (dirs ++ [folder; name ++ L ".mxl"]) with ((dirs ++ [folder]) ++ [name ++ L".mxl"]) by (rewrite <- app_assoc; reflexivity).
  rewrite removelast_last, removelast_last, last_last, last_dot_app. cbn [Nat.add].
  assert (E : forall i f, last_dot (L".mxl") i f = Some i) by reflexivity. rewrite E.
  destruct name as [|x name]; [contradiction|]. cbn [List.length].
  assert (Hlt : (S (S (List.length name)) <? List.length ((x :: name) ++ L ".mxl"))%nat = true).
  { apply Nat.ltb_lt. rewrite app_length. cbn [List.length]. change (List.length (L".mxl")) with 4%nat. lia. }
  rewrite Hlt. f_equal. f_equal. f_equal. f_equal.
  change (S (List.length name)) with (List.length (x :: name)). rewrite firstn_app, firstn_all, Nat.sub_diag. cbn [firstn]. apply app_nil_r.
Qed.
Lemma labelled_iff ex s : well_named s -> (labelled ex s <-> ex (label_csv_path s) = true).
Proof.
  intros [c Hc]. split.
  - intros (c' & H & E). rewrite (label_unique _ _ H). exact E.
  - intros E. exists c. split; [exact Hc|]. rewrite <- (label_unique _ _ Hc). exact E.
Qed.
Lemma well_named_label s : well_named s -> label_of s (label_csv_path s).
Proof. intros [c Hc]. rewrite (label_unique _ _ Hc). exact Hc. Qed.

Lemma find_files_eq ex scores : find_files ex scores = (scores, map label_csv_path (filter (fun s => ex (label_csv_path s)) scores)).
Proof.
  induction scores as [|x r IH]; [reflexivity|]. cbn [find_files filter]. rewrite IH. destruct (ex (label_csv_path x)); reflexivity.
Qed.
Lemma find_annotated_eq ex scores : find_annotated ex scores =
  (filter (fun s => ex (label_csv_path s)) scores, map label_csv_path (filter (fun s => ex (label_csv_path s)) scores)).
Proof.
  induction scores as [|x r IH]; [reflexivity|]. cbn [find_annotated filter]. rewrite IH. destruct (ex (label_csv_path x)); reflexivity.
Qed.

(* the k-th element kept by a filter *)
Lemma nth_filter {A} (f : A -> bool) : forall l k x, nth_error (filter f l) k = Some x ->
  exists k', nth_error l k' = Some x /\ f x = true /\ (k <= k')%nat /\
    List.length (filter (fun y => negb (f y)) (firstn k' l)) = (k' - k)%nat.
Proof.
  induction l as [|y l IH]; intros k x H; [destruct k; discriminate|]. cbn [filter] in H. destruct (f y) eqn:E.
  - destruct k as [|k].
    + cbn in H. injection H as ->. exists 0%nat. split; [reflexivity|]. split; [exact E|]. split; [lia|reflexivity].
    + destruct (IH k x H) as (k' & N & F & L & C). exists (S k'). split; [exact N|]. split; [exact F|]. split; [lia|].
      cbn [firstn filter]. rewrite E. cbn [negb]. rewrite C. reflexivity.
  - destruct (IH k x H) as (k' & N & F & L & C). exists (S k'). split; [exact N|]. split; [exact F|]. split; [lia|].
    cbn [firstn filter]. rewrite E. cbn [negb List.length]. rewrite C. lia.
Qed.

Lemma zfind_spec s l k : zfind s l = Some k -> nth_error l k = Some s /\ forall j, (j < k)%nat -> nth_error l j <> Some s.
Proof.
  revert k. induction l as [|y l IH]; intros k H; [discriminate|]. cbn [zfind] in H. destruct (y =? s) eqn:E.
  - injection H as <-. apply Z.eqb_eq in E. subst. split; [reflexivity|]. intros j Hj. lia.
  - destruct (zfind s l) as [q|]; [|discriminate]. cbn in H. injection H as <-. destruct (IH q eq_refl) as [N M]. split; [exact N|].
    intros [|j] Hj C; [cbn in C; injection C as ->; rewrite Z.eqb_refl in E; discriminate|]. exact (M j ltac:(lia) C).
Qed.
Lemma zfind_none s l : zfind s l = None <-> ~ In s l.
Proof.
  induction l as [|y l IH]; cbn [zfind In]; [tauto|]. destruct (y =? s) eqn:E.
  - apply Z.eqb_eq in E. subst. split; [discriminate|tauto].
  - apply Z.eqb_neq in E. destruct (zfind s l); cbn [option_map]; [split; [discriminate|]|split; [|reflexivity]]; intros H.
    + exfalso. assert (Some n = None) by (apply IH; tauto). discriminate.
    + intros [C|C]; [congruence|]. apply IH in C; [exact C|reflexivity].
Qed.
Lemma mapM_nth {A B} (f : A -> res B) : forall l r k x, mapM f l = Ok r -> nth_error l k = Some x ->
  exists y, f x = Ok y /\ nth_error r k = Some y.
Proof.
  induction l as [|a l IH]; intros r k x H N; [destruct k; discriminate|]. cbn [mapM] in H. apply bind_ok in H as (b & Hb & H).
  apply bind_ok in H as (bs & Hbs & H). apply Ok_inj in H. subst r. destruct k as [|k]; cbn in N.
  - injection N as ->. exists b. split; [exact Hb|reflexivity].
  - exact (IH bs k x Hbs N).
Qed.
Lemma nth_combine {A B} : forall (l : list A) (r : list B) k x y, nth_error l k = Some x -> nth_error r k = Some y ->
  nth_error (combine l r) k = Some (x, y).
Proof.
  induction l as [|a l IH]; intros r k x y H1 H2; [destruct k; discriminate|]. destruct r as [|b r]; [destruct k; discriminate|].
  destruct k as [|k]; cbn in *; [injection H1 as ->; injection H2 as ->; reflexivity|]. exact (IH r k x y H1 H2).
Qed.
