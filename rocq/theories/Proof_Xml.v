(* Lemmas for pieces read from scores and csv labels. *)
From Coq Require Import QArith Qround Lqa Qfield String Ascii.
From Verif Require Import PyBase Proof_Base Model_Types Model_Harmony Model_Strings Model_Rhythm Model_Vectors Model_Piece Model_Prior Model_Xml
  Spec_Music Spec_Rhythm Spec_Piece Spec_Xml Proof_Strings Proof_Transpose Proof_Rhythm Proof_Piece Proof_Keys.
From Coq Require Import List.
Import ListNotations.
Close Scope Q_scope.
Open Scope Z_scope.

Notation prow := (Z * (Z * Z) * Q * Q * Q)%type (only parsing).
Definition p_mn (r : prow) : Z := fst (fst (fst (fst r))).
Definition p_ts (r : prow) : Z * Z := snd (fst (fst (fst r))).
Definition p_start (r : prow) : Q := snd (fst (fst r)).
Definition p_len (r : prow) : Q := snd (fst r).
Definition p_off (r : prow) : Q := snd r.

Definition bound_ok (r : prow) : Prop :=
  ~ (bar (p_ts r) == 0)%Q /\ ((0 < bar (p_ts r))%Q -> (0 <= p_off r)%Q /\ (p_off r < bar (p_ts r))%Q).
Definition link (r r' : prow) : Prop :=
  (p_start r' == p_start r + p_len r)%Q /\
  (p_ts r' = p_ts r -> exists z, (p_off r' == p_off r + p_len r - inject_Z z * bar (p_ts r))%Q) /\
  (p_ts r' <> p_ts r -> (p_off r' == 0)%Q).
Fixpoint chain (rows : list prow) : Prop :=
  match rows with
  | r' :: ((r :: _) as rest) => link r r' /\ chain rest
  | _ => True
  end.

(* what happens to the measures, oldest first: start of each kept one *)
Fixpoint timeline (es : list (Z * Z)) (skip : Q) (ms : list m21_measure) : list (Q * m21_measure) :=
  match ms with
  | [] => []
  | m :: r => if in_endings es (mm_number m) then timeline es (Qplus skip (Qdiv (mm_ql m) 4)) r
              else (Qminus (Qdiv (mm_offset m) 4) skip, m) :: timeline es skip r
  end.

Lemma frac_mod_spec a b r : frac_mod a b = Ok r ->
  ~ (b == 0)%Q /\ (exists z, (r == a - inject_Z z * b)%Q) /\ ((0 < b)%Q -> (0 <= r)%Q /\ (r < b)%Q) /\
  ((a == 0)%Q -> (r == 0)%Q).
Proof.
  unfold frac_mod. destruct (Qeq_bool b 0) eqn:E; [discriminate|]. intros H. apply Ok_inj in H. subst r.
  apply Qeq_bool_neq in E. split; [exact E|]. split; [exists (Qfloor (a / b)); lra|].
  split; [|intros A; assert (X : (a / b == 0)%Q) by (unfold Qdiv; rewrite A; ring);
           rewrite (Qfloor_comp _ _ X); change (inject_Z (Qfloor 0)) with 0%Q; lra].
  intros P. pose proof (Qfloor_le (a / b)) as L1. pose proof (Qlt_floor (a / b)) as L2.
  rewrite inject_Z_plus in L2. change (inject_Z 1) with 1%Q in L2.
  assert (X : (a == a / b * b)%Q) by (field; exact E). generalize dependent (inject_Z (Qfloor (a / b))).
  intros f L1 L2. split; nra.
Qed.
Lemma frac_mod_total a b : ~ (b == 0)%Q -> exists r, frac_mod a b = Ok r.
Proof.
  intros N. unfold frac_mod. destruct (Qeq_bool b 0) eqn:E; [apply Qeq_bool_iff in E; contradiction|]. eauto.
Qed.

Lemma ts_eqb_iff (a b : Z * Z) : ((fst a =? fst b) && (snd a =? snd b)) = true <-> a = b.
Proof.
  destruct a, b. cbn. rewrite andb_true_iff, !Z.eqb_eq. split; [intros []; congruence|]. intros H. injection H as -> ->. auto.
Qed.
Lemma fraction_bar n d q : fraction n d = Ok q -> q = bar (n, d) /\ d <> 0.
Proof.
  unfold fraction, bar. destruct (d =? 0) eqn:E; [discriminate|]. intros H. apply Ok_inj in H. split; [now symmetry|lia].
Qed.

(* the state after some measures, the rows newest first *)
Definition state_ok (e0 : Q) (a : macc) : Prop :=
  (a_dur a == bar (a_ts a))%Q /\
  match a_rows a with
  | [] => True
  | r :: _ => p_ts r = a_ts a /\ exists z, (p_off r == p_start r - a_epoch a - inject_Z z * bar (a_ts a))%Q
  end /\
  chain (a_rows a) /\ Forall bound_ok (a_rows a).

Lemma chain_set_length o rows : chain rows -> chain (set_length o rows).
Proof.
  destruct rows as [|[[[[mn ts] st] l] off] rows]; [easy|]. cbn [set_length].
  destruct rows as [|r rows]; [easy|]. cbn [chain]. intros [H C]. split; [exact H|exact C].
Qed.
Lemma bound_set_length o rows : Forall bound_ok rows -> Forall bound_ok (set_length o rows).
Proof.
  destruct rows as [|[[[[mn ts] st] l] off] rows]; [easy|]. cbn [set_length].
  intros H. inversion H as [|? ? B F]; subst. constructor; [exact B|exact F].
Qed.

(* one step that keeps the measure *)
Lemma step_inv es a i m a' : measure_step es a (i, m) = Ok a' ->
  if in_endings es (mm_number m) then
    a' = mkAcc (a_epoch a) (a_ts a) (a_dur a) (Qplus (a_skip a) (Qdiv (mm_ql m) 4)) (a_rows a)
  else exists off,
    let ts := match mm_ts m with Some ts => ts | None => a_ts a end in
    let o := Qminus (Qdiv (mm_offset m) 4) (a_skip a) in
    a_rows a' = (mm_number m, ts, o, Qdiv (mm_ql m) 4, off) :: set_length o (a_rows a) /\
    a_skip a' = a_skip a /\ a_ts a' = ts /\
    ((ts = a_ts a /\ a_dur a' = a_dur a /\ a_epoch a' = a_epoch a) \/
     (ts <> a_ts a /\ a_dur a' = bar ts /\ a_epoch a' = if (i =? 0)%nat then a_epoch a else o)) /\
    frac_mod (o - a_epoch a') (a_dur a') = Ok off.
Proof.
  unfold measure_step. destruct (in_endings es (mm_number m)).
  - intros H. apply Ok_inj in H. now symmetry.
  - set (o := Qminus _ _). intros H. apply bind_ok in H. destruct H as ([[ts dur] epoch] & H1 & H).
    apply bind_ok in H. destruct H as (off & H2 & H). apply Ok_inj in H. subst a'. cbn [a_rows a_skip a_ts a_dur a_epoch].
    exists off. destruct (mm_ts m) as [ts'|].
    + destruct ((fst ts' =? fst (a_ts a)) && (snd ts' =? snd (a_ts a))) eqn:E.
      * apply ts_eqb_iff in E. apply Ok_inj in H1. apply pair_equal_spec in H1. destruct H1 as [H1 <-].
        apply pair_equal_spec in H1. destruct H1 as [<- <-]. subst ts'. cbn zeta. repeat split; auto.
      * assert (N : ts' <> a_ts a) by (rewrite <- ts_eqb_iff, E; discriminate).
        apply bind_ok in H1. destruct H1 as (d & H1 & H3). apply fraction_bar in H1. destruct H1 as [-> _].
        apply Ok_inj in H3. apply pair_equal_spec in H3. destruct H3 as [H3 <-].
        apply pair_equal_spec in H3. destruct H3 as [<- <-]. destruct ts' as [n d']. cbn [fst snd] in *.
        cbn zeta. split; [reflexivity|]. split; [reflexivity|]. split; [reflexivity|]. split; [|exact H2]. right.
        split; [exact N|]. split; reflexivity.
    + apply Ok_inj in H1. apply pair_equal_spec in H1. destruct H1 as [H1 <-].
      apply pair_equal_spec in H1. destruct H1 as [<- <-]. cbn zeta. repeat split; auto.
Qed.

Lemma mult_Qeq x y z z' : (x == y)%Q -> (z == z')%Q -> (x * z == y * z')%Q.
Proof. intros -> ->. reflexivity. Qed.

Lemma step_state e0 es a i m a' : measure_step es a (i, m) = Ok a' ->
  (i = 0%nat -> a_rows a = []) -> state_ok e0 a -> state_ok e0 a'.
Proof.
  intros H I0 (D & Hd & C & B). apply step_inv in H. destruct (in_endings es (mm_number m)).
  { subst a'. repeat split; auto. }
  destruct H as (off & R & _ & T & Cases & F). cbn zeta in *.
  set (ts := match mm_ts m with Some ts => ts | None => a_ts a end) in *.
  set (o := Qminus _ _) in *.
  apply frac_mod_spec in F. destruct F as (N & (z & Z0) & Bd & Zr).
  assert (D' : (a_dur a' == bar ts)%Q) by (destruct Cases as [(E & -> & _)|(_ & -> & _)]; [now rewrite E|reflexivity]).
  assert (NB : ~ (bar ts == 0)%Q) by (intros X; apply N; now rewrite D').
  assert (Z1 : (off == o - a_epoch a' - inject_Z z * bar ts)%Q).
  { rewrite Z0. pose proof (mult_Qeq (inject_Z z) (inject_Z z) _ _ (Qeq_refl _) D'). lra. }
  unfold state_ok. rewrite R, T. split; [exact D'|]. split; [split; [reflexivity|exists z; exact Z1]|]. split.
  - pose proof (chain_set_length o _ C) as C'. destruct (a_rows a) as [|[[[[mn t] st] l] of_] rows] eqn:Er; [exact I|].
    cbn [set_length] in *. split; [|exact C']. destruct Hd as [Ht (zz & Z2)]. unfold p_ts, p_off, p_start in Ht, Z2. cbn [fst snd] in Ht, Z2.
    unfold link, p_start, p_len, p_ts, p_off. cbn [fst snd]. subst t. split; [lra|]. split.
    + intros E. destruct Cases as [(_ & _ & Ee)|(Nn & _)]; [|contradiction]. rewrite Ee in Z1. exists (z - zz).
      unfold Z.sub. rewrite inject_Z_plus, inject_Z_opp, E in *. lra.
    + intros Nn. destruct Cases as [(E & _)|(_ & _ & Ee)]; [contradiction|].
      destruct (Nat.eqb_spec i 0) as [->|Ni]; [now discriminate (I0 eq_refl)|]. rewrite Ee in Z1.
      apply Zr. rewrite Ee. lra.
  - constructor; [|now apply bound_set_length]. split; [exact NB|]. intros P. unfold p_off, p_ts in *. cbn [fst snd] in *.
    rewrite <- D'. apply Bd. now rewrite D'.
Qed.

Lemma foldM_cons {A B} (f : B -> A -> res B) x l b :
  foldM f (x :: l) b = (let! b' := f b x in foldM f l b').
Proof. reflexivity. Qed.

Lemma fold_state e0 es l : forall i a a', foldM (measure_step es) (number_from i l) a = Ok a' ->
  (i = 0%nat -> a_rows a = []) -> state_ok e0 a -> state_ok e0 a'.
Proof.
  induction l as [|m l IH]; intros i a a' H I0 S0.
  - apply Ok_inj in H. now subst.
  - cbn [number_from] in H. rewrite foldM_cons in H. apply bind_ok in H. destruct H as (a1 & H1 & H).
    apply (IH (S i) a1 a' H); [discriminate|]. exact (step_state _ _ _ _ _ _ H1 I0 S0).
Qed.

Definition key_of (r : prow) : Z * Q := (p_mn r, p_start r).
Lemma key_set_length o rows : map key_of (set_length o rows) = map key_of rows.
Proof. destruct rows as [|[[[[mn ts] st] l] off] rows]; reflexivity. Qed.
Lemma ts_set_length o rows : map p_ts (set_length o rows) = map p_ts rows.
Proof. destruct rows as [|[[[[mn ts] st] l] off] rows]; reflexivity. Qed.
Lemma len_set_length o rows : tl (map p_len (set_length o rows)) = tl (map p_len rows).
Proof. destruct rows as [|[[[[mn ts] st] l] off] rows]; reflexivity. Qed.

Definition sounding (es : list (Z * Z)) (l : list m21_measure) : list m21_measure :=
  filter (fun m => negb (in_endings es (mm_number m))) l.
Fixpoint signatures (ts : Z * Z) (l : list m21_measure) : list (Z * Z) :=
  match l with
  | [] => []
  | m :: r => let ts' := match mm_ts m with Some t => t | None => ts end in ts' :: signatures ts' r
  end.
Lemma nth_signatures l : forall ts k, nth_error (signatures ts l) k =
  if (k <? List.length l)%nat then Some (in_force ts (firstn (S k) l)) else None.
Proof.
  induction l as [|m l IH]; intros ts k; [now destruct k|]. destruct k as [|k]; [reflexivity|].
  cbn [signatures nth_error]. rewrite IH. cbn [List.length]. change (S k <? S (List.length l))%nat with (k <? List.length l)%nat.
  reflexivity.
Qed.

Lemma fold_silent es l : forall i a a', foldM (measure_step es) (number_from i l) a = Ok a' ->
  sounding es l = [] -> a_rows a' = a_rows a.
Proof.
  induction l as [|m l IH]; intros i a a' H E.
  - apply Ok_inj in H. now subst.
  - cbn [number_from] in H. rewrite foldM_cons in H. apply bind_ok in H. destruct H as (a1 & H1 & H).
    apply step_inv in H1. cbn [sounding filter] in E. destruct (in_endings es (mm_number m)); [|discriminate E].
    rewrite (IH _ _ _ H E), H1. reflexivity.
Qed.

Lemma fold_rows es l : forall i a a', foldM (measure_step es) (number_from i l) a = Ok a' ->
  map key_of (rev (a_rows a')) = map key_of (rev (a_rows a)) ++
    map (fun om => (mm_number (snd om), fst om)) (timeline es (a_skip a) l) /\
  map p_ts (rev (a_rows a')) = map p_ts (rev (a_rows a)) ++ signatures (a_ts a) (sounding es l) /\
  (forall d, sounding es l <> [] ->
     exists r rest, a_rows a' = r :: rest /\ p_len r = whole (List.last (sounding es l) d)).
Proof.
  induction l as [|m l IH]; intros i a a' H.
  - apply Ok_inj in H. subst. cbn. rewrite !app_nil_r. split; [reflexivity|]. split; [reflexivity|]. intros d []. reflexivity.
  - cbn [number_from] in H. rewrite foldM_cons in H. apply bind_ok in H. destruct H as (a1 & H1 & H).
    pose proof (IH _ _ _ H) as (K & T & L). apply step_inv in H1. cbn [timeline sounding filter].
    destruct (in_endings es (mm_number m)).
    + subst a1. cbn [negb]. cbn [a_rows a_skip a_ts] in *. split; [exact K|]. split; [exact T|exact L].
    + destruct H1 as (off & R & Sk & Ts & _). cbn zeta in *. cbn [negb].
      set (ts := match mm_ts m with Some t => t | None => a_ts a end) in *. set (o := Qminus _ _) in *.
      rewrite R, Sk, Ts in *. cbn [rev] in K, T. rewrite map_app, (map_rev _ (set_length _ _)), key_set_length, <- map_rev, <- app_assoc in K.
      rewrite map_app, (map_rev _ (set_length _ _)), ts_set_length, <- map_rev, <- app_assoc in T.
      split; [exact K|]. split; [exact T|]. intros d _. fold (sounding es l).
      destruct (sounding es l) as [|m' l'] eqn:El.
      * rewrite (fold_silent _ _ _ _ _ H El), R. eexists. eexists. split; reflexivity.
      * destruct (L d) as (r & rest & E1 & E2); [discriminate|]. exists r, rest. split; [exact E1|].
        rewrite E2. reflexivity.
Qed.

(* ---- first endings ---- *)
Lemma first_endings_ok bs es : first_endings bs = Ok es ->
  forall m, in_endings es (mm_number m) = first_time_only bs m.
Proof.
  unfold first_endings. intros H m. apply bind_ok in H. destruct H as (l & H & E). apply Ok_inj in E. subst es.
  apply mapM_ok in H. unfold in_endings, first_time_only.
  induction H as [|b x bs l Hb F IH]; [reflexivity|]. cbn [concat existsb]. rewrite existsb_app, IH.
  destruct (br_number b) as [n|]; [|discriminate Hb]. apply Ok_inj in Hb. subst x. f_equal.
  destruct (n =? 1); [|reflexivity]. cbn [existsb fst snd]. rewrite orb_false_r. cbn [andb]. f_equal. lia.
Qed.
Lemma sounding_kept bs es ms : first_endings bs = Ok es -> sounding es ms = kept bs ms.
Proof.
  intros H. unfold sounding, kept. apply filter_ext. intros m. now rewrite (first_endings_ok _ _ H).
Qed.

(* ---- the table ---- *)
Definition row_at_index (i : nat) (last : bool) (r : prow) (x : xrow) : Prop :=
  x_mn x = p_mn r /\ x_ts x = p_ts r /\ x_start x = p_start r /\
  x_row x = mkM (Z.of_nat i) (p_len r) (p_off r) (if last then NextNA else NextMc (Z.of_nat (S i))).
Lemma make_rows_length R : forall i, List.length (make_rows i R) = List.length R.
Proof. induction R as [|[[[[mn ts] st] l] off] R IH]; intros i; [reflexivity|]. cbn. now rewrite IH. Qed.
Lemma make_rows_nth R : forall i k x, nth_error (make_rows i R) k = Some x ->
  exists r, nth_error R k = Some r /\ row_at_index (i + k) (S k =? List.length R)%nat r x.
Proof.
  induction R as [|[[[[mn ts] st] l] off] R IH]; intros i k x H; [destruct k; discriminate H|].
  cbn [make_rows] in H. destruct k as [|k].
  - cbn [nth_error] in H. apply Some_inj in H. subst x. eexists. split; [reflexivity|]. rewrite Nat.add_0_r.
    unfold row_at_index. cbn [x_mn x_ts x_start x_row]. destruct R; repeat split; reflexivity.
  - cbn [nth_error] in H. destruct (IH _ _ _ H) as (r & E & W). exists r. split; [exact E|].
    replace (i + S k)%nat with (S i + k)%nat by lia. exact W.
Qed.

Lemma chain_nth rows : chain rows -> forall k r r',
  nth_error (rev rows) k = Some r -> nth_error (rev rows) (S k) = Some r' -> link r r'.
Proof.
  induction rows as [|r0 rows IH]; intros C k r r' H H'; [destruct k; discriminate H|].
  cbn [rev] in H, H'.
  assert (Lk : (S k < List.length (rev rows ++ [r0]))%nat) by (apply nth_error_Some; congruence).
  rewrite app_length, rev_length in Lk. cbn [List.length] in Lk.
  rewrite nth_error_app1 in H by (rewrite rev_length; lia).
  destruct (Nat.eq_dec (S k) (List.length rows)) as [E|N].
  - rewrite nth_error_app2 in H' by (rewrite rev_length; lia). rewrite rev_length, E, Nat.sub_diag in H'.
    cbn [nth_error] in H'. apply Some_inj in H'. subst r'. destruct rows as [|r1 rows]; [discriminate E|].
    destruct C as [Lk1 _]. cbn [rev] in H. rewrite nth_error_app2 in H by (rewrite rev_length; cbn in E; lia).
    rewrite rev_length in H. cbn [List.length] in E. replace (k - List.length rows)%nat with 0%nat in H by lia.
    cbn [nth_error] in H. apply Some_inj in H. now subst r.
  - rewrite nth_error_app1 in H' by (rewrite rev_length; lia). apply (IH) with (k := k); auto.
    destruct rows; [easy|]. apply C.
Qed.

(* what a successful reading gives *)
Lemma get_measures_inv ms bs t : get_measures ms bs = Ok t ->
  exists m0 m1 rest es a, ms = m0 :: m1 :: rest /\ first_endings bs = Ok es /\
    foldM (measure_step es) (number_from 0 ms) (mkAcc (Qdiv (mm_offset m1) 4) (4, 4) 1%Q 0%Q []) = Ok a /\
    a_rows a <> [] /\ t = make_rows 0 (rev (a_rows a)) /\ state_ok (Qdiv (mm_offset m1) 4) a /\
    map key_of (rev (a_rows a)) = map (fun om => (mm_number (snd om), fst om)) (timeline es 0%Q ms) /\
    map p_ts (rev (a_rows a)) = signatures (4, 4) (kept bs ms) /\
    (forall d, kept bs ms <> [] -> exists r rest, a_rows a = r :: rest /\ p_len r = whole (List.last (kept bs ms) d)).
Proof.
  unfold get_measures. destruct ms as [|m0 [|m1 rest]]; try discriminate. intros H.
  apply bind_ok in H. destruct H as (es & H1 & H). apply bind_ok in H. destruct H as (a & H2 & H).
  exists m0, m1, rest, es, a. split; [reflexivity|]. split; [exact H1|]. split; [exact H2|].
  pose proof (fold_rows _ _ _ _ _ H2) as (K & T & L). rewrite (sounding_kept _ _ _ H1) in T, L.
  assert (N : a_rows a <> []) by (destruct (a_rows a); [discriminate H|discriminate]).
  split; [exact N|]. split; [destruct (a_rows a); [discriminate H|]; apply Ok_inj in H; now symmetry|].
  split; [|split; [exact K|split; [exact T|exact L]]].
  refine (fold_state (mm_offset m1 / 4)%Q _ _ _ _ _ H2 _ _); [reflexivity|].
  split; [reflexivity|]. split; [exact I|]. split; [exact I|constructor].
Qed.

Lemma timeline_snd es ms : forall skip, map snd (timeline es skip ms) = sounding es ms.
Proof.
  induction ms as [|m ms IH]; intros skip; [reflexivity|]. cbn [timeline sounding filter].
  destruct (in_endings es (mm_number m)); cbn [negb]; [apply IH|]. cbn [map snd]. now rewrite IH.
Qed.
Lemma timeline_gapless es ms : forall s skip k o m, gapless s ms ->
  nth_error (timeline es skip ms) k = Some (o, m) ->
  (o == s / 4 - skip + total (map whole (firstn k (sounding es ms))))%Q.
Proof.
  induction ms as [|m0 ms IH]; intros s skip k o m G H; [destruct k; discriminate H|].
  destruct G as [G0 G]. cbn [timeline sounding filter] in *. destruct (in_endings es (mm_number m0)); cbn [negb].
  - rewrite (IH _ _ _ _ _ G H). fold (sounding es ms). generalize (total (map whole (firstn k (sounding es ms)))).
    intros q. unfold Qdiv. change (/ 4)%Q with (1 # 4)%Q. lra.
  - destruct k as [|k].
    + cbn [nth_error] in H. apply Some_inj in H. apply pair_equal_spec in H. destruct H as [<- _]. cbn. unfold Qdiv.
      rewrite G0. change (/ 4)%Q with (1 # 4)%Q. lra.
    + cbn [nth_error firstn map] in *. rewrite (IH _ _ _ _ _ G H). fold (sounding es ms).
      change (total (whole m0 :: ?l)) with (whole m0 + total l)%Q. unfold whole at 2, Qdiv.
      generalize (total (map whole (firstn k (sounding es ms)))). intros q. change (/ 4)%Q with (1 # 4)%Q. lra.
Qed.

Lemma nth_map_eq {A B C} (f : A -> C) (g : B -> C) l l' k a : map f l = map g l' -> nth_error l k = Some a ->
  exists b, nth_error l' k = Some b /\ g b = f a.
Proof.
  intros E H. assert (X : nth_error (map g l') k = Some (f a)) by (rewrite <- E, nth_error_map, H; reflexivity).
  rewrite nth_error_map in X. destruct (nth_error l' k) as [b|]; [|discriminate X]. exists b. split; [reflexivity|].
  now apply Some_inj in X.
Qed.

Lemma table_length ms bs t : get_measures ms bs = Ok t -> List.length t = List.length (kept bs ms) /\ kept bs ms <> [].
Proof.
  intros H. apply get_measures_inv in H. destruct H as (m0 & m1 & rest & es & a & -> & He & _ & N & -> & _ & K & _ & _).
  rewrite make_rows_length. apply (f_equal (@List.length _)) in K. rewrite !map_length in K.
  pose proof (f_equal (@List.length _) (timeline_snd es (m0 :: m1 :: rest) 0%Q)) as S0. rewrite map_length in S0.
  rewrite <- (sounding_kept _ _ _ He). split; [congruence|]. intros E. rewrite E in S0. rewrite S0 in K.
  destruct (a_rows a); [congruence|]. cbn [rev] in K. rewrite app_length in K. cbn in K. lia.
Qed.

Lemma table_row ms bs t k x : get_measures ms bs = Ok t -> nth_error t k = Some x ->
  exists m, nth_error (kept bs ms) k = Some m /\ x_mn x = mm_number m /\
    m_mc (x_row x) = Z.of_nat k /\
    m_next (x_row x) = (if (S k =? List.length t)%nat then NextNA else NextMc (Z.of_nat (S k))) /\
    x_ts x = in_force (4, 4) (firstn (S k) (kept bs ms)) /\ ~ (bar (x_ts x) == 0)%Q /\
    ((0 < bar (x_ts x))%Q -> (0 <= m_off (x_row x))%Q /\ (m_off (x_row x) < bar (x_ts x))%Q).
Proof.
  intros H Hx. pose proof (table_length _ _ _ H) as [Lt Nk]. apply get_measures_inv in H.
  destruct H as (m0 & m1 & rest & es & a & Ems & He & _ & N & -> & (_ & _ & _ & B) & K & T & _).
  rewrite make_rows_length in *.
  destruct (make_rows_nth _ _ _ _ Hx) as (r & Hr & (W1 & W2 & W3 & W4)). cbn [Nat.add] in W4.
  destruct (nth_map_eq _ _ _ _ _ _ K Hr) as ([o m] & Hm & Em). unfold key_of in Em. cbn [fst snd] in Em.
  apply pair_equal_spec in Em. destruct Em as [Em1 Em2].
  assert (Hk : nth_error (kept bs ms) k = Some m).
  { rewrite <- (sounding_kept _ _ _ He), <- (timeline_snd es ms 0%Q), nth_error_map, Hm. reflexivity. }
  exists m. split; [exact Hk|]. rewrite W4. cbn [m_mc m_next m_off]. split; [congruence|]. split; [reflexivity|]. split; [reflexivity|].
  rewrite W2. split.
  - assert (X : nth_error (map p_ts (rev (a_rows a))) k = Some (p_ts r)) by (rewrite nth_error_map, Hr; reflexivity).
    rewrite T, nth_signatures in X. destruct (k <? _)%nat; [|discriminate X]. now apply Some_inj in X.
  - rewrite Forall_forall in B. apply nth_error_In in Hr. apply in_rev in Hr. exact (B _ Hr).
Qed.

Lemma table_link ms bs t k x x' : get_measures ms bs = Ok t -> nth_error t k = Some x -> nth_error t (S k) = Some x' ->
  (x_start x' == x_start x + m_dur (x_row x))%Q /\
  (x_ts x' = x_ts x -> exists z, (m_off (x_row x') == m_off (x_row x) + m_dur (x_row x) - inject_Z z * bar (x_ts x))%Q) /\
  (x_ts x' <> x_ts x -> (m_off (x_row x') == 0)%Q).
Proof.
  intros H Hx Hx'. apply get_measures_inv in H.
  destruct H as (m0 & m1 & rest & es & a & Ems & He & _ & N & -> & (_ & _ & C & _) & _).
  destruct (make_rows_nth _ _ _ _ Hx) as (r & Hr & (W1 & W2 & W3 & W4)).
  destruct (make_rows_nth _ _ _ _ Hx') as (r' & Hr' & (W1' & W2' & W3' & W4')).
  rewrite W2, W3, W4, W2', W3', W4'. cbn [m_dur m_off]. exact (chain_nth _ C _ _ _ Hr Hr').
Qed.

Lemma table_start ms bs t k x s : get_measures ms bs = Ok t -> gapless s ms -> nth_error t k = Some x ->
  (x_start x == s / 4 + total (map whole (firstn k (kept bs ms))))%Q.
Proof.
  intros H G Hx. apply get_measures_inv in H.
  destruct H as (m0 & m1 & rest & es & a & Ems & He & _ & N & -> & _ & K & T & _).
  destruct (make_rows_nth _ _ _ _ Hx) as (r & Hr & (W1 & W2 & W3 & W4)).
  destruct (nth_map_eq _ _ _ _ _ _ K Hr) as ([o m] & Hm & Em). unfold key_of in Em. cbn [fst snd] in Em.
  apply pair_equal_spec in Em. destruct Em as [Em1 Em2]. rewrite W3, <- Em2.
  rewrite (timeline_gapless _ _ _ _ _ _ _ G Hm), (sounding_kept _ _ _ He). lra.
Qed.

Lemma total_snoc l q : (total (l ++ [q]) == total l + q)%Q.
Proof. unfold total. induction l as [|a l IH]; cbn [fold_right app]; [lra|]. rewrite IH. lra. Qed.
Lemma firstn_snoc {A} (l : list A) k x : nth_error l k = Some x -> firstn (S k) l = firstn k l ++ [x].
Proof.
  revert k. induction l as [|a l IH]; intros k H; [destruct k; discriminate H|]. destruct k as [|k].
  - cbn in *. apply Some_inj in H. now subst.
  - cbn [firstn nth_error app] in *. now rewrite <- (IH k H).
Qed.

Lemma table_duration ms bs t k x m s : get_measures ms bs = Ok t -> gapless s ms -> nth_error t k = Some x ->
  nth_error (kept bs ms) k = Some m -> (m_dur (x_row x) == whole m)%Q.
Proof.
  intros H G Hx Hm. destruct (nth_error t (S k)) as [x'|] eqn:Hx'.
  - pose proof (table_link _ _ _ _ _ _ H Hx Hx') as (L & _).
    rewrite (table_start _ _ _ _ _ _ H G Hx), (table_start _ _ _ _ _ _ H G Hx'), (firstn_snoc _ _ _ Hm), map_app in L.
    cbn [map] in L. rewrite total_snoc in L. lra.
  - pose proof (table_length _ _ _ H) as [Lt Nk]. apply get_measures_inv in H.
    destruct H as (m0 & m1 & rest & es & a & Ems & He & _ & N & -> & _ & K & T & L).
    destruct (make_rows_nth _ _ _ _ Hx) as (r & Hr & (W1 & W2 & W3 & W4)). rewrite W4. cbn [m_dur].
    destruct (L m Nk) as (r' & rest' & E1 & E2). rewrite E1 in Hr. cbn [rev] in Hr.
    apply nth_error_None in Hx'. rewrite make_rows_length in *.
    assert (Lk : (k < List.length (kept bs ms))%nat) by (apply nth_error_Some; congruence).
    assert (Ek : S k = List.length (kept bs ms)) by lia. rewrite E1 in Lt. cbn [rev] in Lt. rewrite app_length in Lt. cbn [List.length] in Lt.
    rewrite nth_error_app2 in Hr by lia. replace (k - List.length (rev rest'))%nat with 0%nat in Hr by lia.
    cbn [nth_error] in Hr. apply Some_inj in Hr. subst r'. rewrite E2.
    replace (last (kept bs ms) m) with m; [reflexivity|].
    clear - Hm Ek. revert k Hm Ek. induction (kept bs ms) as [|y l IH]; intros k Hm Ek; [discriminate Ek|].
    destruct l as [|y' l]; [destruct k; [|discriminate Ek]; cbn in *; now apply Some_inj in Hm|].
    destruct k as [|k]; [discriminate Ek|]. cbn [nth_error] in Hm. change (m = last (y' :: l) m). apply (IH k Hm). cbn in *. lia.
Qed.

(* the first measure and the start of the second *)
Definition place_of (r : prow) : (Z * Z) * Q * Q := (p_ts r, p_start r, p_off r).
Lemma place_set_length o rows : map place_of (set_length o rows) = map place_of rows.
Proof. destruct rows as [|[[[[mn ts] st] l] off] rows]; reflexivity. Qed.
Lemma fold_places es l : forall i a a', foldM (measure_step es) (number_from i l) a = Ok a' ->
  exists more, map place_of (rev (a_rows a')) = map place_of (rev (a_rows a)) ++ more.
Proof.
  induction l as [|m l IH]; intros i a a' H.
  - apply Ok_inj in H. subst. exists []. now rewrite app_nil_r.
  - cbn [number_from] in H. rewrite foldM_cons in H. apply bind_ok in H. destruct H as (a1 & H1 & H).
    destruct (IH _ _ _ H) as (more & E). apply step_inv in H1. destruct (in_endings es (mm_number m)).
    + subst a1. cbn [a_rows] in E. now exists more.
    + destruct H1 as (off & R & _). cbn zeta in R. rewrite R in E. cbn [rev] in E.
      rewrite map_app, (map_rev _ (set_length _ _)), place_set_length, <- map_rev, <- app_assoc in E. eexists. exact E.
Qed.

Lemma table_pickup m0 m1 rest bs t x : get_measures (m0 :: m1 :: rest) bs = Ok t ->
  first_time_only bs m0 = false -> first_time_only bs m1 = false -> nth_error t 0 = Some x ->
  exists z, (m_off (x_row x) + m_dur (x_row x) == inject_Z z * bar (x_ts x))%Q.
Proof.
  intros H F0 F1 Hx. pose proof (table_length _ _ _ H) as [Lt _]. 
  pose proof (fun x1 => table_link _ _ _ 0%nat x x1 H Hx) as Lk. pose proof H as H'. apply get_measures_inv in H.
  destruct H as (m0' & m1' & rest' & es & a & Ems & He & Hf & N & Et & _ & K & T & _).
  injection Ems as <- <- <-. unfold kept in Lt. cbn [filter] in Lt. rewrite F0, F1 in Lt. cbn [negb List.length] in Lt.
  destruct (nth_error t 1) as [x1|] eqn:Hx1; [|apply nth_error_None in Hx1; lia].
  specialize (Lk x1 eq_refl). destruct Lk as (Lk & _).
  rewrite Et in Hx, Hx1. destruct (make_rows_nth _ _ _ _ Hx) as (r & Hr & (W1 & W2 & W3 & W4)).
  destruct (make_rows_nth _ _ _ _ Hx1) as (r1 & Hr1 & (V1 & V2 & V3 & V4)).
  rewrite W3, V3 in Lk. rewrite W2. rewrite W4 in Lk |- *. cbn [m_dur m_off] in *.
  assert (E1 : p_start r1 = (mm_offset m1 / 4 - 0)%Q).
  { destruct (nth_map_eq _ _ _ _ _ _ K Hr1) as ([o m] & Hm & Em). cbn [timeline] in Hm.
    rewrite !(first_endings_ok _ _ He), F0, F1 in Hm. cbn [nth_error] in Hm. apply Some_inj in Hm.
    apply pair_equal_spec in Hm. destruct Hm as [<- _]. apply pair_equal_spec in Em. now destruct Em as [_ <-]. }
  cbn [number_from] in Hf. rewrite foldM_cons in Hf. apply bind_ok in Hf. destruct Hf as (a1 & H1 & Hf).
  apply step_inv in H1. rewrite (first_endings_ok _ _ He), F0 in H1. destruct H1 as (off & R & _ & _ & Cases & Fm).
  cbn zeta in R, Cases, Fm. cbn [a_ts a_skip a_rows a_epoch a_dur set_length Nat.eqb] in R, Cases, Fm.
  set (ts := match mm_ts m0 with Some ts => ts | None => (4, 4) end) in *.
  assert (Ee : a_epoch a1 = (mm_offset m1 / 4)%Q /\ (a_dur a1 == bar ts)%Q).
  { destruct Cases as [(-> & -> & ->)|(_ & -> & ->)]; (split; [reflexivity|]); reflexivity. }
  destruct Ee as [Ee Ed].
  apply frac_mod_spec in Fm. destruct Fm as (_ & (z & Z0) & _). rewrite Ee in Z0.
  destruct (fold_places es (m1 :: rest) 1 a1 a Hf) as (more & Pl). rewrite R in Pl. cbn [rev app map] in Pl.
  destruct (rev (a_rows a)) as [|r' R'] eqn:Er; [discriminate Hr|]. cbn [nth_error] in Hr. apply Some_inj in Hr. subst r'.
  cbn [map] in Pl. injection Pl as P1 P2 P3 _. exists (- z).
  rewrite inject_Z_opp. rewrite P1. assert (X : (p_off r == off)%Q) by (rewrite P3; reflexivity).
  assert (Y : (p_start r == mm_offset m0 / 4 - 0)%Q) by (rewrite P2; reflexivity).
  assert (E1' : (p_start r1 == mm_offset m1 / 4 - 0)%Q) by (rewrite E1; reflexivity).
  pose proof (mult_Qeq (inject_Z z) _ _ _ (Qeq_refl _) Ed) as M. cbn [p_ts fst snd] in *.
  rewrite X. lra.
Qed.

(* ---- the table can be played from its first row ---- *)
Lemma nth_error_same {A} : forall l l' : list A, (forall k, nth_error l k = nth_error l' k) -> l = l'.
Proof.
  induction l as [|a l IH]; intros [|b l'] H; try (specialize (H 0%nat); discriminate H); [reflexivity|].
  f_equal; [specialize (H 0%nat); now apply Some_inj in H|]. apply IH. intros k. apply (H (S k)).
Qed.
Lemma table_mcs ms bs t : get_measures ms bs = Ok t -> map m_mc (measures_of t) = map Z.of_nat (seq 0 (List.length t)).
Proof.
  intros H. apply nth_error_same. intros k. unfold measures_of. rewrite map_map, !nth_error_map.
  destruct (nth_error t k) as [x|] eqn:E.
  - pose proof (table_row _ _ _ _ _ H E) as (m & _ & _ & M & _). cbn [option_map]. rewrite M.
    assert (L : (k < List.length t)%nat) by (apply nth_error_Some; congruence).
    rewrite (nth_error_nth' _ 0%nat) by (rewrite seq_length; exact L). rewrite seq_nth by exact L. reflexivity.
  - apply nth_error_None in E. replace (nth_error (seq 0 (List.length t)) k) with (@None nat); [reflexivity|].
    symmetry. apply nth_error_None. now rewrite seq_length.
Qed.
Lemma table_in ms bs t x : get_measures ms bs = Ok t -> In x t ->
  exists k, nth_error t k = Some x /\ m_mc (x_row x) = Z.of_nat k.
Proof.
  intros H I. apply In_nth_error in I. destruct I as (k & E). exists k. split; [exact E|].
  now pose proof (table_row _ _ _ _ _ H E) as (m & _ & _ & M & _).
Qed.
Lemma table_unique ms bs t : get_measures ms bs = Ok t -> unique_mcs (measures_of t).
Proof.
  intros H. unfold unique_mcs. rewrite (table_mcs _ _ _ H). apply FinFun.Injective_map_NoDup; [|apply seq_NoDup].
  intros a b. lia.
Qed.
Lemma table_forward ms bs t : get_measures ms bs = Ok t -> forward (measures_of t).
Proof.
  intros H m I n E. apply in_map_iff in I. destruct I as (x & <- & I).
  destruct (table_in _ _ _ _ H I) as (k & Hk & M). pose proof (table_row _ _ _ _ _ H Hk) as (m & _ & _ & _ & Nx & _).
  rewrite Nx in E. destruct (Nat.eqb_spec (S k) (List.length t)); [discriminate E|]. assert (En : n = Z.of_nat (S k)) by congruence. subst n. clear E. split; [lia|].
  rewrite (table_mcs _ _ _ H). apply in_map. apply in_seq.
  assert (L : (k < List.length t)%nat) by (apply nth_error_Some; congruence). lia.
Qed.
Lemma table_clock ms bs t : get_measures ms bs = Ok t -> clock (measures_of t) (start_of t).
Proof.
  intros H m n I E. apply in_map_iff in I. destruct I as (x & <- & I).
  destruct (table_in _ _ _ _ H I) as (k & Hk & M). pose proof (table_row _ _ _ _ _ H Hk) as (m & _ & _ & _ & Nx & _).
  rewrite Nx in E. destruct (Nat.eqb_spec (S k) (List.length t)); [discriminate E|]. assert (En : n = Z.of_nat (S k)) by congruence. subst n. clear E.
  assert (L : (k < List.length t)%nat) by (apply nth_error_Some; congruence).
  destruct (nth_error t (S k)) as [x'|] eqn:Hx'; [|apply nth_error_None in Hx'; lia].
  pose proof (table_link _ _ _ _ _ _ H Hk Hx') as (L1 & _).
  unfold start_of. rewrite M, !Nat2Z.id, Hk, Hx'. exact L1.
Qed.
Lemma table_plays ms bs t k : get_measures ms bs = Ok t -> (k < List.length t)%nat -> plays_to (measures_of t) 0 (Z.of_nat k).
Proof.
  intros H. induction k as [|k IH]; intros L; [apply pt_refl|].
  eapply plays_to_trans; [apply IH; lia|]. destruct (nth_error t k) as [x|] eqn:E; [|apply nth_error_None in E; lia].
  pose proof (table_row _ _ _ _ _ H E) as (m & _ & _ & M & Nx & _).
  destruct (Nat.eqb_spec (S k) (List.length t)); [lia|].
  eapply pt_step; [split; [apply in_map; apply nth_error_In in E; exact E|exact M]|exact Nx|apply pt_refl].
Qed.
Lemma table_at ms bs t k x b : get_measures ms bs = Ok t -> nth_error t k = Some x ->
  at_time (measures_of t) (start_of t) (Z.of_nat k, b) (x_start x + b - m_off (x_row x)).
Proof.
  intros H E. pose proof (table_row _ _ _ _ _ H E) as (m & _ & _ & M & _).
  exists (x_row x). cbn [fst snd]. split; [split; [apply in_map; apply nth_error_In in E; exact E|exact M]|].
  unfold start_of. rewrite Nat2Z.id, E. reflexivity.
Qed.
(* distances between positions *)
Lemma table_distance ms bs t i j x y b c : get_measures ms bs = Ok t -> nth_error t i = Some x -> nth_error t j = Some y ->
  exists d, get_range_length (Z.of_nat i, b) (Z.of_nat j, c) (measures_of t) = Ok d /\
    (d == (x_start y + c - m_off (x_row y)) - (x_start x + b - m_off (x_row x)))%Q.
Proof.
  intros H Hx Hy.
  assert (Li : (i < List.length t)%nat) by (apply nth_error_Some; congruence).
  assert (Lj : (j < List.length t)%nat) by (apply nth_error_Some; congruence).
  refine (range_length_spec _ (start_of t) 0 (Z.of_nat i, b) (Z.of_nat j, c) _ _ (table_unique _ _ _ H) (table_forward _ _ _ H)
            (table_clock _ _ _ H) (table_plays _ _ _ _ H Li) (table_plays _ _ _ _ H Lj) (table_at _ _ _ _ _ _ H Hx) (table_at _ _ _ _ _ _ H Hy)).
Qed.

(* ---- when the table can be made ---- *)
Definition real_ts (ts : Z * Z) : Prop := fst ts <> 0 /\ snd ts <> 0.
Lemma bar_nonzero ts : ~ (bar ts == 0)%Q <-> real_ts ts.
Proof.
  destruct ts as [n d]. unfold bar, real_ts. cbn [fst snd]. split.
  - intros H. split; intros ->; apply H; [unfold Qdiv; change (inject_Z 0) with 0%Q; ring|unfold Qdiv; change (/ inject_Z 0)%Q with 0%Q; ring].
  - intros [N D] H. apply N. apply eq_sym, inject_Z_injective. change (inject_Z 0) with 0%Q.
    assert (X : ~ (inject_Z d == 0)%Q) by (intros X; apply D; apply inject_Z_injective; exact X).
    rewrite <- (Qmult_1_r (inject_Z n)). rewrite <- (Qmult_inv_r _ X), (Qmult_comm (inject_Z d)), Qmult_assoc.
    change (0 == inject_Z n / inject_Z d * inject_Z d)%Q. rewrite H. ring.
Qed.
Lemma step_total es a i m : real_ts (a_ts a) -> (a_dur a == bar (a_ts a))%Q ->
  (in_endings es (mm_number m) = false -> forall ts, mm_ts m = Some ts -> real_ts ts) ->
  exists a', measure_step es a (i, m) = Ok a' /\ real_ts (a_ts a') /\ (a_dur a' == bar (a_ts a'))%Q.
Proof.
  intros R D H. unfold measure_step. destruct (in_endings es (mm_number m)); [eexists; split; [reflexivity|]; split; assumption|].
  specialize (H eq_refl). set (o := Qminus _ _).
  assert (X : exists ts dur epoch, real_ts ts /\ (dur == bar ts)%Q /\
     match mm_ts m with
      | None => Ok (a_ts a, a_dur a, a_epoch a)
      | Some ts =>
          if (fst ts =? fst (a_ts a)) && (snd ts =? snd (a_ts a)) then Ok (a_ts a, a_dur a, a_epoch a)
          else let! d := fraction (fst ts) (snd ts) in
               Ok (ts, d, if (i =? 0)%nat then a_epoch a else o)
      end = Ok (ts, dur, epoch)).
  { destruct (mm_ts m) as [ts|]; [|exists (a_ts a), (a_dur a), (a_epoch a); auto].
    destruct ((fst ts =? fst (a_ts a)) && (snd ts =? snd (a_ts a))); [exists (a_ts a), (a_dur a), (a_epoch a); auto|].
    specialize (H ts eq_refl). exists ts, (bar ts). eexists. split; [exact H|]. split; [reflexivity|].
    unfold fraction. destruct (snd ts =? 0) eqn:E; [destruct H; lia|]. reflexivity. }
  destruct X as (ts & dur & epoch & R' & D' & ->). cbn [bind].
  destruct (frac_mod_total (o - epoch) dur) as (off & ->); [rewrite D'; now apply bar_nonzero|].
  cbn [bind]. eexists. split; [reflexivity|]. split; assumption.
Qed.
Lemma fold_total es l : forall i a, real_ts (a_ts a) -> (a_dur a == bar (a_ts a))%Q ->
  (forall m, In m (sounding es l) -> forall ts, mm_ts m = Some ts -> real_ts ts) ->
  exists a', foldM (measure_step es) (number_from i l) a = Ok a'.
Proof.
  induction l as [|m l IH]; intros i a R D H; [eexists; reflexivity|]. cbn [number_from]. setoid_rewrite foldM_cons.
  destruct (step_total es a i m R D) as (a1 & -> & R1 & D1).
  { intros E. apply H. cbn [sounding filter]. rewrite E. now left. }
  cbn [bind]. apply IH; auto. intros m' I. apply H. cbn [sounding filter]. destruct (negb _); [now right|exact I].
Qed.
Lemma in_force_snoc l ts m : in_force ts (l ++ [m]) = match mm_ts m with Some t => t | None => in_force ts l end.
Proof. revert ts. induction l as [|a l IH]; intros ts; [reflexivity|]. cbn [app in_force]. apply IH. Qed.

Lemma table_exists ms bs : (exists t, get_measures ms bs = Ok t) <->
  (2 <= List.length ms)%nat /\ (forall b, In b bs -> br_number b <> None) /\ kept bs ms <> [] /\
  (forall m ts, In m (kept bs ms) -> mm_ts m = Some ts -> fst ts <> 0 /\ snd ts <> 0).
Proof.
  split.
  - intros (t & H). pose proof (table_length _ _ _ H) as [Lt Nk]. pose proof H as H'. apply get_measures_inv in H'.
    destruct H' as (m0 & m1 & rest & es & a & Ems & He & _). split; [subst ms; cbn; lia|]. split.
    + unfold first_endings in He. apply bind_ok in He. destruct He as (l & He & _). apply mapM_ok in He.
      clear - He. induction He as [|b x bs l Hb F IH]; [intros b []|]. intros b' [->|I]; [|now apply IH].
      intros E. rewrite E in Hb. discriminate Hb.
    + split; [exact Nk|]. intros m ts I E. apply In_nth_error in I. destruct I as (k & Hk).
      destruct (nth_error t k) as [x|] eqn:Hx.
      * pose proof (table_row _ _ _ _ _ H Hx) as (m' & _ & _ & _ & _ & T & B & _). apply bar_nonzero.
        rewrite T, (firstn_snoc _ _ _ Hk), in_force_snoc, E in B. exact B.
      * apply nth_error_None in Hx. assert (k < List.length (kept bs ms))%nat by (apply nth_error_Some; congruence). lia.
  - intros (L & Nb & Nk & Ts). unfold get_measures. destruct ms as [|m0 [|m1 rest]]; try (cbn in L; lia).
    assert (X : exists es, first_endings bs = Ok es).
    { unfold first_endings. clear - Nb. induction bs as [|b bs IH]; [eexists; reflexivity|].
      destruct IH as (es & E); [intros b' I; apply Nb; now right|].
      apply bind_ok in E. destruct E as (l & E & _). cbn [mapM].
      destruct (br_number b) as [n|] eqn:En; [|exfalso; apply (Nb b); [now left|exact En]].
      cbn [bind]. rewrite E. cbn [bind]. eexists. reflexivity. }
    destruct X as (es & He). rewrite He. cbn [bind].
    destruct (fold_total es (m0 :: m1 :: rest) 0 (mkAcc (mm_offset m1 / 4) (4, 4) 1 0 [])) as (a & Ha).
    + split; discriminate.
    + reflexivity.
    + intros m I ts E. apply (Ts m ts); [now rewrite <- (sounding_kept _ _ _ He)|exact E].
    + rewrite Ha. cbn [bind]. destruct (a_rows a) as [|r rows] eqn:Er; [|eexists; reflexivity]. exfalso. apply Nk.
      pose proof (fold_rows _ _ _ _ _ Ha) as (_ & T & _). rewrite Er in T. cbn [rev map app a_ts] in T.
      rewrite (sounding_kept _ _ _ He) in T. destruct (kept bs (m0 :: m1 :: rest)); [reflexivity|discriminate T].
Qed.

(* ---- positions of labels ---- *)
Lemma find_rev_nth {A} (f : A -> bool) l x : find f (rev l) = Some x ->
  exists k, nth_error l k = Some x /\ f x = true /\
    forall j y, (k < j)%nat -> nth_error l j = Some y -> f y = false.
Proof.
  induction l as [|a l IH] using rev_ind; [discriminate|]. rewrite rev_app_distr. cbn [rev app find].
  destruct (f a) eqn:Fa.
  - intros H. apply Some_inj in H. subst a. exists (List.length l). split; [rewrite nth_error_app2, Nat.sub_diag by lia; reflexivity|].
    split; [exact Fa|]. intros j y L H. exfalso. assert (nth_error (l ++ [x]) j = None) by (apply nth_error_None; rewrite app_length; cbn; lia).
    congruence.
  - intros H. destruct (IH H) as (k & Hk & Fx & Fy). exists k.
    assert (L : (k < List.length l)%nat) by (apply nth_error_Some; congruence).
    split; [now rewrite nth_error_app1|]. split; [exact Fx|]. intros j y Lj Hj.
    destruct (Nat.lt_ge_cases j (List.length l)) as [C|C]; [rewrite nth_error_app1 in Hj by exact C; exact (Fy j y Lj Hj)|].
    rewrite nth_error_app2 in Hj by exact C. destruct (j - List.length l)%nat as [|q]; [|destruct q; discriminate Hj].
    cbn in Hj. apply Some_inj in Hj. now subst y.
Qed.
Lemma Qle_bool_false a b : Qle_bool a b = false -> (b < a)%Q.
Proof. intros H. apply Qnot_le_lt. intros L. apply Qle_bool_iff in L. congruence. Qed.
Lemma position_inv t x m b : position_of t x = Ok (m, b) ->
  exists k, nth_error t k = Some m /\ (x_start m <= x)%Q /\
    (forall j m', (k < j)%nat -> nth_error t j = Some m' -> (x < x_start m')%Q) /\
    b = (m_off (x_row m) + x - x_start m)%Q.
Proof.
  unfold position_of. destruct (find _ (rev t)) as [m'|] eqn:F; [|discriminate].
  intros H. apply Ok_inj in H. apply pair_equal_spec in H. destruct H as [<- <-].
  destruct (find_rev_nth _ _ _ F) as (k & Hk & Fx & Fy). exists k. split; [exact Hk|]. split; [now apply Qle_bool_iff|].
  split; [|reflexivity]. intros j y L E. apply Qle_bool_false. exact (Fy j y L E).
Qed.
Lemma position_total t x m : nth_error t 0 = Some m -> (x_start m <= x)%Q -> exists p, position_of t x = Ok p.
Proof.
  intros H L. unfold position_of. destruct (find _ (rev t)) as [m'|] eqn:F; [eexists; reflexivity|].
  exfalso. apply nth_error_In in H. apply in_rev in H. pose proof (find_none _ _ F m H) as X. cbn in X.
  apply Qle_bool_iff in L. congruence.
Qed.
(* the index found does not go back in time *)
Lemma position_order t x y mx bx my by_ kx ky : (x <= y)%Q ->
  nth_error t kx = Some mx -> (x_start mx <= x)%Q ->
  (forall j m', (kx < j)%nat -> nth_error t j = Some m' -> (x < x_start m')%Q) ->
  nth_error t ky = Some my -> (x_start my <= y)%Q ->
  (forall j m', (ky < j)%nat -> nth_error t j = Some m' -> (y < x_start m')%Q) ->
  bx = (m_off (x_row mx) + x - x_start mx)%Q -> by_ = (m_off (x_row my) + y - x_start my)%Q ->
  (kx < ky)%nat \/ (kx = ky /\ (by_ == bx + (y - x))%Q).
Proof.
  intros L Hx Sx Nx Hy Sy Ny -> ->. destruct (Nat.lt_trichotomy kx ky) as [C|[C|C]]; [now left| |].
  - right. split; [exact C|]. subst ky. assert (mx = my) by congruence. subst my. lra.
  - exfalso. pose proof (Ny kx mx C Hx). lra.
Qed.

Lemma chord_from_csv_inv t pt on off r c : chord_from_csv t pt on off r = Ok c ->
  exists key ty i root bass on_m on_b off_m off_b,
    let d0 := hd [] (split_on "/" (csv_accidentals (r_degree r))) in
    let d1 := fix_seventh (k_rel_mode key) d0 in
    let d2 := match k_rel_mode key with MINOR => str_replace (L"##6") (L"#6") d1 | MAJOR => d1 end in
    let inv := (if existsb (str_eqb (r_type r)) [L"Gr+6"; L"Fr+6"; L"It+6"] then 0 else r_inv r) mod zlen (CHORD_PITCHES TPC ty) in
    key_from_csv pt None r = Ok key /\ dict_get csv_types (r_type r) = Ok ty /\
    get_interval_from_scale_degree d2 true (k_rel_mode key) pt = Ok i /\
    transpose_pitch (k_rel key) i pt = Ok root /\ get_bass_note ty root inv pt true = Ok bass /\
    position_of t on = Ok (on_m, on_b) /\ position_of t off = Ok (off_m, off_b) /\
    pc_on c = (m_mc (x_row on_m), on_b) /\ pc_off c = (m_mc (x_row off_m), off_b) /\
    pc_dur c = (off - on)%Q /\ pc_susp c = None /\
    get_metrical_level on_b (x_ts on_m) = Ok (pc_on_level c) /\ get_metrical_level off_b (x_ts off_m) = Ok (pc_off_level c) /\
    pc c = {| c_root := root; c_bass := bass; c_tonic := k_rel key; c_mode := k_rel_mode key;
              c_type := ty; c_inv := inv; c_pt := pt |}.
Proof.
  unfold chord_from_csv. intros H. apply bind_ok in H. destruct H as (key & Hk & H). apply bind_ok in H. destruct H as (ty & Ht & H).
  cbn zeta in H. apply bind_ok in H. destruct H as (i & Hi & H). apply bind_ok in H. destruct H as (root & Hr & H).
  apply bind_ok in H. destruct H as ([on_m on_b] & H1 & H). apply bind_ok in H. destruct H as ([off_m off_b] & H2 & H).
  apply bind_ok in H. destruct H as (l1 & H3 & H). apply bind_ok in H. destruct H as (l2 & H4 & H).
  apply bind_ok in H. destruct H as (bass & Hb & H). apply Ok_inj in H. subst c.
  exists key, ty, i, root, bass, on_m, on_b, off_m, off_b. cbn [pc_on pc_off pc_dur pc_susp pc_on_level pc_off_level pc].
  cbn zeta. repeat split; assumption.
Qed.

(* ---- notes ---- *)
Lemma xrow_at_nth ms bs t k x : get_measures ms bs = Ok t -> nth_error t k = Some x -> xrow_at t (Z.of_nat k) = Ok x.
Proof.
  intros H Hx. unfold xrow_at. destruct (find _ t) as [y|] eqn:F.
  - apply find_some in F. destruct F as [I E]. destruct (table_in _ _ _ _ H I) as (j & Hj & M).
    assert (j = k) by lia. subst j. congruence.
  - exfalso. pose proof (find_none _ _ F x (nth_error_In _ _ Hx)) as X. cbn in X.
    pose proof (table_row _ _ _ _ _ H Hx) as (m & _ & _ & M & _). lia.
Qed.
Lemma xrow_at_inv ms bs t mc x : get_measures ms bs = Ok t -> xrow_at t mc = Ok x ->
  exists k, mc = Z.of_nat k /\ nth_error t k = Some x.
Proof.
  intros H. unfold xrow_at. destruct (find _ t) as [y|] eqn:F; [|discriminate]. intros E. apply Ok_inj in E. subst y.
  apply find_some in F. destruct F as [I E]. destruct (table_in _ _ _ _ H I) as (j & Hj & M). exists j. split; [lia|exact Hj].
Qed.

Lemma offset_measure_spec ms bs t : get_measures ms bs = Ok t -> forall fuel k m tmp,
  nth_error t k = Some m -> (List.length t <= k + fuel)%nat ->
  exists k' m' tmp', offset_measure fuel t m tmp = Ok (m', tmp') /\ (k <= k')%nat /\ nth_error t k' = Some m' /\
    (tmp' == tmp - (x_start m' - x_start m))%Q /\
    ((tmp' < m_dur (x_row m'))%Q \/ S k' = List.length t) /\
    (forall j y, (k < j <= k')%nat -> nth_error t j = Some y -> (x_start y <= x_start m + tmp)%Q).
Proof.
  intros H fuel. induction fuel as [|fuel IH]; intros k m tmp Hm L.
  { exfalso. assert (k < List.length t)%nat by (apply nth_error_Some; congruence). lia. }
  cbn [offset_measure]. pose proof (table_row _ _ _ _ _ H Hm) as (_ & _ & _ & _ & Nx & _).
  destruct (Qle_bool (m_dur (x_row m)) tmp) eqn:E.
  - apply Qle_bool_iff in E. rewrite Nx. destruct (Nat.eqb_spec (S k) (List.length t)) as [C|C].
    + exists k, m, tmp. split; [reflexivity|]. split; [lia|]. split; [exact Hm|]. split; [lra|]. split; [now right|]. intros; lia.
    + assert (Lk : (k < List.length t)%nat) by (apply nth_error_Some; congruence).
      destruct (nth_error t (S k)) as [m1|] eqn:H1; [|apply nth_error_None in H1; lia].
      rewrite (xrow_at_nth _ _ _ _ _ H H1). cbn [bind].
      destruct (IH (S k) m1 (tmp - m_dur (x_row m))%Q H1) as (k' & m' & tmp' & E1 & Lk' & H' & T & F & J); [lia|].
      pose proof (table_link _ _ _ _ _ _ H Hm H1) as (Lk1 & _).
      exists k', m', tmp'. split; [exact E1|]. split; [lia|]. split; [exact H'|]. split; [lra|]. split; [exact F|].
      intros j y Lj Hj. destruct (Nat.eq_dec j (S k)) as [->|Nj].
      * assert (y = m1) by congruence. subst y. lra.
      * pose proof (J j y ltac:(lia) Hj). lra.
  - apply Qle_bool_false in E. exists k, m, tmp. split; [reflexivity|]. split; [lia|]. split; [exact Hm|]. split; [lra|]. split; [now left|]. intros; lia.
Qed.

Lemma note_inv ms bs t k m pt it p n mo : get_measures ms bs = Ok t -> nth_error t k = Some m ->
  note_from_music21 t (Z.of_nat k) pt it p = Ok (n, mo) ->
  let s := (it_offset it / 4)%Q in let d := (it_ql it / 4)%Q in
  exists k' m' tmp, (k <= k')%nat /\ nth_error t k' = Some m' /\
    (tmp == d + s - m_off (x_row m) - (x_start m' - x_start m))%Q /\
    ((tmp < m_dur (x_row m'))%Q \/ S k' = List.length t) /\
    (forall j y, (k < j <= k')%nat -> nth_error t j = Some y -> (x_start y <= x_start m + d + s - m_off (x_row m))%Q) /\
    no_on n = (Z.of_nat k, s + m_off (x_row m))%Q /\ no_dur n = d /\
    no_off n = (Z.of_nat k', tmp + m_off (x_row m') + m_off (x_row m'))%Q /\
    get_metrical_level (s + m_off (x_row m)) (x_ts m) = Ok (no_on_level n) /\
    get_metrical_level (tmp + m_off (x_row m') + m_off (x_row m')) (x_ts m') = Ok (no_off_level n) /\
    get_pitch_from_string (replace_char "-" "b" (fst p)) pt = Ok (no_pitch n) /\ no_octave n = snd p /\ no_pt n = pt /\
    mo = (s + m_off (x_row m) - m_off (x_row m))%Q.
Proof.
  intros H Hm Hn s d. unfold note_from_music21 in Hn. rewrite (xrow_at_nth _ _ _ _ _ H Hm) in Hn. cbn [bind] in Hn.
  fold s d in Hn. destruct (offset_measure_spec _ _ _ H (S (List.length t)) k m (d + s - m_off (x_row m))%Q Hm ltac:(lia))
    as (k' & m' & tmp & E & Lk & Hm' & T & F & J).
  change ((d + s - m_off (x_row m))%Q) with (Qminus (Qplus d s) (m_off (x_row m))) in E. rewrite E in Hn. cbn [bind] in Hn.
  apply bind_ok in Hn. destruct Hn as (l1 & L1 & Hn). apply bind_ok in Hn. destruct Hn as (l2 & L2 & Hn).
  apply bind_ok in Hn. destruct Hn as (q & Hq & Hn). apply Ok_inj in Hn. apply pair_equal_spec in Hn. destruct Hn as [<- <-].
  exists k', m', tmp. cbn [no_on no_off no_dur no_pitch no_octave no_pt no_on_level no_off_level].
  pose proof (table_row _ _ _ _ _ H Hm) as (_ & _ & _ & M & _). pose proof (table_row _ _ _ _ _ H Hm') as (_ & _ & _ & M' & _).
  rewrite M, M'. split; [exact Lk|]. split; [exact Hm'|]. split; [exact T|]. split; [exact F|]. split.
  { intros j y Lj Hj. pose proof (J j y Lj Hj). lra. }
  repeat split; assumption.
Qed.
Lemma note_total ms bs t k m pt it p q : get_measures ms bs = Ok t -> nth_error t k = Some m ->
  get_pitch_from_string (replace_char "-" "b" (fst p)) pt = Ok q ->
  exists r, note_from_music21 t (Z.of_nat k) pt it p = Ok r.
Proof.
  intros H Hm Hq. unfold note_from_music21. rewrite (xrow_at_nth _ _ _ _ _ H Hm). cbn [bind].
  destruct (offset_measure_spec _ _ _ H (S (List.length t)) k m (it_ql it / 4 + it_offset it / 4 - m_off (x_row m))%Q Hm ltac:(lia))
    as (k' & m' & tmp & E & Lk & Hm' & T & F & J). rewrite E. cbn [bind].
  pose proof (table_row _ _ _ _ _ H Hm) as (_ & _ & _ & _ & _ & _ & B & _). pose proof (table_row _ _ _ _ _ H Hm') as (_ & _ & _ & _ & _ & _ & B' & _).
  apply bar_nonzero in B. apply bar_nonzero in B'. destruct (x_ts m) as [n1 d1], (x_ts m') as [n2 d2]. destruct B as [B1 B2], B' as [B3 B4].
  cbn [fst snd] in *. destruct (level_spec n1 d1 (it_offset it / 4 + m_off (x_row m)) B1 B2) as (l1 & -> & _).
  cbn [bind]. destruct (level_spec n2 d2 (tmp + m_off (x_row m') + m_off (x_row m')) B3 B4) as (l2 & -> & _). cbn [bind].
  rewrite Hq. eexists. reflexivity.
Qed.

(* ---- readings of names ---- *)
Lemma map_repeat' {A B} (f : A -> B) x n : map f (repeat x n) = repeat (f x) n.
Proof. induction n as [|n IH]; [reflexivity|]. cbn. now rewrite IH. Qed.
Lemma m21_name_read c v sh fl : letter_fifths c = Some v ->
  get_pitch_from_string (replace_char "-" "b" (m21_name c sh fl)) TPC =
  let p := 15 + v + 7 * (Z.of_nat sh - Z.of_nat fl) in
  if (0 <=? p) && (p <? 35) then Ok p else Raise ValueError.
Proof.
  intros Hc. rewrite <- (tpc_spelling c v sh fl Hc). f_equal. unfold m21_name, replace_char, spelling. cbn [map].
  rewrite map_app, !map_repeat'. f_equal.
  destruct (Ascii.eqb c "-") eqn:E; [|reflexivity]. apply Ascii.eqb_eq in E. subst c. discriminate Hc.
Qed.
Lemma letter_not_sign c v : letter_fifths c = Some v -> c <> "-"%char /\ c <> "+"%char.
Proof. intros H. split; intros ->; discriminate H. Qed.
Lemma csv_key_accidentals c v sh fl : letter_fifths c = Some v -> csv_accidentals (csv_key c sh fl) = spelling c sh fl.
Proof.
  intros Hc. destruct (letter_not_sign _ _ Hc) as [N1 N2]. unfold csv_accidentals, csv_key, replace_char, spelling.
  apply Ascii.eqb_neq in N1. apply Ascii.eqb_neq in N2.
  rewrite map_map. cbn [map]. rewrite map_app, !map_repeat', N1, N2. reflexivity.
Qed.

(* accidentals before a digit *)
Definition deg (a d : Z) : pystr :=
  (if a <? 0 then repeat "b"%char (Z.to_nat (- a)) else repeat "#"%char (Z.to_nat a)) ++ [digit d].
Lemma digit_cases d : 1 <= d <= 7 -> d = 1 \/ d = 2 \/ d = 3 \/ d = 4 \/ d = 5 \/ d = 6 \/ d = 7.
Proof. lia. Qed.
Lemma digit_plain d c : In c ["-"; "+"; "/"; "b"; "#"]%char -> digit d <> c.
Proof.
  unfold digit. intros H E. destruct d as [|p|p]; cbn in *; try (subst c; intuition discriminate).
  do 3 (destruct p as [p|p|]; cbn in *; try (subst c; intuition discriminate)).
Qed.
Lemma csv_degree_accidentals a d : csv_accidentals (csv_degree a d) = deg a d.
Proof.
  unfold csv_accidentals, csv_degree, deg, replace_char. rewrite map_map, map_app. cbn [map].
  pose proof (digit_plain d "-"%char ltac:(cbn; tauto)) as N1. pose proof (digit_plain d "+"%char ltac:(cbn; tauto)) as N2.
  apply Ascii.eqb_neq in N1. apply Ascii.eqb_neq in N2. rewrite N1, N2. f_equal. destruct (a <? 0); now rewrite map_repeat'.
Qed.
Lemma deg_front a d : get_accidental_adjustment (deg a d) true = Ok (a, [digit d]).
Proof.
  pose proof (digit_plain d "b"%char ltac:(cbn; tauto)) as N1. pose proof (digit_plain d "#"%char ltac:(cbn; tauto)) as N2.
  unfold deg. destruct (a <? 0) eqn:E.
  - rewrite (front_adjust_ok _ (Z.to_nat (- a)) 0 [digit d]).
    + apply Ok_pair; lia || reflexivity.
    + split; [reflexivity|]. split; [eexists; eexists; eauto|]. intros _. right. eexists; eexists; eauto.
  - rewrite (front_adjust_ok _ 0 (Z.to_nat a) [digit d]).
    + apply Ok_pair; lia || reflexivity.
    + split; [reflexivity|]. split; [eexists; eexists; eauto|]. intros _. right. eexists; eexists; eauto.
Qed.
Lemma deg_interval a d m : 1 <= d <= 7 -> get_interval_from_scale_degree (deg a d) true m TPC = Ok (degree_fifths m d + 7 * a).
Proof.
  intros H. unfold get_interval_from_scale_degree. rewrite deg_front. cbn [bind].
  assert (E : dict_get SCALE_DEGREE_TO_NUMBER [digit d] = Ok d).
  { destruct (digit_cases d H) as [->|[->|[->|[->|[->|[->| ->]]]]]]; reflexivity. }
  rewrite E. cbn [bind]. rewrite scale_nth by exact H. cbn [bind]. f_equal. change (ACCIDENTAL_ADJUSTMENT TPC) with 7. lia.
Qed.

Lemma starts_with_in p : forall s x, starts_with p s = true -> In x p -> In x s.
Proof.
  induction p as [|a p IH]; intros [|b s] x H I; cbn in *; try contradiction; try discriminate.
  apply andb_true_iff in H. destruct H as [E H]. apply Ascii.eqb_eq in E. subst b. destruct I as [->|I]; [now left|right; eauto].
Qed.
Lemma substring_in p s x : substring_of p s = true -> In x p -> In x s.
Proof.
  induction s as [|b s IH]; intros H I; cbn [substring_of] in H; apply orb_true_iff in H; destruct H as [H|H]; try discriminate.
  - eapply starts_with_in; eauto.
  - eapply starts_with_in; eauto.
  - right. auto.
Qed.
Lemma replace_none fuel old new s : substring_of old s = false -> replace_text fuel old new s = s.
Proof.
  revert s. induction fuel as [|f IH]; intros s H; [reflexivity|]. cbn [replace_text].
  destruct s as [|c s]; cbn [substring_of] in H; apply orb_false_iff in H; destruct H as [H1 H2]; rewrite H1; [reflexivity|].
  now rewrite IH.
Qed.
Lemma deg_in a d x : In x (deg a d) -> x = digit d \/ (x = "b"%char /\ a < 0) \/ (x = "#"%char /\ 0 < a).
Proof.
  unfold deg. intros H. apply in_app_or in H. destruct H as [H|[<-|[]]]; [|now left]. right.
  destruct (a <? 0) eqn:E.
  - apply repeat_spec in H. left. split; [exact H|lia].
  - destruct (Z.to_nat a) eqn:En; [destruct H|]. apply repeat_spec in H. right. split; [exact H|lia].
Qed.
Lemma digit_eq d e : 1 <= d <= 7 -> 1 <= e <= 7 -> digit d = digit e -> d = e.
Proof.
  intros H H' E. destruct (digit_cases d H) as [->|[->|[->|[->|[->|[->| ->]]]]]];
  destruct (digit_cases e H') as [->|[->|[->|[->|[->|[->| ->]]]]]]; try reflexivity; discriminate E.
Qed.
Lemma seven_in a d : 1 <= d <= 7 -> substring_of (L"7") (deg a d) = (d =? 7).
Proof.
  intros H. destruct (Z.eqb_spec d 7) as [->|N].
  - unfold deg. generalize (if a <? 0 then repeat "b"%char (Z.to_nat (- a)) else repeat "#"%char (Z.to_nat a)). intros l.
    induction l as [|c l IH]; [reflexivity|]. cbn [app substring_of]. rewrite IH. now rewrite orb_true_r.
  - apply Bool.not_true_is_false. intros E. apply (substring_in _ _ "7"%char) in E; [|now left].
    apply deg_in in E. destruct E as [E|[[E _]|[E _]]]; try discriminate E. apply N. apply (digit_eq d 7 H ltac:(lia)). now rewrite <- E.
Qed.
Lemma deg_seventh m a d : 1 <= d <= 7 ->
  fix_seventh m (deg a d) = match m with MINOR => if d =? 7 then deg (a + 1) 7 else deg a d | MAJOR => deg a d end.
Proof.
  intros H. destruct m; [reflexivity|]. cbn [fix_seventh]. rewrite seven_in by exact H.
  destruct (Z.eqb_spec d 7) as [->|N]; [|reflexivity]. unfold deg. destruct (Z.ltb_spec a 0) as [L|L].
  - replace (Z.to_nat (- a)) with (S (Z.to_nat (- (a + 1)))) by lia. cbn [repeat app Ascii.eqb].
    destruct (Z.ltb_spec (a + 1) 0) as [L'|L']; [reflexivity|].
    replace (a + 1) with 0 by lia. reflexivity.
  - destruct (Z.ltb_spec (a + 1) 0); [lia|]. replace (Z.to_nat (a + 1)) with (S (Z.to_nat a)) by lia.
    destruct (Z.to_nat a); reflexivity.
Qed.

Lemma two_sharps_six n : forall fuel, (n + 2 <= fuel)%nat ->
  replace_text fuel (L"##6") (L"#6") (repeat "#"%char (S (S n)) ++ L"6") = repeat "#"%char (S n) ++ L"6".
Proof.
  induction n as [|n IH]; intros fuel Lf; (destruct fuel as [|fuel]; [lia|]).
  - cbn. destruct fuel; reflexivity.
  - change (repeat "#"%char (S (S (S n))) ++ L"6") with ("#"%char :: repeat "#"%char (S (S n)) ++ L"6").
    cbn [replace_text].
    assert (E : starts_with (L"##6") ("#"%char :: repeat "#"%char (S (S n)) ++ L"6") = false) by reflexivity.
    rewrite E, IH by lia. reflexivity.
Qed.
Lemma one_sharp_six n : forall fuel, (n + 2 <= fuel)%nat ->
  replace_text fuel (L"#6") (L"6") (repeat "#"%char (S n) ++ L"6") = repeat "#"%char n ++ L"6".
Proof.
  induction n as [|n IH]; intros fuel Lf; (destruct fuel as [|fuel]; [lia|]).
  - cbn. destruct fuel; reflexivity.
  - change (repeat "#"%char (S (S n)) ++ L"6") with ("#"%char :: repeat "#"%char (S n) ++ L"6").
    cbn [replace_text].
    assert (E : starts_with (L"#6") ("#"%char :: repeat "#"%char (S n) ++ L"6") = false) by reflexivity.
    rewrite E, IH by lia. reflexivity.
Qed.
Lemma deg_sharp n d : deg (Z.of_nat n) d = repeat "#"%char n ++ [digit d].
Proof. unfold deg. destruct (Z.ltb_spec (Z.of_nat n) 0); [lia|]. now rewrite Nat2Z.id. Qed.
Lemma deg_length a d : List.length (deg a d) = S (Z.to_nat (Z.abs a)).
Proof.
  unfold deg. rewrite app_length. cbn [List.length]. destruct (Z.ltb_spec a 0); rewrite repeat_length; lia.
Qed.
Lemma deg_two_sharps a d : 1 <= d <= 7 ->
  str_replace (L"##6") (L"#6") (deg a d) = if (d =? 6) && (2 <=? a) then deg (a - 1) 6 else deg a d.
Proof.
  intros H. unfold str_replace. rewrite deg_length.
  destruct (Z.eqb_spec d 6) as [->|N]; cbn [andb]; [destruct (Z.leb_spec 2 a) as [La|La]|].
  - replace a with (Z.of_nat (S (S (Z.to_nat (a - 2))))) at 2 by lia. rewrite deg_sharp.
    change [digit 6] with (L"6"). rewrite two_sharps_six by lia.
    replace (a - 1) with (Z.of_nat (S (Z.to_nat (a - 2)))) by lia. now rewrite deg_sharp.
  - apply replace_none. apply Bool.not_true_is_false. intros E. destruct (Z.ltb_spec a 1) as [L1|L1].
    + apply (substring_in _ _ "#"%char) in E; [|now left]. apply deg_in in E. destruct E as [E|[[E _]|[_ E]]]; try discriminate E. lia.
    + replace a with 1 in E by lia. discriminate E.
  - apply replace_none. apply Bool.not_true_is_false. intros E.
    apply (substring_in _ _ "6"%char) in E; [|cbn; tauto]. apply deg_in in E. destruct E as [E|[[E _]|[E _]]]; try discriminate E.
    apply N. apply (digit_eq d 6 H ltac:(lia)). now rewrite <- E.
Qed.
Lemma deg_one_sharp a d : 1 <= d <= 7 ->
  str_replace (L"#6") (L"6") (deg a d) = if (d =? 6) && (1 <=? a) then deg (a - 1) 6 else deg a d.
Proof.
  intros H. unfold str_replace. rewrite deg_length.
  destruct (Z.eqb_spec d 6) as [->|N]; cbn [andb]; [destruct (Z.leb_spec 1 a) as [La|La]|].
  - replace a with (Z.of_nat (S (Z.to_nat (a - 1)))) at 2 by lia. rewrite deg_sharp.
    change [digit 6] with (L"6"). rewrite one_sharp_six by lia.
    replace (a - 1) with (Z.of_nat (Z.to_nat (a - 1))) at 2 by lia. now rewrite deg_sharp.
  - apply replace_none. apply Bool.not_true_is_false. intros E.
    apply (substring_in _ _ "#"%char) in E; [|now left]. apply deg_in in E. destruct E as [E|[[E _]|[_ E]]]; try discriminate E. lia.
  - apply replace_none. apply Bool.not_true_is_false. intros E.
    apply (substring_in _ _ "6"%char) in E; [|cbn; tauto]. apply deg_in in E. destruct E as [E|[[E _]|[E _]]]; try discriminate E.
    apply N. apply (digit_eq d 6 H ltac:(lia)). now rewrite <- E.
Qed.

(* the degree of a chord *)
Lemma chord_degree m a d : 1 <= d <= 7 ->
  get_interval_from_scale_degree
    (let d1 := fix_seventh m (deg a d) in match m with MINOR => str_replace (L"##6") (L"#6") d1 | MAJOR => d1 end) true m TPC
  = Ok (csv_fifths m a d).
Proof.
  intros H. cbn zeta. rewrite deg_seventh by exact H. destruct m; [now rewrite deg_interval|].
  cbn [csv_fifths]. destruct (Z.eqb_spec d 7) as [->|N].
  - rewrite deg_two_sharps by lia. change (7 =? 6) with false. cbn [andb]. rewrite deg_interval by lia. f_equal.
    unfold degree_fifths. lia.
  - rewrite deg_two_sharps by exact H. destruct (Z.eqb_spec d 6) as [->|N']; cbn [andb].
    + destruct (2 <=? a); rewrite deg_interval by lia; reflexivity.
    + now rewrite deg_interval by lia.
Qed.
Lemma deg_no_slash a d : ~ In "/"%char (deg a d).
Proof.
  intros I. apply deg_in in I. destruct I as [E|[[E _]|[E _]]]; try discriminate E.
  symmetry in E. revert E. apply digit_plain. cbn. tauto.
Qed.
Lemma deg_inj a d b e : deg a d = deg b e -> a = b /\ digit d = digit e.
Proof.
  intros E. pose proof (deg_front a d) as H. rewrite E, deg_front in H. apply Ok_inj in H.
  apply pair_equal_spec in H. destruct H as [H1 H2]. split; [now symmetry|congruence].
Qed.
Lemma deg_lookup tbl a d : 1 <= d <= 7 -> Forall (fun e : Z * Z * key_mode => 1 <= snd (fst e) <= 7) tbl ->
  str_lookup (deg a d) (map (fun e => (deg (fst (fst e)) (snd (fst e)), snd e)) tbl) =
  option_map snd (find (fun e => (fst (fst e) =? a) && (snd (fst e) =? d)) tbl).
Proof.
  intros H. induction 1 as [|[[b e] m] tbl He F IH]; [reflexivity|]. cbn [map str_lookup find fst snd] in *.
  destruct (str_eqb (deg a d) (deg b e)) eqn:E.
  - apply str_eqb_eq in E. apply deg_inj in E. destruct E as [-> E]. apply (digit_eq _ _ H He) in E. subst e.
    rewrite !Z.eqb_refl. reflexivity.
  - destruct ((b =? a) && (e =? d)) eqn:X; [|exact IH]. apply andb_true_iff in X. destruct X as [X1 X2].
    apply Z.eqb_eq in X1, X2. subst b e. now rewrite str_eqb_refl in E.
Qed.
Definition text_modes_minor : list (Z * Z * key_mode) :=
  [(-1, 1, MAJOR); (0, 1, MINOR); (-1, 2, MAJOR); (0, 2, MINOR); (0, 3, MAJOR); (-1, 4, MINOR);
   (0, 4, MINOR); (-1, 5, MINOR); (0, 5, MINOR); (0, 6, MAJOR); (-1, 7, MINOR); (0, 7, MAJOR); (1, 7, MAJOR)].
Lemma modes_major_text : mode_in_major = map (fun e => (deg (fst (fst e)) (snd (fst e)), snd e)) (applied_modes MAJOR).
Proof. reflexivity. Qed.
Lemma modes_minor_text : mode_in_minor = map (fun e => (deg (fst (fst e)) (snd (fst e)), snd e)) text_modes_minor.
Proof. reflexivity. Qed.

Lemma find_far (tbl : list (Z * Z * key_mode)) a d :
  (forall x, In x tbl -> fst (fst x) <> a \/ snd (fst x) <> d) ->
  find (fun x => (fst (fst x) =? a) && (snd (fst x) =? d)) tbl = None.
Proof.
  induction tbl as [|x tbl IH]; intros H; [reflexivity|]. cbn [find]. rewrite IH; [|intros y I; apply H; now right].
  destruct (H x (or_introl eq_refl)) as [N|N]; apply Z.eqb_neq in N; rewrite N; [reflexivity|]. now rewrite andb_false_r.
Qed.
Lemma relative_key_applied tonic m a d a2 d2 : 1 <= d2 <= 7 ->
  relative_key TPC tonic m (deg a d ++ "/"%char :: deg a2 d2) =
  match csv_applied tonic m (Some (a2, d2)) with Some k => Ok k | None => Raise ValueError end.
Proof.
  intros H. unfold relative_key. rewrite split_on_app by apply deg_no_slash.
  rewrite (split_on_nosep _ (deg a2 d2)) by apply deg_no_slash. cbn [csv_applied]. rewrite deg_seventh by exact H.
  destruct m.
  - rewrite deg_interval by exact H. cbn [bind]. rewrite transpose_pitch_eq. cbn zeta. cbn [applied_fifths].
    rewrite modes_major_text, deg_lookup; [|exact H|repeat constructor; cbn; lia].
    change (option_map snd _) with (applied_mode MAJOR a2 d2).
    destruct ((0 <=? tonic + (degree_fifths MAJOR d2 + 7 * a2)) && (tonic + (degree_fifths MAJOR d2 + 7 * a2) <? 35));
      destruct (applied_mode MAJOR a2 d2); reflexivity.
  - assert (X : exists b, (if d2 =? 7 then deg (a2 + 1) 7 else deg a2 d2) = deg b d2 /\
       b = (if d2 =? 7 then a2 + 1 else a2)).
    { destruct (Z.eqb_spec d2 7) as [->|N]; eexists; split; reflexivity. }
    destruct X as (b & -> & Eb). rewrite deg_one_sharp by exact H.
    assert (X : exists e, (if (d2 =? 6) && (1 <=? b) then deg (b - 1) 6 else deg b d2) = deg e d2 /\
       e = (if (d2 =? 6) && (1 <=? b) then b - 1 else b)).
    { destruct (Z.eqb_spec d2 6) as [->|N]; cbn [andb]; [destruct (1 <=? b)|]; eexists; split; reflexivity. }
    destruct X as (e & -> & Ee). rewrite deg_interval by exact H. cbn [bind]. rewrite transpose_pitch_eq. cbn zeta.
    rewrite modes_minor_text, deg_lookup; [|exact H|repeat constructor; cbn; lia].
    assert (E1 : degree_fifths MINOR d2 + 7 * e = applied_fifths MINOR a2 d2).
    { unfold applied_fifths. subst e b. destruct (digit_cases d2 H) as [->|[->|[->|[->|[->|[->| ->]]]]]]; 
        cbn [Z.eqb Pos.eqb andb degree_fifths]; try lia. destruct (1 <=? a2); lia. }
    rewrite E1.
    assert (E2 : option_map snd (find (fun x => (fst (fst x) =? e) && (snd (fst x) =? d2)) text_modes_minor) = applied_mode MINOR a2 d2).
    { unfold applied_mode. assert (Far : -3 < a2 < 2 \/ (2 <= a2 \/ a2 <= -3)) by lia. destruct Far as [Far|Far].
      - assert (Ca : a2 = -2 \/ a2 = -1 \/ a2 = 0 \/ a2 = 1) by lia. subst e b.
        destruct (digit_cases d2 H) as [->|[->|[->|[->|[->|[->| ->]]]]]]; destruct Ca as [->|[->|[->| ->]]]; reflexivity.
      - destruct (Z.eq_dec d2 7) as [->|N7].
        + assert (Ex : e = a2 + 1) by (subst e b; cbn; reflexivity). rewrite !find_far; [reflexivity| |];
          (intros x I; cbn in I; repeat (destruct I as [<-|I]; [cbn; lia|]); destruct I).
        + assert (Ex : e = a2 \/ e = a2 - 1 /\ d2 = 6 /\ 2 <= a2).
          { subst e b. destruct (Z.eqb_spec d2 7); [contradiction|]. destruct (Z.eqb_spec d2 6); cbn [andb]; [|auto].
            destruct (Z.leb_spec 1 a2); [right; lia|auto]. }
          rewrite !find_far; [reflexivity| |];
          (intros x I; cbn in I; repeat (destruct I as [<-|I]; [cbn; lia|]); destruct I). }
    rewrite E2. destruct ((0 <=? tonic + applied_fifths MINOR a2 d2) && (tonic + applied_fifths MINOR a2 d2 <? 35));
      destruct (applied_mode MINOR a2 d2); reflexivity.
Qed.

Lemma csv_accidentals_app a b : csv_accidentals (a ++ b) = csv_accidentals a ++ csv_accidentals b.
Proof. unfold csv_accidentals, replace_char. now rewrite !map_app. Qed.
Lemma csv_degree_text_deg a d by_ : csv_accidentals (csv_degree_text a d by_) =
  deg a d ++ match by_ with None => [] | Some (a2, d2) => "/"%char :: deg a2 d2 end.
Proof.
  unfold csv_degree_text. rewrite csv_accidentals_app, csv_degree_accidentals. f_equal. destruct by_ as [[a2 d2]|]; [|reflexivity].
  change ("/"%char :: csv_degree a2 d2) with (["/"%char] ++ csv_degree a2 d2).
  rewrite csv_accidentals_app, csv_degree_accidentals. reflexivity.
Qed.
Definition by_ok (by_ : option (Z * Z)) : Prop := match by_ with None => True | Some (_, d2) => 1 <= d2 <= 7 end.

Lemma key_from_csv_spec global r c v sh fl a d by_ : letter_fifths c = Some v -> r_key r = csv_key c sh fl ->
  r_degree r = csv_degree_text a d by_ -> by_ok by_ ->
  let tonic := 15 + v + 7 * (Z.of_nat sh - Z.of_nat fl) in
  let mode := if upper c then MAJOR else MINOR in
  key_from_csv TPC global r =
  if (0 <=? tonic) && (tonic <? 35) then
    match csv_applied tonic mode by_ with
    | Some (rt, rm) => Ok (mkKey rt tonic (match global with None => tonic | Some g => k_global g end)
                             rm mode (match global with None => mode | Some g => k_global_mode g end) TPC)
    | None => Raise ValueError
    end
  else Raise ValueError.
Proof.
  intros Hc Ek Ed B tonic mode. unfold key_from_csv. rewrite Ek, (csv_key_accidentals c v sh fl Hc), (tpc_spelling c v sh fl Hc).
  cbn zeta. fold tonic. destruct ((0 <=? tonic) && (tonic <? 35)); [|reflexivity]. cbn [bind spelling].
  change (if (65 <=? Z.of_nat (nat_of_ascii c)) && (Z.of_nat (nat_of_ascii c) <=? 90) then MAJOR else MINOR) with mode.
  rewrite Ed, csv_degree_text_deg. destruct by_ as [[a2 d2]|].
  - rewrite relative_key_applied by exact B. destruct global as [g|]; (destruct (csv_applied tonic mode (Some (a2, d2))) as [[rt rm]|]; reflexivity).
  - rewrite app_nil_r. unfold relative_key. rewrite split_on_nosep by apply deg_no_slash. destruct global; reflexivity.
Qed.
Lemma csv_degree_head a d by_ : hd [] (split_on "/" (csv_accidentals (csv_degree_text a d by_))) = deg a d.
Proof.
  rewrite csv_degree_text_deg. destruct by_ as [[a2 d2]|].
  - rewrite split_on_app by apply deg_no_slash. reflexivity.
  - rewrite app_nil_r, split_on_nosep by apply deg_no_slash. reflexivity.
Qed.
Lemma csv_type_read s ty b : In (s, ty, b) csv_type_names ->
  dict_get csv_types (list_ascii_of_string s) = Ok ty /\
  existsb (str_eqb (list_ascii_of_string s)) [L"Gr+6"; L"Fr+6"; L"It+6"] = negb b.
Proof.
  intros H. cbn in H. repeat (destruct H as [H|H]; [injection H as <- <- <-; split; reflexivity|]). destruct H.
Qed.
Lemma chord_size t : zlen (CHORD_PITCHES TPC t) = positions t.
Proof. destruct t; reflexivity. Qed.
Lemma level_total t k x b : True -> (exists ms bs, get_measures ms bs = Ok t) -> nth_error t k = Some x ->
  exists l, get_metrical_level b (x_ts x) = Ok l /\ 0 <= l <= 3.
Proof.
  intros _ (ms & bs & H) Hx. pose proof (table_row _ _ _ _ _ H Hx) as (_ & _ & _ & _ & _ & _ & B & _).
  apply bar_nonzero in B. destruct (x_ts x) as [n d]. destruct B as [B1 B2]. cbn [fst snd] in *.
  destruct (level_spec n d b B1 B2) as (l & -> & R & _). eauto.
Qed.

Definition bass_fifths (ty : chord_type) (inv : Z) : option Z := nth_error (chord_fifths ty) (Z.to_nat (inv mod positions ty)).
Lemma chord_fifths_some ty inv : exists f, bass_fifths ty inv = Some f.
Proof.
  unfold bass_fifths. destruct (nth_error (chord_fifths ty) (Z.to_nat (inv mod positions ty))) eqn:E; [eauto|].
  apply nth_error_None in E. assert (L : Z.of_nat (List.length (chord_fifths ty)) = positions ty) by (destruct ty; reflexivity).
  pose proof (Z.mod_pos_bound inv (positions ty) ltac:(destruct ty; reflexivity)). lia.
Qed.
Lemma bass_note_mod ty root inv f : bass_fifths ty inv = Some f ->
  get_bass_note ty root (inv mod positions ty) TPC true =
  if (0 <=? root + f) && (root + f <? 35) then Ok (root + f) else Raise ValueError.
Proof.
  intros H. rewrite bass_note_spec. cbn zeta. rewrite Z.mod_mod by (destruct ty; discriminate).
  pose proof (Z.mod_pos_bound inv (positions ty) ltac:(destruct ty; reflexivity)) as R.
  destruct (Z.ltb_spec (inv mod positions ty) 0); [lia|]. unfold bass_fifths in H. rewrite H.
  destruct (Z.ltb_spec (inv mod positions ty) (- positions ty)); [lia|].
  destruct (Z.leb_spec (positions ty) (inv mod positions ty)); [lia|]. reflexivity.
Qed.

(* ---- pieces ---- *)
Lemma key_global_change pt g r k : key_from_csv pt (Some g) r = Ok k ->
  exists k0, key_from_csv pt None r = Ok k0 /\ k_rel k = k_rel k0 /\ k_rel_mode k = k_rel_mode k0 /\
    k_local k = k_local k0 /\ k_local_mode k = k_local_mode k0 /\ k_pt k = pt /\
    k_global k0 = k_local k0 /\ k_global_mode k0 = k_local_mode k0 /\
    k_global k = k_global g /\ k_global_mode k = k_global_mode g.
Proof.
  unfold key_from_csv. intros H. apply bind_ok in H. destruct H as (lt & H1 & H). rewrite H1. cbn [bind].
  apply bind_ok in H. destruct H as (c & H2 & H). rewrite H2. cbn [bind]. cbn zeta in *.
  apply bind_ok in H. destruct H as ([rt rm] & H3 & H). rewrite H3. cbn [bind]. apply Ok_inj in H. subst k.
  eexists. split; [reflexivity|]. cbn. repeat split; reflexivity.
Qed.
Lemma key_none_global pt r k : key_from_csv pt None r = Ok k -> k_global k = k_local k /\ k_global_mode k = k_local_mode k.
Proof.
  unfold key_from_csv. intros H. apply bind_ok in H. destruct H as (lt & H1 & H).
  apply bind_ok in H. destruct H as (c & H2 & H). cbn zeta in *.
  apply bind_ok in H. destruct H as ([rt rm] & H3 & H). apply Ok_inj in H. subst k. split; reflexivity.
Qed.

Lemma changes_gen notes chords : notes <> [] -> in_order (map pc_on chords) ->
  forall k c i, nth_error chords k = Some c -> nth_error (chord_changes (map no_on notes) 0 (map pc_on chords)) k = Some i ->
    first_or_last (fun n => ~ before (no_on n) (pc_on c)) notes i.
Proof.
  intros Nn O k c i Kc Ki.
  destruct (chord_changes_spec (map pc_on chords) [] (map no_on notes) k (pc_on c) i) as (F & _); auto.
  - destruct notes; [congruence|discriminate].
  - intros x [].
  - now rewrite nth_error_map, Kc.
  - destruct F as (F1 & F2 & F3). cbn [app] in *. rewrite map_length in *. split; [exact F1|]. split.
    + intros j n Hj Hn. apply (F2 j (no_on n) Hj). now rewrite nth_error_map, Hn.
    + intros n Hn. apply F3. now rewrite nth_error_map, Hn.
Qed.
Lemma changes_mono_gen notes chords : notes <> [] ->
  non_decreasing (map Z.of_nat (chord_changes (map no_on notes) 0 (map pc_on chords))).
Proof.
  intros Nn.
  assert (M : forall k i j, nth_error (chord_changes (map no_on notes) 0 (map pc_on chords)) k = Some i ->
     nth_error (chord_changes (map no_on notes) 0 (map pc_on chords)) (S k) = Some j -> (i <= j)%nat).
  { intros k i j. apply (chord_changes_mono (map pc_on chords) [] (map no_on notes) k i j).
    destruct notes; [congruence|discriminate]. }
  revert M. clear. generalize (chord_changes (map no_on notes) 0 (map pc_on chords)). induction l as [|a l IH]; intros M; [exact I|].
  destruct l as [|b l]; [exact I|]. cbn [map]. split.
  - pose proof (M 0%nat a b eq_refl eq_refl). lia.
  - apply IH. intros k. apply (M (S k)).
Qed.
Lemma ranges_gen notes chords changes k c : List.length changes = List.length chords -> nth_error chords k = Some c ->
  exists s e, nth_error (chord_ranges notes (map pc_on chords) changes) k = Some (s, e) /\
    e = match nth_error changes (S k) with Some i => i | None => List.length notes end /\
    (forall n, nth_error notes s = Some n -> ~ before (no_on n) (pc_on c) \/ before (pc_on c) (no_off n)) /\
    (forall j n, nth_error notes j = Some n -> (j < e)%nat ->
       ~ before (no_on n) (pc_on c) \/ before (pc_on c) (no_off n) -> (s <= j < e)%nat).
Proof.
  intros Lc Kc.
  destruct (range_start_from_spec (pc_on c) notes 0) as (s & E & _ & P1 & P2).
  assert (Lk : (k < List.length chords)%nat) by (apply nth_error_Some; congruence).
  exists s, (match nth_error changes (S k) with Some i => i | None => List.length notes end).
  split; [|split; [reflexivity|split]].
  - unfold chord_ranges.
    assert (A : nth_error (map (fun o => get_range_start o notes) (map pc_on chords)) k = Some s).
    { rewrite map_map, nth_error_map, Kc. cbn. unfold get_range_start. rewrite E. reflexivity. }
    assert (B : nth_error (tl changes ++ [List.length notes]) k =
                Some (match nth_error changes (S k) with Some i => i | None => List.length notes end)).
    { rewrite <- Lc in Lk. clear -Lk. destruct changes as [|a l]; cbn in *; [lia|].
      destruct (nth_error l k) as [i|] eqn:X.
      - rewrite nth_error_app1; [exact X|]. apply nth_error_Some. congruence.
      - apply nth_error_None in X. rewrite nth_error_app2 by lia. replace (k - List.length l)%nat with 0%nat by lia. reflexivity. }
    revert A B. generalize (map (fun o => get_range_start o notes) (map pc_on chords)).
    generalize (tl changes ++ [List.length notes]).
    generalize (match nth_error changes (S k) with Some i => i | None => List.length notes end).
    clear. intros e l l'. revert k l'. induction l as [|x l IH]; intros [|k] [|y l'] A B; try discriminate; cbn in *.
    + congruence.
    + now apply IH.
  - exact P2.
  - intros j n Hn Hj C. split; [|exact Hj]. destruct (Nat.le_gt_cases s j) as [X|X]; [exact X|].
    exfalso. destruct (P1 j n X Hn) as [B1 B2]. destruct C as [C|C]; contradiction.
Qed.

(* keys at consecutive indexes, repetitions removed *)
Lemma seq_increasing {V} : forall (l : list V) i, increasing (combine (seq i (List.length l)) l).
Proof.
  induction l as [|v l IH]; intros i; [exact I|]. cbn. split; [|apply IH].
  intros [j y] H. apply in_combine_l in H. apply in_seq in H. cbn. lia.
Qed.
Lemma seq_force {V} : forall (l : list V) i k v, nth_error l k = Some v -> force (combine (seq i (List.length l)) l) (i + k) v.
Proof.
  induction l as [|v0 l IH]; intros i k v H; [destruct k; discriminate H|]. cbn [List.length seq combine]. destruct k as [|k].
  - cbn in H. apply Some_inj in H. subst v0. apply force_here; [lia|].
    intros [j y] I. apply in_combine_l in I. apply in_seq in I. cbn. lia.
  - apply force_cons. replace (i + S k)%nat with (S i + k)%nat by lia. now apply IH.
Qed.
Lemma mask_combine {A B} : forall (m : list bool) (l1 : list A) (l2 : list B), List.length l1 = List.length l2 ->
  combine (apply_mask m l1) (apply_mask m l2) = apply_mask m (combine l1 l2) /\
  List.length (apply_mask m l1) = List.length (apply_mask m l2).
Proof.
  induction m as [|b m IH]; intros [|x l1] [|y l2] L; try discriminate L; try (split; reflexivity).
  cbn in L. injection L as L. destruct (IH l1 l2 L) as [A1 B1]. destruct b; cbn; [|auto]. rewrite A1, B1. auto.
Qed.
Lemma kept_keys keys : let mask := get_reduction_mask (key_repeated true) keys in
  List.length (apply_mask mask keys) = List.length (apply_mask mask (seq 0 (List.length keys))) /\
  increasing (combine (apply_mask mask (seq 0 (List.length keys))) (apply_mask mask keys)) /\
  forall k key, nth_error keys k = Some key ->
    exists key', force (combine (apply_mask mask (seq 0 (List.length keys))) (apply_mask mask keys)) k key' /\ same_key true key' key.
Proof.
  cbn zeta. set (mask := get_reduction_mask (key_repeated true) keys).
  destruct (mask_combine mask (seq 0 (List.length keys)) keys) as [A B]; [apply seq_length|]. rewrite A.
  split; [now symmetry|]. split; [apply increasing_mask, seq_increasing|]. intros k key Hk.
  assert (Em : map snd (combine (seq 0 (List.length keys)) keys) = keys).
  { clear. generalize 0%nat. induction keys as [|x l IH]; intros i; [reflexivity|]. cbn. now rewrite IH. }
  destruct (force_mask (key_repeated true)) with (l := combine (seq 0 (List.length keys)) keys) (k := k) (v := key) as (v' & F & R).
  - intros a b c. rewrite !key_repeated_iff. apply same_key_trans.
  - intros a b. rewrite !key_repeated_iff. apply same_key_sym.
  - intros a. rewrite key_repeated_iff. repeat split; reflexivity.
  - apply seq_increasing.
  - exact (seq_force keys 0 k key Hk).
  - rewrite Em in F. exists v'. split; [exact F|]. now apply key_repeated_iff.
Qed.

Lemma piece_inv ms bs score rows t p : piece_from_xml ms bs score rows = Ok (t, p) ->
  exists ns keys first global,
    get_measures ms bs = Ok t /\ get_notes t score = Ok ns /\ p_notes p = map fst ns /\
    Forall2 (fun r c => chord_from_csv t TPC (r_on r) (r_off r) r = Ok c) (clean_labels rows) (p_chords p) /\
    p_changes p = chord_changes (map no_on (p_notes p)) 0 (map pc_on (p_chords p)) /\
    p_ranges p = chord_ranges (p_notes p) (map pc_on (p_chords p)) (p_changes p) /\
    nth_error (clean_labels rows) 0 = Some first /\ key_from_csv TPC None first = Ok global /\
    Forall2 (fun r k => key_from_csv TPC (Some global) r = Ok k) (clean_labels rows) keys /\
    p_keys p = apply_mask (get_reduction_mask (key_repeated true) keys) keys /\
    p_key_changes p = apply_mask (get_reduction_mask (key_repeated true) keys) (seq 0 (List.length keys)).
Proof.
  unfold piece_from_xml. intros H. apply bind_ok in H. destruct H as (t' & H1 & H). apply bind_ok in H. destruct H as (ns & H2 & H).
  cbn zeta in H. apply bind_ok in H. destruct H as (lastr & _ & H). apply bind_ok in H. destruct H as (chords & H3 & H).
  apply bind_ok in H. destruct H as (first & H4 & H). apply bind_ok in H. destruct H as (global & H5 & H).
  apply bind_ok in H. destruct H as (keys & H6 & H). apply bind_ok in H. destruct H as (vs & _ & H).
  apply Ok_inj in H. apply pair_equal_spec in H. destruct H as [-> <-].
  exists ns, keys, first, global. cbn [p_notes p_chords p_keys p_changes p_ranges p_key_changes].
  split; [exact H1|]. split; [exact H2|]. split; [reflexivity|]. split; [now apply mapM_ok|]. split; [reflexivity|]. split; [reflexivity|].
  split; [|split; [exact H5|split; [now apply mapM_ok|split; reflexivity]]].
  destruct (clean_labels rows) as [|x l]; [discriminate H4|]. cbn in H4. apply Ok_inj in H4. now subst.
Qed.
