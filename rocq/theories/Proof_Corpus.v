(* Lemmas for remove_repeats. *)
From Coq Require Import QArith Lqa Permutation.
From Verif Require Import PyBase Proof_Base Model_Rhythm Spec_Rhythm Proof_Rhythm
  Model_Corpus Spec_Corpus.
Close Scope Q_scope.
Open Scope Z_scope.

(* Measures reached from the first measure of each file in the table [rs] with single next
   pointers. *)
Inductive reachable (rows : list crow) (rs : list frow) : Z -> Z -> Prop :=
| rch_start i r : nth_error rows i = Some r -> first_of_file rows i ->
    reachable rows rs (c_file r) (c_mc r)
| rch_next f m n : reachable rows rs f (m_mc m) -> In (f, m) rs -> m_next m = NextMc n ->
    reachable rows rs f n.

Definition ranked (rs : list frow) (rk : Z -> Z -> Z) : Prop :=
  forall f m n, In (f, m) rs -> m_next m = NextMc n -> rk f (m_mc m) < rk f n.

Lemma nth_error_combine {A B} : forall (l : list A) (r : list B) i,
  nth_error (combine l r) i =
  match nth_error l i, nth_error r i with Some a, Some b => Some (a, b) | _, _ => None end.
Proof.
  induction l as [|a l IH]; intros [|b r] [|i]; cbn; try reflexivity.
  - now destruct (nth_error l i).
  - apply IH.
Qed.

Lemma nth_error_map' {A B} (f : A -> B) l i :
  nth_error (map f l) i = match nth_error l i with Some a => Some (f a) | None => None end.
Proof. revert i. induction l as [|a l IH]; intros [|i]; cbn; auto. Qed.

Lemma roll_back_length {A} (l : list A) : List.length (roll_back l) = List.length l.
Proof. destruct l; cbn; [reflexivity|]. rewrite app_length. cbn. lia. Qed.

Lemma roll_forth_length {A} (l : list A) : List.length (roll_forth l) = List.length l.
Proof.
  unfold roll_forth. rewrite <- (rev_length l). destruct (rev l); cbn; [reflexivity|].
  now rewrite rev_length.
Qed.

Lemma nth_roll_back {A} (l : list A) i : (i < List.length l)%nat ->
  nth_error (roll_back l) i =
  if (S i =? List.length l)%nat then nth_error l 0 else nth_error l (S i).
Proof.
  destruct l as [|x l]; cbn [List.length]; [lia|]. intros L. cbn [roll_back].
  destruct (S i =? S (List.length l))%nat eqn:E.
  - rewrite nth_error_app2 by lia. replace (i - List.length l)%nat with 0%nat by lia. reflexivity.
  - rewrite nth_error_app1 by lia. reflexivity.
Qed.

Lemma nth_roll_forth {A} (l : list A) i : (i < List.length l)%nat ->
  nth_error (roll_forth l) i =
  match i with O => nth_error l (List.length l - 1) | S j => nth_error l j end.
Proof.
  unfold roll_forth. intros L. destruct (rev l) as [|x r] eqn:E.
  - apply (f_equal (@List.length A)) in E. rewrite rev_length in E. cbn in E. lia.
  - assert (El : l = rev r ++ [x]) by (rewrite <- (rev_involutive l), E; reflexivity).
    assert (Ll : List.length l = S (List.length (rev r))) by (rewrite El, app_length; cbn; lia).
    destruct i as [|j]; cbn [nth_error].
    + rewrite Ll, El. rewrite nth_error_app2 by lia.
      replace (S (List.length (rev r)) - 1 - List.length (rev r))%nat with 0%nat by lia. reflexivity.
    + rewrite El. rewrite nth_error_app1 by lia. reflexivity.
Qed.

Lemma zmax_spec l : l <> [] -> In (zmax l) l /\ forall x, In x l -> x <= zmax l.
Proof.
  destruct l as [|a l]; [easy|]. intros _. unfold zmax. cbn [hd tl].
  induction l as [|b l IH]; cbn [fold_right].
  - split; [now left|]. intros x [<-|[]]. lia.
  - destruct IH as [I M]. split.
    + destruct (Z.max_spec b (fold_right Z.max a l)) as [[_ ->]|[_ ->]].
      * destruct I as [I|I]; [now left|right; now right].
      * right. now left.
    + intros x [<-|[<-|I']]; [|lia|].
      * pose proof (M a (or_introl eq_refl)). lia.
      * pose proof (M x (or_intror I')). lia.
Qed.

Lemma nth_resolve rows i r : nth_error rows i = Some r ->
  exists nf, nth_error (roll_back (map c_file rows)) i = Some nf /\
  nth_error (resolve_nexts rows) i =
    Some (c_file r, mkM (c_mc r) (c_dur r) (c_off r) (new_next r nf)).
Proof.
  intros H. assert (L : (i < List.length rows)%nat) by (apply nth_error_Some; congruence).
  destruct (nth_error (roll_back (map c_file rows)) i) as [nf|] eqn:E.
  - exists nf. split; [reflexivity|]. unfold resolve_nexts.
    rewrite nth_error_map', nth_error_combine, H, E. reflexivity.
  - apply nth_error_None in E. rewrite roll_back_length, map_length in E. lia.
Qed.

Lemma resolve_length rows : List.length (resolve_nexts rows) = List.length rows.
Proof.
  unfold resolve_nexts. rewrite map_length, combine_length, roll_back_length, map_length. lia.
Qed.

(* the next file seen by np.roll is another one exactly at the end of a file *)
Lemma roll_back_last rows i r nf : several_files rows ->
  nth_error rows i = Some r -> nth_error (roll_back (map c_file rows)) i = Some nf ->
  (nf <> c_file r <-> last_of_file rows i).
Proof.
  intros Sv H E. assert (L : (i < List.length rows)%nat) by (apply nth_error_Some; congruence).
  rewrite nth_roll_back in E by (rewrite map_length; exact L). rewrite map_length in E.
  destruct (S i =? List.length rows)%nat eqn:B.
  - rewrite nth_error_map' in E. destruct (nth_error rows 0) as [a|] eqn:E0; [|discriminate].
    injection E as <-. split; [intros _; left; lia|]. intros _. apply (Sv a r E0).
    replace (List.length rows - 1)%nat with i by lia. exact H.
  - rewrite nth_error_map' in E. destruct (nth_error rows (S i)) as [b|] eqn:E1; [|discriminate].
    injection E as <-. split.
    + intros NE. right. exists r, b. repeat split; auto.
    + intros [X|(r1 & r2 & H1 & H2 & NE)]; [lia|]. congruence.
Qed.

Lemma new_next_cases r nf :
  (new_next r nf = NextNA /\ (c_nexts r = [] \/ In (-1) (c_nexts r) \/ nf <> c_file r)) \/
  (exists n, new_next r nf = NextMc n /\ In n (c_nexts r) /\ (forall x, In x (c_nexts r) -> x <= n)
     /\ ~ In (-1) (c_nexts r) /\ nf = c_file r).
Proof.
  unfold new_next. destruct (c_nexts r) as [|a l] eqn:En.
  - left. cbn. split; [reflexivity|now left].
  - cbn [orb]. destruct (existsb (Z.eqb (-1)) (a :: l)) eqn:E1.
    + left. cbn [orb]. split; [reflexivity|]. right. left.
      apply existsb_exists in E1. destruct E1 as (x & I & X). replace (-1) with x by lia. exact I.
    + cbn [orb]. destruct (nf =? c_file r) eqn:E2; cbn [negb].
      * right. destruct (zmax_spec (a :: l)) as [I M]; [discriminate|].
        exists (zmax (a :: l)). split; [reflexivity|]. split; [exact I|]. split; [exact M|].
        split; [|lia]. intros I'. assert (X : existsb (Z.eqb (-1)) (a :: l) = true).
        { apply existsb_exists. exists (-1). split; [exact I'|lia]. }
        congruence.
      * left. split; [reflexivity|]. right. right. lia.
Qed.

(* ---- start mask ---- *)
Lemma start_mask_length rows : List.length (start_mask rows) = List.length rows.
Proof.
  unfold start_mask. rewrite map_length, combine_length, roll_forth_length, !map_length. lia.
Qed.

Lemma start_mask_nth rows i r : nth_error rows i = Some r ->
  exists b p, nth_error (start_mask rows) i = Some b /\
    nth_error rows (match i with O => List.length rows - 1 | S j => j end) = Some p /\
    b = negb (c_file p =? c_file r).
Proof.
  intros H. assert (L : (i < List.length rows)%nat) by (apply nth_error_Some; congruence).
  unfold start_mask. rewrite nth_error_map', nth_error_combine, nth_error_map', H.
  rewrite nth_roll_forth by (rewrite map_length; exact L). rewrite map_length.
  set (j := match i with O => (List.length rows - 1)%nat | S j => j end).
  replace (match i with 0%nat => nth_error (map c_file rows) (List.length rows - 1)
           | S j => nth_error (map c_file rows) j end) with (nth_error (map c_file rows) j)
    by (destruct i; reflexivity).
  rewrite nth_error_map'. destruct (nth_error rows j) as [p|] eqn:E.
  - exists (negb (c_file p =? c_file r)), p. repeat split.
  - apply nth_error_None in E. destruct i; lia.
Qed.

Lemma start_mask_several rows i r b : several_files rows -> nth_error rows i = Some r ->
  nth_error (start_mask rows) i = Some b -> (b = true <-> first_of_file rows i).
Proof.
  intros Sv H B. destruct (start_mask_nth rows i r H) as (b' & p & B' & P & E).
  assert (Eb : b' = b) by congruence. rewrite Eb in E. clear Eb B' b'. destruct i as [|j].
  - split; [intros _; now left|]. intros _. pose proof (Sv r p H P). rewrite E. destruct (c_file p =? c_file r) eqn:Q; [lia|reflexivity].
  - split.
    + intros Et. right. exists p, r. replace (S j - 1)%nat with j by lia.
      repeat split; auto. rewrite E in Et. destruct (c_file p =? c_file r) eqn:Q; [discriminate|lia].
    + intros [X|(a & a' & H1 & H2 & NE)]; [lia|].
      replace (S j - 1)%nat with j in H1 by lia.
      assert (a = p) by congruence. assert (a' = r) by congruence. subst a a'. rewrite E.
      destruct (c_file p =? c_file r) eqn:Q; [lia|reflexivity].
Qed.

Lemma start_mask_one rows : one_file rows -> forall b, In b (start_mask rows) -> b = false.
Proof.
  intros O b I. apply In_nth_error in I. destruct I as (i & B).
  assert (L : (i < List.length rows)%nat).
  { rewrite <- (start_mask_length rows). apply nth_error_Some. congruence. }
  destruct (nth_error rows i) as [r|] eqn:H; [|apply nth_error_None in H; lia].
  destruct (start_mask_nth rows i r H) as (b' & p & B' & P & E).
  assert (Eb : b' = b) by congruence. rewrite Eb in E. clear Eb B' b'. apply nth_error_In in H. apply nth_error_In in P.
  pose proof (O p r P H). rewrite E. destruct (c_file p =? c_file r) eqn:Q; [reflexivity|lia].
Qed.

(* ---- prune ---- *)
Definition keep (rows : list (frow * bool)) (p : frow * bool) : bool :=
  let '((f, m), start) := p in start || pointed rows f (m_mc m).

Lemma prune_eq fuel rows : prune fuel rows =
  if (List.length (filter (keep rows) rows) =? List.length rows)%nat then Ok rows
  else match fuel with O => Raise OutOfFuel | S f => prune f (filter (keep rows) rows) end.
Proof. destruct fuel; reflexivity. Qed.

Lemma filter_all_len {A} (f : A -> bool) l : List.length (filter f l) = List.length l ->
  forall x, In x l -> f x = true.
Proof.
  induction l as [|a l IH]; cbn [filter List.length]; intros H x; [easy|].
  destruct (f a) eqn:E.
  - cbn [List.length] in H. intros [<-|I]; [exact E|]. apply IH; [lia|exact I].
  - pose proof (filter_length_le f l). lia.
Qed.

Lemma pointed_iff rows f mc : pointed rows f mc = true <->
  exists m b, In ((f, m), b) rows /\ m_next m = NextMc mc.
Proof.
  unfold pointed. rewrite existsb_exists. split.
  - intros ([[f' m] b] & I & E). apply andb_true_iff in E. destruct E as [E1 E2].
    destruct (m_next m) as [n| |] eqn:En; try discriminate.
    exists m, b. replace f with f' by lia. split; [exact I|]. rewrite En. f_equal. lia.
  - intros (m & b & I & E). exists ((f, m), b). split; [exact I|]. rewrite E. lia.
Qed.

Lemma prune_total : forall fuel rows, (List.length rows <= fuel)%nat ->
  exists k, prune fuel rows = Ok k.
Proof.
  induction fuel as [|fuel IH]; intros rows L; rewrite prune_eq;
    destruct (_ =? _)%nat eqn:E; eauto.
  - destruct rows; [discriminate|cbn in L; lia].
  - apply IH. pose proof (filter_length_le (keep rows) rows). lia.
Qed.

Lemma prune_sub : forall fuel rows k, prune fuel rows = Ok k ->
  (forall p, In p k -> In p rows) /\ (forall p, In p k -> keep k p = true).
Proof.
  induction fuel as [|fuel IH]; intros rows k; rewrite prune_eq;
    destruct (_ =? _)%nat eqn:E; try discriminate.
  1,2: intros H; apply Ok_inj in H; subst k; split; [auto|]; apply filter_all_len; lia.
  intros H. destruct (IH _ _ H) as [S K]. split; [|exact K].
  intros p I. apply S, filter_In in I. apply I.
Qed.

(* anything closed under "start or pointed to by a member" survives *)
Lemma prune_keeps (R : frow * bool -> Prop) : forall fuel rows k, prune fuel rows = Ok k ->
  (forall p, R p -> In p rows) ->
  (forall f m b, R ((f, m), b) -> b = true \/ exists m' b', R ((f, m'), b') /\ m_next m' = NextMc (m_mc m)) ->
  forall p, R p -> In p k.
Proof.
  induction fuel as [|fuel IH]; intros rows k; rewrite prune_eq;
    destruct (_ =? _)%nat eqn:E; try discriminate.
  1,2: intros H; apply Ok_inj in H; subst k; auto.
  intros H S C p Rp. apply (IH _ _ H); auto. intros [[f m] b] Rq. apply filter_In.
  split; [now apply S|]. cbn [keep]. destruct (C f m b Rq) as [->|(m' & b' & R' & En)]; [reflexivity|].
  apply orb_true_iff. right. apply pointed_iff. exists m', b'. split; [now apply S|exact En].
Qed.

(* a row that is kept can be traced back along smaller measure numbers *)
Lemma trace_back (k : list (frow * bool)) (rk : Z -> Z -> Z) (P : Z -> Z -> Prop) :
  (forall p, In p k -> keep k p = true) ->
  (forall f m b n, In ((f, m), b) k -> m_next m = NextMc n -> rk f (m_mc m) < rk f n) ->
  (forall f m, In ((f, m), true) k -> P f (m_mc m)) ->
  (forall f m b n, In ((f, m), b) k -> m_next m = NextMc n -> P f (m_mc m) -> P f n) ->
  forall f m b, In ((f, m), b) k -> P f (m_mc m).
Proof.
  intros K F S N.
  assert (H : forall n f m b, In ((f, m), b) k ->
              (List.length (filter (fun p => (rk (fst (fst p)) (m_mc (snd (fst p))) <? rk f (m_mc m))%Z) k) < n)%nat ->
              P f (m_mc m)).
  { induction n as [|n IH]; intros f m b I L; [lia|].
    pose proof (K _ I) as Kp. cbn [keep] in Kp. destruct b; [now apply S|].
    cbn [orb] in Kp. apply pointed_iff in Kp. destruct Kp as (m' & b' & I' & En).
    pose proof (F _ _ _ _ I' En) as Lt. apply (N f m' b' (m_mc m) I' En).
    apply (IH f m' b' I').
    assert (X : (List.length (filter (fun p => (rk (fst (fst p)) (m_mc (snd (fst p))) <? rk f (m_mc m'))%Z) k) <
                 List.length (filter (fun p => (rk (fst (fst p)) (m_mc (snd (fst p))) <? rk f (m_mc m))%Z) k))%nat).
    { apply filter_lt with (a := ((f, m'), b')); auto; cbn [fst snd]; intros; lia. }
    lia. }
  intros f m b I. eapply H; [exact I|]. apply Nat.lt_succ_diag_r.
Qed.

(* ---- remove_repeats ---- *)
Lemma in_resolved_nth rows f m b : In ((f, m), b) (combine (resolve_nexts rows) (start_mask rows)) ->
  exists i r, nth_error rows i = Some r /\ nth_error (resolve_nexts rows) i = Some (f, m) /\
              nth_error (start_mask rows) i = Some b /\ f = c_file r /\ m_mc m = c_mc r.
Proof.
  intros I. apply In_nth_error in I. destruct I as (i & H). rewrite nth_error_combine in H.
  match type of H with match ?x with _ => _ end = _ => destruct x as [fm|] eqn:E1 end; [|discriminate].
  match type of H with match ?x with _ => _ end = _ => destruct x as [b'|] eqn:E2 end; [|discriminate].
  injection H as -> ->.
  assert (L : (i < List.length rows)%nat) by (rewrite <- (resolve_length rows); apply nth_error_Some; congruence).
  destruct (nth_error rows i) as [r|] eqn:Er; [|apply nth_error_None in Er; lia].
  destruct (nth_resolve rows i r Er) as (nf & _ & E). exists i, r.
  rewrite E1 in E. injection E as -> ->. repeat split; auto.
Qed.

Lemma nth_in_resolved rows i r : nth_error rows i = Some r ->
  exists m b, In ((c_file r, m), b) (combine (resolve_nexts rows) (start_mask rows)) /\
    nth_error (resolve_nexts rows) i = Some (c_file r, m) /\
    nth_error (start_mask rows) i = Some b /\ m_mc m = c_mc r.
Proof.
  intros H. destruct (nth_resolve rows i r H) as (nf & _ & E).
  destruct (start_mask_nth rows i r H) as (b & p & B & _).
  do 2 eexists. split; [|split; [exact E|split; [exact B|reflexivity]]].
  apply nth_error_In with i. now rewrite nth_error_combine, E, B.
Qed.

Lemma in_resolved rows fm : In fm (resolve_nexts rows) ->
  exists b, In (fm, b) (combine (resolve_nexts rows) (start_mask rows)).
Proof.
  intros I. apply In_nth_error in I. destruct I as (i & H).
  assert (L : (i < List.length rows)%nat) by (rewrite <- (resolve_length rows); apply nth_error_Some; congruence).
  destruct (nth_error (start_mask rows) i) as [b|] eqn:B.
  - exists b. apply nth_error_In with i. now rewrite nth_error_combine, H, B.
  - apply nth_error_None in B. rewrite start_mask_length in B. lia.
Qed.

Lemma resolve_keys rows : map (fun p : frow => (fst p, m_mc (snd p))) (resolve_nexts rows) =
  map (fun r => (c_file r, c_mc r)) rows.
Proof.
  unfold resolve_nexts. rewrite map_map.
  assert (H : forall l : list Z, List.length l = List.length rows ->
    map (fun x : crow * Z => (fst (let '(r, nf) := x in
         (c_file r, mkM (c_mc r) (c_dur r) (c_off r) (new_next r nf))),
         m_mc (snd (let '(r, nf) := x in
         (c_file r, mkM (c_mc r) (c_dur r) (c_off r) (new_next r nf)))))) (combine rows l) =
    map (fun r => (c_file r, c_mc r)) rows).
  { induction rows as [|r rows IH]; intros [|x l] E; try discriminate; [reflexivity|].
    cbn [combine map fst snd m_mc]. f_equal. apply IH. cbn in E. lia. }
  apply H. now rewrite roll_back_length, map_length.
Qed.

Lemma nodup_map_inj {A B} (f : A -> B) l a b : NoDup (map f l) -> In a l -> In b l -> f a = f b -> a = b.
Proof.
  induction l as [|x l IH]; cbn [map]; intros N Ia Ib E; [destruct Ia|].
  inversion N as [|? ? Nx N']; subst. destruct Ia as [<-|Ia], Ib as [<-|Ib]; auto.
  - exfalso. apply Nx. rewrite E. now apply in_map.
  - exfalso. apply Nx. rewrite <- E. now apply in_map.
Qed.

Lemma in_combine_fst {A B} (l : list A) (r : list B) a b : In (a, b) (combine l r) -> In a l.
Proof. apply in_combine_l. Qed.

Lemma remove_repeats_total rows : exists kept, remove_repeats true rows = Ok kept.
Proof.
  unfold remove_repeats. destruct (prune_total (List.length rows)
    (combine (resolve_nexts rows) (start_mask rows))) as (k & ->).
  - rewrite combine_length, resolve_length, start_mask_length. lia.
  - cbn [bind]. eauto.
Qed.

Lemma remove_repeats_inv rows kept : remove_repeats true rows = Ok kept ->
  exists k, prune (List.length rows) (combine (resolve_nexts rows) (start_mask rows)) = Ok k /\
  kept = map fst k.
Proof.
  unfold remove_repeats. destruct (prune _ _) as [k|]; [|discriminate]. cbn [bind].
  intros H. apply Ok_inj in H. exists k. split; [reflexivity|congruence].
Qed.

Lemma kept_subset rows kept : remove_repeats true rows = Ok kept ->
  forall p, In p kept -> In p (resolve_nexts rows).
Proof.
  intros H [f m] I. destruct (remove_repeats_inv _ _ H) as (k & P & ->).
  apply in_map_iff in I. destruct I as ([fm b] & E & I). cbn in E. subst fm.
  apply (proj1 (prune_sub _ _ _ P)) in I. now apply in_combine_fst in I.
Qed.

Lemma reachable_in_file rows rs f mc : (forall p, In p rs -> In p (resolve_nexts rows)) ->
  reachable rows rs f mc -> exists r, In r rows /\ c_file r = f.
Proof.
  intros Sub. induction 1 as [i r H F|f m n R IH I E]; [|exact IH].
  exists r. split; [now apply nth_error_In in H|reflexivity].
Qed.

(* every reachable measure is kept *)
Lemma reachable_kept rows kept : several_files rows ->
  NoDup (map (fun r => (c_file r, c_mc r)) rows) -> remove_repeats true rows = Ok kept ->
  forall f m, In (f, m) (resolve_nexts rows) ->
  reachable rows (resolve_nexts rows) f (m_mc m) -> In (f, m) kept.
Proof.
  intros Sv ND H f m I Rc. destruct (remove_repeats_inv _ _ H) as (k & P & ->).
  set (R := fun p : frow * bool => In p (combine (resolve_nexts rows) (start_mask rows)) /\
              reachable rows (resolve_nexts rows) (fst (fst p)) (m_mc (snd (fst p)))).
  assert (X : forall p, R p -> In p k).
  { apply (prune_keeps R _ _ _ P).
    - intros p [Ip _]. exact Ip.
    - intros f' m' b' [Ip Rp]. cbn [fst snd] in Rp.
      destruct (in_resolved_nth _ _ _ _ Ip) as (i & r & Hi & Hr & Hb & Ef & Em).
      inversion Rp as [i' r' Hi' Fi' E1 E2|f2 m2 n2 R2 I2 En2 E1 E2].
      + left. assert (i' = i).
        { pose proof (proj1 (NoDup_nth_error (map (fun r => (c_file r, c_mc r)) rows)) ND) as ND'.
          apply ND'.
          - rewrite map_length. apply nth_error_Some. congruence.
          - rewrite !nth_error_map', Hi, Hi'. f_equal. f_equal; congruence. }
        subst i'. apply (start_mask_several rows i r b' Sv Hi Hb). exact Fi'.
      + right. subst f2 n2. destruct (in_resolved rows (f', m2) I2) as (b2 & Ib2).
        exists m2, b2. split; [split; [exact Ib2|exact R2]|exact En2]. }
  destruct (in_resolved rows (f, m) I) as (b & Ib).
  apply in_map_iff. exists ((f, m), b). split; [reflexivity|]. apply X. split; [exact Ib|exact Rc].
Qed.

(* with forward pointers, only reachable measures are kept *)
Lemma kept_reachable rows kept rk : several_files rows -> ranked (resolve_nexts rows) rk ->
  remove_repeats true rows = Ok kept ->
  forall f m, In (f, m) kept -> reachable rows (resolve_nexts rows) f (m_mc m).
Proof.
  intros Sv Fw H f m I. destruct (remove_repeats_inv _ _ H) as (k & P & ->).
  destruct (prune_sub _ _ _ P) as [Sub K].
  apply in_map_iff in I. destruct I as ([fm b] & E & I). cbn in E. subst fm.
  apply (trace_back k rk (fun f mc => reachable rows (resolve_nexts rows) f mc) K) with b; auto.
  - intros f' m' b' n I' En. apply (Fw f' m' n); auto. apply Sub in I'. now apply in_combine_fst in I'.
  - intros f' m' I'. apply Sub in I'.
    destruct (in_resolved_nth _ _ _ _ I') as (i & r & Hi & Hr & Hb & -> & ->).
    apply rch_start with i; [exact Hi|]. apply (start_mask_several rows i r true Sv Hi Hb). reflexivity.
  - intros f' m' b' n I' En Rp. apply Sub in I'. apply in_combine_fst in I'.
    apply rch_next with m'; auto.
Qed.

(* with one file and forward pointers nothing is kept *)
Lemma one_file_nothing rows kept rk : one_file rows -> ranked (resolve_nexts rows) rk ->
  remove_repeats true rows = Ok kept -> kept = [].
Proof.
  intros O Fw H. destruct (remove_repeats_inv _ _ H) as (k & P & ->).
  destruct (prune_sub _ _ _ P) as [Sub K].
  assert (X : forall f m b, In ((f, m), b) k -> False).
  { intros f m b I. apply (trace_back k rk (fun _ _ => False) K) with f m b; auto.
    - intros f' m' b' n I' En. apply (Fw f' m' n); auto. apply Sub in I'. now apply in_combine_fst in I'.
    - intros f' m' I'. apply Sub, in_combine_r in I'. pose proof (start_mask_one rows O true I'). discriminate. }
  destruct k as [|[[f m] b] k]; [reflexivity|]. exfalso. apply (X f m b). now left.
Qed.

(* ---- the tables of the pieces after the clean-up ---- *)
Lemma filter_filter {A} (f g : A -> bool) l : filter f (filter g l) = filter (fun x => g x && f x) l.
Proof.
  induction l as [|x l IH]; cbn [filter]; [reflexivity|].
  destruct (g x); cbn [filter andb]; [destruct (f x)|]; now rewrite ?IH.
Qed.

Lemma prune_filter : forall fuel rows k, prune fuel rows = Ok k -> exists g, k = filter g rows.
Proof.
  induction fuel as [|fuel IH]; intros rows k; rewrite prune_eq;
    destruct (_ =? _)%nat eqn:E; try discriminate.
  1,2: intros H; apply Ok_inj in H; subst k; exists (fun _ => true);
       clear; induction rows as [|x rows IH']; cbn [filter]; congruence.
  intros H. destruct (IH _ _ H) as (g & ->). rewrite filter_filter. eauto.
Qed.

Lemma nodup_map_filter {A B} (f : A -> B) g l : NoDup (map f l) -> NoDup (map f (filter g l)).
Proof.
  induction l as [|x l IH]; cbn [map filter]; intros N; [constructor|].
  inversion N as [|? ? Nx N']; subst. destruct (g x); [|now apply IH].
  cbn [map]. constructor; [|now apply IH]. intros I. apply Nx.
  apply in_map_iff in I. destruct I as (y & E & Iy). rewrite <- E. apply in_map.
  apply filter_In in Iy. apply Iy.
Qed.

Lemma map_fst_combine {A B} (l : list A) (r : list B) : List.length l = List.length r ->
  map fst (combine l r) = l.
Proof. revert r. induction l as [|a l IH]; intros [|b r] E; cbn in *; try lia; [reflexivity|]. f_equal. apply IH. lia. Qed.

Lemma kept_nodup rows kept : NoDup (map (fun r => (c_file r, c_mc r)) rows) ->
  remove_repeats true rows = Ok kept -> NoDup (map (fun p : frow => (fst p, m_mc (snd p))) kept).
Proof.
  intros N H. destruct (remove_repeats_inv _ _ H) as (k & P & ->).
  destruct (prune_filter _ _ _ P) as (g & ->). rewrite map_map.
  apply nodup_map_filter. rewrite <- map_map with (f := fst) (g := fun p : frow => (fst p, m_mc (snd p))).
  rewrite map_fst_combine by (rewrite resolve_length, start_mask_length; reflexivity).
  now rewrite resolve_keys.
Qed.

Lemma piece_table_in rows f m : In m (piece_table rows f) <-> In (f, m) rows.
Proof.
  unfold piece_table. rewrite in_map_iff. split.
  - intros ([f' m'] & E & I). apply filter_In in I. destruct I as [I E']. cbn in *. subst m'.
    replace f with f' by lia. exact I.
  - intros I. exists (f, m). split; [reflexivity|]. apply filter_In. split; [exact I|]. cbn. lia.
Qed.

Lemma piece_table_unique rows f : NoDup (map (fun p : frow => (fst p, m_mc (snd p))) rows) ->
  unique_mcs (piece_table rows f).
Proof.
  unfold unique_mcs, piece_table. induction rows as [|[f' m] rows IH]; cbn [map filter fst snd]; intros N.
  - constructor.
  - inversion N as [|? ? Nx N']; subst. destruct (f' =? f) eqn:E; [|now apply IH].
    cbn [map]. constructor; [|now apply IH]. intros I. apply Nx.
    rewrite map_map in I. apply in_map_iff in I. destruct I as ([f2 m2] & E2 & I2).
    apply filter_In in I2. destruct I2 as [I2 B]. cbn in *. apply in_map_iff. exists (f2, m2).
    split; [|exact I2]. cbn. f_equal; lia.
Qed.

(* ---- the table of next pointers against the specification ---- *)
Lemma resolve_follows rows i f m : several_files rows -> nth_error (resolve_nexts rows) i = Some (f, m) ->
  exists r, nth_error rows i = Some r /\ f = c_file r /\ m_mc m = c_mc r /\ m_dur m = c_dur r /\
    m_off m = c_off r /\
    ((m_next m = NextNA /\ forall n, ~ follows rows i n) \/
     (exists n, m_next m = NextMc n /\ follows rows i n)).
Proof.
  intros Sv H. assert (L : (i < List.length rows)%nat) by (rewrite <- (resolve_length rows); apply nth_error_Some; congruence).
  destruct (nth_error rows i) as [r|] eqn:E; [|apply nth_error_None in E; lia].
  destruct (nth_resolve rows i r E) as (nf & Enf & H'). rewrite H in H'. apply Some_inj in H'.
  injection H' as -> ->. exists r. cbn [m_mc m_dur m_off m_next].
  do 5 (split; [reflexivity|]).
  pose proof (roll_back_last rows i r nf Sv E Enf) as RL.
  destruct (new_next_cases r nf) as [(-> & C)|(n & -> & I & M & N1 & Ef)].
  - left. split; [reflexivity|]. intros n (r' & E' & NL & N1 & I & M).
    rewrite E in E'. apply Some_inj in E'. subst r'.
    destruct C as [C|[C|C]]; [rewrite C in I; destruct I|contradiction|]. apply NL, RL, C.
  - right. exists n. split; [reflexivity|]. exists r. split; [exact E|].
    split; [|auto]. intros X. apply RL in X. contradiction.
Qed.

Lemma follows_next rows i r n : several_files rows -> nth_error rows i = Some r -> follows rows i n ->
  exists m, nth_error (resolve_nexts rows) i = Some (c_file r, m) /\ m_mc m = c_mc r /\ m_next m = NextMc n.
Proof.
  intros Sv E F. destruct (nth_resolve rows i r E) as (nf & _ & H).
  destruct (resolve_follows rows i _ _ Sv H) as (r' & E' & _ & _ & _ & _ & [(_ & X)|(n' & En & F')]).
  - destruct (X n F).
  - eexists. split; [exact H|]. split; [reflexivity|]. rewrite En. f_equal.
    destruct F as (r1 & E1 & _ & _ & I1 & M1), F' as (r2 & E2 & _ & _ & I2 & M2).
    assert (r1 = r2) by congruence. subst r2. specialize (M1 n' I2). specialize (M2 n I1). lia.
Qed.

Lemma acyclic_ranked rows : several_files rows -> acyclic rows -> exists rk, ranked (resolve_nexts rows) rk.
Proof.
  intros Sv (rk & Ac). exists rk. intros f m n I E. apply In_nth_error in I. destruct I as (i & I).
  destruct (resolve_follows rows i f m Sv I) as (r & Er & -> & -> & _ & _ & [(X & _)|(n' & En & F)]); [congruence|].
  assert (n' = n) by congruence. subst n'. apply (Ac i r n Er F).
Qed.

Lemma played_reachable rows f mc : several_files rows ->
  (played rows f mc <-> reachable rows (resolve_nexts rows) f mc).
Proof.
  intros Sv. split.
  - induction 1 as [i r Hi Fi|i r n Hi P IH F]; [now apply rch_start with i|].
    destruct (follows_next rows i r n Sv Hi F) as (m & H & Em & En).
    apply rch_next with m; [now rewrite Em|now apply nth_error_In in H|exact En].
  - induction 1 as [i r Hi Fi|f m n R IH I E]; [now apply pl_start with i|].
    apply In_nth_error in I. destruct I as (i & I).
    destruct (resolve_follows rows i f m Sv I) as (r & Er & -> & Em & _ & _ & [(X & _)|(n' & En & F)]); [congruence|].
    assert (n' = n) by congruence. subst n'. apply pl_next with i; [exact Er|now rewrite <- Em|exact F].
Qed.

Lemma kept_played rows kept : several_files rows -> acyclic rows -> remove_repeats true rows = Ok kept ->
  forall f m, In (f, m) kept -> played rows f (m_mc m).
Proof.
  intros Sv Ac H f m I. destruct (acyclic_ranked rows Sv Ac) as (rk & Rk).
  apply (played_reachable rows _ _ Sv). apply (kept_reachable rows kept rk Sv Rk H f m I).
Qed.

Lemma played_kept rows kept : several_files rows -> unique_rows rows -> remove_repeats true rows = Ok kept ->
  forall r, In r rows -> played rows (c_file r) (c_mc r) -> exists m, In (c_file r, m) kept /\ m_mc m = c_mc r.
Proof.
  intros Sv ND H r I P. apply In_nth_error in I. destruct I as (i & I).
  destruct (nth_in_resolved rows i r I) as (m & b & _ & Hm & _ & Em). exists m. split; [|exact Em].
  apply (reachable_kept rows kept Sv ND H); [now apply nth_error_In in Hm|].
  apply (played_reachable rows _ _ Sv). congruence.
Qed.

Lemma kept_iff rows kept : several_files rows -> unique_rows rows -> acyclic rows ->
  remove_repeats true rows = Ok kept ->
  forall r, In r rows -> (In (c_file r, c_mc r) (map (fun p : frow => (fst p, m_mc (snd p))) kept) <->
                          played rows (c_file r) (c_mc r)).
Proof.
  intros Sv ND Ac H r I. split.
  - intros K. apply in_map_iff in K. destruct K as ([f m] & E & K). cbn [fst snd] in E.
    injection E as <- <-. now apply (kept_played rows kept).
  - intros P. destruct (played_kept rows kept Sv ND H r I P) as (m & Im & Em).
    apply in_map_iff. exists (c_file r, m). cbn [fst snd]. split; [congruence|exact Im].
Qed.

(* a kept measure and what follows it *)
Lemma kept_follows rows kept : several_files rows -> acyclic rows -> remove_repeats true rows = Ok kept ->
  forall f m n, In (f, m) kept -> m_next m = NextMc n ->
  exists i r, nth_error rows i = Some r /\ f = c_file r /\ m_mc m = c_mc r /\
    played rows (c_file r) (c_mc r) /\ follows rows i n.
Proof.
  intros Sv Ac H f m n I E. pose proof (kept_played rows kept Sv Ac H f m I) as P.
  apply (kept_subset rows kept H) in I. apply In_nth_error in I. destruct I as (i & I).
  destruct (resolve_follows rows i f m Sv I) as (r & Er & -> & Em & _ & _ & [(X & _)|(n' & En & F)]); [congruence|].
  assert (n' = n) by congruence. subst n'. exists i, r. rewrite Em in P. auto.
Qed.

Lemma piece_table_forward rows kept f : several_files rows -> unique_rows rows -> acyclic rows ->
  forward_rows rows -> closed_rows rows -> remove_repeats true rows = Ok kept ->
  forward (piece_table kept f).
Proof.
  intros Sv ND Ac Fw Cl H m I n E. apply piece_table_in in I.
  destruct (kept_follows rows kept Sv Ac H f m n I E) as (i & r & Er & -> & Em & P & F).
  split; [rewrite Em; apply (Fw i r n Er P F)|].
  destruct (Cl i r n Er P F) as (r' & I' & Ef & En). subst n.
  assert (P' : played rows (c_file r') (c_mc r')) by (rewrite Ef; now apply pl_next with i).
  destruct (played_kept rows kept Sv ND H r' I' P') as (m' & Im' & <-). apply in_map.
  apply piece_table_in. now rewrite <- Ef.
Qed.

Lemma played_plays rows kept f s : several_files rows -> unique_rows rows ->
  remove_repeats true rows = Ok kept ->
  (forall i r, nth_error rows i = Some r -> first_of_file rows i -> c_file r = f -> c_mc r = s) ->
  forall mc, played rows f mc -> plays_to (piece_table kept f) s mc.
Proof.
  intros Sv ND H One mc P. remember f as f' eqn:Ef in P. 
  induction P as [i r Hi Fi|i r n Hi P IH F].
  - rewrite (One i r Hi Fi Ef). apply pt_refl.
  - specialize (IH Ef). apply plays_to_trans with (c_mc r); [exact IH|].
    destruct (follows_next rows i r n Sv Hi F) as (m & Hm & Em & En).
    eapply pt_step; [|exact En|apply pt_refl]. split; [|exact Em].
    apply piece_table_in. rewrite <- Ef. apply (reachable_kept rows kept Sv ND H).
    + now apply nth_error_In in Hm.
    + apply (played_reachable rows _ _ Sv). now rewrite Em.
Qed.

Lemma one_file_next rows f m n : In (f, m) (resolve_nexts rows) -> m_next m = NextMc n ->
  exists r, In r rows /\ f = c_file r /\ m_mc m = c_mc r /\ In n (c_nexts r) /\ (forall x, In x (c_nexts r) -> x <= n).
Proof.
  intros I E. apply In_nth_error in I. destruct I as (i & I).
  assert (L : (i < List.length rows)%nat) by (rewrite <- (resolve_length rows); apply nth_error_Some; congruence).
  destruct (nth_error rows i) as [r|] eqn:Er; [|apply nth_error_None in Er; lia].
  destruct (nth_resolve rows i r Er) as (nf & Enf & H'). rewrite I in H'. apply Some_inj in H'.
  injection H' as -> ->. cbn [m_next m_mc] in *. exists r.
  destruct (new_next_cases r nf) as [(X & _)|(n' & En & In' & M & _)]; [congruence|].
  assert (n' = n) by congruence. subst n'. split; [now apply nth_error_In in Er|]. auto.
Qed.
