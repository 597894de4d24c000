(* Lemmas about the accuracies of verbose runs. *)
From Coq Require Import QArith Lia Lqa List Permutation. Import ListNotations.
From Verif Require Import PyBase Proof_Base Model_Piece Spec_Piece Proof_Piece Proof_Keys Spec_Debug.
Close Scope Q_scope.
Open Scope Z_scope.

Lemma q_ltb_iff a b : q_ltb a b = true <-> (a < b)%Q.
Proof. unfold q_ltb. rewrite negb_true_iff, <- not_true_iff_false, Qle_bool_iff. split; [apply Qnot_le_lt|apply Qlt_not_le]. Qed.
Lemma q_ltb_false a b : q_ltb a b = false <-> (b <= a)%Q.
Proof. unfold q_ltb. rewrite negb_false_iff. apply Qle_bool_iff. Qed.
Lemma count_cons {A} (P : A -> bool) x l : count P (x :: l) = (if P x then 1 else 0) + count P l.
Proof. unfold count. cbn [filter]. destruct (P x); cbn [List.length]; lia. Qed.
Lemma count_pos {A} (P : A -> bool) l : 0 <= count P l.
Proof. unfold count. lia. Qed.
Lemma count_zero {A} (P : A -> bool) l : count P l = 0 <-> forall x, In x l -> P x = false.
Proof.
  unfold count. induction l as [|y l IH]; cbn [filter]; [split; [intros _ x []|reflexivity]|]. destruct (P y) eqn:E; split; intros H.
  - cbn in H. lia.
  - exfalso. rewrite (H y) in E by (left; reflexivity). discriminate.
  - intros x [<-|Hx]; [exact E|]. apply IH; assumption.
  - apply IH. intros x Hx. apply H. right. exact Hx.
Qed.

(* ---- chord changes ---- *)
Lemma invalid_eq durs inv : index_invalid durs = Ok inv ->
  List.length inv = List.length durs /\ forall i b, nth_error inv i = Some b -> b = negb (can_change durs i).
Proof.
  unfold index_invalid. destruct durs as [|d r]; cbn [map]; [discriminate|]. intros H. apply Ok_inj in H. subst inv.
  set (l := (d =? 0) :: map (fun d => d =? 0) r).
  assert (El : l = map (fun d => d =? 0) (d :: r)) by reflexivity. assert (Hl : l <> []) by discriminate. clearbody l.
  assert (HL : List.length l = S (List.length (removelast l))).
  { rewrite (app_removelast_last true Hl) at 1. rewrite app_length. cbn. lia. }
  split; [cbn [List.length]; rewrite <- HL, El, map_length; reflexivity|].
  intros [|i] b Hb; cbn in Hb; [cbn; congruence|]. assert (Hn : nth_error l i = Some b).
  { rewrite (app_removelast_last true Hl), nth_error_app1; [exact Hb|]. apply nth_error_Some. congruence. }
  rewrite El, nth_error_map in Hn. destruct (nth_error (d :: r) i) as [x|] eqn:Ex; [|discriminate]. cbn in Hn. apply Some_inj in Hn. subst b.
  unfold can_change. rewrite Ex. now rewrite negb_involutive.
Qed.
Lemma combine_invalid durs inv : index_invalid durs = Ok inv -> forall k probs inv',
  inv' = skipn k inv -> List.length probs = List.length inv' ->
  combine probs inv' = map (fun x : nat * Q => (snd x, negb (can_change durs (fst x)))) (combine (seq k (List.length probs)) probs).
Proof.
  intros H k probs. destruct (invalid_eq durs inv H) as [_ Hn]. revert k. induction probs as [|p r IH]; intros k inv' E L; [reflexivity|].
  destruct inv' as [|b inv']; [discriminate|]. cbn [combine seq map List.length fst snd].
  assert (Hb : nth_error inv k = Some b).
  { rewrite <- (firstn_skipn k inv), <- E, nth_error_app2; rewrite firstn_length; [|lia]. replace (k - Nat.min k (List.length inv))%nat with 0%nat; [reflexivity|].
    assert (List.length (skipn k inv) = List.length inv - k)%nat by apply skipn_length. rewrite <- E in H0. cbn in H0. lia. }
  rewrite (Hn k b Hb). f_equal. apply IH; [|cbn in L; lia].
  assert (K : skipn 1 (skipn k inv) = skipn (S k) inv).
  { clear. revert inv. induction k as [|k IHk]; intros inv; [reflexivity|]. destruct inv as [|x inv]; [reflexivity|]. cbn [skipn]. apply (IHk inv). }
  rewrite <- K, <- E. reflexivity.
Qed.

Section Loop.
Variables (durs changes : list Z).
Notation ok x := (Qle_bool half (snd x)).
Notation ok' x := (Qle_bool (snd x) half).
Lemma change_loop_spec : forall probs i st,
  let l := combine (seq i (List.length probs)) probs in
  let st' := change_loop (Some changes) i (map (fun x : nat * Q => (snd x, negb (can_change durs (fst x)))) l) st in
  change_total st' = change_total st + count (change_at durs changes) l
  /\ change_correct st' = change_correct st + count (fun x => change_at durs changes x && ok x) l
  /\ no_change_total st' = no_change_total st + count (no_change_at durs changes) l
  /\ no_change_correct st' = no_change_correct st + count (fun x => no_change_at durs changes x && ok' x) l
  /\ exists new, said st' = said st ++ new /\ forall m, In m new <->
       (exists x, In x l /\ change_at durs changes x = true /\ (snd x < half)%Q /\ m = MissedChange (fst x) (snd x))
       \/ (exists x, In x l /\ no_change_at durs changes x = true /\ (half < snd x)%Q /\ m = WrongChange (fst x) (snd x)).
Proof.
  induction probs as [|p r IH]; intros i st; cbv zeta.
  - cbn. rewrite !Z.add_0_r. repeat (split; [reflexivity|]). exists []. rewrite app_nil_r. split; [reflexivity|]. intros m. split; [intros []|].
    intros [(x & [] & _)|(x & [] & _)].
  - cbn [List.length seq combine map fst snd change_loop]. rewrite !count_cons.
    set (l := combine (seq (S i) (List.length r)) r) in *.
    set (st1 := if negb (can_change durs i) then st else _).
    specialize (IH (S i) st1). cbv zeta in IH. fold l in IH. destruct IH as (I1 & I2 & I3 & I4 & new & I5 & I6).
    rewrite I1, I2, I3, I4, I5. unfold change_at, no_change_at. cbn [fst snd].
    assert (S1 : exists new1, said st1 = said st ++ new1 /\ forall m, In m new1 <->
       (change_at durs changes (i, p) = true /\ (p < half)%Q /\ m = MissedChange i p)
       \/ (no_change_at durs changes (i, p) = true /\ (half < p)%Q /\ m = WrongChange i p)).
    { subst st1. unfold change_at, no_change_at. cbn [fst snd]. destruct (can_change durs i); cbn [negb andb];
        [destruct (existsb (Z.eqb (Z.of_nat i)) changes); cbn [negb];
          [destruct (q_ltb p half) eqn:Eq; [apply q_ltb_iff in Eq|apply q_ltb_false in Eq]|destruct (q_ltb half p) eqn:Eq; [apply q_ltb_iff in Eq|apply q_ltb_false in Eq]]|]; cbn [said].
      - exists [MissedChange i p]. split; [reflexivity|]. intros m. split; [intros [<-|[]]; auto|]. intros [(_ & _ & ->)|(F & _)]; [left; reflexivity|discriminate].
      - exists []. rewrite app_nil_r. split; [reflexivity|]. intros m. split; [intros []|]. intros [(_ & F & _)|(F & _)]; [lra|discriminate].
      - exists [WrongChange i p]. split; [reflexivity|]. intros m. split; [intros [<-|[]]; auto|]. intros [(F & _)|(_ & _ & ->)]; [discriminate|left; reflexivity].
      - exists []. rewrite app_nil_r. split; [reflexivity|]. intros m. split; [intros []|]. intros [(F & _)|(_ & F & _)]; [discriminate|lra].
      - exists []. rewrite app_nil_r. split; [reflexivity|]. intros m. split; [intros []|]. intros [(F & _)|(F & _)]; discriminate. }
    assert (S2 : change_total st1 = change_total st + (if can_change durs i && existsb (Z.eqb (Z.of_nat i)) changes then 1 else 0)
      /\ change_correct st1 = change_correct st + (if can_change durs i && existsb (Z.eqb (Z.of_nat i)) changes && Qle_bool half p then 1 else 0)
      /\ no_change_total st1 = no_change_total st + (if can_change durs i && negb (existsb (Z.eqb (Z.of_nat i)) changes) then 1 else 0)
      /\ no_change_correct st1 = no_change_correct st + (if can_change durs i && negb (existsb (Z.eqb (Z.of_nat i)) changes) && Qle_bool p half then 1 else 0)).
    { subst st1. unfold q_ltb. destruct (can_change durs i); cbn [negb andb];
        [destruct (existsb (Z.eqb (Z.of_nat i)) changes); cbn [negb andb];
          [destruct (Qle_bool half p)|destruct (Qle_bool p half)]|]; cbn [negb change_total change_correct no_change_total no_change_correct]; lia. }
    destruct S2 as (-> & -> & -> & ->). repeat (split; [lia|]).
    destruct S1 as (new1 & -> & H1). exists (new1 ++ new). split; [now rewrite app_assoc|]. intros m. rewrite in_app_iff, H1, I6. split.
    + intros [[(A & B & C)|(A & B & C)]|[(x & Hx & R)|(x & Hx & R)]].
      * left. exists (i, p). split; [left; reflexivity|auto].
      * right. exists (i, p). split; [left; reflexivity|auto].
      * left. exists x. split; [right; exact Hx|exact R].
      * right. exists x. split; [right; exact Hx|exact R].
    + intros [(x & [<-|Hx] & R)|(x & [<-|Hx] & R)].
      * left. left. exact R.
      * right. left. exists x. auto.
      * left. right. exact R.
      * right. right. exists x. auto.
Qed.
End Loop.

(* ---- classifications ---- *)
Lemma increasing_nth l : increasing l -> forall i j a b, nth_error l i = Some a -> nth_error l j = Some b -> (i < j)%nat -> a < b.
Proof.
  induction l as [|x l IH]; intros H i j a b Hi Hj L; [now destruct i|].
  assert (Ht : increasing l) by (destruct l; [exact Logic.I|exact (proj2 H)]). destruct j as [|j]; [lia|]. cbn in Hj.
  destruct i as [|i]; cbn in Hi; [|exact (IH Ht i j a b Hi Hj ltac:(lia))]. apply Some_inj in Hi. subst a.
  destruct l as [|y l]; [now destruct j|]. destruct H as [H _]. destruct j as [|j]; [cbn in Hj; congruence|].
  assert (y < b) by (apply (IH Ht 0%nat (S j)); [reflexivity|exact Hj|lia]). lia.
Qed.
Lemma increasing_inj l i j a : increasing l -> nth_error l i = Some a -> nth_error l j = Some a -> i = j.
Proof.
  intros H Hi Hj. destruct (Nat.lt_trichotomy i j) as [L|[L|L]]; [|exact L|].
  - pose proof (increasing_nth l H i j a a Hi Hj L). lia.
  - pose proof (increasing_nth l H j i a a Hj Hi L). lia.
Qed.
Lemma increasing_nd l : increasing l -> non_decreasing l.
Proof.
  induction l as [|x l IH]; [intros _; exact Logic.I|]. destruct l as [|y l]; [intros _; exact Logic.I|]. intros [H1 H2]. split; [lia|exact (IH H2)].
Qed.
Lemma list_index_spec : forall l x, In x l -> exists i, list_index l x = Ok (Z.of_nat i) /\ nth_error l i = Some x /\ forall j, (j < i)%nat -> nth_error l j <> Some x.
Proof.
  intros l x. unfold list_index.
  assert (G : forall l k, In x l -> exists i, (fix go (l : list Z) (i : Z) : res Z :=
     match l with [] => Raise ValueError | y :: r => if y =? x then Ok i else go r (i + 1) end) l k = Ok (k + Z.of_nat i)
     /\ nth_error l i = Some x /\ forall j, (j < i)%nat -> nth_error l j <> Some x).
  { clear l. induction l as [|y l IH]; intros k Hx; [destruct Hx|]. destruct (Z.eqb_spec y x) as [->|N].
    - exists 0%nat. split; [f_equal; lia|]. split; [reflexivity|]. intros j Hj. lia.
    - destruct Hx as [Hx|Hx]; [contradiction|]. destruct (IH (k + 1) Hx) as (i & E & Hi & Hj). exists (S i). split; [rewrite E; f_equal; lia|]. split; [exact Hi|].
      intros [|j] Hlt; cbn; [congruence|]. apply Hj. lia. }
  intros Hx. destruct (G l 0 Hx) as (i & E & R). exists i. split; [exact E|exact R].
Qed.
Lemma index_first l x i : list_index l x = Ok i -> (i = 0 <-> nth_error l 0 = Some x).
Proof.
  unfold list_index. destruct l as [|y l]; [discriminate|]. destruct (Z.eqb_spec y x) as [->|N].
  - intros H. apply Ok_inj in H. subst i. cbn. tauto.
  - assert (G : forall l k i, (fix go (l : list Z) (i : Z) : res Z :=
     match l with [] => Raise ValueError | y :: r => if y =? x then Ok i else go r (i + 1) end) l k = Ok i -> k <= i).
    { clear. induction l as [|y l IH]; intros k i H; [discriminate|]. destruct (y =? x); [apply Ok_inj in H; lia|]. apply IH in H. lia. }
    intros H. apply G in H. cbn. split; [lia|congruence].
Qed.
(* the chords within a range that begins and ends with a change *)
Lemma range_chords {A} (chords : list A) changes a b : from_start changes -> List.length chords = List.length changes -> 0 <= a <= b ->
  exists cs, get_chords_within_range chords changes a (Some b) = Ok cs
   /\ (existsb (Z.eqb a) changes && existsb (Z.eqb b) changes && (List.length cs =? 1)%nat = true ->
        exists k c, own_range changes (a, b) k /\ nth_error chords k = Some c /\ cs = [c])
   /\ (forall k, own_range changes (a, b) k -> existsb (Z.eqb a) changes = true /\ existsb (Z.eqb b) changes = true /\ List.length cs = 1%nat).
Proof.
  intros [Hi H0] HL Hab. assert (N := increasing_nd _ Hi).
  rewrite (within_range_spec chords changes a (Some b) 0 HL N H0) by lia. eexists. split; [reflexivity|].
  assert (Hk : forall k, nth_error changes k = Some a -> forall k', nth_error changes k' = Some b ->
     map snd (filter (fun x => meets changes a (Some b) (fst x)) (combine (seq 0 (List.length chords)) chords)) = firstn (k' - k) (skipn k chords)).
  { intros k Ek k' Ek'. rewrite (filter_interval (meets changes a (Some b)) chords 0 k k').
    - rewrite Nat.max_0_r, Nat.sub_0_r. reflexivity.
    - intros i Hii. unfold meets. destruct (nth_error changes i) as [c|] eqn:Ec; [|apply nth_error_None in Ec; lia].
      apply eq_true_iff_eq. rewrite !andb_true_iff, Z.ltb_lt, Nat.leb_le, Nat.ltb_lt.
      assert (B1 : c < b <-> (i < k')%nat).
      { split; intros H. - destruct (Nat.le_gt_cases k' i) as [L|L]; [|exact L]. destruct (Nat.eq_dec i k') as [->|D]; [assert (c = b) by congruence; lia|].
          pose proof (increasing_nth _ Hi k' i b c Ek' Ec ltac:(lia)). lia.
        - exact (increasing_nth _ Hi i k' c b Ec Ek' H). }
      rewrite B1. enough (B2 : (a <=? c) || match nth_error changes (S i) with Some c' => a <? c' | None => true end = true <-> (k <= i)%nat) by (rewrite B2; tauto).
      rewrite orb_true_iff, Z.leb_le. split.
      + intros [H|H].
        * destruct (Nat.le_gt_cases k i) as [L|L]; [exact L|]. pose proof (increasing_nth _ Hi i k c a Ec Ek L). lia.
        * destruct (nth_error changes (S i)) as [c'|] eqn:Ec'.
          -- apply Z.ltb_lt in H. destruct (Nat.le_gt_cases k i) as [L|L]; [exact L|]. exfalso. destruct (Nat.eq_dec (S i) k) as [D|D]; [rewrite D in Ec'; assert (c' = a) by congruence; lia|].
             pose proof (increasing_nth _ Hi (S i) k c' a Ec' Ek ltac:(lia)). lia.
          -- apply nth_error_None in Ec'. assert (k < List.length changes)%nat by (apply nth_error_Some; congruence). lia.
      + intros L. left. destruct (Nat.eq_dec k i) as [<-|D]; [assert (c = a) by congruence; lia|]. pose proof (increasing_nth _ Hi k i a c Ek Ec ltac:(lia)). lia. }
  split.
  - intros H. apply andb_true_iff in H as [H H3]. apply andb_true_iff in H as [H1 H2]. apply existsb_exists in H1 as (a' & H1 & E1). apply existsb_exists in H2 as (b' & H2 & E2).
    apply Z.eqb_eq in E1, E2. subst a' b'. apply In_nth_error in H1 as (k & Ek). apply In_nth_error in H2 as (k' & Ek'). apply Nat.eqb_eq in H3.
    rewrite (Hk k Ek k' Ek') in *.
    assert (L1 : (k < List.length chords)%nat) by (rewrite HL; apply nth_error_Some; congruence).
    assert (L2 : (k' < List.length chords)%nat) by (rewrite HL; apply nth_error_Some; congruence).
    rewrite firstn_length, skipn_length in H3. assert (k' = S k) by lia. subst k'.
    destruct (nth_error chords k) as [c|] eqn:Ec; [|apply nth_error_None in Ec; lia]. exists k, c. split; [split; assumption|]. split; [exact Ec|].
    replace (S k - k)%nat with 1%nat by lia. clear -Ec. revert k Ec. induction chords as [|x r IH]; intros [|k] Ec; try discriminate; cbn in *; [congruence|]. now apply IH.
  - intros k [Ek Ek']. cbn [fst snd] in *. split; [apply existsb_exists; exists a; split; [exact (nth_error_In _ _ Ek)|apply Z.eqb_refl]|].
    split; [apply existsb_exists; exists b; split; [exact (nth_error_In _ _ Ek')|apply Z.eqb_refl]|].
    rewrite (Hk k Ek (S k) Ek'), firstn_length, skipn_length. assert (k < List.length changes)%nat by (apply nth_error_Some; congruence).
    assert (S k < List.length changes)%nat by (apply nth_error_Some; congruence). lia.
Qed.
Lemma own_chord_iff {A} : forall changes (chords : list A) range c, increasing changes -> List.length chords = List.length changes ->
  (own_chord changes chords range = Some c <-> exists k, own_range changes range k /\ nth_error chords k = Some c).
Proof.
  induction changes as [|a changes IH]; intros chords range c Hi HL; [cbn; split; [discriminate|intros (k & [Hk _] & _); destruct k; discriminate]|].
  destruct chords as [|c0 chords]; [discriminate|]. assert (Ht : increasing changes) by (destruct changes; [exact Logic.I|exact (proj2 Hi)]).
  destruct changes as [|b changes]; [cbn; split; [discriminate|intros (k & [_ Hk] & _); destruct k as [|[|k]]; discriminate]|].
  change (own_chord (a :: b :: changes) (c0 :: chords) range) with (if (a =? fst range) && (b =? snd range) then Some c0 else own_chord (b :: changes) chords range).
  destruct ((a =? fst range) && (b =? snd range)) eqn:E.
  - apply andb_true_iff in E as [E1 E2]. apply Z.eqb_eq in E1, E2. split.
    + intros H. apply Some_inj in H. subst c. exists 0%nat. split; [split; cbn; congruence|reflexivity].
    + intros (k & [H1 _] & H3). assert (k = 0%nat) by (apply (increasing_inj (a :: b :: changes) k 0 (fst range) Hi H1); cbn; congruence). subst k. exact H3.
  - rewrite (IH chords range c Ht ltac:(cbn in *; lia)). split.
    + intros (k & [H1 H2] & H3). exists (S k). split; [split; [exact H1|exact H2]|exact H3].
    + intros (k & [H1 H2] & H3). destruct k as [|k]; [|exists k; split; [split; [exact H1|exact H2]|exact H3]].
      exfalso. cbn in H1, H2. apply Some_inj in H1, H2. rewrite H1, H2, !Z.eqb_refl in E. discriminate.
Qed.

Section Classes.
Context {Chord : Type}.
Variable encode : Chord -> res Z.
Variable argsort : list Q -> list Z.
Variable mx : Z.
Notation ranked probs := (Permutation (argsort probs) (zrange 0 (zlen probs))).
Lemma mapM_each {A B} (f : A -> res B) (P : A -> B -> Prop) : forall l, (forall x, In x l -> exists y, f x = Ok y /\ P x y) -> exists ys, mapM f l = Ok ys /\ Forall2 P l ys.
Proof.
  induction l as [|x l IH]; intros H; [exists []; split; [reflexivity|constructor]|]. destruct (H x (or_introl eq_refl)) as (y & Ey & Py).
  destruct (IH (fun z Hz => H z (or_intror Hz))) as (ys & Es & Ps). exists (y :: ys). cbn [mapM]. rewrite Ey. cbn [bind]. rewrite Es. split; [reflexivity|constructor; assumption].
Qed.
Lemma py_slice_incl {A} (l : list A) i j x : In x (py_slice l i j) -> In x l.
Proof.
  unfold py_slice. intros H. apply In_nth_error in H as (k & Hk). match type of Hk with nth_error (firstn ?m (skipn ?n l)) k = _ => 
    rewrite <- (firstn_skipn n l); apply in_or_app; right; rewrite <- (firstn_skipn m (skipn n l)); apply in_or_app; left; exact (nth_error_In _ _ Hk) end.
Qed.
Lemma top_total correct probs : forall rankings rank, (forall c, In c rankings -> 0 <= c < zlen probs) -> exists ms, top_chords correct probs rank rankings = Ok ms /\
  forall m, In m ms -> exists s r c p, m = TopChord s r c p.
Proof.
  induction rankings as [|c r IH]; intros rank H; [exists []; split; [reflexivity|intros m []]|]. cbn [top_chords].
  destruct (py_nth_in_range probs c) as (p & Ep & _). { specialize (H c (or_introl eq_refl)). lia. }
  rewrite Ep. cbn [bind]. destruct (IH (rank + 1) (fun x Hx => H x (or_intror Hx))) as (ms & Em & Hm). rewrite Em. cbn [bind]. eexists. split; [reflexivity|].
  intros m [<-|Hx]; [repeat eexists|exact (Hm m Hx)].
Qed.
Variables (changes : list Z) (chords : list Chord).
Hypothesis Hc : from_start changes.
Hypothesis HL : List.length chords = List.length changes.
Notation good_input := (scored encode argsort chords).
Notation own x := (match own_chord changes chords (fst x) with Some _ => true | None => false end).
Notation right_best x := (match own_chord changes chords (fst x) with Some c => best_is encode argsort (snd x) c | None => false end).
Lemma classify_range_spec x n g ms : good_input x -> exists new,
  classify_range encode argsort mx (Some (chords, changes)) (fst x) (snd x) (n, g, ms) =
    Ok (n + (if own x then 1 else 0), g + (if right_best x then 1 else 0), ms ++ new)
  /\ (forall a b, In (Misclassified a b) new <-> (a, b) = fst x /\ own x = true /\ right_best x = false)
  /\ (own x = false -> new = []).
Proof.
  destruct x as [[a b] probs]. intros (Hab & Hp & He). cbn [fst snd] in *. unfold classify_range.
  destruct (range_chords chords changes a b Hc HL Hab) as (cs & Ec & H1 & H2). rewrite Ec. cbn [bind].
  assert (Hin : forall c, In c cs -> In c chords).
  { intros c Hx. rewrite (within_range_spec chords changes a (Some b) 0 HL (increasing_nd _ (proj1 Hc)) (proj2 Hc)) in Ec by lia.
    apply Ok_inj in Ec. subst cs. apply in_map_iff in Hx as ((i & c') & <- & Hx). apply filter_In in Hx as [Hx _]. exact (in_combine_r _ _ _ _ Hx). }
  destruct (mapM_each encode (fun c k => encode c = Ok k /\ 0 <= k < zlen probs) cs) as (ks & Ek & Fk).
  { intros c Hx. destruct (He c (Hin c Hx)) as (k & E & R). exists k. auto. }
  rewrite Ek. cbn [bind].
  assert (Hks : forall k, In k ks -> 0 <= k < zlen probs).
  { intros k Hx. clear -Fk Hx. induction Fk as [|c k' cs ks [_ R] F IH]; [destruct Hx|]. destruct Hx as [<-|Hx]; [exact R|exact (IH Hx)]. }
  destruct (mapM_each (py_nth probs) (fun _ _ => True) ks) as (ps & Ep & Fp).
  { intros k Hx. destruct (py_nth_in_range probs k) as (p & E & _); [specialize (Hks k Hx); lia|]. exists p. auto. }
  destruct (mapM_each (list_index (argsort probs)) (fun k r => list_index (argsort probs) k = Ok r) ks) as (rs & Er & Fr).
  { intros k Hx. destruct (list_index_spec (argsort probs) k) as (i & E & _); [|exists (Z.of_nat i); auto].
    apply (Permutation_in k (Permutation_sym Hp)), in_zrange. exact (Hks k Hx). }
  rewrite Ep, Er. cbn [bind].
  assert (Lks : List.length ks = List.length cs) by (clear -Fk; induction Fk; cbn; congruence).
  assert (Lrs : List.length rs = List.length cs) by (rewrite <- Lks; clear -Fr; induction Fr; cbn; congruence).
  assert (Lps : List.length ps = List.length cs) by (rewrite <- Lks; clear -Fp; induction Fp; cbn; congruence).
  assert (Hany : exists any, (if (0 <? List.length rs)%nat then let! r := py_min rs in Ok (r =? 0) else Ok false) = Ok any).
  { destruct rs as [|r rs]; [exists false; reflexivity|]. eexists. reflexivity. }
  assert (Hno : own ((a, b), probs) = false -> existsb (Z.eqb a) changes && existsb (Z.eqb b) changes && (List.length cs =? 1)%nat = false).
  { intros Hown. apply not_true_iff_false. intros F. destruct (H1 F) as (k & c & K & Kc & _). cbn [fst] in Hown.
    assert (E : own_chord changes chords (a, b) = Some c) by (apply own_chord_iff; [exact (proj1 Hc)|exact HL|exists k; auto]). rewrite E in Hown. discriminate. }
  cbn [fst snd] in *. destruct (own_chord changes chords (a, b)) as [c|] eqn:Eo.
  - apply own_chord_iff in Eo as (k & K & Kc); [|exact (proj1 Hc)|exact HL]. destruct (H2 k K) as (E1 & E2 & E3).
    destruct (H1 ltac:(rewrite E1, E2, E3; reflexivity)) as (k' & c' & K' & Kc' & ->).
    assert (k' = k) by (apply (increasing_inj changes k' k a (proj1 Hc)); [exact (proj1 K')|exact (proj1 K)]). subst k'.
    assert (c' = c) by congruence. subst c'. clear Hno H1 H2.
    inversion Fk as [|c0 k0 cs0 ks0 [Fk1 Fk2] Fk3]; subst. inversion Fk3; subst. inversion Fr as [|k1 r1 x1 x2 Fr1 Fr2]; subst. inversion Fr2; subst.
    cbn [List.length Nat.eqb]. rewrite E1, E2. cbn [andb bind]. change (py_nth [r1] 0) with (Ok r1). cbn [bind Nat.ltb Nat.leb py_min fold_left].
    pose proof (index_first _ _ _ Fr1) as Hr1.
    assert (Hb : best_is encode argsort probs c = (r1 =? 0)).
    { unfold best_is. rewrite Fk1. destruct (argsort probs) as [|b0 rest] eqn:Ea; [discriminate|]. apply eq_true_iff_eq. rewrite !Z.eqb_eq. rewrite Hr1. cbn. split; congruence. }
    rewrite Hb. destruct (r1 =? 0) eqn:E0; cbn [andb orb negb].
    + exists []. rewrite app_nil_r. split; [reflexivity|]. split; [|reflexivity]. intros a' b'. split; [intros []|intros (_ & _ & F); discriminate].
    + unfold py_max. cbn [bind fold_left].
      destruct (top_total [k0] probs (py_slice (argsort probs) 0 (Z.min mx (r1 + 1))) 0) as (top & Et & Ht).
      { intros z Hz. apply py_slice_incl in Hz. apply (Permutation_in z Hp) in Hz. apply in_zrange in Hz. exact Hz. }
      rewrite Et. cbn [bind]. eexists. split; [rewrite Z.add_0_r; reflexivity|]. split; [|discriminate]. intros a' b'. split.
      * intros [H|H]; [injection H as -> ->; auto|]. exfalso. cbn [app] in H. apply in_app_or in H as [H|H].
        -- apply in_map_iff in H as (? & F & _). discriminate.
        -- destruct (Ht _ H) as (? & ? & ? & ? & F). discriminate.
      * intros (H & _). injection H as -> ->. left. reflexivity.
  - specialize (Hno eq_refl). destruct Hany as (any & Hany).
    assert (Hr : (if (List.length cs =? 1)%nat then Ok (existsb (Z.eqb a) changes && existsb (Z.eqb b) changes) else Ok false) = @Ok bool false).
    { destruct (List.length cs =? 1)%nat; [|reflexivity]. rewrite andb_true_r in Hno. now rewrite Hno. }
    rewrite Hr. cbn [bind andb]. rewrite Hany. cbn [bind negb]. rewrite orb_true_r, !Z.add_0_r. exists []. rewrite app_nil_r. split; [reflexivity|]. split; [|reflexivity].
    intros a' b'. split; [intros []|intros (_ & F & _); discriminate].
Qed.
Lemma classify_loop_spec : forall l n g ms, Forall good_input l -> exists new,
  classify_loop encode argsort mx (Some (chords, changes)) l (n, g, ms) =
    Ok (n + count (fun x => own x) l, g + count (fun x => right_best x) l, ms ++ new)
  /\ (forall a b, In (Misclassified a b) new <-> exists x, In x l /\ (a, b) = fst x /\ own x = true /\ right_best x = false).
Proof.
  induction l as [|x l IH]; intros n g ms F.
  - exists []. cbn. rewrite !Z.add_0_r, app_nil_r. split; [reflexivity|]. intros a b. split; [intros []|intros (x & [] & _)].
  - inversion F as [|? ? Hx Hl]; subst. destruct (classify_range_spec x n g ms Hx) as (n1 & E1 & M1 & _).
    destruct (IH (n + (if own x then 1 else 0)) (g + (if right_best x then 1 else 0)) (ms ++ n1) Hl) as (n2 & E2 & M2).
    exists (n1 ++ n2). rewrite !count_cons, !Z.add_assoc, app_assoc, <- E2. split.
    + destruct x as [range probs]. cbn [classify_loop fst snd] in *. rewrite E1. reflexivity.
    + intros a b. rewrite in_app_iff, M1, M2. split.
      * intros [H|(y & Hy & R)]; [exists x; split; [left; reflexivity|exact H]|exists y; split; [right; exact Hy|exact R]].
      * intros (y & [<-|Hy] & R); [left; exact R|right; exists y; auto].
Qed.
End Classes.

(* ---- key changes ---- *)
Lemma bisect_before changes (values : list Z) i : from_start changes -> List.length values = List.length changes -> 0 < i ->
  exists k v, bisect_left Z.ltb changes i 0 = Ok k /\ (0 < k)%nat /\ (k <= List.length changes)%nat
   /\ py_nth values (Z.of_nat k - 1) = Ok v /\ before changes values i v
   /\ (match nth_error changes k with Some c => c =? i | None => false end = existsb (Z.eqb i) changes)
   /\ nth_error values (k - 1) = Some v.
Proof.
  intros [Hi H0] HL Hpos. destruct (bisect_left_spec Z.ltb changes i 0) as (k & Ek & Lk & Hlt & Hge); [|lia|].
  { intros x y a b L Ha Hb H. apply Z.ltb_lt in H. apply Z.ltb_lt. destruct (Nat.eq_dec x y) as [->|D]; [congruence|].
    pose proof (increasing_nth _ Hi x y a b Ha Hb ltac:(lia)). lia. }
  assert (Pk : (0 < k)%nat). { destruct k as [|k]; [|lia]. specialize (Hge 0%nat 0 ltac:(lia) H0). apply Z.ltb_ge in Hge. lia. }
  destruct (nth_error values (k - 1)) as [v|] eqn:Ev; [|apply nth_error_None in Ev; lia].
  destruct (nth_error changes (k - 1)) as [c|] eqn:Ec; [|apply nth_error_None in Ec; lia].
  exists k, v. split; [exact Ek|]. split; [exact Pk|]. split; [lia|]. split.
  { apply py_nth_pos; [lia|]. replace (Z.to_nat (Z.of_nat k - 1)) with (k - 1)%nat by lia. exact Ev. }
  split; [|split; [|exact Ev]].
  - exists (k - 1)%nat, c. split; [exact Ec|]. split; [apply Z.ltb_lt; exact (Hlt (k - 1)%nat c ltac:(lia) Ec)|]. split; [|exact Ev].
    intros c' Hc'. replace (S (k - 1)) with k in Hc' by lia. apply Z.ltb_ge. exact (Hge k c' ltac:(lia) Hc').
  - apply eq_true_iff_eq. split.
    + intros H. destruct (nth_error changes k) as [c'|] eqn:Ec'; [|discriminate]. apply existsb_exists. exists c'. split; [exact (nth_error_In _ _ Ec')|]. rewrite Z.eqb_sym. exact H.
    + intros H. apply existsb_exists in H as (c' & Hin & E). apply Z.eqb_eq in E. subst c'. apply In_nth_error in Hin as (j & Ej).
      assert (k <= j)%nat. { destruct (Nat.le_gt_cases k j) as [L|L]; [exact L|]. specialize (Hlt j i ltac:(lia) Ej). apply Z.ltb_lt in Hlt. lia. }
      destruct (nth_error changes k) as [c'|] eqn:Ec'.
      * apply Z.eqb_eq. destruct (Nat.eq_dec k j) as [->|D]; [congruence|]. pose proof (increasing_nth _ Hi k j c' i Ec' Ej ltac:(lia)).
        specialize (Hge k c' ltac:(lia) Ec'). apply Z.ltb_ge in Hge. lia.
      * apply nth_error_None in Ec'. assert (j < List.length changes)%nat by (apply nth_error_Some; congruence). lia.
Qed.
Lemma before_unique changes values i v v' : increasing changes -> before changes values i v -> before changes values i v' -> v = v'.
Proof.
  intros Hi (k & c & A1 & A2 & A3 & A4) (k' & c' & B1 & B2 & B3 & B4). assert (k = k'); [|subst; congruence].
  destruct (Nat.lt_trichotomy k k') as [L|[L|L]]; [|exact L|]; exfalso.
  - destruct (nth_error changes (S k)) as [d|] eqn:Ed.
    + specialize (A3 d eq_refl). destruct (Nat.eq_dec (S k) k') as [D|D]; [rewrite D in Ed; assert (d = c') by congruence; lia|].
      pose proof (increasing_nth _ Hi (S k) k' d c' Ed B1 ltac:(lia)). lia.
    + apply nth_error_None in Ed. assert (k' < List.length changes)%nat by (apply nth_error_Some; congruence). lia.
  - destruct (nth_error changes (S k')) as [d|] eqn:Ed.
    + specialize (B3 d eq_refl). destruct (Nat.eq_dec (S k') k) as [D|D]; [rewrite D in Ed; assert (d = c) by congruence; lia|].
      pose proof (increasing_nth _ Hi (S k') k d c Ed A1 ltac:(lia)). lia.
    + apply nth_error_None in Ed. assert (k < List.length changes)%nat by (apply nth_error_Some; congruence). lia.
Qed.
Notation counted key chord := (fun x : Q * debug_state => (ds_key (snd x) =? key) && (ds_chord (snd x) =? chord)).
Notation sure ch := (fun x : Q * debug_state => if ch : bool then q_ltb half (fst x) else q_ltb (fst x) half).
Lemma transition_loop_spec key chord ch : forall l n g ms, exists new,
  transition_loop key chord ch l (n, g, ms) = (n + count (counted key chord) l, g + count (fun x => counted key chord x && sure ch x) l, ms ++ new)
  /\ (forall m, In m new <-> exists x, In x l /\ counted key chord x = true /\ sure ch x = false /\ m = StateProb (ds_key (snd x)) (ds_prev_chord (snd x)) (ds_chord (snd x)) (fst x)).
Proof.
  induction l as [|[p s] l IH]; intros n g ms.
  - exists []. cbn. rewrite !Z.add_0_r, app_nil_r. split; [reflexivity|]. intros m. split; [intros []|intros (x & [] & _)].
  - cbn [transition_loop]. rewrite !count_cons. cbn [fst snd]. rewrite (Z.eqb_sym key), (Z.eqb_sym chord).
    set (c := (ds_key s =? key) && (ds_chord s =? chord)). set (b := if ch then q_ltb half p else q_ltb p half).
    replace (if negb (ds_key s =? key) then (n, g, ms) else _) with
      (n + (if c then 1 else 0), g + (if c && b then 1 else 0), if c && negb b then ms ++ [StateProb (ds_key s) (ds_prev_chord s) (ds_chord s) p] else ms).
    2:{ subst c. destruct (ds_key s =? key), (ds_chord s =? chord), b; cbn [negb andb]; rewrite ?Z.add_0_r; reflexivity. }
    destruct (IH (n + (if c then 1 else 0)) (g + (if c && b then 1 else 0)) (if c && negb b then ms ++ [StateProb (ds_key s) (ds_prev_chord s) (ds_chord s) p] else ms)) as (new & E & M).
    rewrite E, !Z.add_assoc. exists ((if c && negb b then [StateProb (ds_key s) (ds_prev_chord s) (ds_chord s) p] else []) ++ new). split.
    { destruct (c && negb b); [rewrite <- app_assoc|]; reflexivity. }
    intros m. rewrite in_app_iff, M. split.
    + intros [H|(x & Hx & R)]; [|exists x; split; [right; exact Hx|exact R]]. destruct (c && negb b) eqn:E1; [|destruct H]. destruct H as [<-|[]].
      apply andb_true_iff in E1 as [E1 E2]. apply negb_true_iff in E2. exists (p, s). split; [left; reflexivity|]. cbn [fst snd]. auto.
    + intros (x & [<-|Hx] & C1 & C2 & C3); [left|right; exists x; auto]. cbn [fst snd] in *. fold c in C1. fold b in C2. rewrite C1, C2. cbn. left. symmetry. exact C3.
Qed.
(* ---- the classes shown ---- *)
Lemma index_place l x : In x l -> list_index l x = Ok (Z.of_nat (place l x)).
Proof.
  unfold list_index. assert (G : forall l k, In x l -> (fix go (l : list Z) (i : Z) : res Z :=
     match l with [] => Raise ValueError | y :: r => if y =? x then Ok i else go r (i + 1) end) l k = Ok (k + Z.of_nat (place l x))).
  { clear l. induction l as [|y l IH]; intros k Hx; [destruct Hx|]. cbn [place]. destruct (Z.eqb_spec y x) as [->|N]; [f_equal; lia|].
    destruct Hx as [Hx|Hx]; [contradiction|]. rewrite (IH _ Hx). f_equal. lia. }
  intros Hx. rewrite (G l 0 Hx). f_equal.
Qed.
Lemma top_shown right_one probs : forall l k, (forall c, In c l -> 0 <= c < zlen probs) ->
  top_chords [right_one] probs (Z.of_nat k) l =
  Ok (map (fun x => TopChord (snd x =? right_one) (Z.of_nat (fst x)) (snd x) (nth (Z.to_nat (snd x)) probs 0%Q)) (combine (seq k (List.length l)) l)).
Proof.
  induction l as [|c l IH]; intros k H; [reflexivity|]. cbn [top_chords List.length seq combine map fst snd].
  destruct (py_nth_in_range probs c (H c (or_introl eq_refl))) as (p & Ep & Np). rewrite Ep. cbn [bind].
  replace (Z.of_nat k + 1) with (Z.of_nat (S k)) by lia. rewrite (IH (S k) (fun x Hx => H x (or_intror Hx))). cbn [bind existsb].
  rewrite orb_false_r. rewrite (nth_error_nth _ _ 0%Q Np). reflexivity.
Qed.
Lemma top_down argsort right_one probs mx : 0 <= mx -> Permutation (argsort probs) (zrange 0 (zlen probs)) ->
  top_chords [right_one] probs 0 (py_slice (argsort probs) 0 (Z.min mx (Z.of_nat (place (argsort probs) right_one) + 1))) = Ok (down_to mx (argsort probs) probs right_one).
Proof.
  intros Hm Hp. change 0 with (Z.of_nat 0) at 1. rewrite top_shown.
  - unfold down_to, shown. rewrite py_slice_full_prefix by lia. set (n := Z.to_nat _). replace (Nat.min (Z.to_nat mx) (S (place (argsort probs) right_one))) with n by (unfold n; lia).
    f_equal. f_equal. rewrite firstn_length. destruct (Nat.le_gt_cases n (List.length (argsort probs))) as [L|L]; [rewrite Nat.min_l by exact L; reflexivity|].
    rewrite Nat.min_r by lia. rewrite firstn_all2 by lia. clear -L. revert L. generalize 0%nat. generalize n. clear n.
    induction (argsort probs) as [|c l IH]; intros n k L; [destruct n; reflexivity|]. destruct n as [|n]; [cbn in L; lia|]. cbn [List.length seq combine]. f_equal. apply IH. cbn in L. lia.
  - intros z Hz. apply py_slice_incl in Hz. apply (Permutation_in z Hp) in Hz. apply in_zrange in Hz. exact Hz.
Qed.
Lemma place_first l x : In x l -> (match l with b :: _ => b =? x | [] => false end) = (Z.of_nat (place l x) =? 0).
Proof. destruct l as [|y l]; [intros []|]. intros _. cbn [place]. destruct (y =? x); [reflexivity|]. symmetry. apply Z.eqb_neq. lia. Qed.
(* ---- next chords ---- *)
Section Nexts.
Variable argsort : list Q -> list Z.
Variables mx mx2 : Z.
Notation counted' key prev := (fun x : debug_state * list Q => (ds_key (fst x) =? key) && (ds_prev_chord (fst x) =? prev)).
Notation best' next := (fun x : debug_state * list Q => match argsort (snd x) with b :: _ => b =? next | [] => false end).
Lemma prior_loop_spec key prev next : 0 <= mx -> 0 <= next -> forall l n g ms,
  (forall x, In x l -> Permutation (argsort (snd x)) (zrange 0 (zlen (snd x))) /\ next < zlen (snd x)) ->
  prior_loop argsort mx mx2 (Some (key, prev, next)) l (n, g, ms) =
    Ok (n + count (counted' key prev) l, g + count (fun x => counted' key prev x && best' next x) l,
        ms ++ flat_map (fun x => if counted' key prev x then
                            CorrectChord next (nth (Z.to_nat next) (snd x) 0%Q) (Z.of_nat (place (argsort (snd x)) next))
                            :: (if best' next x then [] else down_to mx (argsort (snd x)) (snd x) next)
                          else []) l).
Proof.
  intros Hm Hn. induction l as [|[s prior] l IH]; intros n g ms H.
  - cbn. rewrite !Z.add_0_r, app_nil_r. reflexivity.
  - cbn [prior_loop flat_map]. rewrite !count_cons. cbn [fst snd]. destruct (H (s, prior) (or_introl eq_refl)) as [Hp Hl]. cbn [fst snd] in *.
    assert (Hr : forall x, In x l -> Permutation (argsort (snd x)) (zrange 0 (zlen (snd x))) /\ next < zlen (snd x)) by (intros x Hx; apply H; right; exact Hx).
    replace (negb (ds_prev_chord s =? prev) || negb (ds_key s =? key)) with (negb ((ds_key s =? key) && (ds_prev_chord s =? prev))) by (destruct (ds_key s =? key), (ds_prev_chord s =? prev); reflexivity).
    destruct ((ds_key s =? key) && (ds_prev_chord s =? prev)); cbn [negb andb].
    2:{ rewrite (IH n g ms Hr), !Z.add_0_l. reflexivity. }
    assert (Hin : In next (argsort prior)) by (apply (Permutation_in next (Permutation_sym Hp)), in_zrange; lia).
    destruct (py_nth_in_range prior next ltac:(lia)) as (p & Ep & Np). rewrite Ep. cbn [bind]. rewrite (index_place _ _ Hin). cbn [bind].
    rewrite (place_first _ _ Hin). rewrite (nth_error_nth _ _ 0%Q Np). destruct (Z.of_nat (place (argsort prior) next) =? 0).
    + rewrite (IH _ _ _ Hr), !Z.add_assoc, <- app_assoc. reflexivity.
    + rewrite (top_down argsort next prior mx Hm Hp). cbn [bind]. rewrite (IH _ _ _ Hr), !Z.add_assoc, Z.add_0_r, <- !app_assoc. reflexivity.
Qed.
Lemma prior_loop_out key prev next : forall l n g ms,
  (forall x, In x l -> zlen (snd x) <= next) -> existsb (counted' key prev) l = true ->
  prior_loop argsort mx mx2 (Some (key, prev, next)) l (n, g, ms) = Raise IndexError.
Proof.
  induction l as [|[s prior] l IH]; intros n g ms H E; [discriminate|]. cbn [prior_loop existsb fst snd] in *.
  replace (negb (ds_prev_chord s =? prev) || negb (ds_key s =? key)) with (negb ((ds_key s =? key) && (ds_prev_chord s =? prev))) by (destruct (ds_key s =? key), (ds_prev_chord s =? prev); reflexivity).
  destruct ((ds_key s =? key) && (ds_prev_chord s =? prev)); cbn [negb orb] in *.
  - rewrite py_nth_out; [reflexivity|]. right. exact (H (s, prior) (or_introl eq_refl)).
  - apply IH; [|exact E]. intros x Hx. apply H. right. exact Hx.
Qed.
Lemma prior_loop_plain : forall l n g ms, (forall x, In x l -> Permutation (argsort (snd x)) (zrange 0 (zlen (snd x)))) ->
  exists st, prior_loop argsort mx mx2 None l (n, g, ms) = Ok st.
Proof.
  induction l as [|[s prior] l IH]; intros n g ms H; [eexists; reflexivity|]. cbn [prior_loop bind].
  destruct (top_total argsort [] prior (py_slice (argsort prior) 0 (Z.min mx (mx2 + 1))) 0) as (top & Et & _).
  { intros z Hz. apply py_slice_incl in Hz. apply (Permutation_in z (H _ (or_introl eq_refl))) in Hz. apply in_zrange in Hz. exact Hz. }
  rewrite Et. cbn [bind]. apply IH. intros x Hx. apply H. right. exact Hx.
Qed.
End Nexts.
Lemma classify_plain {Chord} (encode : Chord -> res Z) argsort mx : forall l n g ms, (forall x, In x l -> fst (fst x) <= snd (fst x)) ->
  classify_loop encode argsort mx None l (n, g, ms) = Ok (n, g, ms).
Proof.
  induction l as [|[[a b] probs] l IH]; intros n g ms H; [reflexivity|]. cbn [classify_loop]. unfold classify_range.
  specialize (H _ (or_introl eq_refl)) as H1. cbn [fst snd] in H1. destruct (b <? a) eqn:E; [apply Z.ltb_lt in E; lia|].
  cbn. apply IH. intros x Hx. apply H. right. exact Hx.
Qed.

Lemma slice_last (l : list Z) k v : (0 < k)%nat -> (k < List.length l)%nat -> nth_error l (k - 1) = Some v ->
  py_nth (py_slice l (Z.max 0 (Z.of_nat k - 5)) (Z.of_nat k)) (-1) = Ok v.
Proof.
  intros Hk HL Hv. unfold py_slice, py_bound, zlen.
  destruct (Z.max 0 (Z.of_nat k - 5) <? 0) eqn:E1; [apply Z.ltb_lt in E1; lia|]. destruct (Z.of_nat k <? 0) eqn:E2; [apply Z.ltb_lt in E2; lia|].
  set (a := Z.to_nat (Z.max 0 (Z.min (Z.of_nat (List.length l)) (Z.max 0 (Z.of_nat k - 5))))). 
  assert (Ha : (a < k)%nat) by (unfold a; lia).
  match goal with |- py_nth (firstn ?m _) _ = _ => set (n := m) end.
  assert (Hn : n = (k - a)%nat) by (unfold n, a; lia). clearbody n a. subst n.
  assert (L1 : List.length (firstn (k - a) (skipn a l)) = (k - a)%nat) by (rewrite firstn_length, skipn_length; lia).
  unfold py_nth, zlen. rewrite L1. cbn [Z.ltb Z.compare]. destruct ((-1 + Z.of_nat (k - a) <? 0) || (Z.of_nat (k - a) <=? -1 + Z.of_nat (k - a))) eqn:E; [lia|].
  replace (Z.to_nat (-1 + Z.of_nat (k - a))) with (k - a - 1)%nat by lia.
  replace (nth_error (firstn (k - a) (skipn a l)) (k - a - 1)) with (Some v); [reflexivity|].
  rewrite <- Hv. symmetry.
  replace (k - 1)%nat with (a + (k - a - 1))%nat by lia. 
  assert (G : forall (m : nat) (l : list Z) j, (j < m)%nat -> nth_error (firstn m l) j = nth_error l j).
  { clear. induction m as [|m IH]; intros l j Hj; [lia|]. destruct l as [|x l]; [now destruct j|]. destruct j as [|j]; [reflexivity|]. cbn. apply IH. lia. }
  rewrite G by lia. generalize (k - a - 1)%nat as j. clear. intros j. revert l. induction a as [|a IH]; intros l; [reflexivity|]. destruct l as [|x l]; [cbn [skipn]; cbn; now destruct j|]. cbn [skipn Nat.add nth_error]. apply IH.
Qed.

(* ---- debug_key_sequences ---- *)
Section KeySequences.
Variable argsort : list Q -> list Z.
Variable mx : Z.
Notation here key := (fun x : debug_state * list Q => ds_key (fst x) =? key).
Notation chord_here key chord := (fun x : debug_state * list Q => (ds_key (fst x) =? key) && (ds_chord (fst x) =? chord)).
Notation first change := (fun x : debug_state * list Q => match argsort (snd x) with b :: _ => b =? change | [] => false end).
Lemma sequence_loop_spec key change chord : 0 <= mx -> 0 <= change -> forall l n nc g gc ms,
  (forall x, In x l -> Permutation (argsort (snd x)) (zrange 0 (zlen (snd x))) /\ change < zlen (snd x)) ->
  sequence_loop argsort mx (Some (key, change, chord)) l (mkKc n nc g gc ms) =
    Ok (mkKc (n + count (here key) l) (nc + count (chord_here key chord) l)
             (g + count (fun x => here key x && first change x) l) (gc + count (fun x => chord_here key chord x && first change x) l)
             (ms ++ flat_map (fun x => if here key x && negb (first change x) then
                 KeyState (ds_key (fst x)) (ds_prev_chord (fst x)) (ds_chord (fst x))
                 :: CorrectKey change (nth (Z.to_nat change) (snd x) 0%Q) (Z.of_nat (place (argsort (snd x)) change))
                 :: down_to mx (argsort (snd x)) (snd x) change
               else []) l)).
Proof.
  intros Hm Hn. induction l as [|[s prior] l IH]; intros n nc g gc ms H.
  - cbn. rewrite !Z.add_0_r, app_nil_r. reflexivity.
  - cbn [sequence_loop flat_map]. rewrite !count_cons. cbn [fst snd]. destruct (H (s, prior) (or_introl eq_refl)) as [Hp Hl]. cbn [fst snd] in *.
    assert (Hr : forall x, In x l -> Permutation (argsort (snd x)) (zrange 0 (zlen (snd x))) /\ change < zlen (snd x)) by (intros x Hx; apply H; right; exact Hx).
    rewrite (Z.eqb_sym key). destruct (ds_key s =? key); cbn [negb andb].
    2:{ rewrite (IH n nc g gc ms Hr), !Z.add_0_l. reflexivity. }
    assert (Hin : In change (argsort prior)) by (apply (Permutation_in change (Permutation_sym Hp)), in_zrange; lia).
    destruct (py_nth_in_range prior change ltac:(lia)) as (p & Ep & Np). rewrite Ep. cbn [bind]. rewrite (index_place _ _ Hin). cbn [bind].
    rewrite (place_first _ _ Hin), (Z.eqb_sym chord), (nth_error_nth _ _ 0%Q Np). cbn [kc_total kc_chord kc_good kc_chord_good kc_said].
    destruct (Z.of_nat (place (argsort prior) change) =? 0); cbn [negb app].
    + rewrite andb_true_r, (IH _ _ _ _ _ Hr), !Z.add_assoc. reflexivity.
    + rewrite andb_false_r, (top_down argsort change prior mx Hm Hp). cbn [bind]. rewrite (IH _ _ _ _ _ Hr), !Z.add_assoc, !Z.add_0_r, <- !app_assoc. reflexivity.
Qed.
Lemma sequence_loop_plain : forall l st, (forall x, In x l -> Permutation (argsort (snd x)) (zrange 0 (zlen (snd x)))) ->
  exists st', sequence_loop argsort mx None l st = Ok st'.
Proof.
  induction l as [|[s prior] l IH]; intros st H; [eexists; reflexivity|]. cbn [sequence_loop bind].
  destruct (top_total argsort [] prior (py_slice (argsort prior) 0 (Z.min mx (mx + 1))) 0) as (top & Et & _).
  { intros z Hz. apply py_slice_incl in Hz. apply (Permutation_in z (H _ (or_introl eq_refl))) in Hz. apply in_zrange in Hz. exact Hz. }
  rewrite Et. cbn [bind]. apply IH. intros x Hx. apply H. right. exact Hx.
Qed.
End KeySequences.
