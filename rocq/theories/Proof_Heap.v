From Verif Require Import Model_Heap Proof_Base.
From Coq Require Import Permutation.
Ltac Zify.zify_post_hook ::= Z.div_mod_to_equations.
Open Scope nat_scope.

Section HeapProofs.
Context {A : Type} (score : A -> Z) (lt : A -> A -> bool).
Hypothesis lt_score : forall a b, lt a b = (score a <? score b)%Z.

Variable d : A.
Notation "h .[ i ]" := (nth i h d) (at level 2, format "h .[ i ]").

(* min-heap: no element is smaller than its parent *)
Definition is_heap (h : list A) : Prop :=
  forall i, 0 < i < length h -> (score (nth ((i - 1) / 2) h d) <= score (nth i h d))%Z.

Lemma hget_ok h i : i < length h -> hget h i = Ok (nth i h d).
Proof. intros H. unfold hget. rewrite (nth_error_nth' h d H). reflexivity. Qed.

Lemma nth_upd (h : list A) i j v : i < length h ->
  nth j (upd_nat h i v) d = if i =? j then v else nth j h d.
Proof. apply nth_upd_nat. Qed.

(* permutations *)
Lemma perm_upd (h : list A) i v : i < length h ->
  Permutation (nth i h d :: upd_nat h i v) (v :: h).
Proof.
  revert i; induction h as [|x h IH]; intros i H; simpl in H; [lia|].
  destruct i; simpl; [apply perm_swap|].
  rewrite perm_swap. etransitivity; [apply perm_skip, IH; lia|]. apply perm_swap.
Qed.

Lemma perm_move (h : list A) i j v : i < length h -> j < length h -> i <> j ->
  Permutation (upd_nat (upd_nat h i (nth j h d)) j v) (upd_nat h i v).
Proof.
  intros Hi Hj Hij.
  set (h1 := upd_nat h i (nth j h d)).
  assert (L1 : j < length h1) by (unfold h1; rewrite upd_nat_length; exact Hj).
  assert (E : nth j h1 d = nth j h d).
  { unfold h1. rewrite nth_upd by exact Hi. destruct (Nat.eqb_spec i j); [lia|reflexivity]. }
  pose proof (perm_upd h1 j v L1) as P1. rewrite E in P1.
  pose proof (perm_upd h i (nth j h d) Hi) as P2. fold h1 in P2.
  pose proof (perm_upd h i v Hi) as P3.
  (* nth i :: h1 ~ nth j :: h ; nth j :: upd h1 j v ~ v :: h1 ; nth i :: upd h i v ~ v :: h *)
  apply (Permutation_cons_inv (a := nth j h d)).
  etransitivity; [exact P1|].
  apply (Permutation_cons_inv (a := nth i h d)).
  etransitivity; [apply perm_swap|].
  etransitivity; [apply perm_skip, P2|].
  etransitivity; [apply perm_swap|].
  etransitivity; [apply perm_skip; symmetry; exact P3|]. apply perm_swap.
Qed.

Lemma upd_same (h : list A) i : i < length h -> upd_nat h i (nth i h d) = h.
Proof. revert i; induction h as [|x h IH]; intros i H; simpl in H; [lia|]. destruct i; simpl; [reflexivity|]. rewrite IH by lia. reflexivity. Qed.

(* hole at pos, to be filled with x *)
Record hole (h : list A) (pos : nat) : Prop := {
  hole_rest : forall i, 0 < i < length h -> i <> pos -> (i - 1) / 2 <> pos ->
      (score (nth ((i - 1) / 2) h d) <= score (nth i h d))%Z;
  hole_grand : 0 < pos -> forall c, c < length h -> 0 < c -> (c - 1) / 2 = pos ->
      (score (nth ((pos - 1) / 2) h d) <= score (nth c h d))%Z
}.

Lemma siftdown_loop_correct fuel h pos x :
  pos < fuel -> pos < length h -> hole h pos ->
  (forall c, 0 < c < length h -> (c - 1) / 2 = pos -> (score x <= score (nth c h d))%Z) ->
  exists h', siftdown_loop lt fuel h 0 pos x = Ok h' /\ is_heap h'
    /\ Permutation h' (upd_nat h pos x) /\ length h' = length h.
Proof.
  revert h pos; induction fuel as [|fuel IH]; intros h pos Hf Hp [Ha Hc] Hb; [lia|].
  cbn [siftdown_loop].
  assert (Hend : (0 < pos -> (score (nth ((pos - 1) / 2) h d) <= score x)%Z) ->
    is_heap (upd_nat h pos x)).
  { intros Hpar i Hi. rewrite upd_nat_length in Hi. rewrite !nth_upd by exact Hp.
    destruct (Nat.eqb_spec pos ((i - 1) / 2)) as [E1|E1]; destruct (Nat.eqb_spec pos i) as [E2|E2].
    - lia.
    - apply Hb; [lia|congruence].
    - subst i. apply Hpar. lia.
    - apply Ha; [lia|congruence|congruence]. }
  destruct (Nat.ltb_spec 0 pos) as [H0|H0].
  - set (par := (pos - 1) / 2) in *. assert (Hpar : par < pos) by (unfold par; lia).
    rewrite hget_ok by lia. cbn [bind].
    rewrite lt_score. destruct (score x <? score (nth par h d))%Z eqn:E.
    + destruct (IH (upd_nat h pos (nth par h d)) par) as (h' & E' & Hh & HP & HL).
      * lia.
      * rewrite upd_nat_length. lia.
      * split.
        -- intros i Hi Hn1 Hn2. rewrite upd_nat_length in Hi. rewrite !nth_upd by exact Hp.
           destruct (Nat.eqb_spec pos ((i - 1) / 2)) as [E1|E1]; destruct (Nat.eqb_spec pos i) as [E2|E2].
           ++ lia.
           ++ apply Hc; lia.
           ++ exfalso. subst i. apply Hn2. reflexivity.
           ++ apply Ha; lia.
        -- intros Hpp c Hc1 Hc2 Hc3. rewrite upd_nat_length in Hc1. rewrite !nth_upd by exact Hp.
           destruct (Nat.eqb_spec pos ((par - 1) / 2)) as [E1|E1]; [lia|].
           assert (G : (score (nth ((par - 1) / 2) h d) <= score (nth par h d))%Z).
           { apply Ha; [lia|lia|lia]. }
           destruct (Nat.eqb_spec pos c) as [E2|E2]; [exact G|].
           assert ((score (nth par h d) <= score (nth c h d))%Z).
           { rewrite <- Hc3. apply Ha; [lia|lia|lia]. }
           lia.
      * intros c Hc1 Hc2. rewrite upd_nat_length in Hc1. rewrite nth_upd by exact Hp.
        destruct (Nat.eqb_spec pos c) as [E2|E2]; [lia|].
        assert ((score (nth par h d) <= score (nth c h d))%Z).
        { rewrite <- Hc2. apply Ha; [lia|lia|lia]. }
        lia.
      * exists h'. split; [exact E'|]. split; [exact Hh|]. split.
        -- etransitivity; [exact HP|]. apply perm_move; lia.
        -- rewrite HL, upd_nat_length. reflexivity.
    + eexists. split; [reflexivity|]. split; [apply Hend; lia|]. split; [reflexivity|apply upd_nat_length].
  - eexists. split; [reflexivity|]. split; [apply Hend; lia|]. split; [reflexivity|apply upd_nat_length].
Qed.

Lemma siftup_loop_correct fuel h pos x :
  length h <= pos + fuel -> 0 < fuel -> pos < length h -> hole h pos ->
  exists h', siftup_loop lt fuel h 0 pos x = Ok h' /\ is_heap h'
    /\ Permutation h' (upd_nat h pos x) /\ length h' = length h.
Proof.
  revert h pos; induction fuel as [|fuel IH]; intros h pos Hf H0 Hp [Ha Hc]; [lia|].
  cbn [siftup_loop]. set (c := 2 * pos + 1).
  destruct (Nat.ltb_spec c (length h)) as [Hlt|Hge].
  - rewrite (hget_ok h c) by exact Hlt. cbn [bind].
    assert (K : exists m, (if c + 1 <? length h
                  then let! r := hget h (c + 1) in Ok (if negb (lt (nth c h d) r) then c + 1 else c)
                  else Ok c) = Ok m /\ m < length h /\ 0 < m /\ (m - 1) / 2 = pos
                  /\ pos < m
                  /\ forall i, 0 < i < length h -> (i - 1) / 2 = pos ->
                      (score (nth m h d) <= score (nth i h d))%Z).
    { destruct (Nat.ltb_spec (c + 1) (length h)) as [Hr|Hr].
      - rewrite hget_ok by exact Hr. cbn [bind]. rewrite lt_score.
        destruct (score (nth c h d) <? score (nth (c + 1) h d))%Z eqn:E; cbn [negb].
        + exists c. split; [reflexivity|]. unfold c in *. repeat split; try lia.
          intros i Hi Hp2. assert (i = 2 * pos + 1 \/ i = 2 * pos + 1 + 1) as [->| ->] by lia; lia.
        + exists (c + 1). split; [reflexivity|]. unfold c in *. repeat split; try lia.
          intros i Hi Hp2. assert (i = 2 * pos + 1 \/ i = 2 * pos + 1 + 1) as [->| ->] by lia; lia.
      - exists c. split; [reflexivity|]. unfold c in *. repeat split; try lia.
        intros i Hi Hp2. assert (i = 2 * pos + 1) as -> by lia; lia. }
    destruct K as (m & Em & Hm & Hm0 & Hmp & Hpm & Hmin). rewrite Em. cbn [bind].
    rewrite hget_ok by exact Hm. cbn [bind].
    destruct (IH (upd_nat h pos (nth m h d)) m) as (h' & E' & Hh & HP & HL).
    + rewrite upd_nat_length. lia.
    + lia.
    + rewrite upd_nat_length. lia.
    + split.
      * intros i Hi Hn1 Hn2. rewrite upd_nat_length in Hi. rewrite !nth_upd by exact Hp.
        destruct (Nat.eqb_spec pos ((i - 1) / 2)) as [E1|E1]; destruct (Nat.eqb_spec pos i) as [E2|E2].
        -- lia.
        -- apply Hmin; lia.
        -- subst i. apply Hc; lia.
        -- apply Ha; lia.
      * intros _ k Hk1 Hk2 Hk3. rewrite upd_nat_length in Hk1. rewrite !nth_upd by exact Hp.
        rewrite Hmp. rewrite Nat.eqb_refl.
        destruct (Nat.eqb_spec pos k) as [E2|E2]; [lia|].
        rewrite <- Hk3. apply Ha; lia.
    + exists h'. split; [exact E'|]. split; [exact Hh|]. split.
      * etransitivity; [exact HP|]. apply perm_move; lia.
      * rewrite HL, upd_nat_length. reflexivity.
  - unfold siftdown. rewrite hget_ok by (rewrite upd_nat_length; exact Hp). cbn [bind].
    rewrite nth_upd by exact Hp. rewrite Nat.eqb_refl.
    destruct (siftdown_loop_correct (S pos) (upd_nat h pos x) pos x) as (h' & E' & Hh & HP & HL).
    + lia.
    + rewrite upd_nat_length. exact Hp.
    + split.
      * intros i Hi Hn1 Hn2. rewrite upd_nat_length in Hi. rewrite !nth_upd by exact Hp.
        destruct (Nat.eqb_spec pos ((i - 1) / 2)) as [E1|E1]; [lia|].
        destruct (Nat.eqb_spec pos i) as [E2|E2]; [lia|]. apply Ha; lia.
      * intros _ k Hk1 Hk2 Hk3. rewrite upd_nat_length in Hk1. unfold c in Hge. lia.
    + intros k Hk1 Hk2. rewrite upd_nat_length in Hk1. unfold c in Hge. lia.
    + exists h'. split; [exact E'|]. split; [exact Hh|]. split.
      * etransitivity; [exact HP|].
        replace (upd_nat (upd_nat h pos x) pos x) with (upd_nat h pos x); [reflexivity|].
        clear. revert pos; induction h as [|y h IHh]; intros pos; destruct pos; simpl; try reflexivity.
        rewrite <- IHh. reflexivity.
      * rewrite HL, upd_nat_length. reflexivity.
Qed.

Lemma siftup_root h : 0 < length h ->
  (forall i, 0 < i < length h -> (i - 1) / 2 <> 0 ->
     (score (nth ((i - 1) / 2) h d) <= score (nth i h d))%Z) ->
  exists h', siftup lt h 0 = Ok h' /\ is_heap h' /\ Permutation h' h /\ length h' = length h.
Proof.
  intros Hl H. unfold siftup. rewrite hget_ok by exact Hl. cbn [bind].
  destruct (siftup_loop_correct (S (length h)) h 0 (nth 0 h d)) as (h' & E & Hh & HP & HL).
  - lia.
  - lia.
  - exact Hl.
  - split; [intros i Hi _ Hn; apply H; assumption|intros; lia].
  - exists h'. rewrite upd_same in HP by exact Hl. auto.
Qed.

Theorem heappush_correct h x : is_heap h ->
  exists h', heappush lt h x = Ok h' /\ is_heap h' /\ Permutation h' (x :: h).
Proof.
  intros Hh. unfold heappush, siftdown.
  set (g := h ++ [x]). assert (Lg : length g = S (length h)) by (unfold g; rewrite app_length; simpl; lia).
  rewrite hget_ok by lia. cbn [bind].
  assert (Ex : nth (length h) g d = x).
  { unfold g. rewrite app_nth2 by lia. rewrite Nat.sub_diag. reflexivity. }
  rewrite Ex.
  assert (Eg : forall i, i < length h -> nth i g d = nth i h d) by (intros; unfold g; apply app_nth1; lia).
  destruct (siftdown_loop_correct (S (length h)) g (length h) x) as (h' & E & Hh' & HP & HL).
  - lia.
  - lia.
  - split.
    + intros i Hi Hn1 Hn2. rewrite !Eg by lia. apply Hh. lia.
    + intros _ c Hc1 Hc2 Hc3. lia.
  - intros c Hc1 Hc2. lia.
  - exists h'. split; [exact E|]. split; [exact Hh'|].
    etransitivity; [exact HP|].
    rewrite <- Ex. rewrite upd_same by lia. rewrite Ex. unfold g. symmetry. apply Permutation_cons_append.
Qed.

Lemma heap_min h a r : is_heap h -> h = a :: r ->
  forall x, In x h -> (score a <= score x)%Z.
Proof.
  clear lt_score lt. intros Hh Eh. 
  assert (K : forall n i, i <= n -> i < length h -> (score (nth 0 h d) <= score (nth i h d))%Z).
  { induction n as [|n IH]; intros i Hi Hl; [assert (i = 0) by lia; subst; lia|].
    destruct (Nat.eq_dec i 0) as [->|Hn]; [lia|].
    specialize (Hh i ltac:(lia)). specialize (IH ((i - 1) / 2) ltac:(lia) ltac:(lia)). lia. }
  intros x Hx. destruct (In_nth h x d Hx) as (i & Hi & <-).
  specialize (K i i (le_n i) Hi). subst h. exact K.
Qed.

Theorem heappop_correct h a r : is_heap h -> h = a :: r ->
  exists h', heappop lt h = Ok (a, h') /\ is_heap h' /\ Permutation (a :: h') h.
Proof.
  intros Hh Eh. unfold heappop.
  destruct (@exists_last _ h) as (g & z & Eg); [subst; discriminate|].
  rewrite Eg, rev_app_distr. cbn [rev app]. rewrite rev_involutive.
  destruct g as [|b g].
  - rewrite Eg in Eh. simpl in Eh. injection Eh as -> <-.
    exists []. split; [reflexivity|]. split; [intros i Hi; simpl in Hi; lia|]. reflexivity.
  - assert (b = a) as -> by (rewrite Eg in Eh; injection Eh as ->; reflexivity).
    set (g1 := upd_nat (a :: g) 0 z).
    assert (Hl : length h = S (length (a :: g))) by (rewrite Eg, app_length; simpl; lia).
    assert (Lg : length g1 = length (a :: g)) by (unfold g1; apply upd_nat_length).
    destruct (siftup_root g1) as (h' & E & Hh' & HP & _).
    + rewrite Lg; simpl; lia.
    + intros i Hi Hn. rewrite Lg in Hi. unfold g1. rewrite !nth_upd by (simpl; lia).
      destruct (Nat.eqb_spec 0 ((i - 1) / 2)); [lia|]. destruct (Nat.eqb_spec 0 i); [lia|].
      assert (Ei : forall k, k < length (a :: g) -> nth k (a :: g) d = nth k h d).
      { intros k Hk. rewrite Eg, app_nth1 by exact Hk. reflexivity. }
      rewrite !Ei by lia. apply Hh. lia.
    + rewrite E. cbn [bind]. exists h'. split; [reflexivity|]. split; [exact Hh'|].
      rewrite HP. unfold g1. simpl upd_nat. rewrite <- Eg in *. rewrite Eg. 
      change ((a :: g) ++ [z]) with (a :: (g ++ [z])). apply perm_skip, Permutation_cons_append.
Qed.

Theorem heappushpop_correct h a r x : is_heap h -> h = a :: r -> (score a < score x)%Z ->
  exists h', heappushpop lt h x = Ok (a, h') /\ is_heap h' /\ Permutation (a :: h') (x :: h).
Proof.
  intros Hh -> Hlt. unfold heappushpop. rewrite lt_score.
  destruct (score a <? score x)%Z eqn:E; [|lia].
  destruct (siftup_root (upd_nat (a :: r) 0 x)) as (h' & E' & Hh' & HP & _).
  - rewrite upd_nat_length; simpl; lia.
  - intros i Hi Hn. rewrite upd_nat_length in Hi. rewrite !nth_upd by (simpl; lia).
    destruct (Nat.eqb_spec 0 ((i - 1) / 2)); [lia|]. destruct (Nat.eqb_spec 0 i); [lia|].
    apply Hh. lia.
  - rewrite E'. cbn [bind]. exists h'. split; [reflexivity|]. split; [exact Hh'|].
    rewrite HP. simpl. apply perm_swap.
Qed.

(* pushing changes the first element only to the pushed item *)
Lemma siftdown_loop_head fuel : forall h pos x h', pos < length h ->
  siftdown_loop lt fuel h 0 pos x = Ok h' -> nth 0 h' d = x \/ (0 < pos /\ nth 0 h' d = nth 0 h d).
Proof.
  clear lt_score.
  induction fuel as [|fuel IH]; intros h pos x h' Hp E; cbn [siftdown_loop] in E; [discriminate|].
  destruct (Nat.ltb_spec 0 pos) as [H0|H0].
  - rewrite hget_ok in E by lia. cbn [bind] in E.
    destruct (lt x (nth ((pos - 1) / 2) h d)).
    + apply IH in E; [|rewrite upd_nat_length; lia]. destruct E as [E|[Hq E]]; [left; exact E|right].
      split; [exact H0|]. rewrite E, nth_upd by exact Hp. destruct (Nat.eqb_spec pos 0); [lia|reflexivity].
    + apply Ok_inj in E. subst h'. right. split; [exact H0|]. rewrite nth_upd by exact Hp.
      destruct (Nat.eqb_spec pos 0); [lia|reflexivity].
  - apply Ok_inj in E. subst h'. left. rewrite nth_upd by exact Hp.
    destruct (Nat.eqb_spec pos 0); [reflexivity|lia].
Qed.
Lemma heappush_head h x h' a r : heappush lt h x = Ok h' -> h' = a :: r ->
  a = x \/ exists r0, h = a :: r0.
Proof.
  clear lt_score.
  unfold heappush, siftdown. intros E ->.
  assert (Lg : length (h ++ [x]) = S (length h)) by (rewrite app_length; simpl; lia).
  rewrite hget_ok in E by lia. cbn [bind] in E.
  apply siftdown_loop_head in E; [|lia].
  rewrite app_nth2 in E by lia. rewrite Nat.sub_diag in E. simpl in E.
  destruct E as [E|[Hp E]]; [left; exact E|right].
  destruct h as [|b h]; [simpl in Hp; lia|]. simpl in E. subst b. exists h. reflexivity.
Qed.

Lemma is_heap_nil : is_heap [].
Proof. clear lt_score lt. intros i Hi. simpl in Hi. lia. Qed.
End HeapProofs.
