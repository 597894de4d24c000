From Verif Require Import Spec_Search Proof_Base Proof_Search.
Open Scope Z_scope.

Lemma get_chords_eq s : get_chords s = match st_prev s with
  | None => ([], [st_change s])
  | Some p => let (chords, changes) := get_chords p in (chords ++ [st_chord s], changes ++ [st_change s]) end.
Proof. destruct s; reflexivity. Qed.
Lemma get_keys_eq s : get_keys s = match st_prev s with
  | None => ([], [st_change s])
  | Some p =>
      let (keys, changes) := get_keys p in
      match rev keys with
      | [] => (keys ++ [st_key s], changes ++ [st_change s])
      | k :: _ => if st_key s =? k then (keys, set_last changes (st_change s))
                  else (keys ++ [st_key s], changes ++ [st_change s])
      end end.
Proof. destruct s; reflexivity. Qed.
Lemma steps_of_eq s : steps_of s = match st_prev s with None => [] | Some p => steps_of p ++ [(p, s)] end.
Proof. destruct s; reflexivity. Qed.
Lemma newest_eq s : newest s = (Some (st_key s), st_chord s) :: match st_prev s with None => [] | Some p => newest p end.
Proof. destruct s; reflexivity. Qed.

(* ---- segmentations ---- *)
Lemma nth_error_snoc {A} (l : list A) x k : nth_error (l ++ [x]) k =
  if (k =? length l)%nat then Some x else nth_error l k.
Proof.
  destruct (Nat.eqb_spec k (length l)) as [->|Hne].
  - rewrite nth_error_app2, Nat.sub_diag by lia. reflexivity.
  - destruct (Nat.lt_ge_cases k (length l)); [rewrite nth_error_app1 by lia; reflexivity|].
    rewrite nth_error_app2 by lia. replace (nth_error l k) with (@None A) by (symmetry; apply nth_error_None; lia).
    apply nth_error_None. cbn [length]. lia.
Qed.
Lemma segmentation_snoc {A} (l : list A) ch a b x : segmentation l ch a -> (a < b)%nat ->
  segmentation (l ++ [x]) (ch ++ [b]) b.
Proof.
  intros (H1 & H2 & H3 & H4) Hab. split; [rewrite !app_length; cbn [length]; lia|]. split; [|split].
  - rewrite nth_error_app1 by lia. exact H2.
  - rewrite app_length, nth_error_snoc. cbn [length]. rewrite H1, Nat.add_1_r, Nat.eqb_refl. reflexivity.
  - intros k x0 y0. rewrite !nth_error_snoc. destruct (Nat.eqb_spec k (length ch)) as [->|Hk].
    + intros _. replace (S (length ch) =? length ch)%nat with false by (symmetry; apply Nat.eqb_neq; lia).
      intros E. apply nth_error_Some in E as E' || idtac.
      assert (S (length ch) < length ch)%nat by (apply nth_error_Some; congruence). lia.
    + destruct (Nat.eqb_spec (S k) (length ch)) as [Ek|Hk'].
      * intros Ex [= <-]. assert (k = length l) by lia. subst k. rewrite H3 in Ex. congruence.
      * intros Ex Ey. exact (H4 k _ _ Ex Ey).
Qed.
Lemma labelled_snoc {A} (l : list A) ch a b x i y : segmentation l ch a -> (a < b)%nat ->
  (labelled (l ++ [x]) (ch ++ [b]) i y <-> labelled l ch i y \/ ((a <= i < b)%nat /\ y = x)).
Proof.
  intros (H1 & H2 & H3 & H4) Hab. unfold labelled. split.
  - intros (k & u & v & E1 & E2 & E3 & Hi). rewrite nth_error_snoc in E1. rewrite nth_error_snoc in E2. rewrite nth_error_snoc in E3.
    destruct (Nat.eqb_spec k (length l)) as [->|Hk].
    + right. injection E1 as ->. replace (length l =? length ch)%nat with false in E2 by (symmetry; apply Nat.eqb_neq; lia).
      rewrite <- H1, Nat.eqb_refl in E3. rewrite H3 in E2. injection E2 as <-. injection E3 as <-. auto.
    + left. assert (k < length l)%nat by (apply nth_error_Some; congruence).
      replace (k =? length ch)%nat with false in E2 by (symmetry; apply Nat.eqb_neq; lia).
      replace (S k =? length ch)%nat with false in E3 by (symmetry; apply Nat.eqb_neq; lia).
      exists k, u, v. auto.
  - intros [(k & u & v & E1 & E2 & E3 & Hi)|[Hi ->]].
    + assert (k < length l)%nat by (apply nth_error_Some; congruence).
      exists k, u, v. rewrite !nth_error_app1 by lia. auto.
    + exists (length l), a, b. rewrite !nth_error_snoc, Nat.eqb_refl.
      replace (length l =? length ch)%nat with false by (symmetry; apply Nat.eqb_neq; lia).
      rewrite <- H1, Nat.eqb_refl. auto.
Qed.
Lemma no_adjacent_snoc {A} (l : list A) x : no_adjacent_equal l ->
  (forall y r, l = r ++ [y] -> y <> x) -> no_adjacent_equal (l ++ [x]).
Proof.
  intros Hl Hx k a b. rewrite !nth_error_snoc. destruct (Nat.eqb_spec k (length l)) as [->|Hk].
  - replace (S (length l) =? length l)%nat with false by (symmetry; apply Nat.eqb_neq; lia).
    intros _ E. assert (S (length l) < length l)%nat by (apply nth_error_Some; congruence). lia.
  - destruct (Nat.eqb_spec (S k) (length l)) as [Ek|Hk'].
    + intros Ea [= <-]. destruct (nth_error_split l k Ea) as (l1 & l2 & -> & El).
      rewrite app_length in Ek. cbn [length] in Ek. destruct l2; [|cbn [length] in Ek; lia].
      exact (Hx a l1 eq_refl).
    + apply Hl.
Qed.
Lemma segmentation_nil {A} : segmentation (@nil A) [0%nat] 0.
Proof. split; [reflexivity|]. split; [reflexivity|]. split; [reflexivity|]. intros k a b H1 H2. destruct k as [|[|k]]; discriminate. Qed.
Lemma no_adjacent_nil {A} : no_adjacent_equal (@nil A).
Proof. intros k x y H. destruct k; discriminate. Qed.
Lemma labelled_nil {A} i (x : A) : ~ labelled [] [0%nat] i x.
Proof. intros (k & a & b & H & _). destruct k; discriminate. Qed.

(* set_last on a segmentation *)
Lemma set_last_snoc {A} (l : list A) x y : set_last (l ++ [x]) y = l ++ [y].
Proof. unfold set_last. rewrite removelast_last. reflexivity. Qed.

Section Paths.
Variables (g : search_cfg) (o : oracle) (pd : piece_data) (ranges : list range_data).
Notation path := (path g o pd ranges).
Notation link := (link g o pd ranges).

Lemma link_chg p f : link p f -> (st_change p < st_change f)%nat.
Proof. intros H. destruct (lk_chain _ _ _ _ _ _ H) as (c & rs & ws & _ & _ & Hne & Hch & _). exact (chain_of_lt _ _ _ Hch Hne). Qed.

Lemma path_chords s : path s -> let (chords, changes) := get_chords s in
  segmentation chords changes (st_change s) /\ (forall c, In c chords -> exists z, c = Some z)
  /\ no_adjacent_equal chords /\ (forall c r, chords = r ++ [c] -> c = st_chord s)
  /\ (st_prev s = None <-> chords = [])
  /\ (forall i c, labelled chords changes i c <-> exists p f, In (p, f) (steps_of s)
        /\ (st_change p <= i < st_change f)%nat /\ c = st_chord f).
Proof.
  induction 1 as [s Hi|p f Hp IH Hl].
  - rewrite get_chords_eq, steps_of_eq. destruct Hi as (keys & k & t & m & _ & _ & _ & ->). cbn [st_prev st_change].
    split; [apply segmentation_nil|]. split; [intros c []|]. split; [apply no_adjacent_nil|].
    split; [intros c r E; destruct r; discriminate|]. split; [tauto|].
    intros i c. split; [intros H; exfalso; exact (labelled_nil _ _ H)|]. intros (p & f & [] & _).
  - rewrite get_chords_eq, steps_of_eq. assert (Hlt := link_chg _ _ Hl).
    destruct (lk_chain _ _ _ _ _ _ Hl) as (c & rs & ws & E1 & E2 & _).
    rewrite (lk_prev _ _ _ _ _ _ Hl). destruct (get_chords p) as [chords changes]. destruct IH as (H1 & H2 & H3 & H4 & H5 & H6).
    split; [exact (segmentation_snoc _ _ _ _ _ H1 Hlt)|]. split; [|split; [|split; [|split]]].
    + intros x Hx. apply in_app_iff in Hx as [Hx|[<-|[]]]; [exact (H2 x Hx)|]. eexists. exact E1.
    + apply no_adjacent_snoc; [exact H3|]. intros y r E Ey. apply H4 in E. congruence.
    + intros x r E. apply app_inj_tail in E as [_ <-]. reflexivity.
    + split; [discriminate|]. intros E. destruct chords; discriminate.
    + intros i x. rewrite (labelled_snoc _ _ _ _ _ i x H1 Hlt), H6. split.
      * intros [(q & h & Hin & Hi & Hx)|[Hi ->]].
        -- exists q, h. split; [apply in_app_iff; left; exact Hin|auto].
        -- exists p, f. split; [apply in_app_iff; right; left; reflexivity|auto].
      * intros (q & h & Hin & Hi & Hx). apply in_app_iff in Hin as [Hin|[[= <- <-]|[]]]; [left; exists q, h; auto|right; auto].
Qed.

Lemma path_chord_steps s : path s -> let (chords, changes) := get_chords s in
  forall k x a b, nth_error chords k = Some x -> nth_error changes k = Some a -> nth_error changes (S k) = Some b ->
  exists p f, In (p, f) (steps_of s) /\ st_change p = a /\ st_change f = b /\ st_chord f = x.
Proof.
  induction 1 as [s Hi|p f Hp IH Hl].
  - rewrite get_chords_eq. destruct Hi as (keys & k & t & m & _ & _ & _ & ->). cbn [st_prev].
    intros [|j] x a b E; discriminate.
  - assert (Hc := path_chords p Hp). rewrite get_chords_eq, steps_of_eq, (lk_prev _ _ _ _ _ _ Hl).
    destruct (get_chords p) as [chords changes]. destruct Hc as ((L1 & _ & L3 & _) & _).
    intros k x a b. rewrite !nth_error_snoc. destruct (Nat.eqb_spec k (length chords)) as [->|Hk].
    + intros [= <-]. replace (length chords =? length changes)%nat with false by (symmetry; apply Nat.eqb_neq; lia).
      rewrite <- L1, Nat.eqb_refl, L3. intros [= <-] [= <-]. exists p, f. split; [apply in_app_iff; right; left; reflexivity|auto].
    + intros E1. assert (k < length chords)%nat by (apply nth_error_Some; congruence).
      replace (k =? length changes)%nat with false by (symmetry; apply Nat.eqb_neq; lia).
      replace (S k =? length changes)%nat with false by (symmetry; apply Nat.eqb_neq; lia).
      intros E2 E3. destruct (IH _ _ _ _ E1 E2 E3) as (q & h & Hin & H'). exists q, h. split; [apply in_app_iff; left; exact Hin|exact H'].
Qed.

Lemma path_keys s : path s -> let (keys, changes) := get_keys s in
  segmentation keys changes (st_change s)
  /\ no_adjacent_equal keys /\ (forall c r, keys = r ++ [c] -> c = st_key s)
  /\ (forall i k, labelled keys changes i k <-> exists p f, In (p, f) (steps_of s)
        /\ (st_change p <= i < st_change f)%nat /\ k = st_key f).
Proof.
  induction 1 as [s Hi|p f Hp IH Hl].
  - rewrite get_keys_eq, steps_of_eq. destruct Hi as (keys & k & t & m & _ & _ & _ & ->). cbn [st_prev st_change].
    split; [apply segmentation_nil|]. split; [apply no_adjacent_nil|].
    split; [intros c r E; destruct r; discriminate|].
    intros i c. split; [intros H; exfalso; exact (labelled_nil _ _ H)|]. intros (p & f & [] & _).
  - rewrite get_keys_eq, steps_of_eq. assert (Hlt := link_chg _ _ Hl).
    rewrite (lk_prev _ _ _ _ _ _ Hl). destruct (get_keys p) as [keys changes]. destruct IH as (H1 & H3 & H4 & H6).
    assert (Hsnoc : (forall y r, keys = r ++ [y] -> y <> st_key f) ->
      segmentation (keys ++ [st_key f]) (changes ++ [st_change f]) (st_change f)
      /\ no_adjacent_equal (keys ++ [st_key f]) /\ (forall c r, keys ++ [st_key f] = r ++ [c] -> c = st_key f)
      /\ (forall i k, labelled (keys ++ [st_key f]) (changes ++ [st_change f]) i k <->
           exists p0 f0, In (p0, f0) (steps_of p ++ [(p, f)]) /\ (st_change p0 <= i < st_change f0)%nat /\ k = st_key f0)).
    { intros Hne. split; [exact (segmentation_snoc _ _ _ _ _ H1 Hlt)|]. split; [|split].
      + apply no_adjacent_snoc; [exact H3|exact Hne].
      + intros x r E. apply app_inj_tail in E as [_ <-]. reflexivity.
      + intros i x. rewrite (labelled_snoc _ _ _ _ _ i x H1 Hlt), H6. split.
        * intros [(q & h & Hin & Hi & Hx)|[Hi ->]].
          -- exists q, h. split; [apply in_app_iff; left; exact Hin|auto].
          -- exists p, f. split; [apply in_app_iff; right; left; reflexivity|auto].
        * intros (q & h & Hin & Hi & Hx). apply in_app_iff in Hin as [Hin|[[= <- <-]|[]]]; [left; exists q, h; auto|right; auto]. }
    destruct (rev keys) as [|k kr] eqn:Er.
    + apply Hsnoc. intros y r ->. rewrite rev_app_distr in Er. discriminate.
    + assert (Ek : keys = rev kr ++ [k]) by (rewrite <- (rev_involutive keys), Er; reflexivity).
      destruct (Z.eqb_spec (st_key f) k) as [Eq|Hne].
      * (* same key: the last change moves *)
        destruct (exists_last (l := changes)) as (ch & a & Ech).
        { intros ->. destruct H1 as [H1 _]. cbn [length] in H1. lia. }
        subst changes. rewrite set_last_snoc. destruct H1 as (L1 & L2 & L3 & L4).
        rewrite app_length in L1. cbn [length] in L1. assert (Elen : length ch = length keys) by lia.
        assert (Ea : a = st_change p).
        { rewrite nth_error_snoc, Elen, Nat.eqb_refl in L3. congruence. }
        subst a. assert (Hkpos : (0 < length keys)%nat) by (rewrite Ek, app_length; cbn [length]; lia).
        split; [|split; [exact H3|split; [intros c r E; rewrite Eq, Ek in *; apply app_inj_tail in E as [_ <-]; reflexivity|]]].
        -- split; [rewrite app_length; cbn [length]; lia|]. split; [|split].
           ++ rewrite nth_error_app1 in L2 |- * by lia. exact L2.
           ++ rewrite nth_error_snoc, Elen, Nat.eqb_refl. reflexivity.
           ++ intros j u v. rewrite !nth_error_snoc. specialize (L4 j). rewrite !nth_error_snoc in L4.
              destruct (Nat.eqb_spec j (length ch)) as [Hj0|Hj].
              { rewrite Hj0. intros _. replace (S (length ch) =? length ch)%nat with false by (symmetry; apply Nat.eqb_neq; lia).
                intros E. assert (S (length ch) < length ch)%nat by (apply nth_error_Some; congruence). lia. }
              destruct (Nat.eqb_spec (S j) (length ch)) as [Ej|Hj']; [|apply L4].
              intros Eu [= <-]. specialize (L4 u (st_change p) Eu eq_refl). lia.
        -- (* labels *)
           assert (Hold : forall i x, labelled keys (ch ++ [st_change p]) i x \/ ((st_change p <= i < st_change f)%nat /\ x = k)
                     <-> labelled keys (ch ++ [st_change f]) i x).
           { intros i x. split.
             - intros [(j & u & v & E1 & E2 & E3 & Hi)|[Hi ->]].
               + assert (j < length keys)%nat by (apply nth_error_Some; congruence).
                 rewrite nth_error_app1 in E2 by lia. rewrite nth_error_snoc in E3.
                 destruct (Nat.eqb_spec (S j) (length ch)) as [Ej|Hj].
                 * injection E3 as <-. exists j, u, (st_change f). rewrite nth_error_app1 by lia. rewrite nth_error_snoc, Ej, Nat.eqb_refl.
                   split; [exact E1|]. split; [exact E2|]. split; [reflexivity|]. lia.
                 * exists j, u, v. rewrite nth_error_app1 by lia. rewrite nth_error_snoc.
                   destruct (Nat.eqb_spec (S j) (length ch)); [lia|]. auto.
               + (* in the new interval *)
                 assert (Hlast : nth_error keys (length keys - 1) = Some k).
                 { rewrite Ek, app_length. cbn [length]. rewrite nth_error_app2 by lia.
                   replace (length (rev kr) + 1 - 1 - length (rev kr))%nat with 0%nat by lia. reflexivity. }
                 destruct (nth_error (ch ++ [st_change p]) (length keys - 1)) as [u|] eqn:Eu.
                 2: { apply nth_error_None in Eu. rewrite app_length in Eu. cbn [length] in Eu. lia. }
                 assert (Hu : (u < st_change p)%nat).
                 { apply (L4 (length keys - 1)%nat u (st_change p) Eu).
                   replace (S (length keys - 1)) with (length ch) by lia. rewrite nth_error_snoc, Nat.eqb_refl. reflexivity. }
                 exists (length keys - 1)%nat, u, (st_change f). rewrite nth_error_app1 in Eu |- * by lia.
                 split; [exact Hlast|]. split; [exact Eu|].
                 replace (S (length keys - 1)) with (length ch) by lia. rewrite nth_error_snoc, Nat.eqb_refl. split; [reflexivity|lia].
             - intros (j & u & v & E1 & E2 & E3 & Hi). assert (j < length keys)%nat by (apply nth_error_Some; congruence).
               rewrite nth_error_app1 in E2 by lia. rewrite nth_error_snoc in E3.
               destruct (Nat.eqb_spec (S j) (length ch)) as [Ej|Hj].
               + injection E3 as <-. destruct (Nat.lt_ge_cases i (st_change p)) as [Hip|Hip].
                 * left. exists j, u, (st_change p). rewrite nth_error_app1 by lia. rewrite nth_error_snoc, Ej, Nat.eqb_refl.
                   split; [exact E1|]. split; [exact E2|]. split; [reflexivity|]. lia.
                 * right. split; [lia|]. assert (Ej' : j = (length keys - 1)%nat) by lia. rewrite Ej', Ek, app_length in E1. cbn [length] in E1.
                   rewrite nth_error_app2 in E1 by lia. replace (length (rev kr) + 1 - 1 - length (rev kr))%nat with 0%nat in E1 by lia.
                   cbn in E1. congruence.
               + left. exists j, u, v. rewrite nth_error_app1 by lia. rewrite nth_error_snoc.
                 destruct (Nat.eqb_spec (S j) (length ch)); [lia|]. auto. }
           intros i x. rewrite <- Hold, H6. split.
           ++ intros [(q & h & Hin & Hi & Hx)|[Hi ->]].
              ** exists q, h. split; [apply in_app_iff; left; exact Hin|auto].
              ** exists p, f. split; [apply in_app_iff; right; left; reflexivity|auto].
           ++ intros (q & h & Hin & Hi & Hx). apply in_app_iff in Hin as [Hin|[[= <- <-]|[]]]; [left; exists q, h; auto|right]. subst x. auto.
      * apply Hsnoc. intros y r E. rewrite Ek in E. apply app_inj_tail in E as [_ <-]. congruence.
Qed.

(* every step of the path is a link *)
Lemma path_links s : path s -> forall p f, In (p, f) (steps_of s) -> path p /\ link p f.
Proof.
  induction 1 as [s Hi|p f Hp IH Hl]; intros q h Hin; rewrite steps_of_eq in Hin.
  - destruct Hi as (keys & k & t & m & _ & _ & _ & ->). contradiction.
  - rewrite (lk_prev _ _ _ _ _ _ Hl) in Hin. apply in_app_iff in Hin as [Hin|[[= <- <-]|[]]]; auto.
Qed.
Lemma path_steps_cover s : path s -> forall i, (i < st_change s)%nat ->
  exists p f, In (p, f) (steps_of s) /\ (st_change p <= i < st_change f)%nat.
Proof.
  induction 1 as [s Hi|p f Hp IH Hl]; intros i Hlt.
  - destruct Hi as (keys & k & t & m & _ & _ & _ & ->). cbn [st_change] in Hlt. lia.
  - rewrite steps_of_eq, (lk_prev _ _ _ _ _ _ Hl). destruct (Nat.lt_ge_cases i (st_change p)) as [Hip|Hip].
    + destruct (IH i Hip) as (q & h & Hin & H). exists q, h. split; [apply in_app_iff; left; exact Hin|exact H].
    + exists p, f. split; [apply in_app_iff; right; left; reflexivity|lia].
Qed.

(* ---- the hash ---- *)
Lemma firstn_snoc_eq {A} (l : list A) x n : (n <= length l)%nat -> firstn n (l ++ [x]) = firstn n l.
Proof. intros H. rewrite firstn_app. replace (n - length l)%nat with 0%nat by lia. cbn [firstn]. apply app_nil_r. Qed.

Lemma firstn_repeat {A} (x : A) n : firstn n (repeat x (S n)) = repeat x n.
Proof. induction n as [|n IH]; [reflexivity|]. cbn [repeat]. rewrite firstn_cons. f_equal. exact IH. Qed.
Lemma rev_repeat' {A} (x : A) n : rev (repeat x n) = repeat x n.
Proof.
  induction n as [|n IH]; [reflexivity|]. cbn [repeat rev]. rewrite IH. clear IH.
  induction n as [|n IH]; [reflexivity|]. cbn [repeat app]. f_equal. exact IH.
Qed.
Lemma recent_length n s : length (recent n s) = n.
Proof. unfold recent. rewrite firstn_length, app_length, repeat_length. lia. Qed.
Lemma recent_step n p f : (1 <= n)%nat -> st_prev f = Some p ->
  recent n f = Some (Some (st_key f), st_chord f) :: removelast (recent n p).
Proof.
  intros Hn E. destruct n as [|n]; [lia|].
  assert (G : removelast (recent (S n) p) = firstn n (map Some (newest p) ++ repeat None (S n))).
  { unfold recent. apply removelast_firstn. rewrite app_length, repeat_length. lia. }
  rewrite G. unfold recent. rewrite (newest_eq f), E. cbn [map]. rewrite <- app_comm_cons, firstn_cons. reflexivity.
Qed.

Lemma path_hash s : path s -> match g_hash_length g with
  | None => st_hash s = None
  | Some L => st_hash s = Some (rev (recent (Z.to_nat (Z.max 1 L)) s)) end.
Proof.
  induction 1 as [s Hi|p f Hp IH Hl].
  - destruct Hi as (keys & k & t & m & _ & _ & _ & ->). cbn [st_hash]. destruct (g_hash_length g) as [L|]; [|reflexivity].
    f_equal. unfold recent. rewrite newest_eq. cbn [st_prev st_key st_chord map].
    set (n := Z.to_nat (Z.max 1 L)). assert (Hn : exists n', n = S n') by (exists (n - 1)%nat; lia). destruct Hn as (n' & En).
    rewrite En. replace (Z.to_nat (L - 1)) with n' by lia. rewrite <- app_comm_cons, firstn_cons, app_nil_l, firstn_repeat.
    cbn [rev]. rewrite rev_repeat'. reflexivity.
  - pose proof (lk_hash _ _ _ _ _ _ Hl) as Hh. unfold hash_link in Hh. destruct (g_hash_length g) as [L|]; [|tauto].
    destruct Hh as (h & E1 & E2). rewrite IH in E1. injection E1 as <-. rewrite E2. f_equal.
    set (n := Z.to_nat (Z.max 1 L)) in *. rewrite (recent_step n p f); [|lia|exact (lk_prev _ _ _ _ _ _ Hl)]. cbn [rev]. f_equal.
    destruct (exists_last (l := recent n p)) as (r & x & Er).
    { intros En. pose proof (recent_length n p) as Hlen. rewrite En in Hlen. cbn [length] in Hlen. lia. }
    rewrite Er, removelast_last, rev_app_distr. cbn [rev app].
    rewrite zlen_cons. pose proof (zlen_nonneg (rev r)) as Hz. rewrite py_slice_spec by lia.
    change (Z.to_nat 1) with 1%nat. cbn [skipn]. apply firstn_all2. unfold zlen. lia.
Qed.
End Paths.

(* ---- forced labels ---- *)
Lemma nth_error_skipn' {A} (l : list A) a k : nth_error (skipn a l) k = nth_error l (a + k).
Proof. revert l. induction a as [|a IH]; intros [|x l]; cbn [skipn Nat.add nth_error]; auto. destruct k; reflexivity. Qed.
Lemma nth_error_firstn_lt {A} (l : list A) n k : (k < n)%nat -> nth_error (firstn n l) k = nth_error l k.
Proof.
  revert n k. induction l as [|x l IH]; intros [|n] [|k] H; cbn [firstn nth_error]; auto; try lia.
  apply IH. lia.
Qed.
Lemma in_py_slice {A} (l : list A) (a b : nat) x : In x (py_slice l (Z.of_nat a) (Z.of_nat b)) <->
  exists i, (a <= i < b)%nat /\ nth_error l i = Some x.
Proof.
  rewrite py_slice_spec by lia. rewrite Nat2Z.id. replace (Z.to_nat (Z.of_nat b - Z.of_nat a)) with (b - a)%nat by lia.
  split.
  - intros H. apply In_nth_error in H as (k & H). exists (a + k)%nat.
    assert (Hk : (k < b - a)%nat).
    { assert (Hk : (k < length (firstn (b - a) (skipn a l)))%nat) by (apply nth_error_Some; congruence). rewrite firstn_length in Hk. lia. }
    split; [lia|]. rewrite nth_error_firstn_lt, nth_error_skipn' in H by exact Hk. exact H.
  - intros (i & Hi & E). apply (nth_error_In _ (i - a)). rewrite nth_error_firstn_lt, nth_error_skipn' by lia.
    replace (a + (i - a))%nat with i by lia. exact E.
Qed.
Lemma in_forced_set l a b x : In x (forced_set l a b) <-> forced_on l a b x.
Proof.
  unfold forced_set, forced_on. rewrite nodup_In, filter_In, in_py_slice, negb_true_iff, Z.eqb_neq. tauto.
Qed.
Lemma pick_some o l k : pick o l = Some k -> In k l.
Proof. unfold pick. apply nth_error_In. Qed.
Lemma pick_none o l : pick o l = None -> l = [].
Proof.
  unfold pick. intros H. destruct l as [|x l]; [reflexivity|]. apply nth_error_None in H.
  pose proof (Nat.mod_upper_bound (o_pick o (x :: l)) (length (x :: l)) ltac:(discriminate)). lia.
Qed.
(* what picking says *)
Lemma pick_forced o l a b k : pick o (forced_set l a b) = Some k -> forced_on l a b k.
Proof. intros H. apply in_forced_set. exact (pick_some _ _ _ H). Qed.
Lemma pick_only o l a b i k : (a <= i < b)%nat -> nth_error l i = Some k -> k <> -1 -> only_forced l a b k ->
  pick o (forced_set l a b) = Some k.
Proof.
  intros Hi E Hk Ho. destruct (pick o (forced_set l a b)) as [k'|] eqn:Ep.
  - apply pick_forced in Ep as (Hk' & j & Hj & Ej). destruct (Ho j k' Hj Ej) as [->|E']; [reflexivity|contradiction].
  - apply pick_none in Ep. assert (H : In k (forced_set l a b)) by (apply in_forced_set; split; [exact Hk|eauto]). rewrite Ep in H. contradiction.
Qed.

(* ---- from the search to paths ---- *)
Lemma stored_path g o pd rs sr s : 1 <= g_beam_size g ->
  (forall r, In r rs -> (r_start r < r_end r <= length (p_durs pd))%nat) ->
  run_search g o pd rs = Ok sr -> In s (sr_store sr) -> path g o pd rs s.
Proof.
  intros Hb Hr H Hs. apply derived_path; [exact Hr|]. exact (si_store _ _ _ _ _ _ (run_search_inv g o pd rs Hr Hb sr H) s Hs).
Qed.
Lemma result_path g o pd crs logs rj pri s : 1 <= g_beam_size g -> valid_ranges crs (length (p_durs pd)) ->
  beam_search g o pd crs logs rj pri = Ok (Some s) ->
  exists rs, ranges_of g o crs logs rj pri rs /\ path g o pd rs s /\ st_change s = length (p_durs pd).
Proof.
  intros Hb Hr H. destruct (result_derived _ _ _ _ _ _ _ _ Hb Hr H) as (rs & H1 & H2 & H3 & H4).
  exists rs. split; [exact H1|]. split; [|exact H3]. apply derived_path; assumption.
Qed.

(* ---- scores ---- *)
Lemma chain_snoc_inv rs r : forall a b, chain_of a b (rs ++ [r]) ->
  chain_of a (r_start r) rs /\ (r_start r < r_end r)%nat /\ r_end r = b.
Proof.
  induction rs as [|x rs IH]; intros a b H; cbn [app chain_of] in *.
  - destruct H as (H1 & H2 & H3). auto.
  - destruct H as (H1 & H2 & H3). destruct (IH _ _ H3) as (K1 & K2 & K3). auto.
Qed.
Lemma chain_joined g o pd crs logs rj pri ranges c : ranges_of g o crs logs rj pri ranges ->
  forall rs ws a b, rs <> [] -> chain_of a b rs -> Forall2 (range_term o pd ranges c) rs ws ->
  joined crs logs rj pri c a b (zsum ws + zsum (map r_rejoin (tl rs))).
Proof.
  intros Hr rs. induction rs as [|r rs IH] using rev_ind; intros ws a b Hne Hch Hw; [contradiction|].
  apply Forall2_app_inv_l in Hw as (ws1 & ws2 & Hw1 & Hw2 & ->).
  inversion Hw2 as [|x w l1 l2 Hx Hnil E1 E2]; subst. inversion Hnil; subst.
  apply chain_snoc_inv in Hch as (Hc1 & Hc2 & <-).
  destruct Hx as (Hin & _ & _ & pr & Epr & ->). destruct (Hr r Hin) as (i & I1 & I2 & I3 & I4 & _).
  assert (Hoff : offered crs logs rj pri (r_start r) (r_end r) (r_log r) (r_rejoin r) (r_prior r)) by (exists i; auto).
  destruct rs as [|r0 rs].
  - inversion Hw1; subst. cbn [chain_of] in Hc1. subst a. cbn [app tl map]. unfold zsum. cbn [fold_right].
    replace (r_log r + pr * (Z.of_nat (r_end r) - Z.of_nat (r_start r)) + 0 + 0)
      with (r_log r + pr * (Z.of_nat (r_end r) - Z.of_nat (r_start r))) by lia.
    exact (joined_one _ _ _ _ c _ _ _ _ _ pr Hoff Epr).
  - specialize (IH ws1 a (r_start r) ltac:(discriminate) Hc1 Hw1). cbn [app tl] in *.
    rewrite map_app, !zsum_app. cbn [map].
    pose proof (joined_more _ _ _ _ c _ _ _ _ _ _ _ pr IH Hoff Epr) as J.
    replace (zsum ws1 + zsum [r_log r + pr * (Z.of_nat (r_end r) - Z.of_nat (r_start r))] + (zsum (map r_rejoin rs) + zsum [r_rejoin r]))
      with (zsum ws1 + zsum (map r_rejoin rs) + (r_log r + pr * (Z.of_nat (r_end r) - Z.of_nat (r_start r))) + r_rejoin r)
      by (unfold zsum; cbn [fold_right]; lia).
    exact J.
Qed.
