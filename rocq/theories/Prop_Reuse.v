(* Property C112: calls of get_harmony on one object do not influence each other. *)
From Verif Require Import Spec_Reuse Proof_Base Proof_Infer Prop_Search Prop_Infer.
Open Scope Z_scope.

Notation nz := (filter (fun c => negb (c =? 0))).
Lemma nz_idem l : nz (nz l) = nz l.
Proof. induction l as [|a l IH]; [reflexivity|]. cbn [filter]. destruct (negb (a =? 0)) eqn:E; cbn [filter]; rewrite ?E, IH; reflexivity. Qed.
Lemma nz_none l : existsb (Z.eqb 0) l = false -> nz l = l.
Proof.
  induction l as [|a l IH]; [reflexivity|]. cbn [existsb filter]. intros H. apply orb_false_iff in H as [H1 H2].
  rewrite (Z.eqb_sym a 0), H1. cbn [negb]. rewrite (IH H2). reflexivity.
Qed.

(* the sets as they are: each is what it was, and those no call changes are untouched *)
Definition now (ch : nat -> Prop) (h0 h : list (list Z)) : Prop :=
  length h = length h0 /\ forall i l0, nth_error h0 i = Some l0 ->
    exists l, nth_error h i = Some l /\ but_zero l0 l /\ (~ ch i -> l = l0).

Lemma but_zero_nz l0 l : but_zero l0 l -> nz l = nz l0.
Proof. intros [->|[_ ->]]; [reflexivity|apply nz_idem]. Qed.
Lemma but_zero_drop l0 l : but_zero l0 l -> existsb (Z.eqb 0) l = true -> but_zero l0 (nz l).
Proof.
  intros H E. apply existsb_exists in E as (x & Hx & Ex). apply Z.eqb_eq in Ex as <-.
  destruct H as [->|[H0 ->]]; [right; split; [exact Hx|reflexivity]|].
  apply filter_In in Hx as [_ Hx]. discriminate.
Qed.

Lemma now_members ch h0 h r l0 : now ch h0 h -> members h0 r = Ok l0 ->
  exists l, members h r = Ok l /\ nz l = nz l0 /\ ((forall i, r = Some i -> ~ ch i) -> l = l0).
Proof.
  intros [_ H] E. destruct r as [i|].
  - unfold members in *. destruct (nth_error h0 i) as [x|] eqn:Ei; [|discriminate]. apply Ok_inj in E as ->.
    destruct (H i l0 Ei) as (l & El & Hb & Hu). exists l. rewrite El. split; [reflexivity|].
    split; [apply but_zero_nz, Hb|]. intros Hn. apply Hu, Hn. reflexivity.
  - exists []. cbn [members] in *. apply Ok_inj in E as <-. split; [reflexivity|]. split; reflexivity.
Qed.
Lemma now_remove ch h0 h r l : now ch h0 h -> members h r = Ok l -> existsb (Z.eqb 0) l = true ->
  (forall i, r = Some i -> ch i) -> now ch h0 (remove_zero h r).
Proof.
  intros [HL H] E Ez Hr. destruct r as [i|]; [|split; assumption]. unfold remove_zero, members in *.
  destruct (nth_error h i) as [x|] eqn:Ei; [|discriminate]. apply Ok_inj in E as ->.
  split; [rewrite upd_nat_length; exact HL|]. intros j l0 Ej. destruct (H j l0 Ej) as (l' & El & Hb & Hu).
  destruct (Nat.eq_dec i j) as [->|Hij].
  - rewrite Ei in El. injection El as <-. exists (nz l). rewrite nth_error_upd_nat.
    rewrite Nat.eqb_refl. assert (Hlt : (j <? length h)%nat = true) by (apply Nat.ltb_lt, nth_error_Some; congruence).
    rewrite Hlt. split; [reflexivity|split; [apply but_zero_drop; assumption|]].
    intros Hn. destruct (Hn (Hr j eq_refl)).
  - exists l'. rewrite nth_error_upd_nat. apply Nat.eqb_neq in Hij. rewrite Hij. auto.
Qed.
Lemma members_removed h r l : members h r = Ok l -> members (remove_zero h r) r = Ok (nz l).
Proof.
  destruct r as [i|]; cbn [members remove_zero]; [|intros E; apply Ok_inj in E as <-; reflexivity].
  destruct (nth_error h i) as [x|] eqn:Ei; [|discriminate]. intros E. apply Ok_inj in E as ->.
  rewrite nth_error_upd_nat, Nat.eqb_refl. assert (Hlt : (i <? length h)%nat = true) by (apply Nat.ltb_lt, nth_error_Some; congruence).
  rewrite Hlt. reflexivity.
Qed.
Lemma members_kept h r r' l : members h r = Ok l -> nz l = l -> members (remove_zero h r') r = Ok l.
Proof.
  destruct r as [i|]; [|intros E _; exact E]. destruct r' as [j|]; [|intros E _; exact E]. cbn [members remove_zero]. intros E Hz.
  destruct (nth_error h j) as [x|] eqn:Ej; [|exact E]. rewrite nth_error_upd_nat.
  destruct (Nat.eqb_spec j i) as [->|Hne]; cbn [andb]; [|exact E].
  rewrite Ej in E. apply Ok_inj in E as ->. destruct (i <? length h)%nat; [rewrite Hz; reflexivity|rewrite Ej; reflexivity].
Qed.

Lemma change_checks_same d c n c' : change_checks d c n = Ok c' -> c' = c.
Proof.
  unfold change_checks. destruct (existsb _ c); [discriminate|]. destruct (existsb _ n); [discriminate|].
  destruct (existsb _ c); [discriminate|]. destruct (for_each _ c); [|discriminate]. intros H. apply Ok_inj in H. symmetry. exact H.
Qed.

(* a round never does anything else to the sets *)
Lemma round_now (ch : nat -> Prop) h0 h durs m rc rn labels ids h' r : now ch h0 h -> (forall i, rc = Some i -> ch i) ->
  load_type_at durs m rc rn labels ids h = (h', r) -> now ch h0 h'.
Proof.
  intros Hn Hc H. unfold load_type_at in H. destruct (members h rc) as [l|e] eqn:El.
  - apply pair_equal_spec in H as [<- _]. destruct (existsb (Z.eqb 0) l) eqn:Ez; [|exact Hn].
    exact (now_remove ch h0 h rc l Hn El Ez Hc).
  - apply pair_equal_spec in H as [<- _]. exact Hn.
Qed.
Lemma round (ch : nat -> Prop) h0 h durs m rc rn labels c0 n0 : now ch h0 h ->
  (forall i, rc = Some i -> ch i) -> (forall i, rn = Some i -> ~ ch i) ->
  members h0 rc = Ok c0 -> members h0 rn = Ok n0 ->
  exists h', load_type_at durs m rc rn labels (repeat (-1) (length durs)) h
      = (h', let! x := load_type durs m c0 n0 labels in Ok (snd x))
    /\ now ch h0 h' /\ members h' rc = Ok (nz c0)
    /\ (forall r l, members h r = Ok l -> nz l = l -> members h' r = Ok l)
    /\ (forall x, load_type durs m c0 n0 labels = Ok x -> fst x = nz c0).
Proof.
  intros Hn Hc Hno Ec En.
  destruct (load_type_at durs m rc rn labels (repeat (-1) (length durs)) h) as [h' r] eqn:E.
  pose proof (round_now ch h0 h _ _ _ _ _ _ _ _ Hn Hc E) as Hn'.
  assert (Hx : forall x, load_type durs m c0 n0 labels = Ok x -> fst x = nz c0).
  { intros x Hx. unfold load_type in Hx. apply bind_ok in Hx as (c & E1 & Hx). apply bind_ok in Hx as (ids & E2 & Hx).
    apply bind_ok in Hx as (u & E3 & Hx). apply Ok_inj in Hx as <-. exact (change_checks_same _ _ _ _ E1). }
  destruct (now_members ch h0 h rc c0 Hn Ec) as (l & El & Hz & _).
  unfold load_type_at in E. rewrite El in E. apply pair_equal_spec in E as [Eh Er].
  assert (Em : members h' rc = Ok (nz c0)).
  { rewrite <- Eh. destruct (existsb (Z.eqb 0) l) eqn:Ez.
    - rewrite (members_removed _ _ _ El), Hz. reflexivity.
    - rewrite El, <- Hz, (nz_none l Ez). reflexivity. }
  assert (Ek : forall r l, members h r = Ok l -> nz l = l -> members h' r = Ok l).
  { intros r1 l1 E1 Hz1. rewrite <- Eh. destruct (existsb (Z.eqb 0) l); [|exact E1]. apply members_kept; assumption. }
  exists h'. split; [|split; [exact Hn'|split; [exact Em|split; [exact Ek|exact Hx]]]]. f_equal. rewrite <- Er, Eh, Em.
  destruct (now_members ch h0 h' rn n0 Hn' En) as (n & E1 & _ & Hu). rewrite (Hu Hno) in E1. rewrite E1. cbn [bind].
  unfold load_type, check_changes. destruct (change_checks durs (nz c0) n0) as [c|] eqn:E2; [|reflexivity].
  apply change_checks_same in E2 as ->. cbn [bind]. destruct (load_labels _ _ labels) as [ids|]; [|reflexivity]. cbn [bind].
  destruct (check_labels _ _ ids); reflexivity.
Qed.

(* one call, whatever happened before *)
Lemma one_call g cfg t b (ch : nat -> Prop) h0 h u q : now ch h0 h -> asked h0 u q ->
  (forall i, u_chord_changes u = Some i \/ u_key_changes u = Some i -> ch i) ->
  (forall i, u_chord_non u = Some i \/ u_key_non u = Some i -> ~ ch i) ->
  exists b' h', get_harmony_at g cfg t b h u = (b', h', alone g cfg t u q) /\ now ch h0 h'.
Proof.
  intros Hn (A1 & A2 & A3 & A4 & A5 & A6) Hc Hno.
  assert (C1 : forall i, u_chord_changes u = Some i -> ch i) by auto. assert (C2 : forall i, u_key_changes u = Some i -> ch i) by auto.
  assert (D1 : forall i, u_chord_non u = Some i -> ~ ch i) by auto. assert (D2 : forall i, u_key_non u = Some i -> ~ ch i) by auto.
  unfold get_harmony_at, alone. destruct (u_type u =? t); cbn [negb].
  2:{ do 2 eexists. split; [reflexivity|exact Hn]. }
  unfold get_harmony, validate. set (mc := get_chord_vector_length _ _ _ _ _ _). set (mk := NUM_PITCHES _ * 2).
  unfold validate_at. cbn [store_call b_durs b_chord_changes b_chord_non b_key_changes b_key_non b_chords b_keys b_chord_ids b_key_ids].
  fold mc mk. change (given_labels (u_chords u)) with (match u_chords u with None => [] | Some l => l end).
  change (given_labels (u_keys u)) with (match u_keys u with None => [] | Some l => l end). rewrite <- A5, <- A6.
  destruct (round ch h0 h (u_durs u) mc _ _ (q_chords q) _ _ Hn C1 D1 A1 A2) as (h1 & E1 & N1 & M1 & _ & F1).
  rewrite E1. destruct (load_type (u_durs u) mc _ _ _) as [[cc cids]|e] eqn:L1; cbn [bind snd].
  2:{ do 2 eexists. split; [reflexivity|exact N1]. }
  specialize (F1 _ eq_refl). cbn [fst] in F1. subst cc.
  destruct (round ch h0 h1 (u_durs u) mk _ _ (q_keys q) _ _ N1 C2 D2 A3 A4) as (h2 & E2 & N2 & M2 & K2 & F2).
  rewrite E2. destruct (load_type (u_durs u) mk _ _ _) as [[kc kids]|e] eqn:L2; cbn [bind snd].
  2:{ do 2 eexists. split; [reflexivity|exact N2]. }
  specialize (F2 _ eq_refl). cbn [fst] in F2. subst kc.
  cbn [fill_ids store_call b_durs b_chord_changes b_chord_non b_key_changes b_key_non b_chords b_keys b_chord_ids b_key_ids].
  rewrite M2. cbn [bind]. destruct (now_members ch h0 h2 _ _ N2 A2) as (n & En & _ & Hu).
  rewrite Hu in En by auto. rewrite En. cbn [bind].
  destruct (check_both _ _ cids kids) as [x|e]; cbn [bind]; [|do 2 eexists; split; [reflexivity|exact N2]].
  unfold harmony_at. cbn [fill_ids store_call b_durs b_levels b_chord_changes b_chord_non b_key_changes b_key_non b_chords b_keys b_chord_ids b_key_ids].
  rewrite (K2 _ _ M1 (nz_idem _)), En. cbn [bind].
  match goal with |- exists _ _, match ?X with _ => _ end = (_, _, ?Y) /\ _ => constr_eq X Y; destruct X end;
    do 2 eexists; (split; [reflexivity|exact N2]).
Qed.

Lemma now_refl ch h : now ch h h.
Proof. split; [reflexivity|]. intros i l E. exists l. split; [exact E|]. split; [left; reflexivity|reflexivity]. Qed.

(* ---- C112: in a session, every call gives what it would give alone on a new object, with the sets
   as they were in the beginning, if no set is used both for changes and for non-changes ---- *)
Theorem C112_session_partial g cfg t b h l qs : apart l -> Forall2 (asked h) l qs ->
  snd (session g cfg t b h l) = map (fun x => alone g cfg t (fst x) (snd x)) (combine l qs).
Proof.
  intros Ha Hq.
  assert (H : forall l' qs' b h', incl l' l -> Forall2 (asked h) l' qs' -> now (for_changes l) h h' ->
    snd (session g cfg t b h' l') = map (fun x => alone g cfg t (fst x) (snd x)) (combine l' qs')).
  { induction l' as [|u l' IH]; intros qs' b1 h1 Hi Hf Hn; inversion Hf as [|? q ? qs1 Hu Hf' Eu]; subst; [reflexivity|].
    assert (Hin : In u l) by (apply Hi; left; reflexivity).
    destruct (one_call g cfg t b1 (for_changes l) h h1 u q Hn Hu) as (b2 & h2 & E & Hn2).
    - intros i Hx. exists u. split; assumption.
    - intros i Hx Hc. apply (Ha i Hc). exists u. split; assumption.
    - cbn [session]. rewrite E. specialize (IH qs1 b2 h2 ltac:(intros x Hx; apply Hi; right; exact Hx) Hf' Hn2).
      destruct (session g cfg t b2 h2 l') as [h3 rs]. cbn [snd] in IH |- *. rewrite IH. reflexivity. }
  apply H; [apply incl_refl|exact Hq|apply now_refl].
Qed.
Print Assumptions C112_session_partial.

Lemma call_now g cfg t b h0 h u b' h' r (ch : nat -> Prop) : now ch h0 h ->
  (forall i, u_chord_changes u = Some i \/ u_key_changes u = Some i -> ch i) ->
  get_harmony_at g cfg t b h u = (b', h', r) -> now ch h0 h'.
Proof.
  intros Hn Hc H. unfold get_harmony_at in H. destruct (negb _); [injection H as _ <- _; exact Hn|].
  unfold validate_at in H. cbn [store_call b_durs b_chord_changes b_chord_non b_key_changes b_key_non b_chords b_keys b_chord_ids b_key_ids] in H.
  destruct (load_type_at _ _ (u_chord_changes u) _ _ _ h) as [h1 r1] eqn:E1.
  apply round_now with (ch := ch) (h0 := h0) in E1; [|exact Hn|auto].
  destruct r1 as [cids|e]; [|injection H as _ <- _; exact E1].
  destruct (load_type_at _ _ (u_key_changes u) _ _ _ h1) as [h2 r2] eqn:E2.
  apply round_now with (ch := ch) (h0 := h0) in E2; [|exact E1|auto].
  destruct r2 as [kids|e]; [|injection H as _ <- _; exact E2].
  destruct (bind _ _) in H; [|injection H as _ <- _; exact E2].
  destruct (harmony_at _ _ _ _ _ h2) in H; injection H as _ <- _; exact E2.
Qed.

(* the only thing a session does to the caller's sets is to take 0 out of sets of changes *)
Theorem C112_sets g cfg t b h l : length (fst (session g cfg t b h l)) = length h
  /\ forall i before, nth_error h i = Some before ->
       exists after, nth_error (fst (session g cfg t b h l)) i = Some after
         /\ but_zero before after /\ (~ for_changes l i -> after = before).
Proof.
  assert (H : forall l' b h', incl l' l -> now (for_changes l) h h' -> now (for_changes l) h (fst (session g cfg t b h' l'))).
  { induction l' as [|u l' IH]; intros b1 h1 Hi Hn; [exact Hn|]. cbn [session].
    destruct (get_harmony_at g cfg t b1 h1 u) as [[b2 h2] r] eqn:E.
    apply call_now with (ch := for_changes l) (h0 := h) in E;
      [|exact Hn|intros i Hx; exists u; split; [apply Hi; left; reflexivity|exact Hx]].
    specialize (IH b2 h2 ltac:(intros x Hx; apply Hi; right; exact Hx) E).
    destruct (session g cfg t b2 h2 l') as [h3 rs]. exact IH. }
  exact (H l b h (incl_refl l) (now_refl _ h)).
Qed.
Print Assumptions C112_sets.

(* the object holds on to the piece unless the call returned *)
Theorem C112_held g cfg t b h u b' h' r : get_harmony_at g cfg t b h u = (b', h', r) ->
  b_piece b' = false <-> exists s, r = Ok s.
Proof.
  intros H. unfold get_harmony_at in H. destruct (negb _).
  { injection H as <- _ <-. split; [discriminate|intros (s & E); discriminate]. }
  unfold validate_at in H. destruct (load_type_at _ _ _ _ _ _ h) as [h1 [cids|e]].
  2:{ injection H as <- _ <-. split; [discriminate|intros (s & E); discriminate]. }
  destruct (load_type_at _ _ _ _ _ _ h1) as [h2 [kids|e]].
  2:{ injection H as <- _ <-. split; [discriminate|intros (s & E); discriminate]. }
  destruct (bind _ _) in H.
  2:{ injection H as <- _ <-. split; [discriminate|intros (s & E); discriminate]. }
  destruct (harmony_at _ _ _ _ _ h2) in H; injection H as <- _ <-.
  - split; [intros _; eexists; reflexivity|reflexivity].
  - split; [discriminate|intros (s & E); discriminate].
Qed.
Print Assumptions C112_held.

(* ---- calling again ---- *)
Lemma list_ext {A} (l l' : list A) : (forall i, nth_error l i = nth_error l' i) -> l = l'.
Proof.
  revert l'. induction l as [|a l IH]; intros [|a' l'] H; [reflexivity|discriminate (H 0%nat)|discriminate (H 0%nat)|].
  pose proof (H 0%nat) as H0. injection H0 as <-. f_equal. apply IH. intros i. exact (H (S i)).
Qed.
Lemma nth_remove h r i : nth_error (remove_zero h r) i =
  match r with Some j => if (j =? i)%nat then option_map (fun l => nz l) (nth_error h i) else nth_error h i | None => nth_error h i end.
Proof.
  destruct r as [j|]; [|reflexivity]. unfold remove_zero. destruct (nth_error h j) as [l|] eqn:E.
  - rewrite nth_error_upd_nat. destruct (Nat.eqb_spec j i) as [->|H]; cbn [andb]; [|reflexivity].
    rewrite E. assert (Hlt : (i <? length h)%nat = true) by (apply Nat.ltb_lt, nth_error_Some; congruence). rewrite Hlt. reflexivity.
  - destruct (Nat.eqb_spec j i) as [->|H]; [rewrite E|]; reflexivity.
Qed.
Lemma remove_none h r l : members h r = Ok l -> existsb (Z.eqb 0) l = false -> remove_zero h r = h.
Proof.
  intros E Hz. apply list_ext. intros i. rewrite nth_remove. destruct r as [j|]; [|reflexivity].
  destruct (Nat.eqb_spec j i) as [->|H]; [|reflexivity]. unfold members in E. destruct (nth_error h i); [|discriminate].
  apply Ok_inj in E as ->. cbn [option_map]. rewrite nz_none by exact Hz. reflexivity.
Qed.
Lemma remove_again h r r' : remove_zero (remove_zero (remove_zero h r) r') r = remove_zero (remove_zero h r) r'.
Proof.
  apply list_ext. intros i. rewrite !nth_remove. destruct r as [j|]; [|reflexivity]. destruct (Nat.eqb_spec j i) as [->|H]; [|reflexivity].
  destruct r' as [k|]; [destruct (Nat.eqb_spec k i)|]; destruct (nth_error h i); cbn [option_map]; rewrite ?nz_idem; reflexivity.
Qed.
Lemma remove_twice h r : remove_zero (remove_zero h r) r = remove_zero h r.
Proof. exact (remove_again h r None). Qed.
Lemma members_other h r r' l : members h r = Ok l -> members (remove_zero h r') r = Ok l \/ members (remove_zero h r') r = Ok (nz l).
Proof.
  destruct r as [i|]; [|auto]. unfold members. rewrite nth_remove. destruct (nth_error h i) as [x|]; [|discriminate].
  intros E. apply Ok_inj in E as ->. destruct r' as [j|]; [|auto]. destruct (j =? i)%nat; cbn [option_map]; auto.
Qed.
Lemma members_dead h r r' e : members h r = Raise e -> members (remove_zero h r') r = Raise e.
Proof.
  destruct r as [i|]; [|discriminate]. unfold members. rewrite nth_remove. destruct (nth_error h i) as [x|]; [discriminate|].
  intros E. destruct r' as [j|]; [|exact E]. destruct (j =? i)%nat; exact E.
Qed.

(* what a round raises or returns, from the sets after the removal *)
Definition checked (durs : list Z) (m : Z) (labels : list (Z * Z * Z)) (ids : list Z) (c n : res (list Z)) : res (list Z) :=
  let! changes := c in
  let! non_changes := n in
  let! _ := change_checks durs changes non_changes in
  let! ids := load_labels m ids labels in
  let! _ := check_labels changes non_changes ids in
  Ok ids.
Lemma round_is durs m rc rn labels ids h : load_type_at durs m rc rn labels ids h =
  (remove_zero h rc, checked durs m labels ids (members (remove_zero h rc) rc) (members (remove_zero h rc) rn)).
Proof.
  unfold load_type_at. destruct (members h rc) as [l|e] eqn:E.
  - destruct (existsb (Z.eqb 0) l) eqn:Ez; [reflexivity|]. rewrite (remove_none h rc l E Ez). reflexivity.
  - destruct rc as [i|]; [|discriminate]. unfold members, remove_zero in *. destruct (nth_error h i) eqn:Ei; [discriminate|].
    rewrite Ei. injection E as <-. reflexivity.
Qed.

Lemma existsb_nz f l : existsb f l = false -> existsb f (nz l) = false.
Proof.
  induction l as [|a l IH]; [reflexivity|]. cbn [existsb filter]. intros H. apply orb_false_iff in H as [H1 H2].
  destruct (negb (a =? 0)); [cbn [existsb]; rewrite H1|]; auto.
Qed.
Lemma for_each_nz (f : Z -> res unit) l u : for_each f l = Ok u -> for_each f (nz l) = Ok tt.
Proof.
  unfold for_each. intros H. apply bind_ok in H as (us & H & _).
  assert (G : exists us', mapM f (nz l) = Ok us').
  { revert us H. induction l as [|a l IH]; intros us H; [exists []; reflexivity|]. cbn [mapM] in H.
    apply bind_ok in H as (x & E & H). apply bind_ok in H as (xs & Es & _). destruct (IH _ Es) as (us' & E').
    cbn [filter]. destruct (negb (a =? 0)); [|exists us'; exact E']. cbn [mapM]. rewrite E. cbn [bind]. rewrite E'. cbn [bind]. eexists. reflexivity. }
  destruct G as (us' & ->). reflexivity.
Qed.
Lemma checked_nz durs m labels ids c n x : checked durs m labels ids c (Ok n) = Ok x -> checked durs m labels ids c (Ok (nz n)) = Ok x.
Proof.
  unfold checked. destruct c as [c|]; [|discriminate]. cbn [bind]. intros H. apply bind_ok in H as (c' & E1 & H).
  apply bind_ok in H as (ids' & E2 & H). apply bind_ok in H as (u & E3 & H).
  assert (G1 : change_checks durs c (nz n) = Ok c).
  { unfold change_checks in E1 |- *. destruct (existsb _ c); [discriminate|]. destruct (existsb _ n) eqn:F1 in E1; [discriminate|].
    rewrite (existsb_nz _ _ F1). destruct (existsb (fun c0 => existsb (Z.eqb c0) n) c) eqn:F2; [discriminate|].
    assert (F3 : existsb (fun c0 => existsb (Z.eqb c0) (nz n)) c = false).
    { clear -F2. induction c as [|a c IH]; [reflexivity|]. cbn [existsb] in *. apply orb_false_iff in F2 as [H1 H2].
      rewrite (existsb_nz _ _ H1), (IH H2). reflexivity. }
    rewrite F3. destruct (for_each _ c); [reflexivity|discriminate]. }
  rewrite G1. cbn [bind]. rewrite E2. cbn [bind].
  assert (G2 : check_labels c (nz n) ids' = Ok tt).
  { unfold check_labels in E3 |- *. apply bind_ok in E3 as (v & F1 & F2). rewrite F1. cbn [bind]. exact (for_each_nz _ _ _ F2). }
  rewrite G2. exact H.
Qed.

(* The same call once more, on any object: the same result, and the sets do not change any further.
   This holds for all sets, also if one is used for changes and for non-changes. *)
Theorem C112_again g cfg t b b1 h u b' h' r : get_harmony_at g cfg t b h u = (b', h', r) ->
  exists b2, get_harmony_at g cfg t b1 h' u = (b2, h', r).
Proof.
  intros H. unfold get_harmony_at in *. destruct (negb (u_type u =? t)); [injection H as _ <- <-; eexists; reflexivity|].
  unfold validate_at in *.
  cbn [store_call b_durs b_chord_changes b_chord_non b_key_changes b_key_non b_chords b_keys b_chord_ids b_key_ids] in *.
  set (mc := get_chord_vector_length _ _ _ _ _ _) in *. set (mk := NUM_PITCHES _ * 2) in *. rewrite !round_is in *.
  set (h1 := remove_zero h (u_chord_changes u)) in *.
  destruct (checked (u_durs u) mc _ _ (members h1 (u_chord_changes u)) (members h1 (u_chord_non u))) as [cids|e] eqn:E1.
  2:{ injection H as _ <- <-. unfold h1 in *. rewrite remove_twice, E1. eexists. reflexivity. }
  rewrite ?round_is in H. set (h2 := remove_zero h1 (u_key_changes u)) in *.
  assert (K1 : remove_zero h2 (u_chord_changes u) = h2) by apply remove_again.
  assert (K2 : remove_zero h2 (u_key_changes u) = h2) by apply remove_twice.
  assert (F : checked (u_durs u) mc (given_labels (u_chords u)) (repeat (-1) (length (u_durs u)))
                (members h2 (u_chord_changes u)) (members h2 (u_chord_non u)) = Ok cids).
  { unfold checked in E1. apply bind_ok in E1 as (c & Ec & E1). apply bind_ok in E1 as (n & En & E1).
    assert (Hz : nz c = c).
    { destruct (u_chord_changes u) as [i|]; [|apply Ok_inj in Ec as <-; reflexivity]. unfold h1, members in Ec. rewrite nth_remove, Nat.eqb_refl in Ec.
      destruct (nth_error h i); [|discriminate]. apply Ok_inj in Ec as <-. apply nz_idem. }
    unfold h2. rewrite (members_kept h1 _ (u_key_changes u) c Ec Hz).
    assert (E1' : checked (u_durs u) mc (given_labels (u_chords u)) (repeat (-1) (length (u_durs u))) (Ok c) (Ok n) = Ok cids) by exact E1.
    destruct (members_other h1 _ (u_key_changes u) n En) as [-> | ->]; [exact E1'|exact (checked_nz _ _ _ _ _ _ _ E1')]. }
  assert (Hh : h' = h2).
  { destruct (checked _ mk _ _ _ _) in H; [|injection H as _ <- _; reflexivity]. destruct (bind _ _) in H; [|injection H as _ <- _; reflexivity].
    destruct (harmony_at _ _ _ _ _ h2) in H; injection H as _ <- _; reflexivity. }
  subst h'. rewrite K1, F. rewrite ?round_is, K2.
  destruct (checked _ mk _ _ _ _) as [kids|e]; [|injection H as _ <-; eexists; reflexivity].
  cbn [fill_ids store_call b_key_changes b_chord_non b_chord_ids b_key_ids] in *.
  destruct (bind _ _) in H |- *; [|injection H as _ <-; eexists; reflexivity].
  change (harmony_at g cfg (u_nets u) (u_oracle u) (fill_ids (store_call (hold_piece b1 true) u) cids kids) h2)
    with (harmony_at g cfg (u_nets u) (u_oracle u) (fill_ids (store_call (hold_piece b true) u) cids kids) h2).
  destruct (harmony_at _ _ _ _ _ h2); injection H as _ <-; eexists; reflexivity.
Qed.
Print Assumptions C112_again.

(* ---- runs of test.py with a file of forces ---- *)
Lemma flat_four file i k j s : nth_error file i = Some k -> nth_error (sets_of k) j = Some s ->
  nth_error (flat_map sets_of file) (4 * i + j) = Some s.
Proof.
  revert i. induction file as [|k0 file IH]; intros i Ek Es; [destruct i; discriminate|]. cbn [flat_map].
  assert (Hj : (j < 4)%nat) by (change 4%nat with (length (sets_of k)); apply nth_error_Some; congruence).
  destruct i as [|i].
  - injection Ek as ->. replace (4 * 0 + j)%nat with j by lia. rewrite nth_error_app1; [exact Es|]. exact Hj.
  - rewrite nth_error_app2; change (length (sets_of k0)) with 4%nat; [|lia].
    replace (4 * S i + j - 4)%nat with (4 * i + j)%nat by lia. exact (IH i Ek Es).
Qed.
Lemma set_at_members file i k j s : nth_error file i = Some k ->
  nth_error (sets_of k) j = Some (match s with Some l => l | None => [] end) ->
  members (flat_map sets_of file) (set_at i j s) = Ok (match s with Some l => l | None => [] end).
Proof.
  intros Ek Es. destruct s as [l|]; [|reflexivity]. unfold set_at, members. rewrite (flat_four file i k j l Ek Es). reflexivity.
Qed.
Lemma call_asked file x u : call_with file x = Ok u ->
  exists q, asked (flat_map sets_of file) u q /\ forall g cfg t, alone g cfg t u q = by_itself g cfg t file x.
Proof.
  destruct x as [[[[[t durs] levels] w] o] entry]. unfold call_with. destruct entry as [i|].
  - destruct (nth_error file i) as [k|] eqn:Ek; [|discriminate]. cbn [bind]. intros H. apply Ok_inj in H as <-.
    exists (named (Some k)). split.
    + unfold asked. cbn [u_chord_changes u_chord_non u_key_changes u_key_non u_chords u_keys named q_chord_changes q_chord_non q_key_changes q_key_non q_chords q_keys].
      split; [exact (set_at_members file i k 0 _ Ek eq_refl)|]. split; [exact (set_at_members file i k 1 _ Ek eq_refl)|].
      split; [exact (set_at_members file i k 2 _ Ek eq_refl)|]. split; [exact (set_at_members file i k 3 _ Ek eq_refl)|].
      split; reflexivity.
    + intros g cfg t'. unfold alone, by_itself. cbn [u_type u_nets u_oracle u_durs u_levels]. rewrite Ek. reflexivity.
  - intros H. apply Ok_inj in H as <-. exists (named None). split; [repeat (split; [reflexivity|]); reflexivity|]. intros g cfg t'. reflexivity.
Qed.
Lemma calls_apart file xs us : mapM (call_with file) xs = Ok us -> apart us.
Proof.
  intros H.
  assert (P : forall u, In u us -> exists x, call_with file x = Ok u).
  { revert us H. induction xs as [|x xs IH]; intros us H; [apply Ok_inj in H as <-; intros u []|]. cbn [mapM] in H.
    apply bind_ok in H as (u0 & E & H). apply bind_ok in H as (us0 & E0 & H). apply Ok_inj in H as <-.
    intros u [<-|Hu]; [exists x; exact E|exact (IH _ E0 u Hu)]. }
  assert (Q : forall u n, In u us -> (u_chord_changes u = Some n \/ u_key_changes u = Some n -> exists i, n = (4 * i)%nat \/ n = (4 * i + 2)%nat)
                         /\ (u_chord_non u = Some n \/ u_key_non u = Some n -> exists i, n = (4 * i + 1)%nat \/ n = (4 * i + 3)%nat)).
  { intros u n Hu. destruct (P u Hu) as ([[[[[t durs] levels] w] o] entry] & E). unfold call_with in E. destruct entry as [i|].
    - destruct (nth_error file i) as [k|]; [|discriminate]. cbn [bind] in E. apply Ok_inj in E as <-.
      cbn [u_chord_changes u_chord_non u_key_changes u_key_non]. unfold set_at. split; (intros [G|G]; exists i).
      + destruct (k_chord_changes k); [|discriminate]. injection G as <-. left. lia.
      + destruct (k_key_changes k); [|discriminate]. injection G as <-. right. lia.
      + destruct (k_chord_non k); [|discriminate]. injection G as <-. left. lia.
      + destruct (k_key_non k); [|discriminate]. injection G as <-. right. lia.
    - apply Ok_inj in E as <-. cbn [u_chord_changes u_chord_non u_key_changes u_key_non]. split; intros [G|G]; discriminate. }
  intros n (u & Hu & Hc) (v & Hv & Hn). destruct (proj1 (Q u n Hu) Hc) as (i & Hi). destruct (proj2 (Q v n Hv) Hn) as (i' & Hi'). lia.
Qed.

(* In a run of test.py the sets of an entry are used for all pieces it is chosen for, and are changed
   on the way; every piece still gets what it gets by itself. *)
Theorem C112_test g cfg t b file pieces rs : test_run g cfg t b file pieces = Ok rs ->
  rs = map (by_itself g cfg t file) pieces.
Proof.
  intros H. unfold test_run in H. apply bind_ok in H as (us & E & H). apply Ok_inj in H as <-.
  assert (Q : exists qs, Forall2 (asked (flat_map sets_of file)) us qs
     /\ map (fun x => alone g cfg t (fst x) (snd x)) (combine us qs) = map (by_itself g cfg t file) pieces).
  { clear b. revert us E. induction pieces as [|x pieces IH]; intros us E.
    - apply Ok_inj in E as <-. exists []. split; [constructor|reflexivity].
    - cbn [mapM] in E. apply bind_ok in E as (u & Eu & E). apply bind_ok in E as (us0 & E0 & E). apply Ok_inj in E as <-.
      destruct (IH us0 E0) as (qs & F & Em). destruct (call_asked file x u Eu) as (q & Hq & Ha).
      exists (q :: qs). split; [constructor; assumption|]. cbn [combine map fst snd]. rewrite Ha, Em. reflexivity. }
  destruct Q as (qs & F & Em). rewrite <- Em. apply C112_session_partial; [exact (calls_apart file pieces us E)|exact F].
Qed.
Print Assumptions C112_test.
(* and a run in which every piece has an entry of the file, or none, gets through all pieces *)
Theorem C112_test_all g cfg t b file pieces :
  Forall (fun x => match snd x with Some i => (i < length file)%nat | None => True end) pieces ->
  exists rs, test_run g cfg t b file pieces = Ok rs /\ length rs = length pieces.
Proof.
  intros H. assert (E : exists us, mapM (call_with file) pieces = Ok us).
  { induction H as [|[[[[[ty durs] levels] w] o] entry] pieces Hx H IH]; [exists []; reflexivity|]. destruct IH as (us & E).
    cbn [mapM]. destruct entry as [i|].
    - cbn [snd] in Hx. destruct (nth_error file i) as [k|] eqn:Ek; [|apply nth_error_None in Ek; lia].
      unfold call_with at 1. rewrite Ek. cbn [bind]. rewrite E. cbn [bind]. eexists. reflexivity.
    - cbn [call_with bind]. rewrite E. cbn [bind]. eexists. reflexivity. }
  destruct E as (us & E). set (rs := snd (session g cfg t b (flat_map sets_of file) us)).
  assert (R : test_run g cfg t b file pieces = Ok rs) by (unfold test_run; rewrite E; reflexivity).
  exists rs. split; [exact R|]. rewrite (C112_test g cfg t b file pieces rs R). apply map_length.
Qed.
Print Assumptions C112_test_all.

(* ---- the piece of Prop_Infer, called with sets of the caller ---- *)
Definition ux (t : Z) (cc cn kc kn : set_ref) (c k : option (list (Z * Z * Z))) : call :=
  {| u_type := t; u_durs := [1; 1; 1]; u_levels := [3; 2; 2; 3]; u_nets := wx [0; 90; 0]; u_oracle := ox 10 (-5) (-3);
     u_chord_changes := cc; u_chord_non := cn; u_key_changes := kc; u_key_non := kn; u_chords := c; u_keys := k |}.
Definition bx : object :=
  {| b_piece := false; b_durs := []; b_levels := []; b_chord_changes := None; b_chord_non := None; b_key_changes := None;
     b_key_non := None; b_chords := []; b_keys := []; b_chord_ids := []; b_key_ids := [] |}.
Definition sessionx h l := session (gx 20 80) cfgx 0 bx h l.
Definition is_ok {A} (r : option (res A)) : bool := match r with Some (Ok _) => true | _ => false end.
Lemma is_ok_ex {A} (r : option (res A)) : is_ok r = true -> exists a, r = Some (Ok a).
Proof. destruct r as [[a|e]|]; try discriminate. exists a. reflexivity. Qed.

(* the sets of the caller are not left alone *)
Theorem C112_sets_refuted : exists g cfg t b h l, fst (session g cfg t b h l) <> h.
Proof.
  exists (gx 20 80), cfgx, 0, bx, [[0; 2]], [ux 0 (Some 0%nat) None None None None None].
  assert (E : fst (session (gx 20 80) cfgx 0 bx [[0; 2]] [ux 0 (Some 0%nat) None None None None None]) = [[2]]) by (vm_compute; reflexivity).
  rewrite E. discriminate.
Qed.
Print Assumptions C112_sets_refuted.

(* a set used for changes first and for non-changes later: the second call is refused alone, but not
   after the first, which has taken 0 out of the set *)
Theorem C112_shared_refuted : exists g cfg t b h u1 u2 q1 q2 s, Forall2 (asked h) [u1; u2] [q1; q2]
  /\ alone g cfg t u2 q2 = Raise KeyError
  /\ nth_error (snd (session g cfg t b h [u1; u2])) 1 = Some (Ok s).
Proof.
  set (u1 := ux 0 (Some 0%nat) None None None None None).
  set (u2 := ux 0 None (Some 0%nat) None None (Some [(0, 1, 1); (2, 3, 0)]) None).
  assert (H : is_ok (nth_error (snd (sessionx [[0]] [u1; u2])) 1) = true) by (vm_compute; reflexivity).
  apply is_ok_ex in H as (s & H).
  exists (gx 20 80), cfgx, 0, bx, [[0]], u1, u2, (qx [0] [] [] [] [] []), (qx [] [0] [] [] [(0, 1, 1); (2, 3, 0)] []), s.
  split; [|split; [vm_compute; reflexivity|exact H]].
  constructor; [|constructor; [|constructor]]; repeat (split; [reflexivity|]); reflexivity.
Qed.
Print Assumptions C112_shared_refuted.

(* the forces of one call, also of one that is refused, are gone in the next; a set can be shared by
   the calls and by chords and keys; a piece of another type is refused *)
Definition callsx : list call :=
  [ux 0 (Some 0%nat) (Some 1%nat) (Some 0%nat) None (Some [(0, 2, 1)]) None; ux 1 None None None None None None;
   ux 0 (Some 2%nat) None None None (Some [(0, 2, 1)]) None; ux 0 None None None None None None;
   ux 0 (Some 0%nat) None None None None None].
Definition asksx : list request :=
  [qx [0; 2] [1] [0; 2] [] [(0, 2, 1)] []; qx [] [] [] [] [] []; qx [7] [] [] [] [(0, 2, 1)] []; qx [] [] [] [] [] [];
   qx [0; 2] [] [] [] [] []].
Lemma callsx_apart : apart callsx.
Proof.
  intros i (u & Hu & Hc) (v & Hv & Hn). cbn [callsx In] in Hu, Hv.
  assert (Hi : i = 1%nat) by
    (repeat (destruct Hv as [<-|Hv]; [cbn [ux u_chord_non u_key_non] in Hn; destruct Hn as [Hn|Hn]; congruence|]); destruct Hv).
  subst i. repeat (destruct Hu as [<-|Hu]; [cbn [ux u_chord_changes u_key_changes] in Hc; destruct Hc as [Hc|Hc]; discriminate|]). destruct Hu.
Qed.
Example C112_ex : apart callsx /\ Forall2 (asked [[0; 2]; [1]; [7]]) callsx asksx
  /\ fst (sessionx [[0; 2]; [1]; [7]] callsx) = [[2]; [1]; [7]]
  /\ map (fun r => match r with Ok x => (None, viewx (Ok x)) | Raise e => (Some e, None) end)
       (snd (sessionx [[0; 2]; [1]; [7]] callsx))
     = [(None, Some ([Some 1; Some 0], [0; 2; 3]%nat, ([0], [0; 3]%nat), -35)); (Some AssertionError, None); (Some TypeError, None);
        (None, Some ([Some 0; Some 1], [0; 1; 3]%nat, ([0], [0; 3]%nat), -45));
        (None, Some ([Some 0; Some 1; Some 0], [0; 1; 2; 3]%nat, ([0], [0; 3]%nat), -44))].
Proof.
  split; [exact callsx_apart|]. split.
  { repeat (apply Forall2_cons; [repeat (split; [reflexivity|]); reflexivity|]). apply Forall2_nil. }
  split; vm_compute; reflexivity.
Qed.
Example C112_held_ex : map (fun u => b_piece (fst (fst (get_harmony_at (gx 20 80) cfgx 0 bx [[0; 2]; [1]; [7]] u)))) callsx
  = [false; true; true; false; false].
Proof. vm_compute. reflexivity. Qed.
(* one set for the chord changes and the key non-changes: 0 counts in neither of the calls *)
Example C112_again_ex :
  let u := ux 0 (Some 0%nat) None None (Some 0%nat) None (Some [(0, 1, 1); (2, 3, 1)]) in
  let x := sessionx [[0; 2]] [u; u] in
  fst x = [[2]] /\ map viewx (snd x) = repeat (Some ([Some 0; Some 1; Some 0], [0; 1; 2; 3]%nat, ([1], [0; 3]%nat), -44)) 2.
Proof. vm_compute. split; reflexivity. Qed.
Definition filex : list kwargs :=
  [{| k_chord_changes := Some [0; 2]; k_chord_non := Some [1]; k_key_changes := None; k_key_non := None;
      k_chords := Some [(0, 2, 1)]; k_keys := None |};
   {| k_chord_changes := Some [7]; k_chord_non := None; k_key_changes := None; k_key_non := None; k_chords := None; k_keys := None |}].
Example C112_test_ex :
  let x e := (0, [1; 1; 1], [3; 2; 2; 3], wx [0; 90; 0], ox 10 (-5) (-3), e) in
  match test_run (gx 20 80) cfgx 0 bx filex [x (Some 0%nat); x None; x (Some 0%nat); x (Some 1%nat); x (Some 0%nat)] with
  | Ok rs => map viewx rs
  | Raise _ => []
  end = let r := Some ([Some 1; Some 0], [0; 2; 3]%nat, ([0], [0; 3]%nat), -35) in
        [r; Some ([Some 0; Some 1], [0; 1; 3]%nat, ([0], [0; 3]%nat), -45); r; None; r].
Proof. vm_compute. reflexivity. Qed.
