From Verif Require Import Model_Beam Spec_Beam Proof_Base Proof_Heap.
From Coq Require Import Permutation.
Ltac Zify.zify_post_hook ::= Z.div_mod_to_equations.
Open Scope Z_scope.

Definition s0 : bstate := {| s_id := 0; s_score := 0; s_tuple := None |}.
Notation bheap := (is_heap s_score s0).

Lemma push_ok h x : bheap h ->
  exists h', heappush state_lt h x = Ok h' /\ bheap h' /\ Permutation h' (x :: h).
Proof. exact (heappush_correct s_score state_lt (fun _ _ => eq_refl) s0 h x). Qed.
Lemma pop_ok h a r : bheap h -> h = a :: r ->
  exists h', heappop state_lt h = Ok (a, h') /\ bheap h' /\ Permutation (a :: h') h.
Proof. exact (heappop_correct s_score state_lt (fun _ _ => eq_refl) s0 h a r). Qed.
Lemma pushpop_ok h a r x : bheap h -> h = a :: r -> s_score a < s_score x ->
  exists h', heappushpop state_lt h x = Ok (a, h') /\ bheap h' /\ Permutation (a :: h') (x :: h).
Proof. exact (heappushpop_correct s_score state_lt (fun _ _ => eq_refl) s0 h a r x). Qed.
Lemma bheap_min h a r : bheap h -> h = a :: r -> forall x, In x h -> s_score a <= s_score x.
Proof. exact (heap_min s_score s0 h a r). Qed.

Lemma hget_cons (a : bstate) r : hget (a :: r) 0 = Ok a. Proof. reflexivity. Qed.

(* how one addition changes the collection of listed states, as multisets *)
Inductive step_kind (size : Z) (B : list bstate) (s : bstate) (force : bool) (B' : list bstate)
  : bool -> Prop :=
| sk_push : (force = true \/ zlen B < size) -> Permutation B' (s :: B) ->
    step_kind size B s force B' true
| sk_swap m : force = false -> size <= zlen B -> In m B ->
    (forall x, In x B -> s_score m <= s_score x) -> s_score m < s_score s ->
    Permutation (m :: B') (s :: B) -> step_kind size B s force B' true
| sk_reject : force = false -> size <= zlen B ->
    (forall x, In x B -> s_score s <= s_score x) -> B' = B ->
    step_kind size B s force B' false.

Lemma beam_add_step b s f : bheap (b_heap b) -> 1 <= b_size b ->
  exists b' added, beam_add b s f = Ok (b', added) /\ bheap (b_heap b') /\ b_size b' = b_size b
   /\ step_kind (b_size b) (b_heap b) s f (b_heap b') added /\ (added = false -> b' = b).
Proof.
  intros Hh Hs. unfold beam_add.
  destruct (negb f && (b_size b <=? b_len b)) eqn:E.
  - apply andb_true_iff in E as [Ef El]. apply negb_true_iff in Ef. subst f.
    unfold b_len in El. destruct (b_heap b) as [|a r] eqn:Eb; [unfold zlen in El; simpl in El; lia|].
    rewrite hget_cons. cbn [bind]. unfold state_lt at 1.
    destruct (s_score a <? s_score s) eqn:Elt.
    + destruct (pushpop_ok (a :: r) a r s Hh eq_refl) as (h' & E' & Hh' & HP); [lia|].
      rewrite E'. cbn [bind]. do 2 eexists. split; [reflexivity|]. split; [exact Hh'|]. split; [reflexivity|].
      split; [|discriminate].
      apply (sk_swap _ _ _ _ _ a); cbn [b_heap]; [reflexivity|lia|left; reflexivity| |lia|exact HP].
      apply (bheap_min _ a r Hh eq_refl).
    + exists b, false. split; [reflexivity|]. rewrite Eb. split; [exact Hh|]. split; [reflexivity|].
      split; [|reflexivity].
      apply sk_reject; try lia; auto. intros x Hx.
      pose proof (bheap_min _ a r Hh eq_refl x Hx). lia.
  - destruct (push_ok (b_heap b) s Hh) as (h' & E' & Hh' & HP). rewrite E'. cbn [bind].
    do 2 eexists. split; [reflexivity|]. split; [exact Hh'|]. split; [reflexivity|]. split; [|discriminate].
    apply sk_push; [|exact HP]. destruct f; [left; reflexivity|right]. unfold b_len in E. simpl in E. lia.
Qed.

Lemma bheap_nil : bheap []. Proof. apply is_heap_nil. Qed.

Lemma beam_run_ok ops : forall b, bheap (b_heap b) -> 1 <= b_size b ->
  exists b', beam_run b ops = Ok b' /\ bheap (b_heap b') /\ b_size b' = b_size b.
Proof.
  induction ops as [|[s f] ops IH]; intros b Hh Hs; cbn [beam_run]; [eauto|].
  destruct (beam_add_step b s f Hh Hs) as (b1 & a & E & Hh1 & Hs1 & _). rewrite E. cbn [bind].
  destruct (IH b1 Hh1 ltac:(lia)) as (b' & E' & Hh' & Hs'). exists b'. repeat split; auto; lia.
Qed.

(* induction principle: an invariant on (history so far, listed states) *)
Lemma beam_run_ind (size : Z) (P : list (bstate * bool) -> list bstate -> Prop) :
  1 <= size -> P [] [] ->
  (forall hist B s f B' added, P hist B -> step_kind size B s f B' added -> P (hist ++ [(s, f)]) B') ->
  forall ops b', beam_run (new_beam size) ops = Ok b' -> P ops (b_heap b').
Proof.
  intros Hs H0 Hstep.
  assert (G : forall ops hist b b', bheap (b_heap b) -> b_size b = size -> P hist (b_heap b) ->
    beam_run b ops = Ok b' -> P (hist ++ ops) (b_heap b')).
  { induction ops as [|[s f] ops IH]; intros hist b b' Hh Hb HP; cbn [beam_run].
    - intros E. apply Ok_inj in E. subst. rewrite app_nil_r. exact HP.
    - destruct (beam_add_step b s f Hh ltac:(lia)) as (b1 & a & E & Hh1 & Hs1 & Hk & _). rewrite E. cbn [bind].
      intros E'. replace (hist ++ (s, f) :: ops) with ((hist ++ [(s, f)]) ++ ops) by (rewrite <- app_assoc; reflexivity).
      eapply IH; [exact Hh1|lia| |exact E']. eapply Hstep; [exact HP|]. rewrite <- Hb. exact Hk. }
  intros ops b' E. apply (G ops [] (new_beam size) b'); auto. apply bheap_nil.
Qed.

(* counting *)

Lemma zlen_perm {A} (l r : list A) : Permutation l r -> zlen l = zlen r.
Proof. intros H. unfold zlen. rewrite (Permutation_length H). reflexivity. Qed.
Lemma filter_perm {A} (f : A -> bool) l r : Permutation l r -> Permutation (filter f l) (filter f r).
Proof.
  induction 1; simpl; auto.
  - destruct (f x); auto.
  - destruct (f x), (f y); auto. apply perm_swap.
  - etransitivity; eauto.
Qed.
Lemma at_least_perm r l l' : Permutation l l' -> at_least r l = at_least r l'.
Proof. intros H. apply zlen_perm, filter_perm, H. Qed.
Lemma at_least_cons r x l :
  at_least r (x :: l) = (if s_score r <=? s_score x then 1 else 0) + at_least r l.
Proof. unfold at_least. simpl. destruct (s_score r <=? s_score x); [apply zlen_cons|reflexivity]. Qed.
Lemma at_least_all r l : (forall x, In x l -> s_score r <= s_score x) -> at_least r l = zlen l.
Proof.
  induction l as [|x l IH]; intros H; [reflexivity|]. rewrite at_least_cons, zlen_cons, IH.
  - specialize (H x (or_introl eq_refl)). destruct (s_score r <=? s_score x) eqn:E; lia.
  - intros y Hy. apply H. right; exact Hy.
Qed.
Lemma at_least_le r l : at_least r l <= zlen l.
Proof. induction l as [|x l IH]; [reflexivity|]. rewrite at_least_cons, zlen_cons. destruct (_ <=? _); lia. Qed.
Lemma at_least_full r l : at_least r l = zlen l -> forall x, In x l -> s_score r <= s_score x.
Proof.
  induction l as [|y l IH]; intros H x Hx; [contradiction|].
  rewrite at_least_cons, zlen_cons in H. pose proof (at_least_le r l) as Hle.
  destruct (s_score r <=? s_score y) eqn:E; [|lia].
  destruct Hx as [->|Hx]; [lia|]. apply IH; [lia|exact Hx].
Qed.
Lemma at_least_pos r l : 1 <= at_least r l -> exists x, In x l /\ s_score r <= s_score x.
Proof.
  induction l as [|y l IH]; [intros H; unfold at_least, zlen in H; simpl in H; lia|].
  rewrite at_least_cons. destruct (s_score r <=? s_score y) eqn:E.
  - intros _. exists y. split; [left; reflexivity|lia].
  - intros H. destruct IH as (x & Hx & Hs); [lia|]. exists x. split; [right; exact Hx|exact Hs].
Qed.

Lemma swap_at_least size B B' s m r : In m B -> size <= zlen B ->
  (forall x, In x B -> s_score m <= s_score x) -> s_score m < s_score s ->
  Permutation (m :: B') (s :: B) -> size <= at_least r B -> size <= at_least r B'.
Proof.
  intros Hm Hl Hmin Hlt HP H.
  pose proof (at_least_perm r _ _ HP) as E. rewrite !at_least_cons in E.
  pose proof (zlen_perm _ _ HP) as EL. rewrite !zlen_cons in EL.
  destruct (s_score r <=? s_score m) eqn:Em; [|destruct (s_score r <=? s_score s); lia].
  assert (at_least r B' = zlen B'); [|lia].
  apply at_least_all. intros x Hx.
  assert (In x (s :: B)) as [<-|Hx'] by (apply (Permutation_in _ HP); right; exact Hx); [lia|].
  specialize (Hmin x Hx'). lia.
Qed.

(* everything dropped leaves [size] at least as good states behind *)
Lemma plain_general size ops b' : 1 <= size -> beam_run (new_beam size) ops = Ok b' ->
  exists R, Permutation (map fst ops) (b_heap b' ++ R)
    /\ (forall r, In r R -> size <= at_least r (b_heap b'))
    /\ zlen (b_heap b') <= size + zlen (filter snd ops)
    /\ (R <> [] -> size <= zlen (b_heap b')).
Proof.
  intros Hs. revert ops b'. apply (beam_run_ind size (fun ops B => exists R,
    Permutation (map fst ops) (B ++ R) /\ (forall r, In r R -> size <= at_least r B)
    /\ zlen B <= size + zlen (filter snd ops) /\ (R <> [] -> size <= zlen B))); [exact Hs| |].
  - exists []. simpl. split; [constructor|]. split; [contradiction|]. unfold zlen; simpl. split; [lia|congruence].
  - intros hist B s f B' added (R & HP & HR & HL & HR0) Hk.
    rewrite map_app, filter_app, zlen_app. simpl map. simpl filter.
    destruct Hk as [Hf HB|m -> Hl Hm Hmin Hlt HB| -> Hl Hmin ->].
    + exists R. pose proof (zlen_perm _ _ HB) as EL. rewrite zlen_cons in EL. split; [|split; [|split]].
      * rewrite HB, HP. symmetry. simpl. apply Permutation_cons_append.
      * intros r Hr. rewrite (at_least_perm r _ _ HB), at_least_cons. specialize (HR r Hr).
        destruct (_ <=? _); lia.
      * destruct Hf as [->|Hf]; [rewrite zlen_cons, zlen_nil; lia|].
        pose proof (zlen_nonneg (filter snd hist)). destruct f; rewrite ?zlen_cons, zlen_nil; lia.
      * intros Hr. specialize (HR0 Hr). lia.
    + exists (m :: R). pose proof (zlen_perm _ _ HB) as EL. rewrite !zlen_cons in EL. split; [|split; [|split]].
      * rewrite <- Permutation_cons_append, HP. symmetry. rewrite <- Permutation_middle.
        change (m :: B' ++ R) with ((m :: B') ++ R). rewrite HB. reflexivity.
      * intros r [<-|Hr]; [|exact (swap_at_least size B B' s m r Hm Hl Hmin Hlt HB (HR r Hr))].
        rewrite at_least_all; [lia|]. intros x Hx.
        assert (In x (s :: B)) as [<-|Hx'] by (apply (Permutation_in _ HB); right; exact Hx); [lia|auto].
      * rewrite zlen_nil. lia.
      * lia.
    + exists (s :: R). rewrite zlen_nil. split; [|split; [|split; [lia|lia]]].
      * rewrite <- Permutation_cons_append, HP. apply Permutation_middle.
      * intros r [<-|Hr]; [rewrite at_least_all by exact Hmin; exact Hl|auto].
Qed.

Lemma filter_snd_none (ops : list (bstate * bool)) :
  (forall o, In o ops -> snd o = false) -> filter snd ops = [].
Proof.
  induction ops as [|o ops IH]; intros H; [reflexivity|]. simpl.
  rewrite (H o (or_introl eq_refl)). apply IH. intros; apply H; right; assumption.
Qed.

(* unforced histories: exactly the best [size] *)
Lemma plain_best size ops b' : 1 <= size -> (forall o, In o ops -> snd o = false) ->
  beam_run (new_beam size) ops = Ok b' ->
  zlen (b_heap b') = Z.min size (zlen ops) /\
  exists R, Permutation (map fst ops) (b_heap b' ++ R)
    /\ forall x r, In x (b_heap b') -> In r R -> s_score r <= s_score x.
Proof.
  intros Hs Hf E. destruct (plain_general size ops b' Hs E) as (R & HP & HR & HL & HR0).
  rewrite (filter_snd_none ops Hf), zlen_nil in HL.
  pose proof (zlen_perm _ _ HP) as EL. rewrite zlen_map, zlen_app in EL.
  pose proof (zlen_nonneg R).
  split.
  - destruct R as [|r R]; [rewrite zlen_nil in *; lia|]. specialize (HR0 ltac:(discriminate)). lia.
  - exists R. split; [exact HP|]. intros x r Hx Hr. specialize (HR r Hr).
    pose proof (at_least_le r (b_heap b')). apply (at_least_full r (b_heap b')); [lia|exact Hx].
Qed.

(* py_max *)
Lemma py_max_spec l : forall a, In (py_max a l) (a :: l)
  /\ (forall x, In x (a :: l) -> s_score x <= s_score (py_max a l)).
Proof.
  unfold py_max. induction l as [|y l IH]; intros a; cbn [fold_left].
  - split; [left; reflexivity|]. intros x [->|[]]. lia.
  - specialize (IH (if state_lt a y then y else a)) as [H1 H2].
    unfold state_lt in *. destruct (s_score a <? s_score y) eqn:E; split.
    + destruct H1 as [H1|H1]; [right; left; exact H1|right; right; exact H1].
    + intros x [<-|[<-|Hx]].
      * specialize (H2 y (or_introl eq_refl)). lia.
      * apply H2. left; reflexivity.
      * apply H2. right; exact Hx.
    + destruct H1 as [H1|H1]; [left; exact H1|right; right; exact H1].
    + intros x [<-|[<-|Hx]].
      * apply H2. left; reflexivity.
      * specialize (H2 a (or_introl eq_refl)). lia.
      * apply H2. right; exact Hx.
Qed.

Lemma plain_top size ops b' : 1 <= size -> beam_run (new_beam size) ops = Ok b' ->
  match get_top_state b' with
  | None => ops = []
  | Some t => In t (map fst ops) /\ In t (b_states b') /\ (forall s, In s (map fst ops) -> s_score s <= s_score t)
  end.
Proof.
  intros Hs E. destruct (plain_general size ops b' Hs E) as (R & HP & HR & _ & HR0).
  unfold get_top_state, b_states. destruct (b_heap b') as [|a l] eqn:Eb.
  - destruct R as [|r R].
    + simpl in HP. symmetry in HP. apply Permutation_nil in HP. destruct ops; [reflexivity|discriminate].
    + exfalso. specialize (HR0 ltac:(discriminate)). rewrite zlen_nil in HR0. lia.
  - destruct (py_max_spec l a) as [H1 H2]. split; [|split; [exact H1|]].
    + apply (Permutation_in _ (Permutation_sym HP)). apply in_app_iff. left. exact H1.
    + intros s Hsi. apply (Permutation_in _ HP) in Hsi. apply in_app_iff in Hsi as [Hi|Hi]; [auto|].
      specialize (HR s Hi). destruct (at_least_pos s (a :: l)) as (x & Hx & Hsx); [lia|].
      specialize (H2 x Hx). lia.
Qed.

(* a state no better than the listed ones is rejected by a full beam *)
Lemma plain_tie size ops b' s : 1 <= size -> beam_run (new_beam size) ops = Ok b' ->
  size <= b_len b' -> (exists x, In x (b_states b') /\ s_score s <= s_score x /\ forall y, In y (b_states b') -> s_score x <= s_score y) ->
  beam_add b' s false = Ok (b', false).
Proof.
  intros Hs E Hl (x & Hx & Hsx & Hmin).
  destruct (beam_run_ok ops (new_beam size) bheap_nil Hs) as (b1 & E1 & Hh & Hsz).
  rewrite E in E1. apply Ok_inj in E1. subst b1. simpl in Hsz.
  destruct (beam_add_step b' s false Hh ltac:(lia)) as (b2 & a & E2 & _ & _ & Hk & Hr).
  destruct a; [exfalso|rewrite E2, (Hr eq_refl); reflexivity].
  inversion Hk as [Hf HB|m Hf Hl2 Hm Hmin2 Hlt HB|]; unfold b_len, b_states in *.
  - destruct Hf; [discriminate|lia].
  - specialize (Hmin2 x Hx). specialize (Hmin m Hm). lia.
Qed.

Lemma plain_fits size ops b' s ch : 1 <= size -> beam_run (new_beam size) ops = Ok b' ->
  exists b2 added, beam_add b' s false = Ok (b2, added) /\ fits_in_beam b' s = Ok added
    /\ (ch = true -> added = true -> In s (b_states b2)) /\ (added = false -> b2 = b').
Proof.
  intros Hs E.
  destruct (beam_run_ok ops (new_beam size) bheap_nil Hs) as (b1 & E1 & Hh & Hsz).
  rewrite E in E1. apply Ok_inj in E1. subst b1. simpl in Hsz.
  destruct (beam_add_step b' s false Hh ltac:(lia)) as (b2 & a & E2 & _ & _ & Hk & Hr).
  exists b2, a. split; [exact E2|]. split.
  - unfold fits_in_beam, b_len.
    inversion Hk as [Hf HB|m Hf Hl2 Hm Hmin2 Hlt HB|Hf Hl2 Hmin2 HB]; subst a.
    + destruct Hf; [discriminate|]. destruct (zlen (b_heap b') <? b_size b') eqn:El; [reflexivity|lia].
    + destruct (zlen (b_heap b') <? b_size b') eqn:El; [lia|].
      destruct (b_heap b') as [|x r] eqn:Eb; [contradiction|]. rewrite hget_cons. cbn [bind]. f_equal.
      unfold state_lt. pose proof (bheap_min _ x r Hh eq_refl m Hm). apply Z.ltb_lt. lia.
    + destruct (zlen (b_heap b') <? b_size b') eqn:El; [lia|].
      destruct (b_heap b') as [|x r] eqn:Eb; [unfold zlen in *; simpl in *; lia|]. rewrite hget_cons. cbn [bind]. f_equal.
      unfold state_lt. specialize (Hmin2 x (or_introl eq_refl)). apply Z.ltb_ge. lia.
  - split; [|exact Hr]. intros _ ->. unfold b_states.
    inversion Hk as [Hf HB|m Hf Hl2 Hm Hmin2 Hlt HB|]; subst.
    + apply (Permutation_in _ (Permutation_sym HB)). left; reflexivity.
    + assert (In s (m :: b_heap b2)) as [->|Hin] by (apply (Permutation_in _ (Permutation_sym HB)); left; reflexivity); [lia|exact Hin].
Qed.

(* ------------------------------------------------------------------ *)
(* hashed beam *)

Lemma hash_eqb_spec a b : reflect (a = b) (hash_eqb a b).
Proof. unfold hash_eqb. destruct (hash_eq_dec a b); constructor; assumption. Qed.

Definition dkeys_ok (l : list (hash * bstate)) : Prop :=
  NoDup (map fst l) /\ forall k v, In (k, v) l -> k = get_hash v.

Lemma assoc_some l h v : assoc l h = Some v -> In (h, v) l.
Proof.
  induction l as [|[k w] l IH]; simpl; [discriminate|].
  destruct (hash_eqb_spec k h) as [->|]; [intros [= ->]; left; reflexivity|intros E; right; auto].
Qed.
Lemma assoc_none l h : assoc l h = None -> forall v, ~ In (h, v) l.
Proof.
  induction l as [|[k w] l IH]; simpl; [auto|].
  destruct (hash_eqb_spec k h) as [->|Hn]; [discriminate|]. intros E v [[= -> _]|Hi]; [congruence|exact (IH E v Hi)].
Qed.
Lemma assoc_none_key l h : assoc l h = None <-> ~ In h (map fst l).
Proof.
  split.
  - intros E Hi. apply in_map_iff in Hi as ([k v] & Ek & Hi). simpl in Ek. subst. exact (assoc_none l h E v Hi).
  - induction l as [|[k w] l IH]; simpl; [reflexivity|]. intros H.
    destruct (hash_eqb_spec k h) as [->|Hn]; [exfalso; apply H; left; reflexivity|]. apply IH. tauto.
Qed.

Lemma assoc_set_new l h s : assoc l h = None -> assoc_set l h s = l ++ [(h, s)].
Proof.
  induction l as [|[k w] l IH]; simpl; [reflexivity|].
  destruct (hash_eqb_spec k h); [discriminate|]. intros E. rewrite IH by exact E. reflexivity.
Qed.
Lemma assoc_set_keys l h s old : assoc l h = Some old -> map fst (assoc_set l h s) = map fst l.
Proof.
  induction l as [|[k w] l IH]; simpl; [discriminate|].
  destruct (hash_eqb_spec k h); [reflexivity|]. intros E. simpl. rewrite IH by exact E. reflexivity.
Qed.
Lemma assoc_set_perm l h s old : assoc l h = Some old ->
  Permutation (old :: map snd (assoc_set l h s)) (s :: map snd l).
Proof.
  induction l as [|[k w] l IH]; simpl; [discriminate|].
  destruct (hash_eqb_spec k h).
  - intros [= ->]. simpl. apply perm_swap.
  - intros E. simpl. rewrite perm_swap. etransitivity; [apply perm_skip, IH, E|]. apply perm_swap.
Qed.
Lemma assoc_set_in l h s k v : In (k, v) (assoc_set l h s) -> In (k, v) l \/ (k = h /\ v = s).
Proof.
  induction l as [|[k' w] l IH]; simpl.
  - intros [[= <- <-]|[]]. right; auto.
  - destruct (hash_eqb_spec k' h) as [->|Hn]; simpl.
    + intros [[= <- <-]|Hi]; auto.
    + intros [Hi|Hi]; [auto|]. destruct (IH Hi); auto.
Qed.
Lemma assoc_del_perm l h old : assoc l h = Some old ->
  Permutation (old :: map snd (assoc_del l h)) (map snd l).
Proof.
  induction l as [|[k w] l IH]; simpl; [discriminate|].
  destruct (hash_eqb_spec k h).
  - intros [= ->]. reflexivity.
  - intros E. simpl. rewrite perm_swap. apply perm_skip, IH, E.
Qed.
Lemma assoc_del_in l h k v : In (k, v) (assoc_del l h) -> In (k, v) l.
Proof.
  induction l as [|[k' w] l IH]; simpl; [auto|].
  destruct (hash_eqb_spec k' h) as [->|Hn]; simpl; [auto|]. intros [Hi|Hi]; auto.
Qed.
Lemma assoc_del_nodup l h : NoDup (map fst l) -> NoDup (map fst (assoc_del l h)).
Proof.
  induction l as [|[k w] l IH]; simpl; [auto|]. intros H. inversion H as [|? ? Hn Hd]; subst.
  destruct (hash_eqb_spec k h); [exact Hd|]. simpl. constructor; [|auto].
  intros Hi. apply Hn. apply in_map_iff in Hi as ([k2 v] & E & Hi). simpl in E. subst.
  apply assoc_del_in in Hi. apply in_map_iff. exists (k, v). auto.
Qed.
Lemma assoc_in l h v : NoDup (map fst l) -> In (h, v) l -> assoc l h = Some v.
Proof.
  induction l as [|[k w] l IH]; simpl; [contradiction|]. intros H Hi. inversion H as [|? ? Hn Hd]; subst.
  destruct (hash_eqb_spec k h) as [->|Hne].
  - destruct Hi as [[= ->]|Hi]; [reflexivity|]. exfalso. apply Hn. apply in_map_iff. exists (h, v). auto.
  - destruct Hi as [[= -> ->]|Hi]; [congruence|]. auto.
Qed.

Record hinv (seen : list nat) (b : hbeam) (l : list (hash * bstate)) : Prop := {
  hi_dict : hb_dict b = DDict l;
  hi_keys : dkeys_ok l;
  hi_heap : bheap (hb_heap b);
  hi_ids : NoDup (map s_id (hb_heap b));
  hi_live : Permutation (filter (live (hb_invalid b)) (hb_heap b)) (map snd l);
  hi_top : forall a r, hb_heap b = a :: r -> live (hb_invalid b) a = true;
  hi_seen : forall x, In x (hb_heap b) -> In (s_id x) seen;
  hi_seen_inv : forall i, In i (hb_invalid b) -> In i seen
}.

Lemma live_false inv s : live inv s = false <-> In (s_id s) inv.
Proof.
  unfold live. rewrite negb_false_iff, existsb_exists. split.
  - intros (x & Hx & E). apply Nat.eqb_eq in E. subst; exact Hx.
  - intros H. exists (s_id s). split; [exact H|apply Nat.eqb_refl].
Qed.
Lemma live_true inv s : live inv s = true <-> ~ In (s_id s) inv.
Proof. rewrite <- live_false. destruct (live inv s); split; congruence. Qed.

Lemma filter_ext_in' {A} (f g : A -> bool) l : (forall x, In x l -> f x = g x) -> filter f l = filter g l.
Proof. apply filter_ext_in. Qed.

(* _fix_beam_min removes only dead entries and never fails while something is live *)
Lemma fix_min_ok inv fuel : forall h, (length h < fuel)%nat -> bheap h ->
  (exists x, In x h /\ live inv x = true) ->
  exists h', fix_beam_min fuel inv h = Ok h' /\ bheap h'
    /\ Permutation (filter (live inv) h') (filter (live inv) h)
    /\ (forall a r, h' = a :: r -> live inv a = true)
    /\ exists dead, Permutation (dead ++ h') h.
Proof.
  induction fuel as [|fuel IH]; intros h Hf Hh (x & Hx & Hv); [lia|].
  cbn [fix_beam_min]. destruct h as [|a r]; [contradiction|]. rewrite hget_cons. cbn [bind].
  destruct (live inv a) eqn:Ea.
  - exists (a :: r). split; [reflexivity|]. split; [exact Hh|]. split; [reflexivity|]. split; [intros ? ? [= <- _]; exact Ea|].
    exists []. reflexivity.
  - destruct (pop_ok (a :: r) a r Hh eq_refl) as (h1 & E1 & Hh1 & HP). rewrite E1. cbn [bind].
    pose proof (Permutation_length HP) as EL. simpl in EL, Hf.
    destruct (IH h1 ltac:(lia) Hh1) as (h' & E' & Hh' & HP' & Ht & dead & Hd).
    { exists x. split; [|exact Hv].
      assert (In x (a :: h1)) as [->|Hi] by (apply (Permutation_in _ (Permutation_sym HP)); exact Hx); [congruence|exact Hi]. }
    exists h'. split; [exact E'|]. split; [exact Hh'|]. split; [|split; [exact Ht|]].
    + rewrite HP'. pose proof (filter_perm (live inv) _ _ HP) as Q. simpl in Q. rewrite Ea in Q. simpl. rewrite Ea. exact Q.
    + exists (a :: dead). simpl. rewrite Hd. exact HP.
Qed.

(* how one addition changes the listed states of a hashed beam *)
Inductive hstep_kind (size : Z) (B : list bstate) (s : bstate) (force : bool) (B' : list bstate)
  : bool -> Prop :=
| hk_replace old : In old B -> get_hash old = get_hash s -> s_score old < s_score s ->
    Permutation (old :: B') (s :: B) -> hstep_kind size B s force B' true
| hk_worse old : In old B -> get_hash old = get_hash s -> s_score s <= s_score old -> B' = B ->
    hstep_kind size B s force B' false
| hk_new added : (forall x, In x B -> get_hash x <> get_hash s) ->
    step_kind size B s force B' added -> hstep_kind size B s force B' added.

Lemma nodup_perm {A} (l r : list A) : Permutation l r -> NoDup l -> NoDup r.
Proof. apply Permutation_NoDup. Qed.

Lemma nodup_map_app_r {A B} (f : A -> B) l r : NoDup (map f (l ++ r)) -> NoDup (map f r).
Proof.
  rewrite map_app. induction l as [|x l IH]; simpl; [auto|]. intros H. inversion H; auto.
Qed.

Lemma hbeam_add_step seen b l s f : hinv seen b l -> 1 <= hb_size b -> ~ In (s_id s) seen ->
  exists b' l' added, hbeam_add b s f = Ok (b', added) /\ hinv (s_id s :: seen) b' l'
    /\ hb_size b' = hb_size b
    /\ hstep_kind (hb_size b) (map snd l) s f (map snd l') added
    /\ (added = false -> b' = b /\ l' = l).
Proof.
  intros [Hd [Hk Hkv] Hh Hids Hlive Htop Hseen Hinv] Hs Hnew.
  assert (Hnheap : forall x, In x (hb_heap b) -> s_id x <> s_id s).
  { intros x Hx E. apply Hnew. rewrite <- E. auto. }
  assert (Hslive : live (hb_invalid b) s = true).
  { apply live_true. intros Hi. apply Hnew, Hinv, Hi. }
  unfold hbeam_add, d_in, hb_len. rewrite Hd. unfold d_get, d_set.
  destruct (assoc l (get_hash s)) as [old|] eqn:Ea.
  - (* hash present *)
    cbn [bind]. pose proof (assoc_some _ _ _ Ea) as Hold.
    assert (Eho : get_hash old = get_hash s) by (symmetry; apply Hkv; exact Hold).
    assert (HoldB : In old (map snd l)) by (apply in_map_iff; exists (get_hash s, old); auto).
    assert (HoldL : In old (filter (live (hb_invalid b)) (hb_heap b))) by (apply (Permutation_in _ (Permutation_sym Hlive)); exact HoldB).
    apply filter_In in HoldL as [HoldH HoldV].
    unfold state_lt at 1. destruct (s_score old <? s_score s) eqn:Elt.
    + destruct (push_ok (hb_heap b) s Hh) as (h1 & E1 & Hh1 & HP1). rewrite E1. cbn [bind].
      set (inv := s_id old :: hb_invalid b).
      assert (Hs1 : live inv s = true).
      { apply live_true. intros [Ei|Hi]; [apply (Hnheap old HoldH); exact Ei|apply Hnew, Hinv, Hi]. }
      destruct (fix_min_ok inv (S (length h1)) h1 ltac:(lia) Hh1) as (h2 & E2 & Hh2 & HP2 & Ht2 & dead & Hdead).
      { exists s. split; [apply (Permutation_in _ (Permutation_sym HP1)); left; reflexivity|exact Hs1]. }
      rewrite E2. cbn [bind]. do 3 eexists. split; [reflexivity|].
      assert (Nids1 : NoDup (map s_id h1)).
      { apply (nodup_perm (map s_id (s :: hb_heap b))); [apply Permutation_map, Permutation_sym, HP1|].
        simpl. constructor; [|exact Hids]. intros Hi. apply in_map_iff in Hi as (x & E & Hx). exact (Hnheap x Hx E). }
      assert (Hlive' : Permutation (filter (live inv) h2) (map snd (assoc_set l (get_hash s) s))).
      { rewrite HP2. rewrite (filter_perm _ _ _ HP1). simpl. rewrite Hs1.
        apply (Permutation_cons_inv (a := old)). rewrite (assoc_set_perm l (get_hash s) s old Ea).
        rewrite perm_swap. apply perm_skip. rewrite <- Hlive.
        clear -Hids HoldH HoldV. subst inv. induction (hb_heap b) as [|y h IH]; [contradiction|].
        simpl in Hids. inversion Hids as [|? ? Hny Hndh]; subst.
        destruct HoldH as [->|HoldH].
        - simpl. rewrite HoldV. unfold live at 1. simpl. rewrite Nat.eqb_refl. simpl.
          apply perm_skip. erewrite filter_ext_in'; [reflexivity|].
          intros z Hz. unfold live. simpl. destruct (Nat.eqb_spec (s_id z) (s_id old)) as [E|E]; [|reflexivity].
          exfalso. apply Hny. rewrite <- E. apply in_map, Hz.
        - specialize (IH Hndh HoldH). simpl.
          assert (E : live (s_id old :: hb_invalid b) y = live (hb_invalid b) y).
          { unfold live. simpl. destruct (Nat.eqb_spec (s_id y) (s_id old)) as [E|E]; [|reflexivity].
            exfalso. apply Hny. rewrite E. apply in_map, HoldH. }
          rewrite E. destruct (live (hb_invalid b) y); [|exact IH].
          rewrite perm_swap. apply perm_skip, IH. }
      split; [|split; [reflexivity|]].
      * constructor; cbn [hb_dict hb_heap hb_invalid]; auto.
        -- split; [rewrite (assoc_set_keys _ _ _ _ Ea); exact Hk|].
           intros k v Hi. apply assoc_set_in in Hi as [Hi|[-> ->]]; auto.
        -- apply (nodup_map_app_r s_id dead). apply (nodup_perm (map s_id h1)); [|exact Nids1].
           apply Permutation_map, Permutation_sym, Hdead.
        -- intros x Hx. assert (Hx1 : In x h1) by (apply (Permutation_in _ Hdead), in_app_iff; right; exact Hx).
           apply (Permutation_in _ HP1) in Hx1 as [<-|Hx1]; [left; reflexivity|right; auto].
        -- intros i [<-|Hi]; right; auto.
      * split; [|discriminate]. apply (hk_replace _ _ _ _ _ old); auto; [lia|]. apply assoc_set_perm, Ea.
    + exists b, l, false. split; [reflexivity|]. split; [|split; [reflexivity|]].
      * constructor; auto; [split; auto|intros x Hx; right; auto|intros i Hi; right; auto].
      * split; [|auto]. apply (hk_worse _ _ _ _ _ old); auto; lia.
  - (* new hash *)
    assert (Hnoh : forall x, In x (map snd l) -> get_hash x <> get_hash s).
    { intros x Hx E. apply in_map_iff in Hx as ([k v] & Ev & Hi). simpl in Ev. subst v.
      pose proof (Hkv k x Hi) as Ekv. subst k. apply (assoc_none _ _ Ea x). rewrite <- E. exact Hi. }
    assert (Hmin : forall a r, hb_heap b = a :: r -> In a (map snd l) /\ forall x, In x (map snd l) -> s_score a <= s_score x).
    { intros a r Eh. split.
      - apply (Permutation_in _ Hlive). apply filter_In. split; [rewrite Eh; left; reflexivity|exact (Htop a r Eh)].
      - intros x Hx. apply (Permutation_in _ (Permutation_sym Hlive)) in Hx. apply filter_In in Hx as [Hx _].
        exact (bheap_min _ a r Hh Eh x Hx). }
    destruct (negb f && (hb_size b <=? zlen l)) eqn:Ef.
    + apply andb_true_iff in Ef as [Ef El]. apply negb_true_iff in Ef. subst f.
      destruct (hb_heap b) as [|a r] eqn:Eh.
      { exfalso. simpl in Hlive. apply Permutation_nil in Hlive. destruct l; [unfold zlen in El; simpl in El; lia|discriminate]. }
      rewrite hget_cons. cbn [bind]. destruct (Hmin a r eq_refl) as [Ha Hle].
      assert (Hav : live (hb_invalid b) a = true) by exact (Htop a r eq_refl).
      unfold state_lt at 1. destruct (s_score a <? s_score s) eqn:Elt.
      * destruct (pushpop_ok (a :: r) a r s Hh eq_refl ltac:(lia)) as (h1 & E1 & Hh1 & HP1). rewrite E1. cbn [bind].
        rewrite (assoc_set_new _ _ _ Ea). unfold d_del.
        assert (NDa : NoDup (map fst (l ++ [(get_hash s, s)]))).
        { rewrite map_app. simpl. apply (nodup_perm (get_hash s :: map fst l)); [apply Permutation_cons_append|].
          constructor; [apply assoc_none_key, Ea|exact Hk]. }
        assert (Ea2 : assoc (l ++ [(get_hash s, s)]) (get_hash a) = Some a).
        { apply assoc_in; [exact NDa|]. apply in_app_iff. left. apply in_map_iff in Ha as ([k v] & Ev & Hi). simpl in Ev. subst v.
          pose proof (Hkv k a Hi) as E. subst k. exact Hi. }
        rewrite Ea2. cbn [bind].
        assert (Hs1 : In s h1).
        { assert (In s (a :: h1)) as [->|Hi] by (apply (Permutation_in _ (Permutation_sym HP1)); left; reflexivity); [lia|exact Hi]. }
        destruct (fix_min_ok (hb_invalid b) (S (length h1)) h1 ltac:(lia) Hh1) as (h2 & E2 & Hh2 & HP2 & Ht2 & dead & Hdead).
        { exists s. auto. }
        rewrite E2. cbn [bind]. do 3 eexists. split; [reflexivity|].
        assert (HPd : Permutation (a :: map snd (assoc_del (l ++ [(get_hash s, s)]) (get_hash a))) (s :: map snd l)).
        { etransitivity; [exact (assoc_del_perm _ _ _ Ea2)|]. rewrite map_app. symmetry. apply Permutation_cons_append. }
        split; [|split; [reflexivity|]].
        -- constructor; cbn [hb_dict hb_heap hb_invalid]; auto.
           ++ split; [apply assoc_del_nodup, NDa|]. intros k v Hi. apply assoc_del_in in Hi.
              apply in_app_iff in Hi as [Hi|[[= <- <-]|[]]]; auto.
           ++ apply (nodup_map_app_r s_id dead).
              apply (nodup_perm (map s_id h1)); [apply Permutation_map, Permutation_sym, Hdead|].
              apply (nodup_map_app_r s_id [a]). apply (nodup_perm (map s_id (s :: a :: r))); [apply Permutation_map, Permutation_sym, HP1|].
              simpl. constructor; [|exact Hids]. intros Hi. change (In (s_id s) (map s_id (a :: r))) in Hi. apply in_map_iff in Hi as (x & E & Hx). apply (Hnheap x); auto.
           ++ rewrite HP2. apply (Permutation_cons_inv (a := a)). rewrite HPd. rewrite <- Hlive.
              pose proof (filter_perm (live (hb_invalid b)) _ _ HP1) as Q. simpl in Q. rewrite Hslive, Hav in Q.
              simpl. rewrite Hav. exact Q.
           ++ intros x Hx. assert (Hx1 : In x h1) by (apply (Permutation_in _ Hdead), in_app_iff; right; exact Hx).
              assert (In x (s :: a :: r)) as [<-|Hx2] by (apply (Permutation_in _ HP1); right; exact Hx1); [left; reflexivity|right; auto].
           ++ intros i Hi. right; auto.
        -- split; [|discriminate]. apply hk_new; [exact Hnoh|].
           apply (sk_swap _ _ _ _ _ a); auto; [rewrite zlen_map; lia|lia].
      * exists b, l, false. split; [reflexivity|]. split; [|split; [reflexivity|]].
        -- constructor; auto; rewrite ?Eh; auto; [split; auto|intros x Hx; right; auto|intros i Hi; right; auto].
        -- split; [|auto]. apply hk_new; [exact Hnoh|]. apply sk_reject; auto; [rewrite zlen_map; lia|].
           intros x Hx. specialize (Hle x Hx). lia.
    + destruct (push_ok (hb_heap b) s Hh) as (h1 & E1 & Hh1 & HP1). rewrite E1. cbn [bind].
      rewrite (assoc_set_new _ _ _ Ea). do 3 eexists. split; [reflexivity|].
      assert (HB : Permutation (map snd (l ++ [(get_hash s, s)])) (s :: map snd l)).
      { rewrite map_app. simpl. symmetry. apply Permutation_cons_append. }
      split; [|split; [reflexivity|]].
      * constructor; cbn [hb_dict hb_heap hb_invalid]; auto.
        -- split.
           ++ rewrite map_app. simpl. apply (nodup_perm (get_hash s :: map fst l)); [apply Permutation_cons_append|].
              constructor; [apply assoc_none_key, Ea|exact Hk].
           ++ intros k v Hi. apply in_app_iff in Hi as [Hi|[[= <- <-]|[]]]; auto.
        -- apply (nodup_perm (map s_id (s :: hb_heap b))); [apply Permutation_map, Permutation_sym, HP1|].
           simpl. constructor; [|exact Hids]. intros Hi. apply in_map_iff in Hi as (x & E & Hx). exact (Hnheap x Hx E).
        -- rewrite (filter_perm _ _ _ HP1), HB. simpl. rewrite Hslive. apply perm_skip, Hlive.
        -- intros a r Eh1. destruct (live (hb_invalid b) a) eqn:Eav; [reflexivity|exfalso].
           destruct (heappush_head s_score state_lt s0 _ _ _ a r E1 Eh1) as [->|(r0 & Er0)]; [congruence|].
           rewrite (Htop a r0 Er0) in Eav. discriminate.
        -- intros x Hx. apply (Permutation_in _ HP1) in Hx as [<-|Hx]; [left; reflexivity|right; auto].
        -- intros i Hi. right; auto.
      * split; [|discriminate]. apply hk_new; [exact Hnoh|]. apply sk_push; [|exact HB].
        rewrite zlen_map. destruct f; [left; reflexivity|right; simpl in Ef; lia].
Qed.

Lemma hinv_new size : hinv [] (new_hbeam size) [].
Proof.
  constructor; simpl.
  - reflexivity.
  - split; [constructor|intros ? ? []].
  - apply bheap_nil.
  - constructor.
  - constructor.
  - discriminate.
  - intros ? [].
  - intros ? [].
Qed.


Lemma hbeam_run_ind (size : Z) (P : list (bstate * bool) -> list bstate -> Prop) :
  1 <= size -> P [] [] ->
  (forall hist B s f B' added, P hist B -> ~ In (s_id s) (ids hist) ->
     hstep_kind size B s f B' added -> P (hist ++ [(s, f)]) B') ->
  forall ops, NoDup (ids ops) ->
  exists b l, hbeam_run (new_hbeam size) ops = Ok b /\ hinv (ids ops) b l /\ hb_size b = size
    /\ P ops (map snd l).
Proof.
  intros Hs H0 Hstep.
  assert (G : forall ops hist seen b l, hinv seen b l -> hb_size b = size -> P hist (map snd l) ->
    (forall i, In i seen <-> In i (ids hist)) -> NoDup (ids hist ++ ids ops) ->
    exists b' l' seen', hbeam_run b ops = Ok b' /\ hinv seen' b' l' /\ hb_size b' = size
      /\ P (hist ++ ops) (map snd l') /\ (forall i, In i seen' <-> In i (ids (hist ++ ops)))).
  { induction ops as [|[s f] ops IH]; intros hist seen b l Hi Hb HP Hseen Hnd; cbn [hbeam_run].
    - exists b, l, seen. rewrite app_nil_r. auto.
    - assert (Hnew : ~ In (s_id s) (ids hist)).
      { intros Hin. simpl in Hnd. apply NoDup_remove_2 in Hnd. apply Hnd. apply in_app_iff. left. exact Hin. }
      destruct (hbeam_add_step seen b l s f Hi ltac:(lia)) as (b1 & l1 & a & E & Hi1 & Hs1 & Hk & _).
      { rewrite Hseen. exact Hnew. }
      rewrite E. cbn [bind].
      replace (hist ++ (s, f) :: ops) with ((hist ++ [(s, f)]) ++ ops) by (rewrite <- app_assoc; reflexivity).
      eapply IH; [exact Hi1|lia| | |].
      + eapply Hstep; [exact HP|exact Hnew|]. rewrite <- Hb. exact Hk.
      + intros i. unfold ids. rewrite map_app, in_app_iff. simpl. rewrite Hseen. unfold ids. tauto.
      + unfold ids in *. rewrite map_app, <- app_assoc. exact Hnd. }
  intros ops Hnd. destruct (G ops [] [] (new_hbeam size) []) as (b & l & seen & E & Hi & Hb & HP & Hse); auto.
  - apply hinv_new.
  - intros i. reflexivity.
  - exists b, l. split; [exact E|]. split; [|auto].
    destruct Hi as [A1 A2 A3 A4 A5 A6 A7 A8]. constructor; auto.
    + intros x Hx. apply Hse. auto.
    + intros i Hi. apply Hse. auto.
Qed.

(* a state that is not listed is dominated *)
Definition dominated (size : Z) (B : list bstate) (r : bstate) : Prop :=
  (exists x, In x B /\ get_hash x = get_hash r /\ s_score r <= s_score x) \/ size <= at_least r B.

Lemma dominated_step size B s f B' added r : 1 <= size -> hstep_kind size B s f B' added ->
  (In r B \/ dominated size B r) -> In r B' \/ dominated size B' r.
Proof.
  intros Hs Hk H.
  destruct Hk as [old Hold Eh Hlt HP|old Hold Eh Hle ->|added Hnoh Hk]; [| exact H|].
  - assert (Hin : forall x, In x B -> x = old \/ In x B').
    { intros x Hx. assert (In x (old :: B')) as [->|Hi] by (apply (Permutation_in _ (Permutation_sym HP)); right; exact Hx); auto. }
    assert (HsB : In s B').
    { assert (In s (old :: B')) as [->|Hi] by (apply (Permutation_in _ (Permutation_sym HP)); left; reflexivity); [lia|exact Hi]. }
    destruct H as [Hr|[(x & Hx & Ehx & Hrx)|Hr]].
    + destruct (Hin r Hr) as [->|Hr']; [right; left|left; exact Hr'].
      exists s. split; [exact HsB|]. split; [congruence|lia].
    + right; left. destruct (Hin x Hx) as [->|Hx']; [exists s|exists x]; repeat split; auto; try congruence; lia.
    + right; right. pose proof (at_least_perm r _ _ HP) as E. rewrite !at_least_cons in E.
      destruct (s_score r <=? s_score old) eqn:E1; destruct (s_score r <=? s_score s) eqn:E2; lia.
  - destruct Hk as [Hf HP|m -> Hl Hm Hmin Hlt HP| -> Hl Hmin ->]; [| |exact H].
    + assert (Hin : forall x, In x B -> In x B') by (intros x Hx; apply (Permutation_in _ (Permutation_sym HP)); right; exact Hx).
      destruct H as [Hr|[(x & Hx & Ehx & Hrx)|Hr]]; [left; auto|right; left; exists x; auto|right; right].
      rewrite (at_least_perm r _ _ HP), at_least_cons. destruct (_ <=? _); lia.
    + pose proof (zlen_perm _ _ HP) as EL. rewrite !zlen_cons in EL.
      assert (Hall : forall r0, s_score r0 <= s_score m -> size <= at_least r0 B').
      { intros r0 Hr0. rewrite at_least_all; [lia|]. intros x Hx.
        assert (In x (s :: B)) as [<-|Hx'] by (apply (Permutation_in _ HP); right; exact Hx); [lia|].
        specialize (Hmin x Hx'). lia. }
      assert (Hin : forall x, In x B -> x = m \/ In x B').
      { intros x Hx. assert (In x (m :: B')) as [->|Hi] by (apply (Permutation_in _ (Permutation_sym HP)); right; exact Hx); auto. }
      destruct H as [Hr|[(x & Hx & Ehx & Hrx)|Hr]].
      * destruct (Hin r Hr) as [->|Hr']; [right; right; apply Hall; lia|left; exact Hr'].
      * right. destruct (Hin x Hx) as [->|Hx']; [right; apply Hall; lia|left; exists x; auto].
      * right; right. exact (swap_at_least size B B' s m r Hm Hl Hmin Hlt HP Hr).
Qed.

Lemma hstep_new size B s f B' added : 1 <= size -> hstep_kind size B s f B' added ->
  In s B' \/ dominated size B' s.
Proof.
  intros Hs [old Hold Eh Hlt HP|old Hold Eh Hle ->|a Hnoh Hk].
  - left. assert (In s (old :: B')) as [->|Hi] by (apply (Permutation_in _ (Permutation_sym HP)); left; reflexivity); [lia|exact Hi].
  - right; left. exists old. auto.
  - destruct Hk as [Hf HP|m -> Hl Hm Hmin Hlt HP| -> Hl Hmin ->].
    + left. apply (Permutation_in _ (Permutation_sym HP)). left; reflexivity.
    + left. assert (In s (m :: B')) as [->|Hi] by (apply (Permutation_in _ (Permutation_sym HP)); left; reflexivity); [lia|exact Hi].
    + right; right. rewrite at_least_all by exact Hmin. exact Hl.
Qed.

Lemma hstep_subset size B s f B' added : hstep_kind size B s f B' added ->
  forall x, In x B' -> In x (s :: B).
Proof.
  intros [old Hold Eh Hlt HP|old Hold Eh Hle ->|a Hnoh Hk] x Hx.
  - apply (Permutation_in _ HP). right; exact Hx.
  - right; exact Hx.
  - destruct Hk as [Hf HP|m -> Hl Hm Hmin Hlt HP| -> Hl Hmin ->].
    + apply (Permutation_in _ HP). exact Hx.
    + apply (Permutation_in _ HP). right; exact Hx.
    + right; exact Hx.
Qed.

Lemma hstep_len size B s f B' added : hstep_kind size B s f B' added ->
  zlen B <= zlen B' /\ (zlen B' <= zlen B \/ (zlen B' = 1 + zlen B /\ (f = true \/ zlen B < size))).
Proof.
  intros [old Hold Eh Hlt HP|old Hold Eh Hle ->|a Hnoh Hk]; [|lia|].
  - apply zlen_perm in HP. rewrite !zlen_cons in HP. lia.
  - destruct Hk as [Hf HP|m -> Hl Hm Hmin Hlt HP| -> Hl Hmin ->]; [| |lia].
    + apply zlen_perm in HP. rewrite zlen_cons in HP. split; [lia|]. right. split; [lia|exact Hf].
    + apply zlen_perm in HP. rewrite !zlen_cons in HP. lia.
Qed.

Lemma hashed_general size ops : 1 <= size -> NoDup (ids ops) ->
  exists b l, hbeam_run (new_hbeam size) ops = Ok b /\ hinv (ids ops) b l /\ hb_size b = size
    /\ (forall x, In x (map snd l) -> In x (map fst ops))
    /\ (forall r, In r (map fst ops) -> In r (map snd l) \/ dominated size (map snd l) r)
    /\ zlen (map snd l) <= size + zlen (filter snd ops)
    /\ (ops <> [] -> map snd l <> []).
Proof.
  intros Hs Hnd.
  destruct (hbeam_run_ind size (fun ops B =>
    (forall x, In x B -> In x (map fst ops))
    /\ (forall r, In r (map fst ops) -> In r B \/ dominated size B r)
    /\ zlen B <= size + zlen (filter snd ops) /\ (ops <> [] -> B <> [])) Hs) with (ops := ops)
    as (b & l & E & Hi & Hb & H1 & H2 & H3 & H4); auto.
  - split; [contradiction|]. split; [contradiction|]. split; [unfold zlen; simpl; lia|congruence].
  - intros hist B s f B' added (H1 & H2 & H3 & H4) Hn Hk. split; [|split; [|split]].
    + intros x Hx. apply (hstep_subset _ _ _ _ _ _ Hk) in Hx. rewrite map_app. apply in_app_iff.
      destruct Hx as [<-|Hx]; [right; left; reflexivity|left; auto].
    + intros r Hr. rewrite map_app in Hr. apply in_app_iff in Hr as [Hr|[<-|[]]].
      * exact (dominated_step size B s f B' added r Hs Hk (H2 r Hr)).
      * exact (hstep_new size B s f B' added Hs Hk).
    + rewrite filter_app, zlen_app. simpl filter.
      pose proof (zlen_nonneg (filter snd hist)).
      destruct (hstep_len _ _ _ _ _ _ Hk) as [_ [Hl|[Hl [->|Hf]]]].
      * destruct f; rewrite ?zlen_cons, zlen_nil; lia.
      * rewrite zlen_cons, zlen_nil; lia.
      * destruct f; rewrite ?zlen_cons, zlen_nil; lia.
    + intros _ Enil. destruct (hstep_new size B s f B' added Hs Hk) as [Hi|[(x & Hx & _)|Hl]]; subst B'; try contradiction.
      unfold at_least, zlen in Hl. simpl in Hl. lia.
  - exists b, l. repeat (split; auto).
Qed.

(* consequences of the invariant *)
Lemma hinv_states seen b l : hinv seen b l -> hb_states b = Ok (map snd l) /\ hb_len b = zlen (map snd l).
Proof. intros [Hd _ _ _ _ _ _ _]. unfold hb_states, hb_len. rewrite Hd, zlen_map. auto. Qed.

Lemma hinv_nodup_hash seen b l : hinv seen b l -> NoDup (map get_hash (map snd l)).
Proof.
  intros [_ [Hk Hkv] _ _ _ _ _ _]. rewrite map_map.
  rewrite (map_ext_in _ fst); [exact Hk|]. intros [k v] Hi. symmetry. simpl. apply Hkv, Hi.
Qed.

Lemma hinv_top seen b l : hinv seen b l -> map snd l <> [] ->
  exists top, hget (hb_heap b) 0 = Ok top /\ In top (map snd l)
    /\ forall x, In x (map snd l) -> s_score top <= s_score x.
Proof.
  intros [Hd [Hk Hkv] Hh Hids Hlive Htop Hseen Hinv] Hne.
  destruct (hb_heap b) as [|a r] eqn:Eh.
  - simpl in Hlive. apply Permutation_nil in Hlive. congruence.
  - exists a. split; [reflexivity|]. split.
    + apply (Permutation_in _ Hlive). apply filter_In. split; [left; reflexivity|exact (Htop a r eq_refl)].
    + intros x Hx. apply (Permutation_in _ (Permutation_sym Hlive)) in Hx. apply filter_In in Hx as [Hx _].
      exact (bheap_min _ a r Hh eq_refl x Hx).
Qed.

Lemma hashed_content size ops : 1 <= size -> NoDup (ids ops) ->
  exists b B, hbeam_run (new_hbeam size) ops = Ok b /\ hb_states b = Ok B
    /\ NoDup (map get_hash B)
    /\ Permutation B (filter (live (hb_invalid b)) (hb_heap b))
    /\ (B <> [] -> exists top, hget (hb_heap b) 0 = Ok top /\ In top B
          /\ forall x, In x B -> s_score top <= s_score x).
Proof.
  intros Hs Hnd. destruct (hashed_general size ops Hs Hnd) as (b & l & E & Hi & _).
  exists b, (map snd l). split; [exact E|]. split; [apply (hinv_states _ _ _ Hi)|].
  split; [exact (hinv_nodup_hash _ _ _ Hi)|]. split; [symmetry; apply (hi_live _ _ _ Hi)|].
  exact (hinv_top _ _ _ Hi).
Qed.

Lemma nodup_ids_app ops s f : NoDup (ids (ops ++ [(s, f)])) -> NoDup (ids ops) /\ ~ In (s_id s) (ids ops).
Proof.
  unfold ids. rewrite map_app. simpl. intros H. split.
  - apply NoDup_remove_1 in H. rewrite app_nil_r in H. exact H.
  - apply NoDup_remove_2 in H. rewrite app_nil_r in H. exact H.
Qed.

Lemma hashed_step size ops s f : 1 <= size -> NoDup (ids (ops ++ [(s, f)])) ->
  exists b B b' B' added, hbeam_run (new_hbeam size) ops = Ok b /\ hb_states b = Ok B
    /\ hbeam_add b s f = Ok (b', added) /\ hb_states b' = Ok B'
    /\ (added = true <-> In s B')
    /\ (added = false -> b' = b)
    /\ (forall x, In x B' -> x = s \/ In x B)
    /\ (forall x, In x B -> ~ In x B' -> In s B' /\ s_score x < s_score s
         /\ (get_hash x = get_hash s \/
             (f = false /\ size <= zlen B /\ forall y, In y B -> s_score x <= s_score y)))
    /\ (f = false -> (added = true <->
           hfits_in_beam b s true = Ok true) /\ (added = false <-> hfits_in_beam b s true = Ok false)
           /\ (hfits_in_beam b s false = Ok false -> added = false)
           /\ (exists r, hfits_in_beam b s false = Ok r)).
Proof.
  intros Hs Hnd0. apply nodup_ids_app in Hnd0 as [Hnd Hnew].
  destruct (hashed_general size ops Hs Hnd) as (b & l & E & Hi & Hsz & Hsub & _).
  destruct (hbeam_add_step _ b l s f Hi ltac:(lia) Hnew) as (b' & l' & added & E' & Hi' & _ & Hk & Hrej).
  rewrite Hsz in Hk.
  exists b, (map snd l), b', (map snd l'), added.
  split; [exact E|]. split; [apply (hinv_states _ _ _ Hi)|]. split; [exact E'|].
  split; [apply (hinv_states _ _ _ Hi')|].
  assert (HsB : ~ In s (map snd l)).
  { intros Hin. apply Hnew. apply Hsub in Hin. unfold ids. rewrite <- (map_map fst s_id). apply in_map, Hin. }
  assert (Hadd : added = true -> In s (map snd l')).
  { intros ->. inversion Hk as [old Hold Eh Hlt HP| |a Hnoh Hk']; subst.
    - assert (In s (old :: map snd l')) as [->|Hin] by (apply (Permutation_in _ (Permutation_sym HP)); left; reflexivity); [lia|exact Hin].
    - inversion Hk' as [Hf HP|m Hf Hl Hm Hmin Hlt HP|]; subst.
      + apply (Permutation_in _ (Permutation_sym HP)). left; reflexivity.
      + assert (In s (m :: map snd l')) as [->|Hin] by (apply (Permutation_in _ (Permutation_sym HP)); left; reflexivity); [lia|exact Hin]. }
  split; [|split; [|split; [|split]]].
  - split; [exact Hadd|]. intros Hin. destruct added; [reflexivity|]. destruct (Hrej eq_refl) as [_ ->]. contradiction.
  - intros ->. apply Hrej. reflexivity.
  - intros x Hx. apply (hstep_subset _ _ _ _ _ _ Hk) in Hx as [->|Hx]; auto.
  - intros x Hx Hnx. inversion Hk as [old Hold Eh Hlt HP| |a Hnoh Hk']; subst.
    + assert (In x (old :: map snd l')) as [->|Hin] by (apply (Permutation_in _ (Permutation_sym HP)); right; exact Hx); [|contradiction].
      split; [auto|]. split; [exact Hlt|left; exact Eh].
    + congruence.
    + inversion Hk' as [Hf HP|m Hf Hl Hm Hmin Hlt HP|]; subst.
      * exfalso. apply Hnx. apply (Permutation_in _ (Permutation_sym HP)). right; exact Hx.
      * assert (In x (m :: map snd l')) as [->|Hin] by (apply (Permutation_in _ (Permutation_sym HP)); right; exact Hx); [|contradiction].
        split; [auto|]. split; [exact Hlt|right]. split; [reflexivity|]. split; [exact Hl|exact Hmin].
      * congruence.
  - intros ->.
    pose proof (hinv_states _ _ _ Hi) as [_ Elen].
    destruct Hi as [Hd [Hk1 Hkv] Hh Hids Hlive Htop Hseen Hinv].
    assert (Hin : forall o, assoc l (get_hash s) = Some o -> In o (map snd l) /\ get_hash o = get_hash s).
    { intros o Ho. apply assoc_some in Ho. split; [apply in_map_iff; exists (get_hash s, o); auto|symmetry; apply Hkv, Ho]. }
    assert (Hout : assoc l (get_hash s) = None -> forall x, In x (map snd l) -> get_hash x <> get_hash s).
    { intros Ho x Hx Ex. apply in_map_iff in Hx as ([k v] & Ev & Hx). simpl in Ev. subst v.
      pose proof (Hkv k x Hx). subst k. apply (assoc_none _ _ Ho x). rewrite <- Ex. exact Hx. }
    assert (Hglob : exists g, (if hb_len b <? hb_size b then Ok true
       else let! top := hget (hb_heap b) 0 in Ok (state_lt top s)) = Ok g
       /\ (g = true <-> zlen (map snd l) < size \/ exists x, In x (map snd l) /\ s_score x < s_score s)).
    { rewrite Hsz, Elen. destruct (zlen (map snd l) <? size) eqn:El.
      - exists true. split; [reflexivity|]. split; [left; lia|reflexivity].
      - destruct (hinv_top (ids ops) b l) as (top & Et & Hti & Htm).
        + constructor; auto. split; auto.
        + intros En. rewrite En, zlen_nil in El. lia.
        + rewrite Et. cbn [bind]. exists (state_lt top s). split; [reflexivity|]. unfold state_lt. split.
          * intros Hlt. right. exists top. split; [exact Hti|lia].
          * intros [Hlt|(x & Hx & Hlt)]; [lia|]. specialize (Htm x Hx). apply Z.ltb_lt. lia. }
    destruct Hglob as (g & Eg & Hg).
    assert (Hadded : added = true <-> match assoc l (get_hash s) with
       | Some o => s_score o < s_score s
       | None => zlen (map snd l) < size \/ exists x, In x (map snd l) /\ s_score x < s_score s end).
    { assert (Huniq : forall o o', In o (map snd l) -> In o' (map snd l) -> get_hash o = get_hash o' -> o = o').
      { intros o o' H1 H2 E3. apply in_map_iff in H1 as ([k v] & Ev & H1). apply in_map_iff in H2 as ([k' v'] & Ev' & H2).
        simpl in *. subst. pose proof (Hkv _ _ H1). pose proof (Hkv _ _ H2). subst.
        rewrite E3 in H1. pose proof (assoc_in _ _ _ Hk1 H1) as A1. pose proof (assoc_in _ _ _ Hk1 H2) as A2. congruence. }
      inversion Hk as [old Hold Eh Hlt HP|old Hold Eh Hle Eq|a Hnoh Hk']; subst added.
      - destruct (assoc l (get_hash s)) as [o|] eqn:Eo.
        + destruct (Hin o eq_refl) as [H1 H2]. assert (o = old) as -> by (apply Huniq; auto; congruence). tauto.
        + exfalso. exact (Hout eq_refl old Hold Eh).
      - destruct (assoc l (get_hash s)) as [o|] eqn:Eo.
        + destruct (Hin o eq_refl) as [H1 H2]. assert (o = old) as -> by (apply Huniq; auto; congruence).
          split; [discriminate|lia].
        + exfalso. exact (Hout eq_refl old Hold Eh).
      - destruct (assoc l (get_hash s)) as [o|] eqn:Eo.
        + exfalso. destruct (Hin o eq_refl) as [H1 H2]. exact (Hnoh o H1 H2).
        + inversion Hk' as [Hf HP|m Hf Hl Hm Hmin Hlt HP|Hf Hl Hmin]; subst.
          * destruct Hf; [discriminate|]. tauto.
          * split; [intros _; right; exists m; auto|reflexivity].
          * split; [discriminate|]. intros [Hl2|(x & Hx & Hlt)]; [lia|]. specialize (Hmin x Hx). lia. }
    unfold hfits_in_beam. rewrite Eg. cbn [bind]. rewrite andb_true_r, andb_false_r.
    assert (Efit : (if g then if negb (d_in (hb_dict b) (get_hash s)) then Ok true
       else let! o := d_get (hb_dict b) (get_hash s) in Ok (state_lt o s) else Ok g) = Ok added).
    { unfold d_in, d_get. rewrite Hd. destruct (assoc l (get_hash s)) as [o|] eqn:Eo; cbn [negb bind].
      - destruct (Hin o eq_refl) as [H1 H2].
        destruct g.
        + f_equal. unfold state_lt. destruct added.
          * apply Z.ltb_lt, Hadded; reflexivity.
          * apply Z.ltb_ge. destruct (Z_lt_le_dec (s_score o) (s_score s)) as [Hlt|Hge]; [|exact Hge].
            apply Hadded in Hlt. discriminate.
        + f_equal. destruct added; [|reflexivity]. exfalso.
          assert (false = true) by (apply Hg; right; exists o; split; [exact H1|apply Hadded; reflexivity]). discriminate.
      - destruct g, added; try reflexivity; exfalso.
        + assert (false = true) by (apply Hadded, Hg; reflexivity). discriminate.
        + assert (false = true) by (apply Hg, Hadded; reflexivity). discriminate. }
    rewrite Efit. split; [|split; [|split; [|eauto]]].
    + split; [intros ->; reflexivity|intros A; apply Ok_inj in A; exact A].
    + split; [intros ->; reflexivity|intros A; apply Ok_inj in A; exact A].
    + intros A. apply Ok_inj in A. subst g. apply Ok_inj in Efit; congruence.
Qed.

Lemma hashed_top size ops : 1 <= size -> NoDup (ids ops) ->
  exists b, hbeam_run (new_hbeam size) ops = Ok b /\
   match hget_top_state b with
   | Ok None => ops = []
   | Ok (Some t) => In t (map fst ops) /\ (exists B, hb_states b = Ok B /\ In t B)
        /\ forall s, In s (map fst ops) -> s_score s <= s_score t
   | Raise _ => False
   end.
Proof.
  intros Hs Hnd. destruct (hashed_general size ops Hs Hnd) as (b & l & E & Hi & Hsz & Hsub & Hdom & _ & Hne).
  exists b. split; [exact E|]. destruct (hinv_states _ _ _ Hi) as [Est Elen].
  unfold hget_top_state. rewrite Elen, Est. destruct (map snd l) as [|a r] eqn:El.
  - change (0 <? zlen (@nil bstate)) with false. cbn [bind]. destruct ops; [reflexivity|]. exfalso. apply Hne; [discriminate|reflexivity].
  - assert (E0 : (0 <? zlen (a :: r)) = true) by (rewrite zlen_cons; pose proof (zlen_nonneg r); lia). rewrite E0. cbn [bind].
    destruct (py_max_spec r a) as [H1 H2]. split; [auto|]. split; [exists (a :: r); auto|].
    intros s Hsi. destruct (Hdom s Hsi) as [Hin|[(x & Hx & _ & Hle)|Hl]]; [auto| |].
    + specialize (H2 x Hx). lia.
    + destruct (at_least_pos s (a :: r)) as (x & Hx & Hle); [lia|]. specialize (H2 x Hx). lia.
Qed.

Lemma hashed_dominated size ops : 1 <= size -> NoDup (ids ops) ->
  exists b B, hbeam_run (new_hbeam size) ops = Ok b /\ hb_states b = Ok B
    /\ (forall x, In x B -> In x (map fst ops))
    /\ (forall r, In r (map fst ops) -> ~ In r B ->
         (exists x, In x B /\ get_hash x = get_hash r /\ s_score r <= s_score x) \/ size <= at_least r B).
Proof.
  intros Hs Hnd. destruct (hashed_general size ops Hs Hnd) as (b & l & E & Hi & Hsz & Hsub & Hdom & _).
  exists b, (map snd l). split; [exact E|]. split; [apply (hinv_states _ _ _ Hi)|]. split; [exact Hsub|].
  intros r Hr Hn. destruct (Hdom r Hr) as [H|H]; [contradiction|exact H].
Qed.

Lemma hashed_len size ops : 1 <= size -> NoDup (ids ops) ->
  exists b, hbeam_run (new_hbeam size) ops = Ok b /\ hb_len b <= size + forced_calls ops.
Proof.
  intros Hs Hnd. destruct (hashed_general size ops Hs Hnd) as (b & l & E & Hi & Hsz & _ & _ & Hl & _).
  exists b. split; [exact E|]. destruct (hinv_states _ _ _ Hi) as [_ ->]. exact Hl.
Qed.

(* unforced histories: the listed state of a hash is the best ever offered with that hash,
   and everything absent is no better than anything listed unless its hash is listed *)
Lemma hashed_unforced size ops : 1 <= size -> NoDup (ids ops) -> unforced ops ->
  exists b B, hbeam_run (new_hbeam size) ops = Ok b /\ hb_states b = Ok B /\ zlen B <= size
    /\ (forall x r, In x B -> In r (map fst ops) -> get_hash r = get_hash x -> s_score r <= s_score x)
    /\ (forall r, In r (map fst ops) -> (forall x, In x B -> get_hash x <> get_hash r) ->
          zlen B = size /\ forall x, In x B -> s_score r <= s_score x).
Proof.
  intros Hs Hnd Hf. destruct (hashed_general size ops Hs Hnd) as (b & l & E & Hi & Hsz & Hsub & Hdom & Hl & _).
  rewrite (filter_snd_none ops Hf), zlen_nil in Hl.
  pose proof (hinv_nodup_hash _ _ _ Hi) as Hnh.
  assert (Hu : forall x y, In x (map snd l) -> In y (map snd l) -> get_hash x = get_hash y -> x = y).
  { intros x y Hx Hy Exy. clear -Hnh Hx Hy Exy. induction (map snd l) as [|z r IH]; [contradiction|].
    simpl in Hnh. inversion Hnh as [|? ? Hn Hd]; subst.
    destruct Hx as [->|Hx], Hy as [->|Hy]; auto.
    - exfalso. apply Hn. rewrite Exy. apply in_map, Hy.
    - exfalso. apply Hn. rewrite <- Exy. apply in_map, Hx. }
  exists b, (map snd l). split; [exact E|]. split; [apply (hinv_states _ _ _ Hi)|]. split; [lia|]. split.
  - intros x r Hx Hr Eh. destruct (Hdom r Hr) as [Hin|[(y & Hy & Ey & Hle)|Hal]].
    + rewrite (Hu r x Hin Hx Eh). lia.
    + rewrite <- (Hu y x Hy Hx) by congruence. exact Hle.
    + pose proof (at_least_le r (map snd l)). apply (at_least_full r (map snd l)); [lia|exact Hx].
  - intros r Hr Hno. destruct (Hdom r Hr) as [Hin|[(y & Hy & Ey & Hle)|Hal]].
    + exfalso. exact (Hno r Hin eq_refl).
    + exfalso. exact (Hno y Hy Ey).
    + pose proof (at_least_le r (map snd l)). split; [lia|]. intros x Hx. apply (at_least_full r (map snd l)); [lia|exact Hx].
Qed.

(* errors *)
Lemma plain_size0 size s : size <= 0 -> beam_add (new_beam size) s false = Raise IndexError.
Proof.
  intros H. unfold beam_add, b_len, zlen. simpl. destruct (size <=? 0) eqn:E; [reflexivity|lia].
Qed.
Lemma hashed_size0 size s : size <= 0 -> hbeam_add (new_hbeam size) s false = Raise IndexError.
Proof.
  intros H. unfold hbeam_add, hb_len, zlen. simpl. destruct (size <=? 0) eqn:E; [reflexivity|lia].
Qed.

Lemma hashed_empty_add size ops b s f : 1 <= size -> hbeam_run (new_hbeam size) ops = Ok b ->
  NoDup (ids ops) ->
  hb_len (hbeam_empty b) = 0 /\ hget_top_state (hbeam_empty b) = Ok None
  /\ hbeam_add (hbeam_empty b) s f =
      Raise (match s_tuple s with Some _ => TypeError | None => IndexError end)
  /\ hb_states (hbeam_empty b) = Raise AttributeError.
Proof.
  intros Hs E Hnd. destruct (hashed_general size ops Hs Hnd) as (b1 & l & E1 & _ & Hsz & _).
  rewrite E in E1. apply Ok_inj in E1. subst b1.
  split; [reflexivity|]. split; [reflexivity|]. split; [|reflexivity].
  unfold hbeam_add, hbeam_empty, hb_len. cbn [hb_dict d_in hb_size hb_heap].
  destruct (negb f && (hb_size b <=? 0)) eqn:Ef; [apply andb_true_iff in Ef; lia|].
  destruct (push_ok [] s bheap_nil) as (h' & -> & _). cbn [bind d_set].
  unfold list_index_error, get_hash. destruct (s_tuple s); reflexivity.
Qed.

Lemma plain_empty size ops b ops2 : 1 <= size -> beam_run (new_beam size) ops = Ok b ->
  b_len (beam_empty b) = 0 /\ beam_run (beam_empty b) ops2 = beam_run (new_beam size) ops2.
Proof.
  intros Hs E. destruct (beam_run_ok ops (new_beam size) bheap_nil Hs) as (b1 & E1 & _ & Hsz).
  rewrite E in E1. apply Ok_inj in E1. subst b1. split; [reflexivity|].
  unfold beam_empty. rewrite Hsz. reflexivity.
Qed.
