From Verif Require Import Spec_Search Spec_Beam Proof_Base Proof_Codec Proof_CodecSpec Proof_Vectors Proof_Heap Proof_Beam.
From Coq Require Import Permutation.
Open Scope Z_scope.

(* ---- beams of either kind ---- *)
Definition beam_inv (seen : list nat) (B : list bstate) (b : any_beam) : Prop :=
  match b with
  | PB b => bheap (b_heap b) /\ B = b_heap b /\ 1 <= b_size b
  | HB b => exists l, hinv seen b l /\ B = map snd l /\ 1 <= hb_size b
  end.

Lemma step_kind_subset size B s f B' added : step_kind size B s f B' added ->
  forall x, In x B' -> x = s \/ In x B.
Proof.
  intros [Hf HP|m -> Hl Hm Hmin Hlt HP| -> Hl Hmin ->] x Hx; auto.
  - apply (Permutation_in _ HP) in Hx as [<-|Hx]; auto.
  - assert (In x (s :: B)) as [<-|Hi] by (apply (Permutation_in _ HP); right; exact Hx); auto.
Qed.
Lemma step_kind_new size B s f B' added : 1 <= size -> step_kind size B s f B' added ->
  B' <> [].
Proof.
  intros Hs [Hf HP|m -> Hl Hm Hmin Hlt HP| -> Hl Hmin ->] E; subst.
  - apply Permutation_nil in HP. discriminate.
  - pose proof (zlen_perm _ _ HP) as EL. rewrite !zlen_cons, zlen_nil in EL. lia.
  - rewrite zlen_nil in Hl. lia.
Qed.

Definition ab_size (b : any_beam) : Z := match b with PB b => b_size b | HB b => hb_size b end.
Lemma step_kind_size size B s B' added : step_kind size B s false B' added -> zlen B <= size -> zlen B' <= size.
Proof.
  intros [Hf HP|m Hf Hl Hm Hmin Hlt HP|Hf Hl Hmin ->] Hs; [|pose proof (zlen_perm _ _ HP) as E; rewrite !zlen_cons in E; lia|exact Hs].
  destruct Hf as [Hf|Hf]; [discriminate|]. rewrite (zlen_perm _ _ HP), zlen_cons. lia.
Qed.
Lemma step_kind_best size B s f B' added : 1 <= size -> step_kind size B s f B' added ->
  forall y, y = s \/ In y B -> exists x, In x B' /\ s_score y <= s_score x.
Proof.
  intros Hs [Hf HP|m -> Hl Hm Hmin Hlt HP| -> Hl Hmin ->] y Hy.
  - exists y. split; [|lia]. apply (Permutation_in _ (Permutation_sym HP)). destruct Hy as [->|Hy]; [left; reflexivity|right; exact Hy].
  - assert (Hin : forall z, z = s \/ In z B -> z = m \/ In z B').
    { intros z Hz. assert (In z (m :: B')) as [->|Hi]; [|left; reflexivity|right; exact Hi].
      apply (Permutation_in _ (Permutation_sym HP)). destruct Hz as [->|Hz]; [left; reflexivity|right; exact Hz]. }
    destruct (Hin y Hy) as [->|Hy']; [|exists y; split; [exact Hy'|lia]].
    exists s. split; [|lia]. destruct (Hin s (or_introl eq_refl)) as [->|H]; [lia|exact H].
  - destruct Hy as [->|Hy]; [|exists y; split; [exact Hy|lia]]. destruct B as [|x B]; [rewrite zlen_nil in Hl; lia|].
    exists x. split; [left; reflexivity|]. exact (Hmin x (or_introl eq_refl)).
Qed.
Lemma hstep_kind_best size B s f B' added : 1 <= size -> hstep_kind size B s f B' added ->
  forall y, y = s \/ In y B -> exists x, In x B' /\ s_score y <= s_score x.
Proof.
  intros Hs [old Hold Eh Hlt HP|old Hold Eh Hle ->|a Hnoh Hk] y Hy; [| |exact (step_kind_best _ _ _ _ _ _ Hs Hk y Hy)].
  - assert (Hin : forall z, z = s \/ In z B -> z = old \/ In z B').
    { intros z Hz. assert (In z (old :: B')) as [->|Hi]; [|left; reflexivity|right; exact Hi].
      apply (Permutation_in _ (Permutation_sym HP)). destruct Hz as [->|Hz]; [left; reflexivity|right; exact Hz]. }
    destruct (Hin y Hy) as [->|Hy']; [|exists y; split; [exact Hy'|lia]].
    exists s. split; [|lia]. destruct (Hin s (or_introl eq_refl)) as [->|H]; [lia|exact H].
  - destruct Hy as [->|Hy]; [exists old; split; [exact Hold|lia]|exists y; split; [exact Hy|lia]].
Qed.
Lemma ab_add_ok seen B b s f : beam_inv seen B b -> ~ In (s_id s) seen ->
  exists b' B', ab_add b s f = Ok b' /\ beam_inv (s_id s :: seen) B' b'
    /\ (forall x, In x B' -> x = s \/ In x B) /\ B' <> [] /\ ab_size b' = ab_size b
    /\ ((f = false -> zlen B <= ab_size b -> zlen B' <= ab_size b)
        /\ forall y, y = s \/ In y B -> exists x, In x B' /\ s_score y <= s_score x).
Proof.
  destruct b as [b|b]; cbn [beam_inv ab_add ab_size].
  - intros (Hh & -> & Hs) Hn. destruct (beam_add_step b s f Hh Hs) as (b' & a & E & Hh' & Hsz & Hk & _).
    rewrite E. cbn [bind]. exists (PB b'), (b_heap b'). split; [reflexivity|]. split; [|split; [|split; [|split; [exact Hsz|]]]].
    + cbn [beam_inv]. split; [exact Hh'|]. split; [reflexivity|lia].
    + exact (step_kind_subset _ _ _ _ _ _ Hk).
    + exact (step_kind_new _ _ _ _ _ _ Hs Hk).
    + split; [intros ->; exact (step_kind_size _ _ _ _ _ Hk)|exact (step_kind_best _ _ _ _ _ _ Hs Hk)].
  - intros (l & Hi & -> & Hs) Hn. destruct (hbeam_add_step seen b l s f Hi Hs Hn) as (b' & l' & a & E & Hi' & Hsz & Hk & _).
    rewrite E. cbn [bind]. exists (HB b'), (map snd l'). split; [reflexivity|]. split; [|split; [|split; [|split; [exact Hsz|]]]].
    + cbn [beam_inv]. exists l'. split; [exact Hi'|]. split; [reflexivity|lia].
    + intros x Hx. destruct (hstep_subset _ _ _ _ _ _ Hk x Hx) as [<-|H]; auto.
    + intros En. destruct (hstep_new _ _ _ _ _ _ Hs Hk) as [Hx|[(x & Hx & _)|Hx]]; rewrite En in Hx; try contradiction.
      unfold at_least, zlen in Hx. cbn in Hx. lia.
    + split; [|exact (hstep_kind_best _ _ _ _ _ _ Hs Hk)].
      intros -> Hl. destruct Hk as [old Hold Eh Hlt HP|old Hold Eh Hle ->|added Hnoh Hk]; [|exact Hl|exact (step_kind_size _ _ _ _ _ Hk Hl)].
      pose proof (zlen_perm _ _ HP) as EL. rewrite !zlen_cons in EL. lia.
Qed.
Lemma ab_list_ok seen B b : beam_inv seen B b -> ab_list b = Ok B /\ ab_len b = zlen B.
Proof.
  destruct b as [b|b]; cbn [beam_inv ab_list ab_len].
  - intros (_ & -> & _). split; reflexivity.
  - intros (l & Hi & -> & _). exact (hinv_states _ _ _ Hi).
Qed.
Lemma ab_heap_ok seen B b : beam_inv seen B b -> B <> [] ->
  exists top, hget (ab_heap b) 0 = Ok top /\ In top B /\ forall x, In x B -> s_score top <= s_score x.
Proof.
  destruct b as [b|b]; cbn [beam_inv ab_heap].
  - intros (Hh & -> & _) Hne. destruct (b_heap b) as [|a r] eqn:E; [contradiction|].
    exists a. split; [reflexivity|]. split; [left; reflexivity|]. exact (bheap_min _ a r Hh eq_refl).
  - intros (l & Hi & -> & _) Hne. exact (hinv_top _ _ _ Hi Hne).
Qed.
Lemma ab_fits_ok seen B b s ch : beam_inv seen B b -> exists r, ab_fits b s ch = Ok r.
Proof.
  intros H. pose proof (ab_heap_ok _ _ _ H) as Ht. pose proof (ab_list_ok _ _ _ H) as [_ El].
  destruct b as [b|b]; cbn [beam_inv ab_fits ab_heap ab_len] in *.
  - destruct H as (_ & -> & Hs). unfold fits_in_beam. destruct (b_len b <? b_size b) eqn:E; [eexists; reflexivity|].
    destruct Ht as (top & -> & _); [|eexists; reflexivity]. intros En. rewrite En, zlen_nil in El. lia.
  - destruct H as (l & Hi & -> & Hs). unfold hfits_in_beam.
    assert (Hg : exists gc, (if hb_len b <? hb_size b then Ok true
       else let! top := hget (hb_heap b) 0 in Ok (state_lt top s)) = Ok gc).
    { destruct (hb_len b <? hb_size b) eqn:E; [eexists; reflexivity|].
      destruct Ht as (top & -> & _); [|eexists; reflexivity]. intros En. rewrite En, zlen_nil in El. lia. }
    destruct Hg as (gc & ->). cbn [bind]. destruct (gc && ch); [|eexists; reflexivity].
    destruct Hi as [Hd _ _ _ _ _ _ _]. rewrite Hd. unfold d_in, d_get.
    destruct (assoc l (get_hash s)); cbn [negb bind]; eexists; reflexivity.
Qed.
Lemma ab_top_ok seen B b : beam_inv seen B b ->
  exists t, ab_top b = Ok t /\ match t with
    | None => B = []
    | Some x => In x B /\ forall y, In y B -> s_score y <= s_score x end.
Proof.
  destruct b as [b|b]; cbn [beam_inv ab_top].
  - intros (_ & -> & _). unfold get_top_state, b_states. destruct (b_heap b) as [|a l]; [eexists; split; reflexivity|].
    eexists. split; [reflexivity|]. cbn beta iota. destruct (py_max_spec l a) as [H1 H2]. split; [exact H1|]. exact H2.
  - intros (l & Hi & -> & _). destruct (hinv_states _ _ _ Hi) as [Es El]. unfold hget_top_state. rewrite El, Es. cbn [bind].
    destruct (map snd l) as [|a r]; [eexists; split; reflexivity|].
    replace (0 <? zlen (a :: r)) with true by (symmetry; apply Z.ltb_lt; rewrite zlen_cons; pose proof (zlen_nonneg r); lia).
    eexists. split; [reflexivity|]. cbn beta iota. destruct (py_max_spec r a) as [H1 H2]. split; [exact H1|]. exact H2.
Qed.
Lemma new_any_inv hl size : 1 <= size -> beam_inv [] [] (new_any hl size).
Proof.
  intros H. destruct hl; cbn [new_any beam_inv].
  - exists []. split; [apply hinv_new|]. split; [reflexivity|exact H].
  - split; [apply bheap_nil|]. split; [reflexivity|exact H].
Qed.

(* ---- the states the search can build, whatever the beams keep ---- *)
Section Derived.
Variables (g : search_cfg) (o : oracle) (pd : piece_data) (ranges : list range_data).
Let cpt := g_cpt g.
Let kpt := g_kpt g.

(* the state as it is branched on: after run_csm, which replaces the prior *)
Definition ready (s0 s : state) : Prop :=
  (st_change s0 = 0%nat /\ s = s0) \/ (st_change s0 <> 0%nat /\ exists l i, nth_error l i = Some s0
       /\ s = set_prior s0 (o_csm o (st_change s0) l i)).

(* the chord may be tried for the range *)
Definition chord_ok (s : state) (r : range_data) (c : Z) : Prop :=
  match pick o (forced_set (p_forced_c pd) (st_change s) (r_end r)) with
  | Some f => c = f
  | None => In c (py_slice (r_order r) 0 (r_max r)) \/ In c (py_slice (r_order r) 0 2)
  end.

Definition branch_rel (s : state) (r : range_data) (n : state) : Prop :=
  exists c p, chord_ok s r c /\ py_nth (r_prior r) c = Ok p /\
    let len := Z.of_nat (r_end r) - Z.of_nat (st_change s) in
    ((st_chord s = Some c /\ rejoin cpt kpt s (r_end r) (r_log r + p * len + r_rejoin r) = Ok n)
     \/ (st_chord s <> Some c /\ chord_transition cpt kpt s c (r_end r) (r_log r + p * len) = Ok (Some n))).

(* (may change key, may keep its key) *)
Definition key_flags (prob : Z) (p n : state) : bool * bool :=
  match pick o (forced_set (p_forced_k pd) (st_change p) (st_change n)) with
  | Some k => if st_key n =? k then (false, negb (st_must n)) else (true, false)
  | None => (g_min_key g <=? prob, (prob <=? g_max_no_key g) && negb (st_must n))
  end.
Definition range_len (p n : state) : Z := Z.of_nat (st_change n) - Z.of_nat (st_change p).

(* a probability the key transition model may have given; 0 if no key change is possible *)
Definition prob_ok (n : state) (prob : Z) : Prop :=
  (can_key_transition n = false /\ prob = 0)
  \/ (can_key_transition n = true /\ exists step l i, nth_error l i = Some n /\ prob = o_ktm o step l i).

Definition keep_rel (prob : Z) (n m : state) : Prop :=
  exists p, st_prev n = Some p /\
    ((key_flags prob p n = (false, true) /\ m = add_ktm n (o_log o (o_one o - prob) * range_len p n))
     \/ (key_flags prob p n = (true, true) /\ m = n)).
Definition change_rel (prob : Z) (n m : state) : Prop :=
  exists p, st_prev n = Some p /\
    ((key_flags prob p n = (true, false) /\ m = add_ktm n (o_log o prob * range_len p n))
     \/ (key_flags prob p n = (true, true) /\ exists c, copy_state n = Ok c /\
          m = add_ktm (add_ktm c (o_log o prob * range_len p n))
                (o_log o (o_one o - prob) * range_len p n))).

(* one key tried by get_key_change_states *)
Definition key_rel0 (priors : list Z) (m f : state) : Prop :=
  exists p key lp rid mode interval x, st_prev m = Some p /\ key <> st_key m
    /\ (forall k, pick o (forced_set (p_forced_k pd) (st_change p) (st_change m)) = Some k -> key = k)
    /\ py_nth (relative_key_labels kpt) rid = Ok (mode, interval)
    /\ moved_key kpt (st_key m) key interval mode /\ 0 <= key < zlen (key_labels kpt)
    /\ py_nth priors rid = Ok x /\ lp = x * g_ksm_exp g * range_len p m
    /\ key_transition cpt kpt m key lp = Ok (Some f).
Definition key_rel (m f : state) : Prop :=
  exists step l i, nth_error l i = Some m /\ key_rel0 (o_ksm o step l i) m f.

Definition csm_rel (m f : state) : Prop :=
  add_csm_prior cpt kpt (p_durs pd) (p_levels pd) (g_pitch_based g) (g_use_inv g) (g_red g)
    (o_pitch_log o) m = Ok f.

Inductive derived : state -> Prop :=
| d_init k keys s : initial_keys g pd = Ok keys -> In k keys -> initial_state g o k = Ok s -> derived s
| d_keep s0 s r n prob m f : derived s0 -> ready s0 s -> In r ranges -> r_start r = st_change s ->
    branch_rel s r n -> prob_ok n prob -> keep_rel prob n m -> csm_rel m f -> derived f
| d_change s0 s r n prob m f : derived s0 -> ready s0 s -> In r ranges -> r_start r = st_change s ->
    branch_rel s r n -> prob_ok n prob -> change_rel prob n m -> key_rel m f -> derived f.

(* ---- invariant of the search ---- *)
Definition slot_ok (sr : search) (idx : nat) (b : any_beam) : Prop :=
  exists seen B, beam_inv seen B b /\ ab_size b = g_beam_size g /\ ((idx <> 0%nat -> zlen B <= g_beam_size g)
        /\ forall s, In s (sr_store sr) -> st_change s = idx -> exists x, In x B /\ st_logp s <= s_score x)
    /\ (forall i, In i seen -> (i < length (sr_store sr))%nat)
    /\ (forall x, In x B -> exists s, nth_error (sr_store sr) (s_id x) = Some s
          /\ x = to_bstate (s_id x) s /\ st_change s = idx).
Record sinv (k : nat) (sr : search) : Prop := {
  si_len : length (sr_beams sr) = S (length (p_durs pd));
  si_slots : forall idx b, (k <= idx)%nat -> nth_error (sr_beams sr) idx = Some b -> slot_ok sr idx b;
  si_store : forall s, In s (sr_store sr) -> derived s
}.

Lemma hget_nth {A} (l : list A) i a : hget l i = Ok a <-> nth_error l i = Some a.
Proof. unfold hget. destruct (nth_error l i); split; intros H; try discriminate; [apply Ok_inj in H; congruence|congruence]. Qed.
Lemma nth_error_upd_same {A} (l : list A) i v : (i < length l)%nat -> nth_error (upd_nat l i v) i = Some v.
Proof. intros H. rewrite nth_error_upd_nat, Nat.eqb_refl. apply Nat.ltb_lt in H. rewrite H. reflexivity. Qed.
Lemma nth_error_upd_other {A} (l : list A) i j v : i <> j -> nth_error (upd_nat l i v) j = nth_error l j.
Proof. intros H. rewrite nth_error_upd_nat. destruct (Nat.eqb_spec i j); [contradiction|]. destruct (Nat.eqb_spec j i); [congruence|reflexivity]. Qed.

Lemma slot_ok_mono sr sr' idx b : slot_ok sr idx b -> (exists l, sr_store sr' = sr_store sr ++ l /\ forall s, In s l -> st_change s <> idx) -> slot_ok sr' idx b.
Proof.
  intros (seen & B & Hb & Hsz & [Hlen Hbest] & Hs & Hx) (l & El & Hl). exists seen, B. split; [exact Hb|]. split; [exact Hsz|]. rewrite El.
  split; [split; [exact Hlen|]; intros s Hi Hc; apply in_app_iff in Hi as [Hi|Hi]; [exact (Hbest s Hi Hc)|destruct (Hl s Hi Hc)]|]. split.
  - intros i Hi. rewrite app_length. specialize (Hs i Hi). lia.
  - intros x Hi. destruct (Hx x Hi) as (s & E & H). exists s. split; [|exact H].
    rewrite nth_error_app1; [exact E|]. apply nth_error_Some. congruence.
Qed.

Lemma add_state_inv k sr idx s f : sinv k sr -> derived s -> (idx <> 0%nat -> f = false) -> (k <= idx <= length (p_durs pd))%nat -> st_change s = idx ->
  exists sr', add_state sr idx s f = Ok sr' /\ sinv k sr' /\ sr_store sr' = sr_store sr ++ [s]
    /\ (forall j, j <> idx -> nth_error (sr_beams sr') j = nth_error (sr_beams sr) j).
Proof.
  intros [HL HS HD] Hd Hff Hi Hc. unfold add_state.
  destruct (nth_error (sr_beams sr) idx) as [b|] eqn:Eb; [|apply nth_error_None in Eb; lia].
  unfold hget. rewrite Eb. cbn [bind]. pose proof (HS idx b (proj1 Hi) Eb) as (seen & B & Hb & Hsz & [Hlen Hbest] & Hseen & HB).
  destruct (ab_add_ok seen B b (to_bstate (length (sr_store sr)) s) f Hb) as (b' & B' & E & Hb' & Hsub & _ & Hsz' & Hlen' & Hkeep).
  { cbn [to_bstate s_id]. intros H. apply Hseen in H. lia. }
  rewrite E. cbn [bind]. eexists. split; [reflexivity|]. split; [|split; [reflexivity|]].
  - constructor; cbn [sr_beams sr_store].
    + rewrite upd_nat_length. exact HL.
    + intros j bj Hj Ej. destruct (Nat.eq_dec j idx) as [->|Hne].
      * rewrite nth_error_upd_same in Ej by lia. injection Ej as <-.
        exists (length (sr_store sr) :: seen), B'. split; [exact Hb'|]. split; [congruence|].
        cbn [sr_store]. split; [split; [intros Hne; rewrite Hsz in Hlen'; exact (Hlen' (Hff Hne) (Hlen Hne))|]|split].
        -- intros s' Hs' Hc'. apply in_app_iff in Hs' as [Hs'|[<-|[]]].
           ++ destruct (Hbest s' Hs' Hc') as (x & Hx & Hle). destruct (Hkeep x (or_intror Hx)) as (x' & Hx' & Hle').
              exists x'. split; [exact Hx'|lia].
           ++ exact (Hkeep _ (or_introl eq_refl)).
        -- intros i [<-|Hi']; rewrite app_length; cbn [length]; [lia|]. apply Hseen in Hi'. lia.
        -- intros x Hx. destruct (Hsub x Hx) as [->|Hx'].
           ++ exists s. cbn [to_bstate s_id]. rewrite nth_error_app2, Nat.sub_diag by lia. auto.
           ++ destruct (HB x Hx') as (s' & E' & H'). exists s'. split; [|exact H'].
              rewrite nth_error_app1; [exact E'|]. apply nth_error_Some. congruence.
      * rewrite nth_error_upd_other in Ej by congruence.
        apply (slot_ok_mono sr); [exact (HS j bj Hj Ej)|]. eexists. split; [reflexivity|].
        intros s' [<-|[]]. congruence.
    + intros x Hx. apply in_app_iff in Hx as [Hx|[<-|[]]]; auto.
  - intros j Hj. cbn [sr_beams]. apply nth_error_upd_other. congruence.
Qed.

Lemma add_all_inv k l : forall sr, sinv k sr ->
  (forall s, In s l -> derived s /\ (k <= st_change s <= length (p_durs pd))%nat) ->
  exists sr', add_all sr l = Ok sr' /\ sinv k sr' /\ sr_store sr' = sr_store sr ++ l
    /\ (forall j, (forall s, In s l -> st_change s <> j) -> nth_error (sr_beams sr') j = nth_error (sr_beams sr) j).
Proof.
  induction l as [|s l IH]; intros sr Hi Hl; cbn [add_all].
  - exists sr. rewrite app_nil_r. auto.
  - destruct (Hl s (or_introl eq_refl)) as [Hd Hr].
    destruct (add_state_inv k sr (st_change s) s false Hi Hd (fun _ => eq_refl) Hr eq_refl) as (sr1 & E & Hi1 & Es1 & Hj1).
    rewrite E. cbn [bind]. destruct (IH sr1 Hi1) as (sr2 & E2 & Hi2 & Es2 & Hj2).
    { intros x Hx. apply Hl. right; exact Hx. }
    exists sr2. split; [exact E2|]. split; [exact Hi2|]. split; [rewrite Es2, Es1, <- app_assoc; reflexivity|].
    intros j Hj. rewrite Hj2; [|intros x Hx; apply Hj; right; exact Hx].
    apply Hj1. intros ->. apply (Hj s (or_introl eq_refl)). reflexivity.
Qed.

(* what is on the current beam *)
Lemma content_inv k sr b states : sinv k sr -> nth_error (sr_beams sr) k = Some b ->
  beam_content sr b = Ok states -> forall s, In s states -> derived s /\ st_change s = k.
Proof.
  intros [HL HS HD] Eb Ec s Hs. destruct (HS k b (le_n k) Eb) as (seen & B & Hb & _ & _ & Hseen & HB).
  unfold beam_content in Ec. rewrite (proj1 (ab_list_ok _ _ _ Hb)) in Ec. cbn [bind] in Ec. apply mapM_ok in Ec.
  assert (H : exists x, In x B /\ hget (sr_store sr) (s_id x) = Ok s).
  { clear -Ec Hs. induction Ec as [|x y l l' Hxy _ IH]; [contradiction|]. destruct Hs as [<-|Hs].
    - exists x. split; [left; reflexivity|exact Hxy].
    - destruct (IH Hs) as (z & Hz & E). exists z. split; [right; exact Hz|exact E]. }
  destruct H as (x & Hx & Ex). apply hget_nth in Ex. destruct (HB x Hx) as (s' & E' & _ & Hc). rewrite Ex in E'.
  injection E' as <-. split; [|exact Hc]. apply HD. apply nth_error_In in Ex. exact Ex.
Qed.

Lemma in_mapi {A B} (f : nat -> A -> B) l : forall i y, In y (mapi f i l) ->
  exists j a, nth_error l j = Some a /\ y = f (i + j)%nat a.
Proof.
  induction l as [|a l IH]; intros i y H; [contradiction|]. destruct H as [<-|H].
  - exists 0%nat, a. rewrite Nat.add_0_r. auto.
  - destruct (IH _ _ H) as (j & b & E & ->). exists (S j), b. split; [exact E|]. f_equal. lia.
Qed.

Lemma run_csm_ready step l l' : run_csm g o pd step l = Ok l' -> (forall s, In s l -> st_change s <> 0%nat) ->
  (forall s, In s l -> st_change s = step) ->
  forall s', In s' l' -> exists s, In s l /\ ready s s'.
Proof.
  unfold run_csm. intros H Hn Hstep s' Hs'. destruct (mapM _ l); [|discriminate]. cbn [bind] in H. apply Ok_inj in H. subst l'.
  apply in_mapi in Hs' as (j & s & E & ->). exists s. split; [exact (nth_error_In _ _ E)|]. right.
  split; [apply Hn, (nth_error_In _ _ E)|]. exists l, j. split; [exact E|]. cbn [Nat.add].
  replace (st_change s) with step; [reflexivity|]. symmetry. apply Hstep, (nth_error_In _ _ E).
Qed.

Lemma branch_chords_rel sr step s r : st_change s = step -> forall chords l,
  branch_chords g sr step s r chords = Ok l -> (forall c, In c chords -> chord_ok s r c) ->
  forall n, In n l -> branch_rel s r n.
Proof.
  intros Hs. induction chords as [|c rest IH]; intros l H Hok n Hn; cbn [branch_chords] in H.
  - apply Ok_inj in H. subst. contradiction.
  - apply bind_ok in H as (p & Ep & H). apply bind_ok in H as (new & Enew & H).
    assert (Hrest : forall c, In c rest -> chord_ok s r c) by (intros x Hx; apply Hok; right; exact Hx).
    destruct new as [n'|]; [|exact (IH _ H Hrest n Hn)].
    apply bind_ok in H as (ok & Eok & H). destruct ok; [|apply Ok_inj in H; subst; contradiction].
    apply bind_ok in H as (more & Em & H). apply Ok_inj in H. subst l.
    destruct Hn as [->|Hn]; [|exact (IH _ Em Hrest n Hn)].
    exists c, p. split; [apply Hok; left; reflexivity|]. split; [exact Ep|]. cbn zeta. rewrite Hs.
    destruct (st_chord s) as [c'|] eqn:Ec.
    + destruct (Z.eqb_spec c c') as [<-|Hne].
      * left. split; [reflexivity|]. apply bind_ok in Enew as (n'' & En & E). apply Ok_inj in E. injection E as <-. exact En.
      * right. split; [congruence|]. exact Enew.
    + right. split; [discriminate|exact Enew].
Qed.

Lemma py_slice_in {A} (l : list A) a b x : In x (py_slice l a b) -> In x l.
Proof. unfold py_slice. intros H. apply (in_skipn_firstn l _ _ x H) || idtac.
  assert (G : forall n (l : list A), In x (firstn n l) -> In x l).
  { intros n l'. revert n. induction l' as [|y l' IH]; intros [|n] Hi; cbn [firstn] in Hi; try contradiction.
    destruct Hi as [->|Hi]; [left; reflexivity|right; exact (IH _ Hi)]. }
  assert (G' : forall n (l : list A), In x (skipn n l) -> In x l).
  { intros n l'. revert n. induction l' as [|y l' IH]; intros [|n] Hi; cbn [skipn] in Hi; try contradiction; auto.
    right. exact (IH _ Hi). }
  exact (G' _ _ (G _ _ H)).
Qed.

Lemma branch_range_rel sr step s r l : st_change s = step -> branch_range g o pd sr step s r = Ok l ->
  forall n, In n l -> branch_rel s r n.
Proof.
  intros Hs H n Hn. unfold branch_range in H. apply bind_ok in H as (b & Eb & H). apply bind_ok in H as (q & Eq & H).
  destruct q; [apply Ok_inj in H; subst; contradiction|]. apply bind_ok in H as (mi & Emi & H).
  destruct (pick o _) as [f|] eqn:Ep.
  - apply bind_ok in H as (c0 & _ & H). apply (branch_chords_rel _ _ _ _ Hs _ _ H); [|exact Hn].
    intros c [<-|[]]. unfold chord_ok. rewrite Hs, Ep. reflexivity.
  - apply (branch_chords_rel _ _ _ _ Hs _ _ H); [|exact Hn]. intros c Hc. unfold chord_ok. rewrite Hs, Ep.
    destruct (r_max r =? 1); [|apply Ok_inj in Emi; subst mi; left; exact Hc].
    apply bind_ok in Emi as (c0 & _ & Emi). apply Ok_inj in Emi. subst mi.
    destruct (match st_chord s with Some c' => c0 =? c' | None => false end); [right|left]; exact Hc.
Qed.

Lemma key_branch_rel sr step prob n a b : key_branch g o pd sr step prob n = Ok (a, b) ->
  (forall m, In m a -> change_rel prob n m) /\ (forall m, In m b -> keep_rel prob n m).
Proof.
  unfold key_branch, change_rel, keep_rel. intros H. apply bind_ok in H as (p & Ep & H).
  assert (Ep' : st_prev n = Some p) by (unfold the_prev in Ep; destruct (st_prev n); [apply Ok_inj in Ep; congruence|discriminate]).
  cbn zeta in H. change (Z.of_nat (st_change n) - Z.of_nat (st_change p)) with (range_len p n) in H.
  assert (Ef : exists cc cn, key_flags prob p n = (cc, cn)) by (destruct (key_flags prob p n); eauto).
  destruct Ef as (cc & cn & Ef). unfold key_flags in Ef. rewrite Ef in H. fold (key_flags prob p n) in Ef.
  apply bind_ok in H as (cs & Ecs & H). destruct cc, cn; cbn [andb] in Ecs.
  - apply bind_ok in H as (ok & _ & H). apply bind_ok in H as (ok' & _ & H). apply Ok_inj in H. injection H as <- <-.
    split; intros m Hm; exists p; (split; [exact Ep'|]); right.
    + destruct ok; [|contradiction]. destruct Hm as [<-|[]]. split; [exact Ef|]. exists cs. auto.
    + destruct ok'; [|contradiction]. destruct Hm as [<-|[]]. auto.
  - apply Ok_inj in Ecs. subst cs. apply bind_ok in H as (ok & _ & H). apply Ok_inj in H. injection H as <- <-.
    split; intros m Hm; [|contradiction]. exists p; (split; [exact Ep'|]); left.
    destruct ok; [|contradiction]. destruct Hm as [<-|[]]. auto.
  - apply Ok_inj in Ecs. subst cs. apply bind_ok in H as (ok & _ & H). apply Ok_inj in H. injection H as <- <-.
    split; intros m Hm; [contradiction|]. exists p; (split; [exact Ep'|]); left.
    destruct ok; [|contradiction]. destruct Hm as [<-|[]]. auto.
  - apply Ok_inj in H. injection H as <- <-. split; intros m [].
Qed.

Lemma key_branch_all_rel sr step : forall l a b, key_branch_all g o pd sr step l = Ok (a, b) ->
  (forall m, In m a -> exists prob n, In (prob, n) l /\ change_rel prob n m)
  /\ (forall m, In m b -> exists prob n, In (prob, n) l /\ keep_rel prob n m).
Proof.
  induction l as [|[p n] l IH]; intros a b H; cbn [key_branch_all] in H.
  - apply Ok_inj in H. injection H as <- <-. split; intros m [].
  - apply bind_ok in H as ([a1 b1] & E1 & H). apply bind_ok in H as ([a2 b2] & E2 & H). apply Ok_inj in H. injection H as <- <-.
    destruct (key_branch_rel _ _ _ _ _ _ E1) as [A1 B1]. destruct (IH _ _ E2) as [A2 B2].
    split; intros m Hm; apply in_app_iff in Hm as [Hm|Hm].
    + exists p, n. split; [left; reflexivity|]. exact (A1 m Hm).
    + destruct (A2 m Hm) as (q & x & Hx & Hr). exists q, x. split; [right; exact Hx|exact Hr].
    + exists p, n. split; [left; reflexivity|]. exact (B1 m Hm).
    + destruct (B2 m Hm) as (q & x & Hx & Hr). exists q, x. split; [right; exact Hx|exact Hr].
Qed.

Lemma py_nth_in {A} (l : list A) i a : py_nth l i = Ok a -> In a l.
Proof.
  unfold py_nth. destruct (_ || _); [discriminate|]. destruct (nth_error l _) eqn:E; [|discriminate].
  intros H. apply Ok_inj in H. subst. exact (nth_error_In _ _ E).
Qed.

Lemma key_loop_rel m priors mi p : st_prev m = Some p -> forall order n l,
  key_loop g m priors mi (pick o (forced_set (p_forced_k pd) (st_change p) (st_change m))) order n = Ok l ->
  forall f, In f l -> key_rel0 priors m f.
Proof.
  intros Ep. induction order as [|rid rest IH]; intros n l H f Hf; cbn [key_loop] in H.
  - apply Ok_inj in H. subst. contradiction.
  - apply bind_ok in H as ([mode interval] & El & H). apply bind_ok in H as ([t0 m0] & Ek & H). cbn zeta in H.
    destruct (match g_kpt g with TPC => _ | MIDI => false end) eqn:Eout; [exact (IH _ _ H f Hf)|].
    apply bind_ok in H as (key & Ekey & H).
    destruct (match pick o _ with Some f0 => negb (f0 =? key) | None => false end) eqn:Efc; [exact (IH _ _ H f Hf)|].
    destruct (Z.eqb_spec key (st_key m)) as [_|Hne]; [exact (IH _ _ H f Hf)|].
    unfold the_prev in H. rewrite Ep in H. cbn [bind] in H.
    apply bind_ok in H as (lp & Elp & H). apply bind_ok in H as (new & Enew & H).
    assert (Hnew : forall ns, new = Some ns -> key_rel0 priors m ns).
    { intros ns ->. exists p, key, (lp * g_ksm_exp g * range_len p m), rid, mode, interval, lp.
      split; [exact Ep|]. split; [exact Hne|]. split.
      { intros k Epk. rewrite Epk in Efc. apply negb_false_iff, Z.eqb_eq in Efc. congruence. }
      split; [exact El|]. destruct (key_encode_decode _ _ _ _ Ekey) as [Hdec Hrange]. split.
      { exists t0, m0. eexists. split; [exact Ek|]. split; [exact Hdec|reflexivity]. }
      split; [replace (zlen (key_labels kpt)) with (2 * NUM_PITCHES kpt) by (destruct kpt; reflexivity); exact Hrange|].
      split; [exact Elp|]. split; [reflexivity|exact Enew]. }
    destruct new as [ns|].
    + match type of H with (if ?b then _ else _) = _ => destruct b end.
      * apply Ok_inj in H. subst l. destruct Hf as [<-|[]]. apply Hnew. reflexivity.
      * apply bind_ok in H as (more & Em & H). apply Ok_inj in H. subst l.
        destruct Hf as [<-|Hf]; [apply Hnew; reflexivity|exact (IH _ _ Em f Hf)].
    + match type of H with (if ?b then _ else _) = _ => destruct b end.
      * apply Ok_inj in H. subst. contradiction.
      * exact (IH _ _ H f Hf).
Qed.

Lemma mapM_id_in {A B} (f : A -> res (list B)) : forall l ls y, mapM f l = Ok ls -> In y (concat ls) ->
  exists a b, In a l /\ f a = Ok b /\ In y b.
Proof.
  induction l as [|a l IH]; intros ls y H Hy; cbn [mapM] in H.
  - apply Ok_inj in H. subst. contradiction.
  - apply bind_ok in H as (b & Eb & H). apply bind_ok in H as (bs & Ebs & H). apply Ok_inj in H. subst ls.
    cbn [concat] in Hy. apply in_app_iff in Hy as [Hy|Hy].
    + exists a, b. split; [left; reflexivity|]. auto.
    + destruct (IH _ _ Ebs Hy) as (a' & b' & Ha & E & Hb). exists a', b'. split; [right; exact Ha|]. auto.
Qed.

Lemma key_change_states_rel step l l' : key_change_states g o pd step l = Ok l' ->
  forall f, In f l' -> exists m, In m l /\ key_rel m f.
Proof.
  unfold key_change_states. intros H f Hf. apply bind_ok in H as (u & _ & H). apply bind_ok in H as (ls & Els & H).
  apply Ok_inj in H. subst l'. destruct (mapM_id_in _ _ _ _ Els Hf) as (x & b & Hx & Eb & Hb).
  apply in_mapi in Hx as (j & m & Em & ->). exists m. split; [exact (nth_error_In _ _ Em)|].
  cbn beta in Eb. exists step, l, j. split; [exact Em|]. unfold key_change_one in Eb. apply bind_ok in Eb as (sorted & _ & Eb). apply bind_ok in Eb as (p & Ep & Eb).
  assert (Ep' : st_prev m = Some p) by (unfold the_prev in Ep; destruct (st_prev m); [apply Ok_inj in Ep; congruence|discriminate]).
  exact (key_loop_rel m _ _ p Ep' _ _ _ Eb f Hb).
Qed.

Lemma in_combine_mapi {A B} (f : nat -> A -> B) l : forall i b a, In (b, a) (combine (mapi f i l) l) ->
  exists j, nth_error l j = Some a /\ b = f (i + j)%nat a.
Proof.
  induction l as [|x l IH]; intros i b a H; cbn [mapi combine] in H; [contradiction|]. destruct H as [[= <- <-]|H].
  - exists 0%nat. rewrite Nat.add_0_r. auto.
  - destruct (IH _ _ _ H) as (j & E & ->). exists (S j). split; [exact E|]. f_equal. lia.
Qed.

Lemma key_change_probs_rel step l probs : key_change_probs g o pd step l = Ok probs ->
  forall p n, In (p, n) (combine probs l) -> In n l /\ prob_ok n p.
Proof.
  unfold key_change_probs. intros H p n Hn. apply bind_ok in H as (u & _ & H). apply Ok_inj in H. subst probs.
  apply in_combine_mapi in Hn as (j & E & ->). split; [exact (nth_error_In _ _ E)|]. unfold prob_ok.
  destruct (can_key_transition n); [right|left]; split; auto. exists step, l, j. split; [exact E|]. reflexivity.
Qed.

(* change index of the states built in a step *)
Lemma branch_change s r n : branch_rel s r n -> st_change n = r_end r.
Proof.
  intros (c & p & _ & _ & [[_ H]|[_ H]]).
  - unfold rejoin in H. apply bind_ok in H as (c0 & _ & H). apply bind_ok in H as ([[[a b] i] d] & _ & H).
    apply bind_ok in H as (q & _ & H). apply bind_ok in H as ([t m] & _ & H). apply bind_ok in H as (h & _ & H).
    apply Ok_inj in H. subst n. reflexivity.
  - unfold chord_transition in H. apply bind_ok in H as ([[[a b] i] d] & _ & H). apply bind_ok in H as ([t m] & _ & H).
    destruct (outside _ _ _ _); [apply Ok_inj in H; discriminate|]. apply bind_ok in H as (h & _ & H).
    apply Ok_inj in H. injection H as <-. reflexivity.
Qed.
Lemma keep_change prob n m : keep_rel prob n m -> st_change m = st_change n.
Proof. intros (p & _ & [[_ ->]|[_ ->]]); reflexivity. Qed.
Lemma change_change prob n m : change_rel prob n m -> st_change m = st_change n.
Proof.
  intros (p & _ & [[_ ->]|[_ (c & H & ->)]]); [reflexivity|]. cbn [add_ktm st_change].
  unfold copy_state in H. apply bind_ok in H as (h & _ & H). apply Ok_inj in H. subst c. reflexivity.
Qed.
Lemma key_change m f : key_rel m f -> st_change f = st_change m.
Proof.
  intros (step & l & i & _ & p & key & lp & rid & md & iv & x0 & _ & _ & _ & _ & _ & _ & _ & _ & H). unfold key_transition in H.
  apply bind_ok in H as (c & _ & H). apply bind_ok in H as ([[root t] inv] & _ & H). apply bind_ok in H as (bass & _ & H).
  apply bind_ok in H as ([tonic md1] & _ & H). destruct (outside _ _ _ _); [apply Ok_inj in H; discriminate|].
  apply bind_ok in H as (h & _ & H). apply bind_ok in H as (q & _ & H). apply Ok_inj in H. injection H as <-. reflexivity.
Qed.
Lemma csm_fields m f : csm_rel m f -> exists x, f = {| st_chord := st_chord m; st_key := st_key m; st_change := st_change m;
    st_logp := st_logp m + x; st_prev := st_prev m; st_hash := st_hash m; st_prior := st_prior m; st_must := st_must m;
    st_csm := Some x; st_ksm := st_ksm m; st_ktm := st_ktm m |}.
Proof.
  unfold csm_rel, add_csm_prior. intros H. apply bind_ok in H as (p & _ & H). cbn zeta in H.
  apply bind_ok in H as (ri & _ & H). apply bind_ok in H as (idx & _ & H). apply bind_ok in H as (pr & _ & H).
  apply Ok_inj in H. subst f. eexists. reflexivity.
Qed.
Lemma csm_change m f : csm_rel m f -> st_change f = st_change m.
Proof. intros H. destruct (csm_fields m f H) as (x & ->). reflexivity. Qed.

Lemma ready_change s0 s : ready s0 s -> st_change s = st_change s0.
Proof. intros [[_ ->]|[_ (l & i & _ & ->)]]; reflexivity. Qed.

Hypothesis Hranges : forall r, In r ranges -> (r_start r < r_end r <= length (p_durs pd))%nat.

Lemma mapM_in {A B} (f : A -> res B) : forall l ls y, mapM f l = Ok ls -> In y ls -> exists a, In a l /\ f a = Ok y.
Proof.
  induction l as [|a l IH]; intros ls y H Hy; cbn [mapM] in H.
  - apply Ok_inj in H. subst. contradiction.
  - apply bind_ok in H as (b & Eb & H). apply bind_ok in H as (bs & Ebs & H). apply Ok_inj in H. subst ls.
    destruct Hy as [<-|Hy]; [exists a; split; [left; reflexivity|exact Eb]|].
    destruct (IH _ _ Ebs Hy) as (a' & Ha & E). exists a'. split; [right; exact Ha|exact E].
Qed.

Lemma step_inv k sr sr' : (k < length (p_durs pd))%nat -> sinv k sr -> search_step g o pd ranges sr k = Ok sr' ->
  sinv (S k) sr'.
Proof.
  intros Hk Hi H. unfold search_step in H. apply bind_ok in H as (cur & Ecur & H). apply hget_nth in Ecur.
  destruct (ab_len cur =? 0).
  { apply Ok_inj in H. subst sr'. destruct Hi as [HL HS HD]. constructor; auto. intros idx b Hb. apply HS. lia. }
  apply bind_ok in H as (states & Est & H). apply bind_ok in H as (states' & Est' & H).
  apply bind_ok in H as (branched & Ebr & H). apply bind_ok in H as (probs & Epr & H).
  apply bind_ok in H as ([to_ksm to_csm] & Ekb & H). apply bind_ok in H as (changed & Ech & H).
  apply bind_ok in H as (u1 & _ & H). apply bind_ok in H as (u2 & _ & H). apply bind_ok in H as (sr1 & Esr1 & H).
  apply bind_ok in H as (fin & Efin & H). apply bind_ok in H as (sr2 & Esr2 & H).
  apply bind_ok in H as (cur2 & Ecur2 & H). apply Ok_inj in H. subst sr'.
  assert (Hst : forall s', In s' states' -> exists s, derived s /\ ready s s' /\ st_change s' = k).
  { intros s' Hs'. destruct (Nat.eqb_spec k 0) as [->|Hk0].
    - apply Ok_inj in Est'. subst states'. destruct (content_inv _ _ _ _ Hi Ecur Est s' Hs') as [Hd Hc].
      exists s'. split; [exact Hd|]. split; [left; auto|exact Hc].
    - destruct (run_csm_ready _ _ _ Est') with (s' := s') as (s & Hs & Hr); [| |exact Hs'|].
      + intros s Hs. destruct (content_inv _ _ _ _ Hi Ecur Est s Hs) as [_ ->]. exact Hk0.
      + intros s Hs. exact (proj2 (content_inv _ _ _ _ Hi Ecur Est s Hs)).
      + destruct (content_inv _ _ _ _ Hi Ecur Est s Hs) as [Hd Hc]. exists s. split; [exact Hd|]. split; [exact Hr|].
        rewrite (ready_change _ _ Hr). exact Hc. }
  assert (Hbr : forall n, In n (concat branched) -> exists s0 s r, derived s0 /\ ready s0 s /\ In r ranges
      /\ r_start r = st_change s /\ branch_rel s r n /\ st_change n = r_end r /\ st_change s = k).
  { intros n Hn. destruct (mapM_id_in _ _ _ _ Ebr Hn) as ([s r] & b & Hsr & Eb & Hb). cbn [fst snd] in Eb.
    apply in_prod_iff in Hsr as [Hs Hr]. apply filter_In in Hr as [Hr Er]. apply Nat.eqb_eq in Er.
    destruct (Hst s Hs) as (s0 & Hd & Hrd & Hc). exists s0, s, r.
    assert (Hb' := branch_range_rel _ _ _ _ _ Hc Eb n Hb).
    split; [exact Hd|]. split; [exact Hrd|]. split; [exact Hr|]. split; [congruence|].
    split; [exact Hb'|]. split; [exact (branch_change _ _ _ Hb')|exact Hc]. }
  destruct (key_branch_all_rel _ _ _ _ _ Ekb) as [HA HB].
  assert (Hchanged : forall f, In f changed -> derived f /\ (k < st_change f <= length (p_durs pd))%nat).
  { intros f Hf. destruct (key_change_states_rel _ _ _ Ech f Hf) as (m & Hm & Hkr).
    destruct (HA m Hm) as (prob & n & Hn & Hcr). destruct (key_change_probs_rel _ _ _ Epr _ _ Hn) as [Hn' Hp].
    destruct (Hbr n Hn') as (s0 & s & r & Hd & Hrd & Hr & Er & Hb & Hc & Hsk).
    assert (Ec : st_change f = r_end r) by (rewrite (key_change _ _ Hkr), (change_change _ _ _ Hcr); exact Hc).
    split; [exact (d_change s0 s r n prob m f Hd Hrd Hr Er Hb Hp Hcr Hkr)|]. rewrite Ec.
    destruct (Hranges r Hr). lia. }
  assert (Hfin : forall f, In f fin -> derived f /\ (k < st_change f <= length (p_durs pd))%nat).
  { intros f Hf. destruct (mapM_in _ _ _ _ Efin Hf) as (m & Hm & Hcsm).
    destruct (HB m Hm) as (prob & n & Hn & Hkr). destruct (key_change_probs_rel _ _ _ Epr _ _ Hn) as [Hn' Hp].
    destruct (Hbr n Hn') as (s0 & s & r & Hd & Hrd & Hr & Er & Hb & Hc & Hsk).
    assert (Ec : st_change f = r_end r) by (rewrite (csm_change m f Hcsm), (keep_change _ _ _ Hkr); exact Hc).
    split; [exact (d_keep s0 s r n prob m f Hd Hrd Hr Er Hb Hp Hkr Hcsm)|]. rewrite Ec.
    destruct (Hranges r Hr). lia. }
  destruct (add_all_inv k changed sr Hi) as (sr1' & E1 & Hi1 & Es1 & Hj1).
  { intros s Hs. destruct (Hchanged s Hs) as [Hd Hr]. split; [exact Hd|lia]. }
  rewrite E1 in Esr1. apply Ok_inj in Esr1. subst sr1'.
  destruct (add_all_inv k fin sr1 Hi1) as (sr2' & E2 & Hi2 & Es2 & Hj2).
  { intros s Hs. destruct (Hfin s Hs) as [Hd Hr]. split; [exact Hd|lia]. }
  rewrite E2 in Esr2. apply Ok_inj in Esr2. subst sr2'. destruct Hi2 as [HL HS HD].
  constructor; cbn [sr_beams sr_store]; [rewrite upd_nat_length; exact HL| |exact HD].
  intros idx b Hb Eb. rewrite nth_error_upd_other in Eb by lia. apply (slot_ok_mono sr2); [apply HS; [lia|exact Eb]|].
  exists []. rewrite app_nil_r. split; [reflexivity|intros s []].
Qed.

Lemma loop_inv n : forall k sr sr', (k + n <= length (p_durs pd))%nat -> sinv k sr ->
  search_loop g o pd ranges sr (seq k n) = Ok sr' -> sinv (k + n) sr'.
Proof.
  induction n as [|n IH]; intros k sr sr' Hk Hi H; cbn [seq search_loop] in H.
  - apply Ok_inj in H. subst. rewrite Nat.add_0_r. exact Hi.
  - apply bind_ok in H as (sr1 & E1 & H). apply step_inv in E1; [|lia|exact Hi].
    rewrite Nat.add_succ_r, <- Nat.add_succ_l. refine (IH _ _ _ _ E1 H). lia.
Qed.

Lemma add_initial_inv keys0 : initial_keys g pd = Ok keys0 -> forall l sr sr', incl l keys0 -> sinv 0 sr ->
  add_initial g o sr l = Ok sr' -> sinv 0 sr'.
Proof.
  intros Ek. induction l as [|k l IH]; intros sr sr' Hl Hi H; cbn [add_initial] in H.
  - apply Ok_inj in H. subst. exact Hi.
  - apply bind_ok in H as (s & Es & H). apply bind_ok in H as (sr1 & E1 & H).
    assert (Hc : st_change s = 0%nat).
    { unfold initial_state in Es. apply bind_ok in Es as ([x md] & _ & Es). apply bind_ok in Es as (h & _ & Es).
      apply Ok_inj in Es. subst s. reflexivity. }
    destruct (add_state_inv 0 sr 0 s true Hi) as (sr1' & E1' & Hi1 & _); [|lia|lia|exact Hc|].
    { exact (d_init k keys0 s Ek (Hl k (or_introl eq_refl)) Es). }
    rewrite E1' in E1. apply Ok_inj in E1. subst sr1'. refine (IH _ _ _ Hi1 H). intros x Hx. apply Hl. right; exact Hx.
Qed.

Hypothesis Hbeam : 1 <= g_beam_size g.

Lemma run_until_inv n sr : (n <= length (p_durs pd))%nat -> run_until g o pd ranges n = Ok sr -> sinv n sr.
Proof.
  unfold run_until. intros Hn H. apply bind_ok in H as (keys & Ek & H). apply bind_ok in H as (sr0 & E0 & H).
  assert (Hi : sinv 0 {| sr_beams := repeat (new_any (g_hash_length g) (g_beam_size g)) (S (length (p_durs pd))); sr_store := [] |}).
  { constructor; cbn [sr_beams sr_store].
    - apply repeat_length.
    - intros idx b _ Eb. apply nth_error_In, repeat_spec in Eb. subst b. exists [], []. cbn [sr_store].
      split; [apply new_any_inv; exact Hbeam|]. split; [unfold new_any; destruct (g_hash_length g); reflexivity|].
      split; [split; [intros _; rewrite zlen_nil; lia|intros s []]|]. split; intros x [].
    - intros s []. }
  apply (add_initial_inv keys Ek keys) in E0; [|apply incl_refl|exact Hi].
  change n with (0 + n)%nat. refine (loop_inv _ _ _ _ _ E0 H). lia.
Qed.
Lemma run_search_inv sr : run_search g o pd ranges = Ok sr -> sinv (length (p_durs pd)) sr.
Proof. exact (run_until_inv (length (p_durs pd)) sr (le_n _)). Qed.
End Derived.

Lemma in_zip4 {A B C D} : forall (a : list A) (b : list B) (c : list C) (d : list D) x y z w,
  In (x, y, z, w) (zip4 a b c d) -> exists i, nth_error a i = Some x /\ nth_error b i = Some y
    /\ nth_error c i = Some z /\ nth_error d i = Some w.
Proof.
  induction a as [|x0 a IH]; intros [|y0 b] [|z0 c] [|w0 d] x y z w H; cbn [zip4] in H; try contradiction.
  destruct H as [[= <- <- <- <-]|H]; [exists 0%nat; auto|]. destruct (IH _ _ _ _ _ _ _ H) as (i & Hi). exists (S i). exact Hi.
Qed.

(* what a range record of the search comes from *)
Definition ranges_of (g : search_cfg) (o : oracle) chord_ranges logs rejoins priors (rs : list range_data) : Prop :=
  forall r, In r rs -> exists i, nth_error chord_ranges i = Some (r_start r, r_end r)
    /\ nth_error logs i = Some (r_log r) /\ nth_error rejoins i = Some (r_rejoin r)
    /\ nth_error priors i = Some (r_prior r) /\ r_order r = o_argsort o (map (o_exp o) (r_prior r)).

Lemma make_ranges_of g o chord_ranges logs rejoins priors rs :
  mapM (make_range g o) (zip4 chord_ranges logs rejoins priors) = Ok rs ->
  ranges_of g o chord_ranges logs rejoins priors rs.
Proof.
  intros H r Hr. destruct (mapM_in _ _ _ _ H Hr) as ([[[[s e] lg] rj] prior] & Hin & E).
  apply in_zip4 in Hin as (i & H1 & H2 & H3 & H4). unfold make_range in E. cbn beta iota zeta in E.
  apply bind_ok in E as (srt & _ & E). apply Ok_inj in E. subst r. exists i.
  cbn [r_start r_end r_log r_rejoin r_prior r_order]. auto 6.
Qed.

(* the result of the search was built by its rules, and ends at the end of the piece *)
Lemma result_derived g o pd chord_ranges logs rejoins priors s : 1 <= g_beam_size g ->
  (forall a b, In (a, b) chord_ranges -> (a < b <= length (p_durs pd))%nat) ->
  beam_search g o pd chord_ranges logs rejoins priors = Ok (Some s) ->
  exists rs, ranges_of g o chord_ranges logs rejoins priors rs /\ derived g o pd rs s
    /\ st_change s = length (p_durs pd)
    /\ (forall r, In r rs -> (r_start r < r_end r <= length (p_durs pd))%nat).
Proof.
  intros Hb Hr H. unfold beam_search in H. apply bind_ok in H as (rs & Ers & H). apply bind_ok in H as (sr & Esr & H).
  apply bind_ok in H as (b & Eb & H). apply hget_nth in Eb. apply bind_ok in H as (top & Etop & H).
  destruct top as [x|]; [|apply Ok_inj in H; discriminate]. apply bind_ok in H as (s' & Es' & H). apply Ok_inj in H.
  injection H as ->. apply make_ranges_of in Ers. exists rs. split; [exact Ers|].
  assert (Hrs : forall r, In r rs -> (r_start r < r_end r <= length (p_durs pd))%nat).
  { intros r Hin. destruct (Ers r Hin) as (i & H1 & _). apply Hr. exact (nth_error_In _ _ H1). }
  destruct (run_search_inv g o pd rs Hrs Hb sr Esr) as [HL HS HD].
  destruct (HS _ b (le_n _) Eb) as (seen & B & Hbi & _ & _ & Hseen & HB).
  destruct (ab_top_ok _ _ _ Hbi) as (t & Et & Ht). rewrite Et in Etop. apply Ok_inj in Etop. subst t.
  destruct (HB x (proj1 Ht)) as (s1 & E1 & _ & Hc). apply hget_nth in Es'. rewrite Es' in E1. injection E1 as <-.
  split; [|split; [exact Hc|exact Hrs]]. apply HD. exact (nth_error_In _ _ Es').
Qed.

(* ---- one link of the path of a state ---- *)
(* consecutive ranges from a to b *)
Fixpoint chain_of (a b : nat) (rs : list range_data) : Prop :=
  match rs with
  | [] => a = b
  | r :: rest => r_start r = a /\ (r_start r < r_end r)%nat /\ chain_of (r_end r) b rest
  end.
Lemma chain_of_app a b c rs r : chain_of a b rs -> r_start r = b -> (b < r_end r)%nat -> r_end r = c ->
  chain_of a c (rs ++ [r]).
Proof.
  revert a. induction rs as [|x rs IH]; intros a H E1 E2 E3; cbn [chain_of app] in *.
  - subst. auto.
  - destruct H as (H1 & H2 & H3). auto.
Qed.
Lemma chain_of_lt a b rs : chain_of a b rs -> rs <> [] -> (a < b)%nat.
Proof.
  revert a. induction rs as [|x rs IH]; intros a H Hne; [contradiction|]. cbn [chain_of] in H. destruct H as (<- & H2 & H3).
  destruct rs as [|y rs]; [cbn [chain_of] in H3; lia|]. specialize (IH _ H3 ltac:(discriminate)). lia.
Qed.

Section Links.
Variables (g : search_cfg) (o : oracle) (pd : piece_data) (ranges : list range_data).
Notation ready := (ready o).
Let cpt := g_cpt g.
Let kpt := g_kpt g.
Hypothesis Hranges : forall r, In r ranges -> (r_start r < r_end r <= length (p_durs pd))%nat.

Definition range_term (c : Z) (r : range_data) (w : Z) : Prop :=
  In r ranges /\ (forall k, pick o (forced_set (p_forced_c pd) (r_start r) (r_end r)) = Some k -> c = k)
  /\ (pick o (forced_set (p_forced_c pd) (r_start r) (r_end r)) = None -> In c (r_order r))
  /\ exists pr, py_nth (r_prior r) c = Ok pr
       /\ w = r_log r + pr * (Z.of_nat (r_end r) - Z.of_nat (r_start r)).

Definition extras (s : state) : Z := opt_sum [st_csm s; st_ksm s; st_ktm s].
Definition hash_link (p f : state) : Prop :=
  match g_hash_length g with
  | None => st_hash p = None /\ st_hash f = None
  | Some _ => exists h, st_hash p = Some h
      /\ st_hash f = Some (py_slice h 1 (zlen h) ++ [Some (Some (st_key f), st_chord f)])
  end.

(* a state just built by chord_transition or rejoin *)
Record fresh (p n : state) : Prop := {
  fr_prev : st_prev n = Some p;
  fr_key : st_key n = st_key p;
  fr_prior : st_prior n = st_prior p;
  fr_ready : csm_output g o p;
  fr_extras : st_csm n = None /\ st_ksm n = None /\ st_ktm n = None;
  fr_must : exists c root t inv bass tonic mode, st_chord n = Some c
      /\ chord_notes cpt c = Ok (root, t, inv, bass) /\ py_nth (key_labels kpt) (st_key n) = Ok (tonic, mode)
      /\ (st_must n = false -> inside root bass tonic);
  fr_hash : hash_link p n;
  fr_chain : exists c rs ws, st_chord n = Some c /\ st_chord p <> Some c /\ rs <> []
      /\ chain_of (st_change p) (st_change n) rs /\ Forall2 (range_term c) rs ws
      /\ (never_both g o -> st_logp n = st_logp p + zsum ws + zsum (map r_rejoin (tl rs)))
}.

Definition kept_key (p f : state) : Prop :=
  st_key f = st_key p
  /\ (forall k, pick o (forced_set (p_forced_k pd) (st_change p) (st_change f)) = Some k -> st_key f = k)
  /\ st_ksm f = None
  /\ (exists x, st_csm f = Some x /\ csm_charge g p f x)
  /\ (never_both g o -> exists prob, st_ktm f = Some (o_log o (o_one o - prob) * the_length p f)
        /\ ktm_output o p f prob).
Definition changed_key (p f : state) : Prop :=
  st_key f <> st_key p
  /\ (forall k, pick o (forced_set (p_forced_k pd) (st_change p) (st_change f)) = Some k -> st_key f = k)
  /\ 0 <= st_key f < zlen (key_labels kpt)
  /\ st_csm f = None
  /\ (exists x, st_ksm f = Some (x * g_ksm_exp g * the_length p f) /\ ksm_output g o p f x)
  /\ (never_both g o -> exists prob, st_ktm f = Some (o_log o prob * the_length p f)
        /\ ktm_output o p f prob).

Record link (p f : state) : Prop := {
  lk_prev : st_prev f = Some p;
  lk_must : st_must f = false;
  lk_notes : cpt = kpt -> exists c root t inv bass tonic mode, st_chord f = Some c
      /\ chord_notes cpt c = Ok (root, t, inv, bass) /\ py_nth (key_labels kpt) (st_key f) = Ok (tonic, mode)
      /\ inside root bass tonic;
  lk_hash : hash_link p f;
  lk_chain : exists c rs ws, st_chord f = Some c /\ st_chord p <> Some c /\ rs <> []
      /\ chain_of (st_change p) (st_change f) rs /\ Forall2 (range_term c) rs ws
      /\ (never_both g o -> st_logp f = st_logp p + zsum ws + zsum (map r_rejoin (tl rs)) + extras f);
  lk_key : kept_key p f \/ changed_key p f;
  lk_ready : csm_output g o p
}.

Definition init_state_facts (s : state) : Prop :=
  exists keys k tonic mode, initial_keys g pd = Ok keys /\ In k keys /\ py_nth (key_labels kpt) k = Ok (tonic, mode)
   /\ s = {| st_chord := None; st_key := k; st_change := 0; st_logp := 0; st_prev := None;
        st_hash := match g_hash_length g with None => None
                   | Some n => Some (repeat None (Z.to_nat (n - 1)) ++ [Some (Some k, None)]) end;
        st_prior := o_icm o mode; st_must := false; st_csm := None; st_ksm := None; st_ktm := None |}.

(* a state which was branched on *)
Definition rderived (p : state) : Prop := exists p0, derived g o pd ranges p0 /\ ready p0 p.

Definition linked (f : state) : Prop :=
  init_state_facts f \/ exists p, rderived p /\ link p f.

Lemma initial_facts k keys s : initial_keys g pd = Ok keys -> In k keys -> initial_state g o k = Ok s -> init_state_facts s.
Proof.
  intros Ek Hk H. unfold initial_state in H. apply bind_ok in H as ([tonic mode] & E1 & H).
  apply bind_ok in H as (h & E2 & H). apply Ok_inj in H. subst s. exists keys, k, tonic, mode.
  split; [exact Ek|]. split; [exact Hk|]. split; [exact E1|]. f_equal. unfold make_hash in E2.
  destruct (g_hash_length g); apply Ok_inj in E2; congruence.
Qed.

Lemma ready_link s0 s p : ready s0 s -> link p s0 -> link p s.
Proof.
  intros [[_ ->]|[_ (l & i & _ & ->)]] [H1 H2 H3 H4 H5 H6]; [constructor; assumption|].
  constructor; cbn [set_prior st_prev st_must st_chord st_key st_change st_hash st_logp]; try assumption.
Qed.
Lemma ready_hash s0 s : ready s0 s -> st_hash s = st_hash s0.
Proof. intros [[_ ->]|[_ (l & i & _ & ->)]]; reflexivity. Qed.
Lemma ready_prev s0 s : ready s0 s -> st_prev s = st_prev s0.
Proof. intros [[_ ->]|[_ (l & i & _ & ->)]]; reflexivity. Qed.
Lemma ready_chord s0 s : ready s0 s -> st_chord s = st_chord s0.
Proof. intros [[_ ->]|[_ (l & i & _ & ->)]]; reflexivity. Qed.

Lemma outside_inside lo hi x y : outside lo hi x y = false -> lo <= x < hi /\ lo <= y < hi.
Proof.
  unfold outside. intros H. apply orb_false_iff in H as [H H4]. apply orb_false_iff in H as [H H3].
  apply orb_false_iff in H as [H1 H2]. lia.
Qed.

Definition has_hash (s : state) : Prop :=
  match g_hash_length g with None => st_hash s = None | Some _ => exists h, st_hash s = Some h end.

Lemma make_hash_link p key chord hl h : has_hash p -> make_hash hl (Some p) key chord = Ok h ->
  (hl = None <-> g_hash_length g = None) ->
  match g_hash_length g with
  | None => st_hash p = None /\ h = None
  | Some _ => exists h0, st_hash p = Some h0 /\ h = Some (py_slice h0 1 (zlen h0) ++ [Some (Some key, chord)])
  end.
Proof.
  unfold has_hash, make_hash. intros Hp H Hn. destruct (g_hash_length g) eqn:E.
  - destruct Hp as (h0 & E0). rewrite E0 in H. destruct hl; [|destruct Hn as [Hn _]; specialize (Hn eq_refl); discriminate].
    apply Ok_inj in H. exists h0. split; [exact E0|congruence].
  - destruct hl; [destruct Hn as [_ Hn]; specialize (Hn eq_refl); discriminate|]. apply Ok_inj in H. split; [exact Hp|congruence].
Qed.
Lemma hash_len_iff s : has_hash s -> (hash_len s = None <-> g_hash_length g = None).
Proof.
  unfold has_hash, hash_len. destruct (g_hash_length g).
  - intros (h & ->). split; discriminate.
  - intros ->. tauto.
Qed.
Lemma link_chg0 p f : link p f -> (st_change p < st_change f)%nat.
Proof. intros [_ _ _ _ (c & rs & ws & _ & _ & Hne & Hch & _) _ _]. exact (chain_of_lt _ _ _ Hch Hne). Qed.
Lemma linked_has_hash f : linked f -> has_hash f.
Proof.
  unfold has_hash. intros [(keys & k & tonic & mode & _ & _ & _ & ->)|(p & _ & [_ _ _ Hh _ _ _])].
  - cbn [st_hash]. destruct (g_hash_length g); [eexists; reflexivity|reflexivity].
  - unfold hash_link in Hh. destruct (g_hash_length g); [destruct Hh as (h & _ & E); eexists; exact E|tauto].
Qed.
Lemma ready_has_hash s0 s : ready s0 s -> has_hash s0 -> has_hash s.
Proof. intros H. unfold has_hash. rewrite (ready_hash _ _ H). auto. Qed.
Lemma link_prev_hash p f : link p f -> has_hash p.
Proof.
  intros [_ _ _ Hh _ _ _]. unfold hash_link, has_hash in *. destruct (g_hash_length g); [destruct Hh as (h & E & _); eexists; exact E|tauto].
Qed.

Lemma ready_output s0 s : ready s0 s -> linked s0 -> csm_output g o s.
Proof.
  intros [[E0 ->]|[Hn (l & i & Hi & ->)]] [(keys & k & tn & md & _ & _ & Ek & ->)|(p & _ & Hl)].
  - left. split; [reflexivity|]. exists tn, md. auto.
  - pose proof (link_chg0 _ _ Hl). lia.
  - cbn [st_change] in Hn. contradiction.
  - right. unfold set_prior at 1. cbn [st_prev]. split; [rewrite (lk_prev _ _ Hl); discriminate|].
    exists l, i, s0. split; [exact Hi|]. split; reflexivity.
Qed.
Lemma branch_fresh s0 s r n : derived g o pd ranges s0 -> linked s0 -> ready s0 s -> In r ranges -> r_start r = st_change s ->
  branch_rel g o pd s r n -> exists p, rderived p /\ fresh p n.
Proof.
  intros Hd Hl Hr Hin Er (c & pr & Hc & Epr & Hb). cbn zeta in Hb.
  destruct (Hranges r Hin) as [Hlt _].
  assert (Hterm : range_term c r (r_log r + pr * (Z.of_nat (r_end r) - Z.of_nat (st_change s)))).
  { split; [exact Hin|]. rewrite Er. unfold chord_ok in Hc. destruct (pick o _) as [k|].
    - split; [intros k' [= <-]; exact Hc|]. split; [discriminate|]. exists pr. auto.
    - split; [discriminate|]. split; [intros _; destruct Hc as [Hc|Hc]; exact (py_slice_in _ _ _ _ Hc)|]. exists pr. auto. }
  assert (Hhs : has_hash s) by (apply (ready_has_hash s0); [exact Hr|apply linked_has_hash; exact Hl]).
  destruct Hb as [[Hsc Hb]|[Hsc Hb]].
  - (* rejoin *)
    unfold rejoin in Hb. unfold the_chord in Hb. rewrite Hsc in Hb. cbn [bind] in Hb.
    apply bind_ok in Hb as ([[[root t] inv] bass] & En & Hb). apply bind_ok in Hb as (p & Ep & Hb).
    apply bind_ok in Hb as ([tonic mode] & Ek & Hb). apply bind_ok in Hb as (h & Eh & Hb). apply Ok_inj in Hb.
    unfold the_prev in Ep. destruct (st_prev s) as [p'|] eqn:Ep'; [|discriminate]. apply Ok_inj in Ep. subst p'.
    destruct Hl as [(keys & k & tn & md & _ & _ & _ & ->)|(p1 & Hrp & Hlk)].
    { rewrite (ready_prev _ _ Hr) in Ep'. discriminate. }
    apply (ready_link _ _ _ Hr) in Hlk. assert (p1 = p) by (destruct Hlk as [E _ _ _ _ _ _]; congruence). subst p1.
    exists p. split; [exact Hrp|]. assert (Hhp := link_prev_hash _ _ Hlk). destruct Hlk as [_ _ _ Hh (c' & rs & ws & E1 & E2 & E3 & E4 & E5 & E6) _ Hrdy].
    assert (c' = c) by congruence. subst c'.
    subst n. constructor; cbn [st_prev st_key st_prior st_csm st_ksm st_ktm st_must st_chord st_hash st_change st_logp]; auto.
    + exists c, root, t, inv, bass, tonic, mode. split; [reflexivity|]. split; [exact En|]. split; [exact Ek|].
      intros Ho. exact (outside_inside _ _ _ _ Ho).
    + unfold hash_link. cbn [st_hash st_key st_chord].
      exact (make_hash_link p (st_key p) (Some c) _ h Hhp Eh (hash_len_iff s Hhs)).
    + exists c, (rs ++ [r]), (ws ++ [r_log r + pr * (Z.of_nat (r_end r) - Z.of_nat (st_change s))]).
      split; [reflexivity|]. split; [exact E2|]. split; [destruct rs; discriminate|].
      split; [apply (chain_of_app _ (st_change s)); auto; lia|].
      split; [apply Forall2_app; [exact E5|constructor; [exact Hterm|constructor]]|].
      intros Hnb. specialize (E6 Hnb). destruct rs as [|r0 rs]; [contradiction|]. cbn [app tl] in *.
      rewrite map_app, !zsum_app. cbn [map zsum fold_right]. unfold extras in E6. unfold zsum in *. cbn [fold_right] in *. lia.
  - (* transition *)
    unfold chord_transition in Hb. apply bind_ok in Hb as ([[[root t] inv] bass] & En & Hb).
    apply bind_ok in Hb as ([tonic mode] & Ek & Hb). destruct (outside _ _ _ _); [apply Ok_inj in Hb; discriminate|].
    apply bind_ok in Hb as (h & Eh & Hb). apply Ok_inj in Hb. injection Hb as <-.
    exists s. split; [exists s0; auto|]. assert (Hrdy := ready_output _ _ Hr Hl).
    constructor; cbn [st_prev st_key st_prior st_csm st_ksm st_ktm st_must st_chord st_hash st_change st_logp]; auto.
    + exists c, root, t, inv, bass, tonic, mode. split; [reflexivity|]. split; [exact En|]. split; [exact Ek|].
      intros Ho. exact (outside_inside _ _ _ _ Ho).
    + unfold hash_link. cbn [st_hash st_key st_chord].
      exact (make_hash_link s (st_key s) (Some c) _ h Hhs Eh (hash_len_iff s Hhs)).
    + exists c, [r], [r_log r + pr * (Z.of_nat (r_end r) - Z.of_nat (st_change s))].
      split; [reflexivity|]. split; [exact Hsc|]. split; [discriminate|].
      split; [cbn [chain_of]; auto|]. split; [constructor; [exact Hterm|constructor]|].
      intros _. cbn [tl map zsum fold_right]. lia.
Qed.

Lemma key_id_range m t i : get_key_one_hot_index m t kpt = Ok i -> 0 <= i < zlen (key_labels kpt).
Proof.
  intros H. apply key_encode_decode in H as [_ H].
  replace (zlen (key_labels kpt)) with (2 * NUM_PITCHES kpt) by (destruct kpt; reflexivity). exact H.
Qed.

Lemma fresh_chg p n : fresh p n -> (st_change p < st_change n)%nat.
Proof. intros [_ _ _ _ _ _ _ (c & rs & ws & _ & _ & Hne & Hch & _)]. exact (chain_of_lt _ _ _ Hch Hne). Qed.

Lemma prob_output p n f prob : uncharged p n f -> prob_ok o n prob -> ktm_output o p f prob.
Proof.
  unfold prob_ok, can_key_transition, ktm_output. intros Hu H. rewrite (proj1 Hu) in H. destruct (st_prev p) as [q|].
  - right. split; [discriminate|]. destruct H as [[H _]|[_ (step & l & i & Hn & Hp)]]; [discriminate|].
    exists step, l, i, n. auto.
  - left. destruct H as [[_ H]|[H _]]; [auto|discriminate].
Qed.
Lemma flags_never_both prob p n : never_both g o -> prob_ok o n prob -> key_flags g o pd prob p n <> (true, true).
Proof.
  intros [Hz Hp] Hpo H. unfold key_flags in H. destruct (pick o _) as [k|].
  - destruct (st_key n =? k); discriminate.
  - injection H as H1 H2. apply andb_true_iff in H2 as [H2 _]. apply Z.leb_le in H1, H2.
    destruct Hpo as [[_ ->]|[_ (step & l & i & _ & ->)]]; [apply Hz; lia|]. apply (Hp step l i). lia.
Qed.

Lemma opt_sum3 a b c : opt_sum [a; b; c] = (match a with Some x => x | None => 0 end)
  + (match b with Some x => x | None => 0 end) + (match c with Some x => x | None => 0 end).
Proof. unfold opt_sum. cbn [map zsum fold_right]. unfold zsum. cbn [fold_right]. lia. Qed.

Lemma fresh_keep p n prob m f : fresh p n -> prob_ok o n prob -> keep_rel g o pd prob n m -> csm_rel g o pd m f -> link p f.
Proof.
  intros Hf Hpo (p' & Ep' & Hk) Hc. assert (Hlen := fresh_chg _ _ Hf).
  destruct Hf as [Fp Fk Fpr Frd (Fx1 & Fx2 & Fx3) Fm Fh (c & rs & ws & E1 & E2 & E3 & E4 & E5 & E6)].
  assert (p' = p) by congruence. subst p'.
  (* m agrees with n but for the score *)
  assert (Hm : exists lp k, m = {| st_chord := st_chord n; st_key := st_key n; st_change := st_change n; st_logp := lp;
      st_prev := st_prev n; st_hash := st_hash n; st_prior := st_prior n; st_must := st_must n;
      st_csm := st_csm n; st_ksm := st_ksm n; st_ktm := k |}).
  { destruct Hk as [[_ ->]|[_ ->]]; [eexists; eexists; reflexivity|]. exists (st_logp n), (st_ktm n). destruct n; reflexivity. }
  destruct Hm as (lp & k & Em).
  assert (Hmust : st_must n = false /\ forall x, pick o (forced_set (p_forced_k pd) (st_change p) (st_change n)) = Some x -> st_key n = x).
  { destruct Hk as [[Hfl _]|[Hfl _]]; unfold key_flags in Hfl; destruct (pick o _) as [x|].
    - destruct (Z.eqb_spec (st_key n) x) as [->|]; [|discriminate]. injection Hfl as Hfl. apply negb_true_iff in Hfl.
      split; [exact Hfl|]. intros y [= <-]. reflexivity.
    - injection Hfl as _ Hfl. apply andb_true_iff in Hfl as [_ Hfl]. apply negb_true_iff in Hfl. split; [exact Hfl|discriminate].
    - destruct (Z.eqb_spec (st_key n) x); discriminate.
    - injection Hfl as _ Hfl. apply andb_true_iff in Hfl as [_ Hfl]. apply negb_true_iff in Hfl. split; [exact Hfl|discriminate]. }
  destruct Hmust as [Hmust Hforced].
  assert (Hktm : never_both g o -> lp = st_logp n + o_log o (o_one o - prob) * the_length p n /\ k = Some (o_log o (o_one o - prob) * the_length p n)).
  { intros Hnb. destruct Hk as [[_ Hk]|[Hfl _]]; [|exfalso; exact (flags_never_both _ _ _ Hnb Hpo Hfl)].
    rewrite Hk in Em. unfold add_ktm in Em. injection Em as Elp Ek. split; [symmetry; exact Elp|symmetry; exact Ek]. }
  assert (Hcf := csm_fields g o pd m f Hc). destruct Hcf as (x & Ef).
  assert (Hu : uncharged p n f) by (rewrite Ef, Em; repeat split; [exact Fp|exact Fk]).
  assert (Hcharge : csm_charge g p f x).
  { intros Hpb. unfold csm_rel, add_csm_prior in Hc. apply bind_ok in Hc as (q & Eq & Hc). cbn zeta in Hc |- *.
    assert (q = p) by (unfold the_prev in Eq; rewrite Em in Eq; cbn [st_prev] in Eq; rewrite Fp in Eq; apply Ok_inj in Eq; congruence). subst q.
    apply bind_ok in Hc as (ri & Eri & Hc). apply bind_ok in Hc as (idx & Eidx & Hc). apply bind_ok in Hc as (pr & Epr & Hc).
    apply Ok_inj in Hc. rewrite Ef in Hc. injection Hc as Hx _.
    unfold relative_chord_index, state_chord in Eri. apply bind_ok in Eri as (fcd & Efc & Eri).
    apply bind_ok in Efc as ([tonic mode] & Ek & Efc). apply bind_ok in Efc as (ch & Ech & Efc).
    apply bind_ok in Efc as ([[[root t] inv] bass] & En & Efc). apply bind_ok in Efc as (q' & _ & Efc).
    apply bind_ok in Efc as (on & _ & Efc). apply bind_ok in Efc as (off & _ & Efc). apply Ok_inj in Efc. subst fcd.
    unfold chord_one_hot in Eri. cbn [fc c_root c_tonic c_pt c_type c_inv] in Eri. apply bind_ok in Eri as (rr & Err & Eri).
    rewrite (reduce_one_of_encode _ _ _ _ _ _ _ _ _ _ _ Eri) in Eidx.
    exists ch, root, t, inv, tonic, mode, idx, pr. rewrite Ef. cbn [st_chord st_key].
    split; [unfold the_chord in Ech; destruct (st_chord m); [apply Ok_inj in Ech; congruence|discriminate]|].
    split.
    { unfold chord_notes in En. apply bind_ok in En as ([[root' t'] inv'] & F1 & En). apply bind_ok in En as (b' & _ & En).
      apply Ok_inj in En. injection En as <- <- <- _. exact F1. }
    split; [exact Ek|]. split.
    { rewrite (roundtrip_s _ _ _ _ _ _ _ _ _ Eidx). rewrite <- (proj2 (abs_rel_ok _ _ _ _ _ Err)). reflexivity. }
    split; [exact (proj1 (encode_range _ _ _ _ _ _ _ _ _ Eidx))|].
    replace (g_pitch_based g && negb (st_change p =? 0)%nat) with false in Epr.
    - split; [rewrite Em in Epr; cbn [st_prior] in Epr; rewrite Fpr in Epr; exact Epr|].
      unfold the_length. cbn [st_change]. lia.
    - destruct Hpb as [->| ->]; [reflexivity|]. rewrite andb_false_r. reflexivity. }
  rewrite Ef, Em in *. clear Ef Em. constructor; unfold hash_link in *; cbn [st_prev st_must st_chord st_key st_hash st_change st_logp] in *.
  - exact Fp.
  - exact Hmust.
  - intros _. destruct Fm as (c' & root & t & inv & bass & tonic & mode & F1 & F2 & F3 & F4).
    exists c', root, t, inv, bass, tonic, mode. auto.
  - exact Fh.
  - exists c, rs, ws. split; [exact E1|]. split; [exact E2|]. split; [exact E3|]. split; [exact E4|]. split; [exact E5|].
    intros Hnb. specialize (E6 Hnb). destruct (Hktm Hnb) as [-> ->]. unfold extras. cbn [st_csm st_ksm st_ktm].
    rewrite opt_sum3, Fx2. lia.
  - left. unfold kept_key. cbn [st_key st_change st_ksm st_csm st_ktm]. split; [exact Fk|]. split; [exact Hforced|].
    split; [exact Fx2|]. split; [exists x; split; [reflexivity|exact Hcharge]|].
    intros Hnb. exists prob. destruct (Hktm Hnb) as [_ ->]. split; [reflexivity|]. exact (prob_output _ _ _ _ Hu Hpo).
  - exact Frd.
Qed.

Lemma fresh_change p n prob m f : has_hash p -> fresh p n -> prob_ok o n prob -> change_rel g o pd prob n m -> key_rel g o pd m f -> link p f.
Proof.
  intros Hhp Hf Hpo (p' & Ep' & Hk) Hkr. assert (Hlen := fresh_chg _ _ Hf).
  destruct Hf as [Fp Fk Fpr Frd (Fx1 & Fx2 & Fx3) Fm Fh (c & rs & ws & E1 & E2 & E3 & E4 & E5 & E6)].
  assert (p' = p) by congruence. subst p'.
  assert (Hm : exists lp k h, m = {| st_chord := st_chord n; st_key := st_key n; st_change := st_change n; st_logp := lp;
      st_prev := st_prev n; st_hash := h; st_prior := st_prior n; st_must := st_must n;
      st_csm := None; st_ksm := None; st_ktm := k |} /\ (h = None <-> g_hash_length g = None)).
  { assert (Hhn : has_hash n).
    { unfold has_hash. unfold hash_link in Fh. destruct (g_hash_length g); [destruct Fh as (h & _ & E); eexists; exact E|tauto]. }
    assert (Hiff := hash_len_iff n Hhn).
    destruct Hk as [[_ ->]|[_ (cp & Ec & ->)]].
    - exists (st_logp n + o_log o prob * range_len p n), (Some (o_log o prob * range_len p n)), (st_hash n).
      split; [unfold add_ktm; rewrite Fx1, Fx2; reflexivity|]. unfold hash_len in Hiff. destruct (st_hash n); [|tauto].
      split; [discriminate|]. intros E. apply Hiff in E. discriminate.
    - unfold copy_state in Ec. apply bind_ok in Ec as (h & Eh & Ec). apply Ok_inj in Ec. subst cp.
      eexists. eexists. exists h. split; [reflexivity|]. rewrite Fp in Eh.
      pose proof (make_hash_link p _ _ _ _ Hhp Eh Hiff) as Hl. destruct (g_hash_length g).
      + destruct Hl as (h0 & _ & ->). split; discriminate.
      + tauto. }
  destruct Hm as (lp & k & h & Em & Hh).
  assert (Hktm : never_both g o -> lp = st_logp n + o_log o prob * the_length p n /\ k = Some (o_log o prob * the_length p n)).
  { intros Hnb. destruct Hk as [[_ Hk]|[Hfl _]]; [|exfalso; exact (flags_never_both _ _ _ Hnb Hpo Hfl)].
    rewrite Hk in Em. unfold add_ktm in Em. injection Em as Elp Eh _ _ Ek. split; [symmetry; exact Elp|symmetry; exact Ek]. }
  destruct Hkr as (kstep & kl & ki & Hki & p' & key & klp & rid & md & iv & x & Ep2 & Hne & Hfk & Hrid & Hmk & Hkey & Hx & -> & Ht).
  assert (p' = p) by (rewrite Em in Ep2; cbn [st_prev] in Ep2; congruence). subst p'.
  rewrite Em in Hne, Hfk, Ht, Hmk. unfold range_len in Ht. cbn [st_key st_change] in *.
  unfold key_transition, the_chord, the_prev, hash_len in Ht. cbn [st_chord st_hash st_prev] in Ht. rewrite E1, Fp in Ht. cbn [bind] in Ht.
  apply bind_ok in Ht as ([[root t] inv] & Ec & Ht). apply bind_ok in Ht as (bass & Eb & Ht).
  apply bind_ok in Ht as ([tonic mode] & Ekk & Ht). destruct (outside _ _ _ _) eqn:Eo; [apply Ok_inj in Ht; discriminate|].
  apply bind_ok in Ht as (h' & Eh' & Ht). apply Ok_inj in Ht. injection Ht as <-.
  assert (Hum : uncharged p m {| st_chord := Some c; st_key := key; st_change := st_change n;
      st_logp := lp + x * g_ksm_exp g * (Z.of_nat (st_change n) - Z.of_nat (st_change p)); st_prev := Some p; st_hash := h';
      st_prior := st_prior n; st_must := false; st_csm := None;
      st_ksm := Some (x * g_ksm_exp g * (Z.of_nat (st_change n) - Z.of_nat (st_change p))); st_ktm := k |})
    by (rewrite Em; repeat split; cbn [st_prev st_chord st_key]; [exact Fp|exact E1|exact Fk]).
  assert (Hu : uncharged p n {| st_chord := Some c; st_key := key; st_change := st_change n;
      st_logp := lp + x * g_ksm_exp g * (Z.of_nat (st_change n) - Z.of_nat (st_change p)); st_prev := Some p; st_hash := h';
      st_prior := st_prior n; st_must := false; st_csm := None;
      st_ksm := Some (x * g_ksm_exp g * (Z.of_nat (st_change n) - Z.of_nat (st_change p))); st_ktm := k |})
    by (repeat split; cbn [st_chord]; [exact Fp|exact E1|exact Fk]).
  constructor; unfold hash_link in *; cbn [st_prev st_must st_chord st_key st_hash st_change st_logp] in *.
  - reflexivity.
  - reflexivity.
  - intros Ecpt. exists c, root, t, inv, bass, tonic, mode. split; [reflexivity|].
    split; [|split; [exact Ekk|exact (outside_inside _ _ _ _ Eo)]].
    unfold chord_notes. unfold cpt, kpt in *. rewrite Ec. cbn [bind]. rewrite Ecpt, Eb. reflexivity.
  - refine (make_hash_link p key (Some c) _ h' Hhp Eh' _). destruct h; [|tauto]. split; [discriminate|].
    intros E. apply Hh in E. discriminate.
  - exists c, rs, ws. split; [reflexivity|]. split; [exact E2|]. split; [exact E3|]. split; [exact E4|]. split; [exact E5|].
    intros Hnb. specialize (E6 Hnb). destruct (Hktm Hnb) as [-> ->]. unfold extras. cbn [st_csm st_ksm st_ktm].
    rewrite opt_sum3. lia.
  - right. unfold changed_key. cbn [st_key st_change st_ksm st_csm st_ktm]. split; [congruence|]. split; [exact Hfk|].
    split; [exact Hkey|]. split; [reflexivity|]. split.
    { exists x. split; [unfold the_length; cbn [st_change]; reflexivity|].
      exists kstep, kl, ki, m, rid, md, iv. split; [exact Hki|]. split; [exact Hum|]. split; [exact Hx|]. split; [exact Hrid|].
      cbn [st_key]. rewrite <- Fk. exact Hmk. }
    intros Hnb. exists prob. destruct (Hktm Hnb) as [_ ->]. split; [reflexivity|]. exact (prob_output _ _ _ _ Hu Hpo).
  - exact Frd.
Qed.

Lemma fresh_hash p n : fresh p n -> has_hash p.
Proof.
  intros [_ _ _ _ _ _ Hh _]. unfold hash_link, has_hash in *. destruct (g_hash_length g); [destruct Hh as (h & E & _); eexists; exact E|tauto].
Qed.

Theorem derived_linked f : derived g o pd ranges f -> linked f.
Proof.
  induction 1 as [k keys s Ek Hk Es|s0 s r n prob m f Hd IH Hrd Hr Er Hb Hp Hkr Hc|s0 s r n prob m f Hd IH Hrd Hr Er Hb Hp Hcr Hkr].
  - left. exact (initial_facts _ _ _ Ek Hk Es).
  - destruct (branch_fresh _ _ _ _ Hd IH Hrd Hr Er Hb) as (p & Hrp & Hf). right. exists p. split; [exact Hrp|].
    exact (fresh_keep _ _ _ _ _ Hf Hp Hkr Hc).
  - destruct (branch_fresh _ _ _ _ Hd IH Hrd Hr Er Hb) as (p & Hrp & Hf). right. exists p. split; [exact Hrp|].
    exact (fresh_change _ _ _ _ _ (fresh_hash _ _ Hf) Hf Hp Hcr Hkr).
Qed.

(* the path of a state, with its links: well founded because a state contains its predecessor *)
Inductive path : state -> Prop :=
| path_init s : init_state_facts s -> path s
| path_step p f : path p -> link p f -> path f.

Lemma ready_init s0 s : ready s0 s -> init_state_facts s0 -> s = s0.
Proof. intros [[_ ->]|[Hn _]] (keys & k & t & m & _ & _ & _ & ->); [reflexivity|]. cbn [st_change] in Hn. contradiction. Qed.

Fixpoint sdepth (s : state) : nat := match st_prev s with None => 0 | Some p => S (sdepth p) end.

Lemma sdepth_eq s : sdepth s = match st_prev s with None => 0%nat | Some p => S (sdepth p) end.
Proof. destruct s; reflexivity. Qed.

Theorem derived_path f : derived g o pd ranges f -> path f.
Proof.
  remember (sdepth f) as d eqn:Ed. revert f Ed. induction d as [d IH] using lt_wf_ind. intros f -> Hd.
  destruct (derived_linked f Hd) as [Hi|(p & (p0 & Hd0 & Hr) & Hl)]; [apply path_init; exact Hi|].
  assert (Hp0 : path p0).
  { apply (IH (sdepth p0)); [|reflexivity|exact Hd0].
    assert (E : sdepth p0 = sdepth p).
    { destruct Hr as [[_ ->]|[_ (l & i & _ & ->)]]; [reflexivity|]. destruct p0; reflexivity. }
    rewrite E. destruct Hl as [E1 _ _ _ _ _ _]. rewrite (sdepth_eq f), E1. lia. }
  apply (path_step p); [|exact Hl]. destruct Hp0 as [s Hi|q s Hq Hlq].
  - rewrite (ready_init _ _ Hr Hi). apply path_init. exact Hi.
  - apply (path_step q); [exact Hq|]. exact (ready_link _ _ _ Hr Hlq).
Qed.
End Links.
