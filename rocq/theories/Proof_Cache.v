(* The caches of State objects are never stale. *)
From Verif Require Import Spec_Cache Proof_Base.
Open Scope Z_scope.

Lemma upd_length {A} (l : list A) i v : length (upd_nat l i v) = length l.
Proof. apply upd_nat_length. Qed.
Lemma upd_same {A} (l : list A) i v : (i < length l)%nat -> nth_error (upd_nat l i v) i = Some v.
Proof. intros H. rewrite nth_error_upd_nat, Nat.eqb_refl. apply Nat.ltb_lt in H. rewrite H. reflexivity. Qed.
Lemma upd_other {A} (l : list A) i j v : i <> j -> nth_error (upd_nat l i v) j = nth_error l j.
Proof. intros H. rewrite nth_error_upd_nat. destruct (Nat.eqb_spec i j); [contradiction|]. destruct (Nat.eqb_spec j i); [congruence|reflexivity]. Qed.

Section Cache.
Variables (cpt kpt : pitch_type) (durs levels : list Z) (pt : pitch_type).
Notation own_key := (own_key kpt pt).
Notation own_chord := (own_chord cpt kpt durs levels pt).

(* object i of the heap stands for s *)
Record stands (l : list pstate) (i : nat) (c : cell) (s : pstate) : Prop := {
  ss_chord : ce_chord c = p_chord s; ss_key : ce_key c = p_key s; ss_change : ce_change c = p_change s;
  ss_prev : match ce_prev c with
            | None => p_prev s = None
            | Some p => (p < i)%nat /\ exists q, nth_error l p = Some q /\ p_prev s = Some q
            end;
  ss_valid : forall q, p_prev s = Some q -> exists x, py_nth (key_labels kpt) (p_key s) = Ok x;
  ss_kobj : forall k, ce_kobj c = Some k -> own_key s = Ok k;
  ss_cobj : forall x, ce_cobj c = Some x -> own_chord s = Ok x
}.
Definition rel (h : heap) (l : list pstate) : Prop :=
  length h = length l /\ forall i c, nth_error h i = Some c -> exists s, nth_error l i = Some s /\ stands l i c s.

Lemma rel_at h l i : rel h l -> (exists c s, nth_error h i = Some c /\ nth_error l i = Some s /\ stands l i c s)
  \/ (nth_error h i = None /\ nth_error l i = None).
Proof.
  intros [Hl H]. destruct (nth_error h i) as [c|] eqn:E.
  - left. destruct (H i c E) as (s & Es & Hs). eauto 6.
  - right. split; [reflexivity|]. apply nth_error_None. apply nth_error_None in E. lia.
Qed.
Lemma stands_app l i c s x : stands l i c s -> stands (l ++ x) i c s.
Proof.
  intros [H1 H2 H3 H4 H5 H6 H7]. constructor; auto. destruct (ce_prev c) as [p|]; [|exact H4]. destruct H4 as (Hp & q & E & Eq).
  split; [exact Hp|]. exists q. split; [|exact Eq]. rewrite nth_error_app1; [exact E|]. apply nth_error_Some. congruence.
Qed.
Lemma rel_new h l c s : rel h l -> stands (l ++ [s]) (length l) c s -> rel (h ++ [c]) (l ++ [s]).
Proof.
  intros [Hl H] Hs. split; [rewrite !app_length, Hl; reflexivity|]. intros i x Hx.
  destruct (Nat.lt_ge_cases i (length h)) as [Hi|Hi].
  - rewrite nth_error_app1 in Hx by exact Hi. destruct (H i x Hx) as (y & Ey & Hy). exists y. split; [|apply stands_app; exact Hy].
    rewrite nth_error_app1; [exact Ey|lia].
  - assert (Hi' : i = length h). { assert (nth_error (h ++ [c]) i <> None) by congruence. apply nth_error_Some in H0. rewrite app_length in H0. cbn in H0. lia. }
    subst i. rewrite nth_error_app2, Nat.sub_diag in Hx by lia. injection Hx as <-. exists s. rewrite Hl. split; [|exact Hs].
    rewrite nth_error_app2, Nat.sub_diag by lia. reflexivity.
Qed.
Lemma rel_upd h l i c c' s : rel h l -> nth_error h i = Some c -> nth_error l i = Some s -> stands l i c' s -> rel (upd_nat h i c') l.
Proof.
  intros [Hl H] Ec Es Hs. split; [rewrite upd_length; exact Hl|]. intros j x Hx. destruct (Nat.eq_dec i j) as [<-|Hne].
  - rewrite upd_same in Hx by (apply nth_error_Some; congruence). injection Hx as <-. eauto.
  - rewrite upd_other in Hx by exact Hne. exact (H j x Hx).
Qed.

Lemma origin_prev s q : p_prev s = Some q -> origin s = origin q.
Proof. destruct s as [a b c [p|]]; cbn; [intros [= ->]; reflexivity|discriminate]. Qed.
Lemma origin_self s : p_prev s = None -> origin s = s.
Proof. destruct s as [a b c [p|]]; cbn; [discriminate|reflexivity]. Qed.

(* the key of a state from that of its predecessor *)
Lemma own_key_prev s q : p_prev s = Some q -> (forall q', p_prev q = Some q' -> exists x, py_nth (key_labels kpt) (p_key q) = Ok x) ->
  own_key s = let! (tonic, mode) := py_nth (key_labels kpt) (p_key s) in
              let! k := own_key q in Ok (mkKey tonic tonic (k_global k) mode mode (k_global_mode k) pt).
Proof.
  intros Ep Hv. unfold Spec_Cache.own_key at 1. rewrite (origin_prev s q Ep). destruct (py_nth (key_labels kpt) (p_key s)) as [[t m]|e]; [|reflexivity]. cbn [bind].
  unfold Spec_Cache.own_key. destruct (p_prev q) as [q'|] eqn:Eq.
  - destruct (Hv q' eq_refl) as ([t' m'] & ->). cbn [bind]. destruct (py_nth (key_labels kpt) (p_key (origin q))) as [[g gm]|e]; reflexivity.
  - rewrite (origin_self q Eq). destruct (py_nth (key_labels kpt) (p_key q)) as [[g gm]|e]; reflexivity.
Qed.

Lemma get_key_rel fuel : forall h l i s, rel h l -> nth_error l i = Some s -> (i < fuel)%nat ->
  exists h', get_key kpt fuel pt i h = (h', own_key s) /\ rel h' l
    /\ forall k, own_key s = Ok k -> exists c, nth_error h' i = Some c /\ ce_kobj c = Some k.
Proof.
  induction fuel as [|fuel IH]; intros h l i s HR Es Hi; [lia|]. cbn [get_key]. unfold ebind, the_cell, eret, set_kobj.
  destruct (rel_at h l i HR) as [(c & s' & Ec & Es' & Hs)|[_ E]]; [|congruence]. rewrite Es in Es'. injection Es' as <-. rewrite Ec.
  assert (Hs0 := Hs). destruct Hs as [H1 H2 H3 H4 H5 H6 H7]. destruct (ce_kobj c) as [k|] eqn:Ek.
  { exists h. rewrite (H6 k eq_refl). split; [reflexivity|]. split; [exact HR|]. intros k' [= <-]. eauto. }
  rewrite H2. destruct (ce_prev c) as [p|] eqn:Ep.
  - destruct H4 as (Hp & q & Eq & Epq). destruct (py_nth (key_labels kpt) (p_key s)) as [[t m]|e] eqn:El.
    2: { exists h. unfold Spec_Cache.own_key. rewrite El. cbn [bind]. split; [reflexivity|]. split; [exact HR|]. discriminate. }
    destruct (IH h l p q HR Eq ltac:(lia)) as (h1 & E1 & R1 & _). rewrite E1.
    assert (Hv : forall q', p_prev q = Some q' -> exists x, py_nth (key_labels kpt) (p_key q) = Ok x).
    { destruct (rel_at h l p HR) as [(cp & sq & Ecp & Esq & Hq)|[_ E]]; [|congruence]. rewrite Eq in Esq. injection Esq as <-. exact (ss_valid _ _ _ _ Hq). }
    assert (EK := own_key_prev s q Epq Hv). rewrite El in EK. cbn [bind] in EK. rewrite EK.
    destruct (own_key q) as [k|e] eqn:EKq; [|exists h1; cbn [bind]; split; [reflexivity|]; split; [exact R1|discriminate]]. cbn [bind] in EK |- *.
    destruct (rel_at h1 l i R1) as [(c1 & s1 & Ec1 & Es1 & Hs1)|[_ E]]; [|congruence]. rewrite Es in Es1. injection Es1 as <-. rewrite Ec1.
    eexists. split; [reflexivity|]. split.
    + apply (rel_upd h1 l i c1 _ s R1 Ec1 Es). destruct Hs1. constructor; cbn [ce_chord ce_key ce_change ce_prev ce_kobj ce_cobj]; auto. intros k0 [= <-]. exact EK.
    + intros k0 [= <-]. eexists. rewrite upd_same by (apply nth_error_Some; congruence). split; reflexivity.
  - assert (EK : own_key s = let! (t, m) := py_nth (key_labels kpt) (p_key s) in Ok (mkKey t t t m m m pt)).
    { unfold Spec_Cache.own_key. rewrite (origin_self s H4). destruct (py_nth (key_labels kpt) (p_key s)) as [[t m]|e]; reflexivity. }
    rewrite EK. destruct (py_nth (key_labels kpt) (p_key s)) as [[t m]|e]; [|exists h; split; [reflexivity|]; split; [exact HR|discriminate]]. cbn [bind] in EK |- *.
    rewrite Ec. eexists. split; [reflexivity|]. split.
    + apply (rel_upd h l i c _ s HR Ec Es). destruct Hs0. constructor; cbn [ce_chord ce_key ce_change ce_prev ce_kobj ce_cobj]; auto. intros k0 [= <-]. exact EK.
    + intros k0 [= <-]. eexists. rewrite upd_same by (apply nth_error_Some; congruence). split; reflexivity.
Qed.

Lemma prev_rel h l i c s : rel h l -> nth_error h i = Some c -> nth_error l i = Some s -> stands l i c s ->
  match ce_prev c with
  | None => p_prev s = None
  | Some p => (p < i)%nat /\ exists cp q, nth_error h p = Some cp /\ nth_error l p = Some q /\ p_prev s = Some q /\ stands l p cp q
  end.
Proof.
  intros HR Ec Es Hs. assert (H4 := ss_prev _ _ _ _ Hs). destruct (ce_prev c) as [p|]; [|exact H4]. destruct H4 as (Hp & q & Eq & Epq).
  destruct (rel_at h l p HR) as [(cp & sq & Ecp & Esq & Hq)|[_ E]]; [|congruence]. rewrite Eq in Esq. injection Esq as <-. split; [exact Hp|]. eauto 8.
Qed.
Lemma key_obj_like s s' : p_key s' = p_key s -> origin s' = origin s -> own_key s' = own_key s.
Proof. intros E1 E2. unfold Spec_Cache.own_key. rewrite E1, E2. reflexivity. Qed.
Lemma origin_key s s' : p_prev s' = p_prev s -> p_key s' = p_key s -> p_key (origin s') = p_key (origin s).
Proof. destruct s as [a b c [p|]], s' as [a' b' c' [p'|]]; cbn; intros E1 E2; try discriminate; congruence. Qed.

Theorem call_rel h l x : rel h l -> (call_type x = None \/ call_type x = Some pt) ->
  exists h', run_call cpt kpt durs levels h x = (h', snd (p_call cpt kpt durs levels pt l x)) /\ rel h' (fst (p_call cpt kpt durs levels pt l x)).
Proof.
  intros HR Ht. destruct x as [key|pt' i chord change|pt' i key|pt' i e|i|pt' i|pt' i]; cbn [call_type] in Ht; try (destruct Ht as [Ht|Ht]; [discriminate|injection Ht as ->]); cbn [run_call p_call].
  - (* new *) unfold new_cell, made, made_opt, of_state. cbn [bind fst snd]. eexists. rewrite (proj1 HR). split; [reflexivity|].
    apply rel_new; [exact HR|]. constructor; cbn; (reflexivity || (intros; discriminate)).
  - (* chord transition *) unfold c_chord_transition, ebind at 1 2 3, the_cell, eret, made_opt, the_state, p_chord_transition, notes_of, of_option.
    destruct (rel_at h l i HR) as [(c & s & Ec & Es & Hs)|[E1 E2]]; [|rewrite E1, E2; eexists; split; [reflexivity|exact HR]].
    rewrite Ec, Es. cbn [bind]. destruct (py_nth (chord_labels cpt) chord) as [[[root t] inv]|e]; [|eexists; split; [reflexivity|exact HR]]. cbn [bind].
    destruct (get_bass_note t root inv pt false) as [bass|e]; [|eexists; split; [reflexivity|exact HR]]. cbn [bind]. unfold ebind at 1.
    destruct (get_key_rel (S i) h l i s HR Es ltac:(lia)) as (h1 & E1 & R1 & Hk). rewrite E1.
    destruct (own_key s) as [k|e] eqn:EK; [|eexists; split; [reflexivity|exact R1]]. cbn [bind].
    change (MIN_RELATIVE_TPC - RELATIVE_TPC_EXTRA) with (-19). change (MAX_RELATIVE_TPC + RELATIVE_TPC_EXTRA) with 20.
    destruct (outside _ _ _ _); [eexists; split; [reflexivity|exact R1]|]. unfold ebind, the_cell, new_cell, eret.
    destruct (Hk k eq_refl) as (c1 & Ec1 & Ek1). destruct (rel_at h1 l i R1) as [(c2 & s2 & Ec2 & Es2 & Hs2)|[E _]]; [|congruence].
    rewrite Ec1 in Ec2. injection Ec2 as <-. rewrite Es in Es2. injection Es2 as <-. rewrite Ec1. cbn [fst snd]. eexists. rewrite (proj1 R1). split; [reflexivity|].
    apply rel_new; [exact R1|]. constructor; cbn [ce_chord ce_key ce_change ce_prev ce_kobj ce_cobj p_chord p_key p_change p_prev].
    + reflexivity.
    + exact (ss_key _ _ _ _ Hs2).
    + reflexivity.
    + split; [apply nth_error_Some; congruence|]. exists s. split; [|reflexivity]. rewrite nth_error_app1; [exact Es|]. apply nth_error_Some. congruence.
    + intros q _. unfold Spec_Cache.own_key in EK. destruct (py_nth (key_labels kpt) (p_key s)) as [y|]; [eauto|discriminate].
    + intros k0 E0. rewrite Ek1 in E0. injection E0 as <-. rewrite <- EK. apply key_obj_like; reflexivity.
    + discriminate.
  - (* key transition *) unfold c_key_transition, ebind, the_cell, eret, made_opt, the_state, p_key_transition, notes_of, of_option, or_type.
    destruct (rel_at h l i HR) as [(c & s & Ec & Es & Hs)|[E1 E2]]; [|rewrite E1, E2; eexists; split; [reflexivity|exact HR]].
    rewrite Ec, Es. cbn [bind]. rewrite (ss_chord _ _ _ _ Hs). destruct (p_chord s) as [chord|] eqn:Ech; [|eexists; split; [reflexivity|exact HR]]. cbn [bind].
    destruct (py_nth (chord_labels cpt) chord) as [[[root t] inv]|e]; [|eexists; split; [reflexivity|exact HR]]. cbn [bind].
    destruct (get_bass_note t root inv pt false) as [bass|e]; [|eexists; split; [reflexivity|exact HR]]. cbn [bind].
    destruct (py_nth (key_labels kpt) key) as [[tonic mode]|e] eqn:El; [|eexists; split; [reflexivity|exact HR]]. cbn [bind].
    change MIN_RELATIVE_TPC with (-14). change MAX_RELATIVE_TPC with 15.
    destruct (outside _ _ _ _); [eexists; split; [reflexivity|exact HR]|]. assert (Hp := prev_rel h l i c s HR Ec Es Hs). unfold or_attr.
    destruct (ce_prev c) as [p|] eqn:Ep; [|rewrite Hp; eexists; split; [reflexivity|exact HR]]. destruct Hp as (Hp & cp & q & Ecp & Eq & Epq & Hq). rewrite Ecp, Epq. cbn [bind].
    unfold new_cell. cbn [fst snd]. eexists. rewrite (proj1 HR). split; [reflexivity|]. apply rel_new; [exact HR|].
    constructor; cbn [ce_chord ce_key ce_change ce_prev ce_kobj ce_cobj p_chord p_key p_change p_prev]; try reflexivity; try discriminate.
    + exact (ss_change _ _ _ _ Hs).
    + assert (Hli : (i < length l)%nat) by (apply nth_error_Some; congruence). split; [lia|]. exists q. split; [|reflexivity]. rewrite nth_error_app1; [exact Eq|lia].
    + intros q' _. eauto.
  - (* rejoin *) unfold c_rejoin, ebind, the_cell, eret, made, made_opt, the_state, p_rejoin, notes_of, of_state, or_type.
    destruct (rel_at h l i HR) as [(c & s & Ec & Es & Hs)|[E1 E2]]; [|rewrite E1, E2; eexists; split; [reflexivity|exact HR]].
    rewrite Ec, Es. cbn [bind]. rewrite (ss_chord _ _ _ _ Hs). destruct (p_chord s) as [chord|] eqn:Ech; [|eexists; split; [reflexivity|exact HR]]. cbn [bind].
    destruct (py_nth (chord_labels cpt) chord) as [[[root t] inv]|er]; [|eexists; split; [reflexivity|exact HR]]. cbn [bind].
    destruct (get_bass_note t root inv pt false) as [bass|er]; [|eexists; split; [reflexivity|exact HR]]. cbn [bind]. assert (Hp := prev_rel h l i c s HR Ec Es Hs). unfold or_attr.
    destruct (ce_prev c) as [p|] eqn:Ep; [|rewrite Hp; eexists; split; [reflexivity|exact HR]]. destruct Hp as (Hp & cp & q & Ecp & Eq & Epq & Hq). rewrite Ecp, Epq. cbn [bind].
    rewrite (ss_key _ _ _ _ Hq). destruct (py_nth (key_labels kpt) (p_key q)) as [y|er] eqn:El; [|eexists; split; [reflexivity|exact HR]]. cbn [bind].
    unfold new_cell. cbn [fst snd]. eexists. rewrite (proj1 HR). split; [reflexivity|]. apply rel_new; [exact HR|].
    constructor; cbn [ce_chord ce_key ce_change ce_prev ce_kobj ce_cobj p_chord p_key p_change p_prev]; try reflexivity; try discriminate.
    + assert (Hli : (i < length l)%nat) by (apply nth_error_Some; congruence). split; [lia|]. exists q. split; [|reflexivity]. rewrite nth_error_app1; [exact Eq|lia].
    + intros q' _. eauto.
    + intros k Ek. rewrite <- (ss_kobj _ _ _ _ Hq k Ek). apply key_obj_like; reflexivity.
  - (* copy *) unfold c_copy, ebind, the_cell, made, made_opt, the_state, of_state.
    destruct (rel_at h l i HR) as [(c & s & Ec & Es & Hs)|[E1 E2]]; [|rewrite E1, E2; eexists; split; [reflexivity|exact HR]].
    rewrite Ec, Es. cbn [bind]. unfold new_cell. cbn [fst snd]. eexists. rewrite (proj1 HR). split; [reflexivity|]. apply rel_new; [exact HR|].
    assert (Hli : (i < length l)%nat) by (apply nth_error_Some; congruence).
    destruct (stands_app l i c s [s] Hs) as [H1 H2 H3 H4 H5 H6 H7]. constructor; cbn [ce_chord ce_key ce_change ce_prev ce_kobj ce_cobj]; auto; [|discriminate].
    destruct (ce_prev c) as [p|]; [|exact H4]. destruct H4 as (Hp & H4). split; [lia|exact H4].
  - (* get_key *) destruct (rel_at h l i HR) as [(c & s & Ec & Es & Hs)|[E1 E2]].
    + destruct (get_key_rel (S i) h l i s HR Es ltac:(lia)) as (h1 & E1 & R1 & _). rewrite E1. unfold the_state. rewrite Es. cbn [bind fst snd].
      eexists. split; [reflexivity|exact R1].
    + cbn [get_key]. unfold ebind, the_cell, the_state. rewrite E1, E2. eexists. split; [reflexivity|exact HR].
  - (* get_chord *) unfold get_chord, the_state. unfold ebind at 1. unfold the_cell at 1.
    destruct (rel_at h l i HR) as [(c & s & Ec & Es & Hs)|[E1 E2]]; [|rewrite E1, E2; eexists; split; [reflexivity|exact HR]].
    rewrite Ec, Es. cbn [bind fst snd]. destruct (ce_cobj c) as [x|] eqn:Ex.
    { unfold eret. rewrite (ss_cobj _ _ _ _ Hs x Ex). eexists. split; [reflexivity|exact HR]. }
    unfold ebind at 1. destruct (get_key_rel (S i) h l i s HR Es ltac:(lia)) as (h1 & E1 & R1 & _). rewrite E1.
    assert (EC : own_chord s = own_chord s) by reflexivity. unfold Spec_Cache.own_chord at 2 in EC. rewrite EC.
    destruct (own_key s) as [k|er]; [|eexists; split; [reflexivity|exact R1]]. cbn [bind] in EC |- *.
    unfold ebind, eret, or_type in *. rewrite (ss_chord _ _ _ _ Hs). destruct (p_chord s) as [chord|] eqn:Ech; [|eexists; split; [reflexivity|exact R1]]. cbn [bind] in EC |- *.
    unfold notes_of in *. destruct (py_nth (chord_labels cpt) chord) as [[[root t] inv]|er]; [|eexists; split; [reflexivity|exact R1]]. cbn [bind] in EC |- *.
    destruct (rel_at h1 l i R1) as [(c1 & s1 & Ec1 & Es1 & Hs1)|[_ E]]; [|congruence]. rewrite Es in Es1. injection Es1 as <-.
    assert (Hp := ss_prev _ _ _ _ Hs). unfold or_attr in *. destruct (ce_prev c) as [p|] eqn:Ep; [|rewrite Hp in EC |- *; eexists; split; [reflexivity|exact R1]].
    destruct Hp as (Hp & q & Eq & Epq). rewrite Epq in EC |- *. cbn [bind] in EC |- *.
    destruct (rel_at h1 l p R1) as [(cp & sq & Ecp & Esq & Hq)|[_ E]]; [|congruence]. rewrite Eq in Esq. injection Esq as <-. unfold the_cell. rewrite Ecp.
    destruct (get_bass_note t root inv pt false) as [bass|er]; [|eexists; split; [reflexivity|exact R1]]. cbn [bind] in EC |- *.
    rewrite (ss_change _ _ _ _ Hq), (ss_change _ _ _ _ Hs). destruct (py_nth levels (Z.of_nat (p_change q))) as [on|er]; [|eexists; split; [reflexivity|exact R1]]. cbn [bind] in EC |- *.
    destruct (py_nth levels (Z.of_nat (p_change s))) as [off|er]; [|eexists; split; [reflexivity|exact R1]]. cbn [bind] in EC |- *.
    unfold set_cobj. rewrite Ec1. eexists. split; [reflexivity|]. apply (rel_upd h1 l i c1 _ s R1 Ec1 Es).
    destruct Hs1. constructor; cbn [ce_chord ce_key ce_change ce_prev ce_kobj ce_cobj]; auto. intros x [= <-]. exact EC.
Qed.

Theorem calls_rel xs : forall h l, rel h l -> Forall (fun x => call_type x = None \/ call_type x = Some pt) xs ->
  run_calls cpt kpt durs levels h xs = p_calls cpt kpt durs levels pt l xs.
Proof.
  induction xs as [|x xs IH]; intros h l HR H; [reflexivity|]. inversion H as [|x' xs' Hx Hxs]; subst. cbn [run_calls p_calls].
  destruct (call_rel h l x HR Hx) as (h' & E & R'). rewrite E. destruct (p_call cpt kpt durs levels pt l x) as [l' a]. cbn [fst snd] in *. f_equal. exact (IH h' l' R' Hxs).
Qed.
Lemma rel_nil : rel [] [].
Proof. split; [reflexivity|]. intros i c H. destruct i; discriminate. Qed.
End Cache.
