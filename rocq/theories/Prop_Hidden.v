(* C108: the recurrent networks are asked about the whole analysis. *)
From Coq Require Import Lia.
From Verif Require Import PyBase Model_Search Spec_Search Model_Hidden Spec_Hidden Proof_Base.
From Coq Require Import List.
Import ListNotations.
Open Scope Z_scope.

Scheme in_beam_m := Minimality for in_beam Sort Prop
with current_m := Minimality for current_state Sort Prop
with branched_m := Minimality for branched Sort Prop
with checked_m := Minimality for checked Sort Prop
with to_ksm_m := Minimality for to_ksm Sort Prop.
Combined Scheme search_ind from in_beam_m, current_m, branched_m, checked_m, to_ksm_m.

Section P.
Variable H : Type.
Variables (csm : net H (list Z)) (ktm : net H Z) (ksm : net H (list Z)).
Variable heq : H -> H -> bool.
Hypothesis heq_eq : forall x y, heq x y = true <-> x = y.
Variables (cpt kpt : pitch_type) (durs levels : list Z) (icm : Z -> list Z).
Notation csm_vec := (csm_input cpt kpt durs levels).
Notation ktm_vec := (ktm_input cpt kpt durs levels).
Notation in_beam := (in_beam csm ktm ksm heq cpt kpt durs levels icm).
Notation current_state := (current_state csm ktm ksm heq cpt kpt durs levels icm).
Notation branched := (branched csm ktm ksm heq cpt kpt durs levels icm).
Notation checked := (checked csm ktm ksm heq cpt kpt durs levels icm).
Notation to_ksm := (to_ksm csm ktm ksm heq cpt kpt durs levels icm).
Notation run_csm := (run_csm csm cpt kpt durs levels).
Notation run_ktm := (run_ktm ktm cpt kpt durs levels).
Notation run_ksm := (run_ksm ksm heq cpt kpt durs levels).
Notation ksm_in := (h_ksm_input heq cpt kpt durs levels).

(* the hidden state is the one after all these states *)
Definition fed {O} (n : net H O) (vector : state -> res (list Z)) (l : list state) (h : H) : Prop :=
  exists xs, Forall2 (fun s x => vector s = Ok x) l xs /\ h = fold_left (n_step n) xs (n_start n).
Lemma fed_snoc {O} (n : net H O) vector l s h x :
  fed n vector l h -> vector s = Ok x -> fed n vector (l ++ [s]) (n_step n h x).
Proof.
  intros (xs & F & ->) E. exists (xs ++ [x]). split.
  - apply Forall2_app; auto.
  - rewrite fold_left_app. reflexivity.
Qed.
Lemma fed_nil {O} (n : net H O) vector : fed n vector [] (n_start n).
Proof. exists []. split; [constructor|reflexivity]. Qed.
Lemma fed_answer {O} (n : net H O) vector l h : fed n vector l h -> answer n vector l (n_out n h).
Proof. intros (xs & F & ->). exists xs. split; auto. Qed.

Lemma analysis_next s p : st_prev s = Some p -> analysis s = analysis p ++ [s].
Proof. intro E. unfold analysis. destruct s; cbn in *. subst. rewrite map_app. reflexivity. Qed.
Lemma analysis_first s : st_prev s = None -> analysis s = [].
Proof. intro E. unfold analysis. destruct s; cbn in *. subst. reflexivity. Qed.

(* a state that was branched on *)
Inductive good : hstate H -> Prop :=
| g_first key hash : good (initial icm key hash)
| g_next s p hc hk :
    good p -> h_prev s = Some p -> st_prev (hs s) = Some (hs p) ->
    h_csm s = Some hc -> fed csm csm_vec (analysis (hs s)) hc -> st_prior (hs s) = n_out csm hc ->
    h_ktm s = Some hk -> fed ktm ktm_vec (analysis (hs s)) hk ->
    (h_ksm s = h_ksm p \/ exists h, h_ksm s = Some h /\ fed ksm ktm_vec (analysis (hs s)) h) ->
    good s.
(* a new state *)
Definition fresh (s : hstate H) : Prop :=
  exists p, good p /\ h_prev s = Some p /\ st_prev (hs s) = Some (hs p) /\
    h_csm s = h_csm p /\ st_prior (hs s) = st_prior (hs p).
(* the KTM was run *)
Definition fresh_k (s : hstate H) : Prop :=
  fresh s /\ exists hk, h_ktm s = Some hk /\ fed ktm ktm_vec (analysis (hs s)) hk.
(* a state in a beam *)
Definition ready (s : hstate H) : Prop :=
  (exists key hash, s = initial icm key hash) \/
  (fresh_k s /\ exists p, h_prev s = Some p /\
     (h_ksm s = h_ksm p \/ exists h, h_ksm s = Some h /\ fed ksm ktm_vec (analysis (hs s)) h)).

Lemma good_csm p : good p -> fed csm csm_vec (analysis (hs p)) (current csm (h_csm p)).
Proof.
  intros [key hash|s q hc hk g P SP C FC PR K FK KS].
  - apply fed_nil.
  - rewrite C. exact FC.
Qed.
Lemma good_ktm p : good p -> fed ktm ktm_vec (analysis (hs p)) (current ktm (h_ktm p)).
Proof.
  intros [key hash|s q hc hk g P SP C FC PR K FK KS].
  - apply fed_nil.
  - rewrite K. exact FK.
Qed.
Lemma hidden_eq a b : hidden_states_equal heq a b = true <-> a = b.
Proof.
  destruct a as [x|], b as [y|]; cbn; split; intro E; try discriminate; try reflexivity.
  - apply heq_eq in E. congruence.
  - injection E as ->. apply heq_eq. reflexivity.
Qed.
(* where get_ksm_input stops, the rest was fed before; where it goes on, it is fed again from where it was *)
Lemma ksm_in_fed p : good p -> forall s xs, h_prev s = Some p -> st_prev (hs s) = Some (hs p) ->
  ksm_in s = Ok xs -> fed ksm ktm_vec (analysis (hs s)) (fold_left (n_step ksm) xs (current ksm (h_ksm p))).
Proof.
  induction 1 as [key hash|q p hc hk g IH P SP C FC PR K FK KS]; intros s xs E SE I.
  - destruct s as [t pr a b c]. cbn [Model_Hidden.hs Model_Hidden.h_prev] in *. subst pr. cbn in I.
    destruct (ktm_vec t) as [v|] eqn:V; [|discriminate]. cbn in I. apply Ok_inj in I. subst xs.
    rewrite (analysis_next _ _ SE). cbn [fold_left].
    apply (fed_snoc ksm ktm_vec); auto. apply fed_nil.
  - destruct s as [t pr a b c]. cbn [Model_Hidden.hs Model_Hidden.h_prev] in *. subst pr. cbn [h_ksm_input Model_Hidden.hs Model_Hidden.h_prev] in I.
    destruct (ktm_vec t) as [v|] eqn:V; [|discriminate]. cbn [bind] in I. rewrite P in I.
    rewrite (analysis_next _ _ SE).
    destruct (hidden_states_equal heq (h_ksm q) (h_ksm p)) eqn:Q; cbn [negb] in I.
    + apply (proj1 (hidden_eq _ _)) in Q.
      destruct (ksm_in q) as [vs|] eqn:W; [|discriminate]. cbn [bind] in I. apply Ok_inj in I. subst xs.
      rewrite fold_left_app. cbn [fold_left]. apply fed_snoc; auto. rewrite Q. apply IH; auto.
    + apply Ok_inj in I. subst xs. cbn [fold_left]. apply fed_snoc; auto.
      destruct KS as [KS|(h & KS & F)].
      * apply (proj2 (hidden_eq _ _)) in KS. congruence.
      * rewrite KS. exact F.
Qed.

Lemma key_transition_prev s key lp t : key_transition cpt kpt s key lp = Ok (Some t) ->
  st_prev t = st_prev s /\ st_prior t = st_prior s.
Proof.
  unfold key_transition. destruct (the_chord s); cbn; [|discriminate].
  destruct (py_nth _ _) as [[[? ?] ?]|]; cbn; [|discriminate].
  destruct (get_bass_note _ _ _ _ _); cbn; [|discriminate].
  destruct (py_nth _ _) as [[? ?]|]; cbn; [|discriminate].
  destruct (outside _ _ _ _); [discriminate|].
  destruct (make_hash _ _ _ _); cbn; [|discriminate].
  destruct (the_prev s); cbn; [|discriminate]. intro E. apply Ok_inj in E. injection E as <-. split; reflexivity.
Qed.
Lemma chord_transition_prev s chord change lp t : chord_transition cpt kpt s chord change lp = Ok (Some t) ->
  st_prev t = Some s /\ st_prior t = st_prior s.
Proof.
  unfold chord_transition. destruct (chord_notes _ _) as [[[[? ?] ?] ?]|]; cbn; [|discriminate].
  destruct (state_key _ _) as [[? ?]|]; cbn; [|discriminate].
  destruct (outside _ _ _ _); [discriminate|].
  destruct (make_hash _ _ _ _); cbn; [|discriminate]. intro E. apply Ok_inj in E. injection E as <-. split; reflexivity.
Qed.
Lemma rejoin_prev s e lp t : rejoin cpt kpt s e lp = Ok t ->
  exists p, st_prev s = Some p /\ st_prev t = Some p /\ st_prior t = st_prior p.
Proof.
  unfold rejoin. destruct (the_chord s); cbn; [|discriminate].
  destruct (chord_notes _ _) as [[[[? ?] ?] ?]|]; cbn; [|discriminate].
  unfold the_prev. destruct (st_prev s) as [p|]; cbn; [|discriminate].
  destruct (py_nth _ _) as [[? ?]|]; cbn; [|discriminate].
  destruct (make_hash _ _ _ _); cbn; [|discriminate]. intro E. apply Ok_inj in E. subst t. exists p. repeat split; reflexivity.
Qed.
Lemma copy_prev s t : copy_state s = Ok t ->
  st_prev t = st_prev s /\ st_prior t = st_prior s /\ ktm_vec t = ktm_vec s.
Proof.
  unfold copy_state. destruct (make_hash _ _ _ _); cbn; [|discriminate]. intro E. apply Ok_inj in E. subst t.
  repeat split; reflexivity.
Qed.
(* a state with the same input vector *)
Lemma fed_same {O} (n : net H O) vector s s' h : st_prev s' = st_prev s -> vector s' = vector s ->
  fed n vector (analysis s) h -> fed n vector (analysis s') h.
Proof.
  intros P V (xs & F & E). exists xs. split; auto.
  destruct (st_prev s) as [p|] eqn:S.
  - rewrite (analysis_next _ _ P). rewrite (analysis_next _ _ S) in F.
    apply Forall2_app_inv_l in F. destruct F as (a & b & F1 & F2 & ->). apply Forall2_app; auto.
    inversion F2 as [|? ? ? ? G1 G2]; subst. constructor; auto. congruence.
  - rewrite (analysis_first _ P). rewrite (analysis_first _ S) in F. exact F.
Qed.
Lemma fresh_scored s lp c m k : fresh s -> fresh (scored s lp c m k).
Proof. intros (p & g & P & SP & C & PR). exists p. repeat split; auto. Qed.
Lemma fresh_k_scored s lp c m k : fresh_k s -> fresh_k (scored s lp c m k).
Proof.
  intros (F & hk & K & FK). split; [apply fresh_scored; auto|]. exists hk. split; auto.
  eapply fed_same; [| |exact FK]; reflexivity.
Qed.
Lemma fresh_run_ktm s p u : fresh s -> h_ktm s = match h_prev s with Some q => h_ktm q | None => None end ->
  run_ktm s = Ok (p, u) ->
  exists hk, p = n_out ktm hk /\ h_ktm u = Some hk /\ fed ktm ktm_vec (analysis (hs s)) hk /\ hs u = hs s /\
    h_prev u = h_prev s /\ h_csm u = h_csm s /\ h_ksm u = h_ksm s.
Proof.
  intros (q & g & P & SP & C & PR) K R. rewrite P in K. unfold Model_Hidden.run_ktm in R.
  destruct (ktm_vec (hs s)) as [x|] eqn:X; [|discriminate]. cbn [bind] in R. apply Ok_inj in R.
  apply pair_equal_spec in R. destruct R as (<- & <-).
  eexists. split; [reflexivity|]. split; [reflexivity|]. split; [|repeat split; reflexivity].
  rewrite (analysis_next _ _ SP). apply fed_snoc; auto. rewrite K. apply good_ktm. exact g.
Qed.

Definition branched_ok (t : hstate H) : Prop :=
  fresh t /\ exists p, h_prev t = Some p /\ h_ktm t = h_ktm p /\ h_ksm t = h_ksm p.
Definition checked_ok (t : hstate H) : Prop :=
  fresh_k t /\ exists p, h_prev t = Some p /\ h_ksm t = h_ksm p.

Lemma search_ok :
  (forall s, in_beam s -> ready s) /\ (forall s, current_state s -> good s) /\
  (forall s, branched s -> branched_ok s) /\ (forall s, checked s -> checked_ok s) /\ (forall s, to_ksm s -> checked_ok s).
Proof.
  apply search_ind.
  - intros key hash. left. eauto.
  - intros t lp c m k _ (F & p & P & K). right. split; [apply fresh_k_scored; exact F|]. exists p. split; auto.
  - intros u key lp n p n1 o n2 _ (F & q & P & K) _ T RT RS.
    unfold h_key_transition in T. destruct (key_transition cpt kpt (hs u) key lp) as [ot|] eqn:KT; [|discriminate].
    cbn [bind] in T. rewrite P in T. apply Ok_inj in T. destruct ot as [t|]; [|discriminate]. cbn in T. injection T as <-.
    destruct (key_transition_prev _ _ _ _ KT) as (T1 & T2).
    destruct F as ((q' & g & P' & SP & C & PR) & _). rewrite P in P'. injection P' as <-.
    assert (N : fresh (mkHs t (Some q) (h_csm u) (h_ktm q) (h_ksm q))).
    { exists q. cbn. repeat split; auto; congruence. }
    destruct (fresh_run_ktm _ _ _ N eq_refl RT) as (hk & _ & A1 & A2 & A3 & A4 & A5 & A6).
    cbn [Model_Hidden.hs Model_Hidden.h_prev Model_Hidden.h_csm Model_Hidden.h_ksm] in A2, A3, A4, A5, A6.
    unfold Model_Hidden.run_ksm in RS. destruct (ksm_in n1) as [xs|] eqn:X; [|discriminate]. cbn [bind] in RS.
    apply Ok_inj in RS. apply pair_equal_spec in RS. destruct RS as (_ & <-).
    right. split.
    + split.
      * exists q. cbn. rewrite A3, A4, A5. repeat split; auto; congruence.
      * exists hk. cbn. split; [exact A1|]. rewrite A3. exact A2.
    + exists q. cbn. split; [exact A4|]. right. eexists. split; [reflexivity|].
      rewrite A6. apply ksm_in_fed; auto. rewrite A3. congruence.
  - intros key hash. apply g_first.
  - intros s s' _ R N RC. unfold Model_Hidden.run_csm in RC.
    destruct (csm_vec (hs s)) as [x|] eqn:X; [|discriminate]. cbn [bind] in RC. apply Ok_inj in RC. subst s'.
    destruct R as [(key & hash & ->)|(((p & g & P & SP & C & PR) & hk & K & FK) & p' & P' & KS)].
    { exfalso. apply N. reflexivity. }
    rewrite P in P'. injection P' as <-.
    eapply g_next with (p := p); cbn [Model_Hidden.hs Model_Hidden.h_prev Model_Hidden.h_csm Model_Hidden.h_ktm Model_Hidden.h_ksm]; eauto.
    + rewrite (analysis_next (set_prior (hs s) _) (hs p)) by exact SP. apply fed_snoc.
      * rewrite C. apply good_csm. exact g.
      * exact X.
    + eapply fed_same; [| |exact FK]; reflexivity.
    + destruct KS as [KS|(h & KS & F)]; [left; exact KS|right]. exists h. split; [exact KS|].
      eapply fed_same; [| |exact F]; reflexivity.
  - intros s chord change lp t _ g T. unfold h_chord_transition in T.
    destruct (chord_transition _ _ _ _ _ _) as [ot|] eqn:CT; [|discriminate]. cbn [bind] in T. apply Ok_inj in T.
    destruct ot as [t0|]; [|discriminate]. cbn in T. injection T as <-.
    destruct (chord_transition_prev _ _ _ _ _ CT) as (T1 & T2).
    split; [exists s; cbn; repeat split; auto|]. exists s. cbn. auto.
  - intros s e lp t _ g T. unfold h_rejoin in T.
    destruct (rejoin _ _ _ _ _) as [t0|] eqn:RJ; [|discriminate]. cbn [bind] in T.
    destruct (rejoin_prev _ _ _ _ RJ) as (p0 & T1 & T2 & T3).
    destruct (h_prev s) as [p|] eqn:P; [|discriminate]. apply Ok_inj in T. subst t.
    inversion g as [key hash E|s' p' hc hk g' P' SP C FC PR K FK KS]; subst.
    { cbn in P. discriminate. }
    rewrite P in P'. injection P' as <-. rewrite SP in T1. injection T1 as <-.
    split; [exists p; cbn; repeat split; auto|]. exists p. cbn. auto.
  - intros t p u _ (F & q & P & KT & KS) R.
    assert (KT' : h_ktm t = match h_prev t with Some q => h_ktm q | None => None end) by (rewrite P; exact KT).
    destruct (fresh_run_ktm _ _ _ F KT' R) as (hk & _ & A1 & A2 & A3 & A4 & A5 & A6).
    split.
    + split.
      * destruct F as (q' & g & P' & SP & C & PR). exists q'. rewrite A3, A4, A5. auto.
      * exists hk. split; auto. rewrite A3. exact A2.
    + exists q. rewrite A4, A6. auto.
  - intros t lp c m k _ (F & p & P & K). split; [apply fresh_k_scored; exact F|]. exists p. auto.
  - intros t t' lp c m k _ (F & p & P & K) CP. unfold h_copy in CP.
    destruct (copy_state (hs t)) as [t0|] eqn:Q; [|discriminate]. cbn [bind] in CP. apply Ok_inj in CP. subst t'.
    destruct (copy_prev _ _ Q) as (Q1 & Q2 & Q3).
    split; [|exists p; auto]. apply fresh_k_scored. destruct F as ((q & g & P' & SP & C & PR) & hk & K' & FK). split.
    + exists q. cbn. repeat split; auto; congruence.
    + exists hk. cbn. split; auto. eapply fed_same; [exact Q1|exact Q3|exact FK].
Qed.

(* The prior that a new chord is judged by is the answer of the chord sequence model to all the chords before it,
   in their keys; for the first chord it is that of the initial chord model. *)
Theorem C108_csm : forall t p, branched t -> st_prev (hs t) = Some p ->
  (st_prev p = None -> st_prior (hs t) = icm (st_key p)) /\
  (st_prev p <> None -> answer csm csm_vec (analysis p) (st_prior (hs t))).
Proof.
  intros t p0 B E. destruct search_ok as (_ & _ & OK & _). destruct (OK _ B) as ((p & g & P & SP & C & PR) & _).
  rewrite SP in E. injection E as <-. rewrite PR. split; intro N.
  - inversion g as [key hash|s q hc hk g' P' SP' C' FC PR' K FK KS]; subst; [reflexivity|congruence].
  - inversion g as [key hash|s q hc hk g' P' SP' C' FC PR' K FK KS]; subst; [exfalso; apply N; reflexivity|].
    rewrite PR'. apply fed_answer. exact FC.
Qed.
(* The same of the states that are put into the beams with their key (where the prior is added to log_prob). *)
Theorem C108_csm_kept : forall t p, in_beam t -> st_prev (hs t) = Some p ->
  (st_prev p = None -> st_prior (hs t) = icm (st_key p)) /\
  (st_prev p <> None -> answer csm csm_vec (analysis p) (st_prior (hs t))).
Proof.
  intros t p0 B E. destruct search_ok as (OK & _). destruct (OK _ B) as [(key & hash & ->)|(((p & g & P & SP & C & PR) & _) & _)].
  { discriminate. }
  rewrite SP in E. injection E as <-. rewrite PR. split; intro N.
  - inversion g as [key hash|s q hc hk g' P' SP' C' FC PR' K FK KS]; subst; [reflexivity|congruence].
  - inversion g as [key hash|s q hc hk g' P' SP' C' FC PR' K FK KS]; subst; [exfalso; apply N; reflexivity|].
    rewrite PR'. apply fed_answer. exact FC.
Qed.
(* The probability of a key change is the answer of the key transition model to all the chords, up to the new one. *)
Theorem C108_ktm : forall t p u, branched t -> run_ktm t = Ok (p, u) -> answer ktm ktm_vec (analysis (hs t)) p.
Proof.
  intros t p u B R. destruct search_ok as (_ & _ & OK & _). destruct (OK _ B) as (F & q & P & KT & KS).
  assert (KT' : h_ktm t = match h_prev t with Some q => h_ktm q | None => None end) by (rewrite P; exact KT).
  destruct (fresh_run_ktm _ _ _ F KT' R) as (hk & -> & A1 & A2 & _).
  apply fed_answer. exact A2.
Qed.
(* The log priors of the new key are the answer of the key sequence model to all the chords, up to the new one,
   although it is run on the chords after the last key change only. *)
Theorem C108_ksm : forall t o u, to_ksm t -> run_ksm t = Ok (o, u) -> answer ksm ktm_vec (analysis (hs t)) o.
Proof.
  intros t o u B R. destruct search_ok as (_ & _ & _ & _ & OK). destruct (OK _ B) as (((p & g & P & SP & C & PR) & _) & q & P' & KS).
  rewrite P in P'. injection P' as <-. unfold Model_Hidden.run_ksm in R.
  destruct (ksm_in t) as [xs|] eqn:X; [|discriminate]. cbn [bind] in R. apply Ok_inj in R.
  apply pair_equal_spec in R. destruct R as (<- & _). apply fed_answer. rewrite KS. apply ksm_in_fed; auto.
Qed.
End P.
Print Assumptions C108_csm.
Print Assumptions C108_csm_kept.
Print Assumptions C108_ktm.
Print Assumptions C108_ksm.

(* Networks that count their inputs; a piece with five chords, with a key change on the third.  When the key could
   change again on the fifth chord, the key sequence model is given two vectors, and has seen five. *)
Definition counter {O} (out : nat -> O) : net nat O := mkNet 0%nat (fun h _ => S h) out.
Definition csm0 := counter (fun n => [Z.of_nat n]).
Definition ktm0 := counter Z.of_nat.
Definition durs0 : list Z := [1; 1; 1; 1; 1; 1].
Definition levels0 : list Z := [0; 0; 0; 0; 0; 0].
Definition icm0 (key : Z) : list Z := [100].
Definition get {A} (d : A) (r : res A) : A := match r with Ok x => x | Raise _ => d end.
Definition s0 : hstate nat := initial icm0 15 None.
Definition go (s : hstate nat) (chord : Z) (change : nat) : hstate nat :=
  match get None (h_chord_transition TPC TPC s chord change (-1)) with Some t => t | None => s0 end.
Definition asked (s : hstate nat) : hstate nat := snd (get (0, s0) (run_ktm ktm0 TPC TPC durs0 levels0 s)).
Definition keep (s : hstate nat) : hstate nat := scored s (-2) None None None.
Definition turn (s : hstate nat) : hstate nat := get s0 (run_csm csm0 TPC TPC durs0 levels0 s).
Definition t1 := go s0 45 1.      Definition c1 := turn (keep (asked t1)).
Definition t2 := go c1 48 2.      Definition c2 := turn (keep (asked t2)).
Definition t3 := go c2 45 3.      Definition u3 := keep (asked t3).
Definition n3 := match get None (h_key_transition TPC TPC u3 16 (-1)) with Some t => t | None => s0 end.
Definition m3 := snd (get ([], s0) (run_ksm csm0 Nat.eqb TPC TPC durs0 levels0 (asked n3))).
Definition c3 := turn m3.
Definition t4 := go c3 48 4.      Definition c4 := turn (keep (asked t4)).
Definition t5 := go c4 51 5.      Definition u5 := keep (asked t5).
Example C108_ex :
  to_ksm csm0 ktm0 csm0 Nat.eqb TPC TPC durs0 levels0 icm0 u5 /\
  branched csm0 ktm0 csm0 Nat.eqb TPC TPC durs0 levels0 icm0 t5 /\
  map st_key (analysis (hs u5)) = [15; 15; 16; 16; 16] /\
  option_map (@length (list Z)) (get None (let! x := h_ksm_input Nat.eqb TPC TPC durs0 levels0 u5 in Ok (Some x))) = Some 2%nat /\
  fst (get ([], s0) (run_ksm csm0 Nat.eqb TPC TPC durs0 levels0 u5)) = [5] /\
  fst (get (0, s0) (run_ktm ktm0 TPC TPC durs0 levels0 t5)) = 5 /\
  st_prior (hs t5) = [4] /\ st_prior (hs t1) = [100].
Proof.
  assert (K1 : forall s chord change, current_state csm0 ktm0 csm0 Nat.eqb TPC TPC durs0 levels0 icm0 s ->
    h_chord_transition TPC TPC s chord change (-1) = Ok (Some (go s chord change)) ->
    (exists p, run_ktm ktm0 TPC TPC durs0 levels0 (go s chord change) = Ok (p, asked (go s chord change))) ->
    branched csm0 ktm0 csm0 Nat.eqb TPC TPC durs0 levels0 icm0 (go s chord change) /\
    checked csm0 ktm0 csm0 Nat.eqb TPC TPC durs0 levels0 icm0 (asked (go s chord change))).
  { intros s chord change A B (p & C). assert (D := br_chord _ _ _ _ _ _ _ _ _ _ _ _ _ _ _ A B). split; [exact D|].
    eapply ck; [exact D|exact C]. }
  assert (K2 : forall s, in_beam csm0 ktm0 csm0 Nat.eqb TPC TPC durs0 levels0 icm0 s ->
    st_change (hs s) <> 0%nat -> run_csm csm0 TPC TPC durs0 levels0 s = Ok (turn s) ->
    current_state csm0 ktm0 csm0 Nat.eqb TPC TPC durs0 levels0 icm0 (turn s)).
  { intros s A B C. eapply cs_later; eauto. }
  assert (B1 := K1 s0 45 1%nat (cs_first _ _ _ _ _ _ _ _ _ _ _ _) ltac:(vm_compute; reflexivity) ltac:(eexists; vm_compute; reflexivity)).
  assert (D1 : current_state csm0 ktm0 csm0 Nat.eqb TPC TPC durs0 levels0 icm0 c1)
    by (apply K2; [apply ib_kept; apply B1|vm_compute; discriminate|vm_compute; reflexivity]).
  assert (B2 := K1 c1 48 2%nat D1 ltac:(vm_compute; reflexivity) ltac:(eexists; vm_compute; reflexivity)).
  assert (D2 : current_state csm0 ktm0 csm0 Nat.eqb TPC TPC durs0 levels0 icm0 c2)
    by (apply K2; [apply ib_kept; apply B2|vm_compute; discriminate|vm_compute; reflexivity]).
  assert (B3 := K1 c2 45 3%nat D2 ltac:(vm_compute; reflexivity) ltac:(eexists; vm_compute; reflexivity)).
  assert (M3 : in_beam csm0 ktm0 csm0 Nat.eqb TPC TPC durs0 levels0 icm0 m3).
  { eapply ib_changed with (u := u3) (key := 16) (lp := -1) (n := n3) (n1 := asked n3).
    - apply tk_same. apply B3.
    - vm_compute. discriminate.
    - vm_compute. reflexivity.
    - vm_compute. reflexivity.
    - vm_compute. reflexivity. }
  assert (D3 : current_state csm0 ktm0 csm0 Nat.eqb TPC TPC durs0 levels0 icm0 c3)
    by (apply K2; [exact M3|vm_compute; discriminate|vm_compute; reflexivity]).
  assert (B4 := K1 c3 48 4%nat D3 ltac:(vm_compute; reflexivity) ltac:(eexists; vm_compute; reflexivity)).
  assert (D4 : current_state csm0 ktm0 csm0 Nat.eqb TPC TPC durs0 levels0 icm0 c4)
    by (apply K2; [apply ib_kept; apply B4|vm_compute; discriminate|vm_compute; reflexivity]).
  assert (B5 := K1 c4 51 5%nat D4 ltac:(vm_compute; reflexivity) ltac:(eexists; vm_compute; reflexivity)).
  split. { apply tk_same. apply B5. }
  split. { apply B5. }
  repeat split; vm_compute; reflexivity.
Qed.
