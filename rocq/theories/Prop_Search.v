(* Properties C29-C33, C35, C36: the states of the search and the harmony it returns. *)
From Verif Require Import Spec_Search Proof_Base Proof_Codec Proof_Search Proof_Paths.
Open Scope Z_scope.

(* ---- a small search used in the examples ---- *)
Definition gx (min_key max_no_key : Z) : search_cfg :=
  {| g_cpt := MIDI; g_kpt := MIDI; g_beam_size := 4; g_hash_length := Some 2;
     g_min_key := min_key; g_max_no_key := max_no_key; g_target_chord := 100; g_max_chord := 2;
     g_target_key := 100; g_max_key := 2; g_ksm_exp := 1; g_use_inv := true;
     g_red := NO_REDUCTION; g_pitch_based := false |}.
Definition ox (ktm ksm csm : Z) : oracle :=
  {| o_ktm := fun _ _ _ => ktm; o_ksm := fun _ _ _ => repeat ksm 24;
     o_csm := fun _ _ _ => repeat csm 600; o_stop := fun _ _ => true; o_icm := fun _ => repeat csm 600;
     o_argsort := fun l => zrange 0 (zlen l); o_exp := fun x => 60; o_log := fun p => -7; o_one := 100;
     o_pitch_log := fun _ _ => 0; o_pick := fun _ => 0%nat |}.
Definition pdx (forced_c forced_k : list Z) : piece_data :=
  {| p_forced_c := forced_c; p_forced_k := forced_k; p_durs := [1; 1; 1]; p_levels := [3; 2; 2; 3] |}.
Definition crx : list (nat * nat) := [(0, 1); (1, 2); (2, 3); (1, 3)]%nat.
Definition searchx g o pd := beam_search g o pd crx [-10; -20; -30; -60] [0; 4; 5; 6]
  [[-1; -9]; [-9; -1]; [-1; -1]; [-2; -2]].
Definition viewx (r : res (option state)) :=
  match r with Ok (Some s) => Some (get_chords s, get_keys s, st_logp s) | _ => None end.

Definition checkx (P : state -> bool) (r : res (option state)) : bool :=
  match r with Ok (Some s) => P s | _ => false end.
Lemma checkx_true P r : checkx P r = true -> exists s, r = Ok (Some s) /\ P s = true.
Proof. destruct r as [[s|]|e]; intros H; try discriminate. exists s. split; [reflexivity|exact H]. Qed.

Lemma crx_valid pd : length (p_durs pd) = 3%nat -> valid_ranges crx (length (p_durs pd)).
Proof. intros -> a b H. repeat (destruct H as [[= <- <-]|H]; [lia|]). contradiction. Qed.

(* ---- C29 ---- *)
Theorem C29_chords g o pd chord_ranges logs rejoins priors s :
  1 <= g_beam_size g -> valid_ranges chord_ranges (length (p_durs pd)) ->
  beam_search g o pd chord_ranges logs rejoins priors = Ok (Some s) ->
  let (chords, changes) := get_chords s in
  segmentation chords changes (length (p_durs pd))
  /\ (forall c, In c chords -> exists z, c = Some z)
  /\ no_adjacent_equal chords.
Proof.
  intros Hb Hr H. destruct (result_path _ _ _ _ _ _ _ _ Hb Hr H) as (rs & _ & Hp & Hc).
  apply path_chords in Hp. destruct (get_chords s) as [chords changes]. rewrite <- Hc. tauto.
Qed.
Print Assumptions C29_chords.

(* each interval is covered by consecutive offered ranges *)
Theorem C29_intervals g o pd chord_ranges logs rejoins priors s :
  1 <= g_beam_size g -> valid_ranges chord_ranges (length (p_durs pd)) ->
  beam_search g o pd chord_ranges logs rejoins priors = Ok (Some s) ->
  let (chords, changes) := get_chords s in
  forall k x a b, nth_error chords k = Some x -> nth_error changes k = Some a ->
    nth_error changes (S k) = Some b ->
    exists c w, x = Some c /\ joined chord_ranges logs rejoins priors c a b w.
Proof.
  intros Hb Hr H. destruct (result_path _ _ _ _ _ _ _ _ Hb Hr H) as (rs & Hrs & Hp & Hc).
  assert (Hpc := path_chord_steps _ _ _ _ _ Hp). destruct (get_chords s) as [chords changes].
  intros k x a b E1 E2 E3. destruct (Hpc k x a b E1 E2 E3) as (p & f & Hin & <- & <- & <-).
  destruct (path_links _ _ _ _ _ Hp p f Hin) as [_ Hl].
  destruct (lk_chain _ _ _ _ _ _ Hl) as (c & rl & ws & F1 & _ & Hne & Hch & Hw & _).
  exists c. eexists. split; [exact F1|]. exact (chain_joined _ _ _ _ _ _ _ _ _ Hrs _ _ _ _ Hne Hch Hw).
Qed.
Print Assumptions C29_intervals.

Theorem C29_keys g o pd chord_ranges logs rejoins priors s :
  1 <= g_beam_size g -> valid_ranges chord_ranges (length (p_durs pd)) ->
  beam_search g o pd chord_ranges logs rejoins priors = Ok (Some s) ->
  let (keys, changes) := get_keys s in
  segmentation keys changes (length (p_durs pd))
  /\ no_adjacent_equal keys
  /\ (forall i k, labelled keys changes i k <-> exists p f, In (p, f) (steps_of s)
        /\ (st_change p <= i < st_change f)%nat /\ k = st_key f).
Proof.
  intros Hb Hr H. destruct (result_path _ _ _ _ _ _ _ _ Hb Hr H) as (rs & _ & Hp & Hc).
  apply path_keys in Hp. destruct (get_keys s) as [keys changes]. rewrite <- Hc. tauto.
Qed.
Print Assumptions C29_keys.

(* a search with three inputs: chord 0, then chord 1 joined over two ranges; one key *)
Example C29_ex : viewx (searchx (gx 20 80) (ox 10 (-5) (-3)) (pdx [-1; -1; -1] [0; -1; -1])) =
  Some (([Some 0; Some 1], [0; 1; 3]%nat), ([0], [0; 3]%nat), -88).
Proof. vm_compute. reflexivity. Qed.
(* the same with a change of key at the second chord *)
Example C29_ex2 : viewx (searchx (gx 20 80) (ox 90 (-1) (-3)) (pdx [-1; -1; -1] [0; -1; -1])) =
  Some (([Some 0; Some 1], [0; 1; 3]%nat), ([0; 1], [0; 1; 3]%nat), -84).
Proof. vm_compute. reflexivity. Qed.

(* ---- C30 ---- *)
(* what the step from p to f is worth: the ranges of its chord, joined, plus the charges of the
   key transition model and of the key sequence model or the chord sequence model, each for the
   whole length of the chord *)
Definition step_score (g : search_cfg) (o : oracle) (pd : piece_data) chord_ranges logs rejoins priors
  (pf : state * state) (w : Z) : Prop :=
  let (p, f) := pf in
  exists c wr wk, st_chord f = Some c
    /\ joined chord_ranges logs rejoins priors c (st_change p) (st_change f) wr
    /\ w = wr + wk
    (* the prior of p is the output of the chord model for p *)
    /\ csm_output g o p
    /\ exists prob x, ktm_output o p f prob
    /\ ((st_key f = st_key p /\ csm_charge g p f x
           /\ wk = o_log o (o_one o - prob) * the_length p f + x)
        \/ (st_key f <> st_key p /\ ksm_output g o p f x
              /\ wk = o_log o prob * the_length p f + x * g_ksm_exp g * the_length p f)).

Theorem C30_partial g o pd chord_ranges logs rejoins priors s :
  1 <= g_beam_size g -> valid_ranges chord_ranges (length (p_durs pd)) -> never_both g o ->
  beam_search g o pd chord_ranges logs rejoins priors = Ok (Some s) ->
  exists ws, Forall2 (step_score g o pd chord_ranges logs rejoins priors) (steps_of s) ws
    /\ st_logp s = zsum ws.
Proof.
  intros Hb Hr Hnb H. destruct (result_path _ _ _ _ _ _ _ _ Hb Hr H) as (rs & Hrs & Hp & _). clear H.
  induction Hp as [s Hi|p f Hp IH Hl].
  - destruct Hi as (keys & k & t & m & _ & _ & _ & ->). exists []. split; [constructor|reflexivity].
  - destruct IH as (ws & Hws & Elp). rewrite steps_of_eq, (lk_prev _ _ _ _ _ _ Hl).
    destruct (lk_chain _ _ _ _ _ _ Hl) as (c & rl & wl & F1 & _ & Hne & Hch & Hw & Hlp). specialize (Hlp Hnb).
    exists (ws ++ [zsum wl + zsum (map r_rejoin (tl rl)) + extras f]). split.
    + apply Forall2_app; [exact Hws|]. constructor; [|constructor]. unfold step_score.
      exists c, (zsum wl + zsum (map r_rejoin (tl rl))), (extras f). split; [exact F1|].
      split; [exact (chain_joined _ _ _ _ _ _ _ _ _ Hrs _ _ _ _ Hne Hch Hw)|]. split; [reflexivity|].
      split; [exact (lk_ready _ _ _ _ _ _ Hl)|]. unfold extras. rewrite opt_sum3.
      destruct (lk_key _ _ _ _ _ _ Hl) as [(K1 & _ & K3 & (x & K4 & K5) & K6)|(K1 & _ & _ & K4 & (x & K5 & K5') & K6)];
        destruct (K6 Hnb) as (prob & K7 & K8); exists prob, x; (split; [exact K8|]); [left|right]; (split; [exact K1|]).
      * split; [exact K5|]. rewrite K3, K4, K7. lia.
      * split; [exact K5'|]. rewrite K4, K5, K7. lia.
    + rewrite zsum_app, Hlp, Elp. unfold zsum. cbn [fold_right]. lia.
Qed.
Print Assumptions C30_partial.
Example C30_ex : never_both (gx 20 80) (ox 10 (-5) (-3)) /\ never_both (gx 20 80) (ox 90 (-5) (-3)).
Proof. split; (split; [cbn; lia|]); intros step l i; cbn; lia. Qed.

(* Without never_both the claim is false.  All range, chord and sequence terms are 0 and every
   logarithm is -7, so that three inputs should cost -21; the search charges only -7. *)
Lemma joined_zero a b c w : joined crx [0; 0; 0; 0] [0; 0; 0; 0] (repeat [0; 0] 4) c a b w -> w = 0.
Proof.
  assert (Z4 : forall i x, nth_error [0; 0; 0; 0] i = Some x -> x = 0).
  { intros i x H. apply nth_error_In in H. repeat (destruct H as [H|H]; [congruence|]). contradiction. }
  assert (Zp : forall i p pr, nth_error (repeat [0; 0] 4) i = Some p -> py_nth p c = Ok pr -> pr = 0).
  { intros i p pr H E. apply nth_error_In, repeat_spec in H. subst p. apply py_nth_in in E.
    repeat (destruct E as [E|E]; [congruence|]). contradiction. }
  induction 1 as [a b lg rj prior pr (i & _ & H2 & H3 & H4) E|a b e w lg rj prior pr _ -> (i & _ & H2 & H3 & H4) E];
    rewrite (Z4 _ _ H2), (Zp _ _ _ H4 E); [|rewrite (Z4 _ _ H3)]; lia.
Qed.
Theorem C30_refuted : exists g o pd chord_ranges logs rejoins priors s,
  1 <= g_beam_size g /\ valid_ranges chord_ranges (length (p_durs pd))
  /\ g_min_key g <= g_max_no_key g
  /\ beam_search g o pd chord_ranges logs rejoins priors = Ok (Some s)
  /\ ~ exists ws, Forall2 (step_score g o pd chord_ranges logs rejoins priors) (steps_of s) ws
         /\ st_logp s = zsum ws.
Proof.
  destruct (checkx_true (fun s => (st_logp s =? -7)
      && forallb (fun pf => forallb (Z.eqb 0) (st_prior (fst pf)) && (st_key (fst pf) =? st_key (snd pf))) (steps_of s)
      && (zsum (map (fun pf => the_length (fst pf) (snd pf)) (steps_of s)) =? 3))
      (beam_search (gx 20 80) (ox 50 (-1) 0) (pdx [0; 1; 1] [0; -1; -1]) crx [0; 0; 0; 0] [0; 0; 0; 0] (repeat [0; 0] 4)))
    as (s & E & Hr); [vm_compute; reflexivity|].
  apply andb_true_iff in Hr as [Hr H3]. apply andb_true_iff in Hr as [H1 H2].
  apply Z.eqb_eq in H1, H3. rewrite forallb_forall in H2.
  exists (gx 20 80), (ox 50 (-1) 0), (pdx [0; 1; 1] [0; -1; -1]), crx, [0; 0; 0; 0], [0; 0; 0; 0], (repeat [0; 0] 4), s.
  split; [cbn; lia|]. split; [apply crx_valid; reflexivity|]. split; [cbn; lia|]. split; [exact E|].
  intros (ws & Hw & Es).
  assert (G : forall l ws, (forall x, In x l -> forallb (Z.eqb 0) (st_prior (fst x)) && (st_key (fst x) =? st_key (snd x)) = true) ->
    Forall2 (step_score (gx 20 80) (ox 50 (-1) 0) (pdx [0; 1; 1] [0; -1; -1]) crx [0; 0; 0; 0] [0; 0; 0; 0] (repeat [0; 0] 4)) l ws ->
    zsum ws = -7 * zsum (map (fun pf => the_length (fst pf) (snd pf)) l)).
  { intros l ws' Hl Hf. induction Hf as [|[p f] w l' ws' Hs _ IH]; [reflexivity|].
    specialize (IH (fun x Hx => Hl x (or_intror Hx))). specialize (Hl (p, f) (or_introl eq_refl)). cbn [fst snd] in Hl.
    apply andb_true_iff in Hl as [Hl Hk]. apply Z.eqb_eq in Hk.
    destruct Hs as (c & wr & wk & _ & Hj & -> & _ & prob & x & _ & [(_ & Hx & ->)|(Hk' & _)]); [|congruence].
    apply joined_zero in Hj. subst wr. destruct (Hx (or_introl eq_refl)) as (c1 & root & t & inv & tonic & mode & idx & pr & _ & _ & _ & _ & _ & Hpr & ->).
    apply py_nth_in in Hpr. rewrite forallb_forall in Hl. apply Hl in Hpr. apply Z.eqb_eq in Hpr. subst pr.
    cbn [map fst snd]. unfold zsum in *. cbn [fold_right]. rewrite IH. cbn [ox o_log]. lia. }
  specialize (G _ _ H2 Hw). lia.
Qed.
Print Assumptions C30_refuted.

(* ---- C31: for every state that was ever kept, not only the result ---- *)
Theorem C31_hash g o pd ranges sr s L : 1 <= g_beam_size g ->
  (forall r, In r ranges -> (r_start r < r_end r <= length (p_durs pd))%nat) ->
  run_search g o pd ranges = Ok sr -> In s (sr_store sr) -> g_hash_length g = Some L ->
  st_hash s = Some (rev (recent (Z.to_nat (Z.max 1 L)) s)).
Proof.
  intros Hb Hr H Hs HL. pose proof (path_hash _ _ _ _ _ (stored_path _ _ _ _ _ _ Hb Hr H Hs)) as Hh. rewrite HL in Hh. exact Hh.
Qed.
Print Assumptions C31_hash.
Theorem C31_equal g o pd ranges sr s s' L : 1 <= g_beam_size g ->
  (forall r, In r ranges -> (r_start r < r_end r <= length (p_durs pd))%nat) ->
  run_search g o pd ranges = Ok sr -> In s (sr_store sr) -> In s' (sr_store sr) ->
  g_hash_length g = Some L -> 1 <= L ->
  (st_hash s = st_hash s' <-> recent (Z.to_nat L) s = recent (Z.to_nat L) s').
Proof.
  intros Hb Hr H Hs Hs' HL HL1. rewrite (C31_hash _ _ _ _ _ s L Hb Hr H Hs HL), (C31_hash _ _ _ _ _ s' L Hb Hr H Hs' HL).
  rewrite Z.max_r by exact HL1. split; [|intros ->; reflexivity].
  intros E. injection E as E. apply (f_equal (@rev _)) in E. rewrite !rev_involutive in E. exact E.
Qed.
Print Assumptions C31_equal.
Theorem C31_none g o pd ranges sr s : 1 <= g_beam_size g ->
  (forall r, In r ranges -> (r_start r < r_end r <= length (p_durs pd))%nat) ->
  run_search g o pd ranges = Ok sr -> In s (sr_store sr) -> g_hash_length g = None -> st_hash s = None.
Proof.
  intros Hb Hr H Hs HL. pose proof (path_hash _ _ _ _ _ (stored_path _ _ _ _ _ _ Hb Hr H Hs)) as Hh. rewrite HL in Hh. exact Hh.
Qed.
Print Assumptions C31_none.
Example C31_ex : match searchx (gx 20 80) (ox 90 (-1) (-3)) (pdx [-1; -1; -1] [0; -1; -1]) with
  | Ok (Some s) => Some (st_hash s, recent 2 s, recent 4 s) | _ => None end =
  Some (Some [Some (Some 0, Some 0); Some (Some 1, Some 1)],
        [Some (Some 1, Some 1); Some (Some 0, Some 0)],
        [Some (Some 1, Some 1); Some (Some 0, Some 0); Some (Some 0, None); None]).
Proof. vm_compute. reflexivity. Qed.

(* ---- C36 ---- *)
Lemma Some_inj {A} (x y : A) : Some x = Some y -> x = y.
Proof. congruence. Qed.
Lemma cumsum_nth l : forall acc k, nth_error (cumsum acc l) k =
  if (k <? length l)%nat then Some (acc + zsum (firstn (S k) l)) else None.
Proof.
  induction l as [|x l IH]; intros acc k; cbn [cumsum length]; [destruct k; reflexivity|].
  destruct k as [|k]; cbn [nth_error].
  - cbn. f_equal. lia.
  - rewrite IH. change (S k <? S (length l))%nat with (k <? length l)%nat. destruct (k <? length l)%nat; [|reflexivity].
    f_equal. rewrite firstn_cons. unfold zsum. cbn [fold_right]. lia.
Qed.
Lemma first_true_spec l : match first_true l with
  | Some i => nth_error l i = Some true /\ (forall j, (j < i)%nat -> nth_error l j = Some false)
  | None => forall j, nth_error l j <> Some true end.
Proof.
  induction l as [|b l IH]; cbn [first_true]; [intros [|j]; discriminate|]. destruct b.
  - split; [reflexivity|]. intros j Hj. lia.
  - destruct (first_true l) as [i|]; cbn [option_map].
    + destruct IH as [H1 H2]. split; [exact H1|]. intros [|j] Hj; [reflexivity|]. apply H2. lia.
    + intros [|j]; [discriminate|exact (IH j)].
Qed.

(* k options reach the target and fewer do not: then min k max of them are taken *)
Theorem C36_reached target max_branch probs k : 1 <= max_branch -> (1 <= k <= length probs)%nat ->
  target <= zsum (firstn k probs) -> (forall j, (1 <= j < k)%nat -> zsum (firstn j probs) < target) ->
  branch_count target max_branch probs = Z.min (Z.of_nat k) max_branch.
Proof.
  intros Hm Hk Hr Hn. unfold branch_count, clip1, argmax_bool.
  assert (E : first_true (map (fun c => target <=? c) (cumsum 0 probs)) = Some (k - 1)%nat).
  { pose proof (first_true_spec (map (fun c => target <=? c) (cumsum 0 probs))) as Hf.
    assert (Hat : forall j, (j < length probs)%nat -> nth_error (map (fun c => target <=? c) (cumsum 0 probs)) j = Some (target <=? zsum (firstn (S j) probs))).
    { intros j Hj. rewrite nth_error_map, cumsum_nth. apply Nat.ltb_lt in Hj. rewrite Hj. reflexivity. }
    destruct (first_true _) as [i|].
    - destruct Hf as [F1 F2]. destruct (Nat.lt_trichotomy i (k - 1)) as [Hlt|[->|Hgt]]; [|reflexivity|].
      + rewrite Hat in F1 by lia. apply Some_inj in F1. apply Z.leb_le in F1. specialize (Hn (S i) ltac:(lia)). lia.
      + specialize (F2 _ Hgt). rewrite Hat in F2 by lia. apply Some_inj in F2. replace (S (k - 1)) with k in F2 by lia. apply Z.leb_gt in F2. lia.
    - exfalso. apply (Hf (k - 1)%nat). rewrite Hat by lia. replace (S (k - 1)) with k by lia. f_equal. apply Z.leb_le. exact Hr. }
  rewrite E. lia.
Qed.
Print Assumptions C36_reached.
Theorem C36_bounds target max_branch probs : 1 <= max_branch -> 1 <= branch_count target max_branch probs <= max_branch.
Proof. intros H. unfold branch_count, clip1. lia. Qed.
Print Assumptions C36_bounds.
(* if all options together do not reach the target, only one is taken, not all *)
Theorem C36_unreached_refuted target max_branch probs : 1 <= max_branch ->
  (forall j, (1 <= j <= length probs)%nat -> zsum (firstn j probs) < target) ->
  branch_count target max_branch probs = 1.
Proof.
  intros Hm Hn. unfold branch_count, clip1, argmax_bool.
  pose proof (first_true_spec (map (fun c => target <=? c) (cumsum 0 probs))) as Hf.
  destruct (first_true _) as [i|]; [|lia]. destruct Hf as [F1 _]. rewrite nth_error_map, cumsum_nth in F1.
  destruct (Nat.ltb_spec i (length probs)) as [Hi|]; [|discriminate]. apply Some_inj in F1. apply Z.leb_le in F1.
  specialize (Hn (S i) ltac:(lia)). cbn [Z.add] in F1. lia.
Qed.
Print Assumptions C36_unreached_refuted.
Lemma branch_count_limit target max_branch probs : 1 <= max_branch ->
  branch_limit target max_branch probs (branch_count target max_branch probs).
Proof.
  intros Hm. assert (D : (exists k, (1 <= k <= length probs)%nat /\ target <= zsum (firstn k probs)
     /\ forall j, (1 <= j < k)%nat -> zsum (firstn j probs) < target)
    \/ (forall j, (1 <= j <= length probs)%nat -> zsum (firstn j probs) < target)).
  { assert (G : forall n, (n <= length probs)%nat -> (exists k, (1 <= k <= n)%nat /\ target <= zsum (firstn k probs)
     /\ forall j, (1 <= j < k)%nat -> zsum (firstn j probs) < target)
      \/ (forall j, (1 <= j <= n)%nat -> zsum (firstn j probs) < target)).
    { induction n as [|n IH]; intros Hn; [right; lia|]. destruct IH as [(k & K1 & K2)|IH]; [lia|left; exists k; split; [lia|exact K2]|].
      destruct (Z.lt_ge_cases (zsum (firstn (S n) probs)) target) as [Hlt|Hge].
      - right. intros j Hj. destruct (Nat.eq_dec j (S n)) as [->|]; [exact Hlt|]. apply IH. lia.
      - left. exists (S n). split; [lia|]. split; [exact Hge|]. intros j Hj. apply IH. lia. }
    destruct (G (length probs) (le_n _)) as [(k & K1 & K2 & K3)|H]; [left; exists k; auto|right; exact H]. }
  destruct D as [(k & K1 & K2 & K3)|H].
  - left. exists k. split; [exact K1|]. split; [exact K2|]. split; [exact K3|]. exact (C36_reached _ _ _ _ Hm K1 K2 K3).
  - right. split; [exact H|]. exact (C36_unreached_refuted _ _ _ Hm H).
Qed.
(* a selection of the elements of a list, in order *)
Inductive selected {A} : list A -> list A -> Prop :=
| sel_nil l : selected [] l
| sel_take x l1 l2 : selected l1 l2 -> selected (x :: l1) (x :: l2)
| sel_skip x l1 l2 : selected l1 l2 -> selected l1 (x :: l2).
Lemma selected_length {A} (l1 l2 : list A) : selected l1 l2 -> (length l1 <= length l2)%nat.
Proof. induction 1; cbn [length]; lia. Qed.
Lemma branch_chords_selected g sr step s r : forall chords l, branch_chords g sr step s r chords = Ok l ->
  selected (map st_chord l) (map Some chords).
Proof.
  induction chords as [|c chords IH]; intros l H; cbn [branch_chords] in H.
  - apply Ok_inj in H. subst l. constructor.
  - cbn zeta in H. apply bind_ok in H as (p & _ & H). apply bind_ok in H as (new & En & H). cbn [map].
    destruct new as [n|]; [|apply sel_skip; exact (IH _ H)].
    assert (Ec : st_chord n = Some c).
    { destruct (match st_chord s with Some c' => c =? c' | None => false end) eqn:Es.
      - destruct (st_chord s) as [c'|] eqn:Esc; [|discriminate]. apply Z.eqb_eq in Es. subst c'.
        apply bind_ok in En as (n' & En & E). apply Ok_inj in E. injection E as ->.
        unfold rejoin, the_chord in En. rewrite Esc in En. cbn [bind] in En.
        apply bind_ok in En as ([[[a b] i] d] & _ & En). apply bind_ok in En as (q & _ & En).
        apply bind_ok in En as ([t m] & _ & En). apply bind_ok in En as (h & _ & En). apply Ok_inj in En. subst n. reflexivity.
      - unfold chord_transition in En. apply bind_ok in En as ([[[a b] i] d] & _ & En). apply bind_ok in En as ([t m] & _ & En).
        destruct (outside _ _ _ _); [apply Ok_inj in En; discriminate|]. apply bind_ok in En as (h & _ & En).
        apply Ok_inj in En. injection En as <-. reflexivity. }
    apply bind_ok in H as (ok & _ & H). destruct ok; [|apply Ok_inj in H; subst l; constructor].
    apply bind_ok in H as (more & Em & H). apply Ok_inj in H. subst l. cbn [map]. rewrite Ec. apply sel_take. exact (IH _ Em).
Qed.
(* The chords a state is branched on for a range: taken from the best n in the order of the
   classifier, n being what the target asks for; two if the only one is the state's own chord. *)
Theorem C36_chords g o pd sr step s x r l : 1 <= g_max_chord g -> make_range g o x = Ok r ->
  branch_range g o pd sr step s r = Ok l ->
  (forall c, ~ forced_on (p_forced_c pd) step (r_end r) c) ->
  exists probs sorted n, probs = map (o_exp o) (r_prior r)
    /\ mapM (py_nth probs) (o_argsort o probs) = Ok sorted
    /\ branch_limit (g_target_chord g) (g_max_chord g) sorted n
    /\ let own := match o_argsort o probs with c :: _ => st_chord s = Some c | [] => False end in
       exists n', (n' = n \/ (n = 1 /\ own /\ n' = 2)) /\ (n = 1 -> own -> n' = 2)
       /\ selected (map st_chord l) (map Some (firstn (Z.to_nat n') (o_argsort o probs))).
Proof.
  intros Hm Hr H Hno. destruct x as [[[[a b] lg] rj] prior]. unfold make_range in Hr. cbn zeta in Hr.
  apply bind_ok in Hr as (sorted & Es & Hr). apply Ok_inj in Hr. subst r. cbn [r_prior r_end] in *.
  exists (map (o_exp o) prior), sorted, (branch_count (g_target_chord g) (g_max_chord g) sorted).
  split; [reflexivity|]. split; [exact Es|]. split; [exact (branch_count_limit _ _ _ Hm)|]. cbn zeta.
  pose proof (C36_bounds (g_target_chord g) (g_max_chord g) sorted Hm) as Hbc.
  unfold branch_range in H. cbn [r_end r_log r_max r_order] in H.
  apply bind_ok in H as (bm & _ & H). apply bind_ok in H as (quick & _ & H).
  set (order := o_argsort o (map (o_exp o) prior)) in *. set (n := branch_count (g_target_chord g) (g_max_chord g) sorted) in *.
  assert (Hsel : forall n', 0 <= n' -> py_slice order 0 n' = firstn (Z.to_nat n') order).
  { intros n' Hn'. unfold py_slice, py_bound. cbn zeta.
    replace (n' <? 0) with false by (symmetry; apply Z.ltb_ge; lia). change (0 <? 0) with false. cbv iota.
    assert (0 <= zlen order) by (unfold zlen; lia). replace (Z.max 0 (Z.min (zlen order) 0)) with 0 by lia. change (Z.to_nat 0) with 0%nat. cbn [skipn]. rewrite Z.sub_0_r.
    destruct (Z.le_ge_cases n' (zlen order)).
    - replace (Z.max 0 (Z.min (zlen order) n')) with n' by lia. reflexivity.
    - rewrite !firstn_all2; [reflexivity|unfold zlen in *; lia|unfold zlen in *; lia]. }
  destruct quick.
  { apply Ok_inj in H. subst l. exists (if (n =? 1) then match order with c :: _ => match st_chord s with Some c' => if c =? c' then 2 else n | None => n end | [] => n end else n).
    destruct (Z.eqb_spec n 1) as [E1|]; [|split; [left; reflexivity|split; [lia|constructor]]].
    destruct order as [|c0 order']; [split; [left; reflexivity|split; [contradiction|constructor]]|].
    destruct (st_chord s) as [c'|]; [|split; [left; reflexivity|split; [discriminate|constructor]]].
    destruct (Z.eqb_spec c0 c') as [->|Hne]; (split; [|split; [|constructor]]); [right; auto|auto|left; reflexivity|congruence]. }
  apply bind_ok in H as (mi & Emi & H).
  destruct (pick o (forced_set (p_forced_c pd) step b)) as [k|] eqn:Epk; [exfalso; apply (Hno k); exact (pick_forced _ _ _ _ _ Epk)|].
  apply branch_chords_selected in H. exists mi.
  assert (Hmi : (mi = n \/ (n = 1 /\ match order with c :: _ => st_chord s = Some c | [] => False end /\ mi = 2))
     /\ (n = 1 -> match order with c :: _ => st_chord s = Some c | [] => False end -> mi = 2)).
  { destruct (Z.eqb_spec n 1) as [E1|E1]; [|apply Ok_inj in Emi; subst mi; split; [left; reflexivity|lia]].
    apply bind_ok in Emi as (c0 & Ec0 & Emi). apply Ok_inj in Emi. destruct order as [|c1 order']; [discriminate|].
    cbn in Ec0. apply Ok_inj in Ec0. subst c1. destruct (st_chord s) as [c'|].
    - destruct (Z.eqb_spec c0 c') as [->|Hne]; subst mi; split; auto. congruence.
    - subst mi. split; auto. discriminate. }
  destruct Hmi as [M1 M2]. split; [exact M1|]. split; [exact M2|]. rewrite Hsel in H; [exact H|]. destruct M1 as [->|(_ & _ & ->)]; lia.
Qed.
Print Assumptions C36_chords.
Example C36_chords_ex : exists r l, make_range (gx 20 80) (ox 10 (-5) (-3)) ((0, 1)%nat, -10, 0, [-1; -9]) = Ok r
  /\ branch_range (gx 20 80) (ox 10 (-5) (-3)) (pdx [-1; -1; -1] [0; -1; -1]) {| sr_beams := repeat (new_any (Some 2) 4) 4; sr_store := [] |}
       0 {| st_chord := None; st_key := 0; st_change := 0; st_logp := 0; st_prev := None;
            st_hash := None; st_prior := []; st_must := false; st_csm := None; st_ksm := None; st_ktm := None |} r = Ok l
  /\ map st_chord l = [Some 0; Some 1].
Proof. do 2 eexists. split; [vm_compute; reflexivity|]. split; vm_compute; reflexivity. Qed.
Example C36_ex : branch_count 80 10 [50; 20; 15; 10; 5] = 3 /\ branch_count 80 2 [50; 20; 15; 10; 5] = 2
  /\ branch_count 101 10 [50; 20; 15; 10; 5] = 1.
Proof. repeat split; reflexivity. Qed.

(* ---- C32 ---- *)
Lemma key_loop_count g s priors mi forced : forall order n l,
  key_loop g s priors mi forced order n = Ok l -> zlen l <= Z.max 1 (mi - n).
Proof.
  induction order as [|rid rest IH]; intros n l H; cbn [key_loop] in H.
  - apply Ok_inj in H. subst. rewrite zlen_nil. lia.
  - apply bind_ok in H as ([mode interval] & _ & H). apply bind_ok in H as ([t0 m0] & _ & H). cbn zeta in H.
    match type of H with (if ?b then _ else _) = _ => destruct b end; [exact (IH _ _ H)|].
    apply bind_ok in H as (key & _ & H).
    match type of H with (if ?b then _ else _) = _ => destruct b end; [exact (IH _ _ H)|].
    match type of H with (if ?b then _ else _) = _ => destruct b end; [exact (IH _ _ H)|].
    apply bind_ok in H as (p & _ & H). apply bind_ok in H as (lp & _ & H). apply bind_ok in H as (new & _ & H).
    destruct new as [ns|].
    + match type of H with (if ?b || _ then _ else _) = _ => destruct b eqn:E end.
      * cbn [orb] in H. apply Ok_inj in H. subst l. rewrite zlen_cons, zlen_nil. lia.
      * cbn [orb] in H. match type of H with (if ?b then _ else _) = _ => destruct b end.
        -- apply Ok_inj in H. subst l. rewrite zlen_cons, zlen_nil. lia.
        -- apply bind_ok in H as (more & Em & H). apply Ok_inj in H. subst l. apply IH in Em. rewrite zlen_cons.
           apply Z.leb_gt in E. lia.
    + match type of H with (if ?b then _ else _) = _ => destruct b end; [|exact (IH _ _ H)].
      apply Ok_inj in H. subst. rewrite zlen_nil. lia.
Qed.

Definition key_changed (g : search_cfg) (pd : piece_data) (priors : list Z) (m f : state) : Prop :=
  exists p c root t inv bass tonic mode rid md interval x,
    st_prev m = Some p /\ st_prev f = Some p /\ st_chord m = Some c /\ st_chord f = Some c
    /\ st_change f = st_change m
    (* a valid key, another one, and a forced one if any is forced during the chord *)
    /\ 0 <= st_key f < zlen (key_labels (g_kpt g)) /\ st_key f <> st_key m
    /\ ((exists k, forced_on (p_forced_k pd) (st_change p) (st_change m) k) ->
          forced_on (p_forced_k pd) (st_change p) (st_change m) (st_key f))
    (* the chord fits the new key *)
    /\ py_nth (chord_labels (g_cpt g)) c = Ok (root, t, inv)
    /\ get_bass_note t root inv (g_kpt g) false = Ok bass
    /\ py_nth (key_labels (g_kpt g)) (st_key f) = Ok (tonic, mode)
    /\ inside root bass tonic
    (* the charge is the prior of this change of key *)
    /\ py_nth (relative_key_labels (g_kpt g)) rid = Ok (md, interval)
    /\ moved_key (g_kpt g) (st_key m) (st_key f) interval md
    /\ py_nth priors rid = Ok x /\ st_logp f = st_logp m + x * g_ksm_exp g * the_length p m.

Lemma key_rel_changed g o pd priors m f : key_rel0 g o pd priors m f -> key_changed g pd priors m f.
Proof.
  intros (p & key & lp & rid & md & iv & x & Ep & Hne & Hfk & Hrid & Hmk & Hkey & Hx & -> & Ht).
  unfold key_transition, the_chord, the_prev in Ht. destruct (st_chord m) as [c|] eqn:Ec; [|discriminate].
  rewrite Ep in Ht. cbn [bind] in Ht. apply bind_ok in Ht as ([[root t] inv] & Ecl & Ht). apply bind_ok in Ht as (bass & Eb & Ht).
  apply bind_ok in Ht as ([tonic mode] & Ekk & Ht). destruct (outside _ _ _ _) eqn:Eo; [apply Ok_inj in Ht; discriminate|].
  apply bind_ok in Ht as (h & _ & Ht). apply Ok_inj in Ht. injection Ht as <-.
  exists p, c, root, t, inv, bass, tonic, mode, rid, md, iv, x. cbn [st_prev st_chord st_change st_key st_logp].
  repeat (split; [solve [assumption|reflexivity]|]). split.
  - intros (k & Hk). apply in_forced_set in Hk. destruct (pick o (forced_set (p_forced_k pd) (st_change p) (st_change m))) as [k'|] eqn:Epk.
    + rewrite (Hfk k' eq_refl). apply in_forced_set. exact (pick_some _ _ _ Epk).
    + apply pick_none in Epk. rewrite Epk in Hk. contradiction.
  - split; [exact Ecl|]. split; [exact Eb|]. split; [exact Ekk|]. split; [exact (outside_inside _ _ _ _ Eo)|].
    split; [exact Hrid|]. split; [exact Hmk|]. split; [exact Hx|reflexivity].
Qed.

Lemma key_transition_ok g m c p key lp r : st_chord m = Some c -> st_prev m = Some p ->
  key_transition (g_cpt g) (g_kpt g) m key lp = Ok r ->
  match r with None => chord_fits g c key = false | Some f => chord_fits g c key = true /\ st_key f = key end.
Proof.
  intros Ec Ep H. unfold key_transition, the_chord in H. rewrite Ec in H. cbn [bind] in H.
  apply bind_ok in H as ([[root t] inv] & E1 & H). apply bind_ok in H as (bass & E2 & H). apply bind_ok in H as ([tonic md] & E3 & H).
  unfold chord_fits. rewrite E1, E3, E2.
  unfold outside, MIN_RELATIVE_TPC, MAX_RELATIVE_TPC in H.
  destruct (_ || _) eqn:Eo in H.
  - apply Ok_inj in H. subst r. apply not_true_iff_false. intros Hf.
    repeat (apply andb_true_iff in Hf as [Hf ?]). rewrite !orb_true_iff in Eo. lia.
  - apply bind_ok in H as (h & _ & H). apply bind_ok in H as (q & _ & H). apply Ok_inj in H. subst r.
    split; [|reflexivity]. rewrite !orb_false_iff in Eo. rewrite !andb_true_iff. lia.
Qed.
Lemma key_loop_keys g m c p priors mi forced : st_chord m = Some c -> st_prev m = Some p -> forall order n l,
  n < mi -> key_loop g m priors mi forced order n = Ok l ->
  map st_key l = match forced with
    | None => firstn (Z.to_nat (mi - n)) (keys_open g c (st_key m) order)
    | Some f => firstn 1 (filter (Z.eqb f) (keys_open g c (st_key m) order)) end.
Proof.
  intros Ec Ep. induction order as [|rid rest IH]; intros n l Hn H; cbn [key_loop] in H.
  - apply Ok_inj in H. subst l. unfold keys_open. cbn. destruct forced; [reflexivity|]. rewrite firstn_nil. reflexivity.
  - apply bind_ok in H as ([mode interval] & El & H). apply bind_ok in H as ([t0 m0] & Ek & H). cbn zeta in H.
    assert (Eopen : keys_open g c (st_key m) (rid :: rest) =
      filter (fun k => negb (k =? st_key m) && chord_fits g c k) (key_reached (g_kpt g) (st_key m) rid)
      ++ keys_open g c (st_key m) rest).
    { unfold keys_open. cbn [flat_map]. rewrite filter_app. reflexivity. }
    unfold key_reached in Eopen. unfold state_key in Ek. rewrite El, Ek in Eopen.
    destruct (match g_kpt g with TPC => _ | MIDI => false end) eqn:Eout.
    { assert (Eidx : exists e, get_key_one_hot_index mode (match g_kpt g with TPC => t0 + interval | MIDI => (t0 + interval) mod 12 end) (g_kpt g) = Raise e).
      { destruct (g_kpt g); [|discriminate]. unfold get_key_one_hot_index. rewrite Eout. eexists. reflexivity. }
      destruct Eidx as (e & Eidx). rewrite Eidx in Eopen. cbn [filter app] in Eopen. rewrite Eopen. exact (IH _ _ Hn H). }
    apply bind_ok in H as (key & Ekey & H). rewrite Ekey in Eopen. cbn [filter] in Eopen. rewrite Eopen.
    destruct (match forced with Some f0 => negb (f0 =? key) | None => false end) eqn:Efc.
    { destruct forced as [f|]; [|discriminate]. rewrite filter_app. rewrite (IH _ _ Hn H).
      destruct (negb (key =? st_key m) && chord_fits g c key); cbn [filter app]; [|reflexivity].
      apply negb_true_iff in Efc. rewrite Efc. reflexivity. }
    destruct (Z.eqb_spec key (st_key m)) as [Ekm|Hne]; [cbn [negb andb app]; exact (IH _ _ Hn H)|].
    unfold the_prev in H. rewrite Ep in H. cbn [bind] in H. apply bind_ok in H as (lp & Elp & H).
    apply bind_ok in H as (new & Enew & H). apply (key_transition_ok g m c p _ _ _ Ec Ep) in Enew.
    cbn [negb andb]. destruct new as [ns|].
    + destruct Enew as [Efit Ens]. rewrite Efit. cbn [app]. destruct forced as [f|].
      * apply negb_false_iff in Efc. cbn [filter]. rewrite Efc, orb_true_r in H. rewrite Efc.
        apply Ok_inj in H. subst l. cbn [map firstn]. rewrite Ens. reflexivity.
      * rewrite orb_false_r in H. destruct (Z.leb_spec mi (n + 1)) as [Hle|Hlt].
        -- apply Ok_inj in H. subst l. replace (mi - n) with 1 by lia. cbn [map firstn Z.to_nat Pos.to_nat Pos.iter_op]. rewrite Ens. reflexivity.
        -- apply bind_ok in H as (more & Em & H). apply Ok_inj in H. subst l. apply IH in Em; [|exact Hlt].
           replace (Z.to_nat (mi - n)) with (S (Z.to_nat (mi - (n + 1)))) by lia. cbn [map firstn]. rewrite Ens, Em. reflexivity.
    + rewrite Enew. cbn [app]. destruct forced as [f|]; [|exact (IH _ _ Hn H)].
      apply negb_false_iff in Efc. rewrite Efc in H. apply Ok_inj in H. subst l. cbn [map].
      (* key is the only one reaching f, and the chord does not fit it *)
      apply Z.eqb_eq in Efc. subst key.
      assert (Ef : filter (Z.eqb f) (keys_open g c (st_key m) rest) = []).
      { unfold keys_open. generalize (flat_map (key_reached (g_kpt g) (st_key m)) rest). intros ks. induction ks as [|k ks IHk]; [reflexivity|].
        cbn [filter]. destruct (negb (k =? st_key m) && chord_fits g c k) eqn:E; [|exact IHk]. cbn [filter].
        destruct (Z.eqb_spec f k) as [<-|]; [|exact IHk]. apply andb_true_iff in E as [_ E]. congruence. }
      rewrite Ef. reflexivity.
Qed.

(* the states built for the i-th state: at most as many as the probability target asks for;
   if no key is forced during the chord, exactly the first of the possible changes *)
Theorem C32_key_changes g o pd step l out : 1 <= g_max_key g -> key_change_states g o pd step l = Ok out ->
  exists outs, out = concat outs /\ length outs = length l /\
    forall i m fs, nth_error l i = Some m -> nth_error outs i = Some fs ->
    let priors := o_ksm o step l i in
    Forall (key_changed g pd priors m) fs
    /\ exists sorted n p, mapM (py_nth (map (o_exp o) priors)) (o_argsort o priors) = Ok sorted
         /\ branch_limit (g_target_key g) (g_max_key g) sorted n
         /\ zlen fs <= n <= g_max_key g
         /\ st_prev m = Some p
         /\ forall c, st_chord m = Some c ->
            ((forall k, ~ forced_on (p_forced_k pd) (st_change p) (st_change m) k) ->
               map st_key fs = firstn (Z.to_nat n) (keys_open g c (st_key m) (o_argsort o priors)))
            /\ (forall k, forced_on (p_forced_k pd) (st_change p) (st_change m) k ->
                  only_forced (p_forced_k pd) (st_change p) (st_change m) k ->
                  map st_key fs = firstn 1 (filter (Z.eqb k) (keys_open g c (st_key m) (o_argsort o priors)))).
Proof.
  unfold key_change_states. intros Hmax H. apply bind_ok in H as (u & _ & H). apply bind_ok in H as (ls & Els & H).
  apply Ok_inj in H. subst out. exists ls. split; [reflexivity|]. clear u. revert Els.
  assert (G : forall l1 i0 ls, mapM (fun x => x) (mapi (key_change_one g o pd step l) i0 l1) = Ok ls ->
    length ls = length l1 /\ forall i m fs, nth_error l1 i = Some m -> nth_error ls i = Some fs ->
      key_change_one g o pd step l (i0 + i) m = Ok fs).
  { induction l1 as [|m l1 IH]; intros i0 ls' H; cbn [mapi mapM] in H.
    - apply Ok_inj in H. subst. split; [reflexivity|]. intros [|i]; discriminate.
    - apply bind_ok in H as (fs & Efs & H). apply bind_ok in H as (fss & Efss & H). apply Ok_inj in H. subst ls'.
      destruct (IH _ _ Efss) as [IH1 IH2]. split; [cbn [length]; congruence|]. intros [|i] m' fs' E1 E2; cbn [nth_error] in E1, E2.
      + injection E1 as <-. injection E2 as <-. rewrite Nat.add_0_r. exact Efs.
      + rewrite Nat.add_succ_r, <- Nat.add_succ_l. exact (IH2 _ _ _ E1 E2). }
  intros Els. destruct (G l 0%nat ls Els) as [HL HG]. split; [exact HL|]. intros i m fs E1 E2. cbn zeta.
  specialize (HG i m fs E1 E2). cbn [Nat.add] in HG. unfold key_change_one in HG.
  apply bind_ok in HG as (sorted & Es & HG). apply bind_ok in HG as (p & Ep & HG).
  assert (Ep' : st_prev m = Some p) by (unfold the_prev in Ep; destruct (st_prev m); [apply Ok_inj in Ep; congruence|discriminate]).
  split.
  { apply Forall_forall. intros f Hf. apply (key_rel_changed g o pd). exact (key_loop_rel g o pd m _ _ p Ep' _ _ _ HG f Hf). }
  exists sorted, (branch_count (g_target_key g) (g_max_key g) sorted), p.
  pose proof (C36_bounds (g_target_key g) (g_max_key g) sorted Hmax) as Hbc.
  split; [exact Es|]. split; [exact (branch_count_limit _ _ _ Hmax)|]. split; [apply key_loop_count in HG; lia|]. split; [exact Ep'|].
  intros c Ec. assert (Hlt : 0 < branch_count (g_target_key g) (g_max_key g) sorted) by lia.
  pose proof (key_loop_keys g m c p _ _ _ Ec Ep' _ _ _ Hlt HG) as Hk. rewrite Z.sub_0_r in Hk. split.
  - intros Hno. destruct (pick o _) as [k|] eqn:Epk; [|exact Hk]. exfalso. apply (Hno k). exact (pick_forced _ _ _ _ _ Epk).
  - intros k (Hk1 & j & Hj & Ej) Honly. rewrite (pick_only o _ _ _ j k Hj Ej Hk1 Honly) in Hk. exact Hk.
Qed.
Print Assumptions C32_key_changes.
(* the hypothesis is met in C29_ex2, where the key changed from 0 to 1 *)

(* ---- C33 ---- *)
(* whether the probability and the forced keys let a state change (keep) its key *)
Definition may_change (g : search_cfg) (o : oracle) (pd : piece_data) (prob : Z) (p n : state) : bool :=
  match pick o (forced_set (p_forced_k pd) (st_change p) (st_change n)) with
  | Some k => negb (st_key n =? k) | None => g_min_key g <=? prob end.
Definition may_keep (g : search_cfg) (o : oracle) (pd : piece_data) (prob : Z) (p n : state) : bool :=
  match pick o (forced_set (p_forced_k pd) (st_change p) (st_change n)) with
  | Some k => (st_key n =? k) && negb (st_must n)
  | None => (prob <=? g_max_no_key g) && negb (st_must n) end.
Lemma flags_split g o pd prob p n : key_flags g o pd prob p n = (may_change g o pd prob p n, may_keep g o pd prob p n).
Proof. unfold key_flags, may_change, may_keep. destruct (pick o _) as [k|]; [destruct (st_key n =? k)|]; reflexivity. Qed.

(* a state with only one possibility is charged correctly *)
Theorem C33_partial g o pd sr step prob n p changes keeps :
  key_branch g o pd sr step prob n = Ok (changes, keeps) -> st_prev n = Some p ->
  may_change g o pd prob p n && may_keep g o pd prob p n = false ->
  (forall m, In m changes -> may_change g o pd prob p n = true
     /\ st_logp m = st_logp n + o_log o prob * the_length p n)
  /\ (forall m, In m keeps -> may_keep g o pd prob p n = true
     /\ st_logp m = st_logp n + o_log o (o_one o - prob) * the_length p n).
Proof.
  intros H Ep Hx. apply key_branch_rel in H as [HA HB]. split; intros m Hm; [apply HA in Hm|apply HB in Hm];
    destruct Hm as (q & Eq & Hm); assert (q = p) by congruence; subst q; rewrite flags_split in Hm;
    destruct Hm as [[Hf Hm]|[Hf _]]; injection Hf as Hc Hk; try (rewrite Hc, Hk in Hx; discriminate);
    (split; [assumption|]); subst m; reflexivity.
Qed.
Print Assumptions C33_partial.

(* a state with both possibilities: whatever the probabilities, the branch that keeps the key is
   not charged, and the one that changes it is charged twice *)
Theorem C33_refuted g o pd sr step prob n p changes keeps :
  key_branch g o pd sr step prob n = Ok (changes, keeps) -> st_prev n = Some p ->
  may_change g o pd prob p n = true -> may_keep g o pd prob p n = true ->
  (forall m, In m changes -> st_logp m = st_logp n + o_log o prob * the_length p n
                                          + o_log o (o_one o - prob) * the_length p n)
  /\ (forall m, In m keeps -> st_logp m = st_logp n).
Proof.
  intros H Ep Hc Hk. apply key_branch_rel in H as [HA HB]. split; intros m Hm; [apply HA in Hm|apply HB in Hm];
    destruct Hm as (q & Eq & Hm); assert (q = p) by congruence; subst q; rewrite flags_split, Hc, Hk in Hm;
    destruct Hm as [[Hf _]|[_ Hm]]; try discriminate.
  - destruct Hm as (cp & Ecp & ->). unfold copy_state in Ecp. apply bind_ok in Ecp as (h & _ & Ecp). apply Ok_inj in Ecp. subst cp. reflexivity.
  - subst m. reflexivity.
Qed.
Print Assumptions C33_refuted.

Definition s0x : state := {| st_chord := None; st_key := 0; st_change := 0; st_logp := 0; st_prev := None;
  st_hash := None; st_prior := []; st_must := false; st_csm := None; st_ksm := None; st_ktm := None |}.
Definition s1x : state := {| st_chord := Some 4; st_key := 0; st_change := 1; st_logp := -5; st_prev := Some s0x;
  st_hash := None; st_prior := []; st_must := false; st_csm := None; st_ksm := None; st_ktm := None |}.
Example C33_ex : match key_branch (gx 20 80) (ox 50 0 0) (pdx [-1; -1; -1] [-1; -1; -1]) {| sr_beams := []; sr_store := [] |} 0 50 s1x with
  | Ok (a, b) => Some (map st_logp a, map st_logp b) | _ => None end = Some ([-19], [-5]).
Proof. reflexivity. Qed.
Example C33_ex2 : match key_branch (gx 20 80) (ox 50 0 0) (pdx [-1; -1; -1] [-1; -1; -1]) {| sr_beams := []; sr_store := [] |} 0 10 s1x with
  | Ok (a, b) => Some (map st_logp a, map st_logp b) | _ => None end = Some ([], [-12]).
Proof. reflexivity. Qed.
(* two states with chord 4 in key 0: two new keys are tried; if key 2 is forced, only that one *)
Example C32_ex : map (fun forced => match key_change_states (gx 20 80) (ox 50 (-3) 0) (pdx [-1; -1; -1] [forced; -1; -1]) 1 [s1x; s1x] with
  | Ok l => Some (map (fun s => (st_key s, st_logp s)) l) | _ => None end) [-1; 2] =
  [Some [(1, -8); (2, -8); (1, -8); (2, -8)]; Some [(2, -8); (2, -8)]].
Proof. vm_compute. reflexivity. Qed.

(* ---- C35 ---- *)
(* an input forced to a chord gets it, if the offered ranges around the input are forced to no other chord *)
Theorem C35_chords g o pd chord_ranges logs rejoins priors s i c :
  1 <= g_beam_size g -> valid_ranges chord_ranges (length (p_durs pd)) ->
  beam_search g o pd chord_ranges logs rejoins priors = Ok (Some s) ->
  (i < length (p_durs pd))%nat -> nth_error (p_forced_c pd) i = Some c -> c <> -1 ->
  (forall a b, In (a, b) chord_ranges -> (a <= i < b)%nat -> only_forced (p_forced_c pd) a b c) ->
  let (chords, changes) := get_chords s in labelled chords changes i (Some c).
Proof.
  intros Hb Hr H Hi Ef Hc Honly. destruct (result_path _ _ _ _ _ _ _ _ Hb Hr H) as (rs & Hrs & Hp & Hch).
  assert (Hpc := path_chords _ _ _ _ _ Hp). destruct (get_chords s) as [chords changes]. destruct Hpc as (_ & _ & _ & _ & _ & Hlab).
  apply Hlab. rewrite <- Hch in Hi. destruct (path_steps_cover _ _ _ _ _ Hp i Hi) as (p & f & Hin & Hpf).
  exists p, f. split; [exact Hin|]. split; [exact Hpf|].
  destruct (path_links _ _ _ _ _ Hp p f Hin) as [_ Hl].
  destruct (lk_chain _ _ _ _ _ _ Hl) as (c' & rl & wl & F1 & _ & _ & Hchain & Hw & _). rewrite F1. f_equal.
  clear -Hchain Hw Hpf Honly Ef Hc Hrs. destruct Hpf as [Hpi Hif]. revert Hchain Hpi. generalize (st_change p). revert wl Hw.
  induction rl as [|r rl IH]; intros wl Hw a Hchain Hpi; cbn [chain_of] in Hchain; [lia|].
  inversion Hw as [|x w l1 l2 Hx Hrest E1 E2]; subst. destruct Hchain as (Ea & Hlt & Hrl).
  destruct (Nat.lt_ge_cases i (r_end r)) as [Hie|Hie]; [|exact (IH _ Hrest _ Hrl Hie)].
  destruct Hx as (Hinr & Hk & _). destruct (Hrs r Hinr) as (j & J1 & _).
  symmetry. apply Hk. apply (pick_only o _ _ _ i); [lia|exact Ef|exact Hc|].
  apply Honly; [exact (nth_error_In _ _ J1)|lia].
Qed.
Print Assumptions C35_chords.

(* a segment in which some input is forced to a key gets one of the keys forced in it; in
   particular the forced one if there is only one *)
Theorem C35_keys_partial g o pd chord_ranges logs rejoins priors s :
  1 <= g_beam_size g -> valid_ranges chord_ranges (length (p_durs pd)) ->
  beam_search g o pd chord_ranges logs rejoins priors = Ok (Some s) ->
  forall p f, In (p, f) (steps_of s) ->
  (exists k, forced_on (p_forced_k pd) (st_change p) (st_change f) k) ->
  forced_on (p_forced_k pd) (st_change p) (st_change f) (st_key f).
Proof.
  intros Hb Hr H p f Hin (k & Hk). destruct (result_path _ _ _ _ _ _ _ _ Hb Hr H) as (rs & Hrs & Hp & Hch).
  destruct (path_links _ _ _ _ _ Hp p f Hin) as [_ Hl]. apply in_forced_set in Hk.
  destruct (pick o (forced_set (p_forced_k pd) (st_change p) (st_change f))) as [k'|] eqn:Epk.
  - assert (E : st_key f = k') by (destruct (lk_key _ _ _ _ _ _ Hl) as [(_ & K & _)|(_ & K & _)]; exact (K k' Epk)).
    rewrite E. exact (pick_forced _ _ _ _ _ Epk).
  - apply pick_none in Epk. rewrite Epk in Hk. contradiction.
Qed.
Print Assumptions C35_keys_partial.

(* a key forced on the first input is the one the analysis starts in *)
Theorem C35_first_key g o pd chord_ranges logs rejoins priors s k :
  1 <= g_beam_size g -> valid_ranges chord_ranges (length (p_durs pd)) ->
  beam_search g o pd chord_ranges logs rejoins priors = Ok (Some s) ->
  nth_error (p_forced_k pd) 0 = Some k -> k <> -1 ->
  forall p f, In (p, f) (steps_of s) -> st_prev p = None -> st_key p = k.
Proof.
  intros Hb Hr H Ek Hk. destruct (result_path _ _ _ _ _ _ _ _ Hb Hr H) as (rs & Hrs & Hp & Hch). clear H.
  assert (G : forall s, path g o pd rs s -> (st_prev s = None -> st_key s = k) /\ forall p f, In (p, f) (steps_of s) -> st_prev p = None -> st_key p = k).
  { clear s Hp Hch. intros s Hp. induction Hp as [s Hi|p f Hp IH Hl].
    - destruct Hi as (keys & k' & t & m & E1 & E2 & _ & ->). split; [|intros p f []]. intros _. cbn [st_key].
      unfold initial_keys, hget in E1. rewrite Ek in E1. cbn [bind] in E1. destruct (Z.eqb_spec k (-1)); [contradiction|].
      apply Ok_inj in E1. subst keys. destruct E2 as [->|[]]. reflexivity.
    - destruct IH as [I1 I2]. split; [rewrite (lk_prev _ _ _ _ _ _ Hl); discriminate|].
      intros p' f' Hin. rewrite steps_of_eq, (lk_prev _ _ _ _ _ _ Hl) in Hin. apply in_app_or in Hin as [Hin|[E|[]]]; [exact (I2 p' f' Hin)|].
      injection E as <- <-. exact I1. }
  exact (proj2 (G s Hp)).
Qed.
Print Assumptions C35_first_key.

(* the chord of an input is not bounded by forced keys: three inputs forced to keys 0, 3 and 5
   are joined to one chord in key 0 *)
Theorem C35_keys_refuted : exists g o pd chord_ranges logs rejoins priors s,
  1 <= g_beam_size g /\ valid_ranges chord_ranges (length (p_durs pd))
  /\ p_forced_k pd = [0; 3; 5]
  /\ beam_search g o pd chord_ranges logs rejoins priors = Ok (Some s)
  /\ get_keys s = ([0], [0; 3]%nat).
Proof.
  destruct (checkx_true (fun s => if list_eq_dec Z.eq_dec (fst (get_keys s)) [0] then
      if list_eq_dec Nat.eq_dec (snd (get_keys s)) [0; 3]%nat then true else false else false)
      (searchx (gx 20 80) (ox 10 (-50) (-3)) (pdx [-1; -1; -1] [0; 3; 5])))
    as (s & E & Hr); [vm_compute; reflexivity|].
  do 7 eexists. exists s. split; [|split; [|split; [|split; [exact E|]]]]; [cbn; lia|apply crx_valid; reflexivity|reflexivity|].
  destruct (list_eq_dec Z.eq_dec _ _) as [E1|]; [|discriminate]. destruct (list_eq_dec Nat.eq_dec _ _) as [E2|]; [|discriminate].
  rewrite (surjective_pairing (get_keys s)), E1, E2. reflexivity.
Qed.
Print Assumptions C35_keys_refuted.

Example C35_ex : viewx (searchx (gx 20 80) (ox 10 (-5) (-3)) (pdx [-1; 1; 0] [0; -1; -1])) =
  Some (([Some 0; Some 1; Some 0], [0; 1; 2; 3]%nat), ([0], [0; 3]%nat), -93).
Proof. vm_compute. reflexivity. Qed.

(* ---- C56 ---- *)
Theorem C56_in_range g o pd chord_ranges logs rejoins priors s :
  1 <= g_beam_size g -> valid_ranges chord_ranges (length (p_durs pd)) -> g_cpt g = g_kpt g ->
  beam_search g o pd chord_ranges logs rejoins priors = Ok (Some s) ->
  forall p f, In (p, f) (steps_of s) ->
  exists c root t inv bass tonic mode, st_chord f = Some c
    /\ py_nth (chord_labels (g_cpt g)) c = Ok (root, t, inv)
    /\ get_bass_note t root inv (g_cpt g) false = Ok bass
    /\ py_nth (key_labels (g_kpt g)) (st_key f) = Ok (tonic, mode)
    /\ inside root bass tonic.
Proof.
  intros Hb Hr Hpt H p f Hin. destruct (result_path _ _ _ _ _ _ _ _ Hb Hr H) as (rs & _ & Hp & _).
  destruct (path_links _ _ _ _ _ Hp p f Hin) as [_ Hl].
  destruct (lk_notes _ _ _ _ _ _ Hl Hpt) as (c & root & t & inv & bass & tonic & mode & E1 & E2 & E3 & E4).
  exists c, root, t, inv, bass, tonic, mode. split; [exact E1|].
  unfold chord_notes in E2. apply bind_ok in E2 as ([[root' t'] inv'] & F1 & E2). apply bind_ok in E2 as (bass' & F2 & E2).
  apply Ok_inj in E2. injection E2 as <- <- <- <-. auto.
Qed.
Print Assumptions C56_in_range.
(* with TPC labels the range matters: C major (root 14) forced in the key of C flat major (tonic 7)
   is inside, F double sharp major (root 27) is not, and the search finds nothing *)
Definition pdy (c k : Z) : piece_data := {| p_forced_c := [c]; p_forced_k := [k]; p_durs := [1]; p_levels := [3; 3] |}.
Definition gy : search_cfg := {| g_cpt := TPC; g_kpt := TPC; g_beam_size := 4; g_hash_length := Some 2;
     g_min_key := 20; g_max_no_key := 80; g_target_chord := 100; g_max_chord := 2;
     g_target_key := 100; g_max_key := 2; g_ksm_exp := 1; g_use_inv := true;
     g_red := NO_REDUCTION; g_pitch_based := false |}.
Definition oy : oracle := {| o_ktm := fun _ _ _ => 10; o_ksm := fun _ _ _ => repeat 0 100;
     o_csm := fun _ _ _ => repeat 0 2000; o_stop := fun _ _ => true; o_icm := fun _ => repeat 0 2000;
     o_argsort := fun l => zrange 0 (zlen l); o_exp := fun x => 60; o_log := fun p => -7; o_one := 100;
     o_pitch_log := fun _ _ => 0; o_pick := fun _ => 0%nat |}.
Example C56_ex : map (fun c => viewx (beam_search gy oy (pdy c 7) [(0, 1)]%nat [0] [0] [repeat 0 2000])) [42; 84] =
  [Some (([Some 42], [0; 1]%nat), ([7], [0; 1]%nat), -7); None].
Proof. vm_compute. reflexivity. Qed.

(* ---- C57 ---- *)
(* the result has the highest score on the final beam *)
Theorem C57_top_partial g o pd ranges sr b : 1 <= g_beam_size g ->
  (forall r, In r ranges -> (r_start r < r_end r <= length (p_durs pd))%nat) ->
  run_search g o pd ranges = Ok sr -> nth_error (sr_beams sr) (length (p_durs pd)) = Some b ->
  exists states top, beam_content sr b = Ok states /\ ab_top b = Ok top
    /\ match top with
       | None => states = []
       | Some x => exists s, nth_error (sr_store sr) (s_id x) = Some s /\ In s states
                     /\ forall s', In s' states -> st_logp s' <= st_logp s
       end.
Proof.
  intros Hb Hr H Eb. destruct (run_search_inv g o pd ranges Hr Hb sr H) as [_ HS _].
  destruct (HS _ b (le_n _) Eb) as (seen & B & Hbi & _ & _ & _ & HB).
  unfold beam_content. rewrite (proj1 (ab_list_ok _ _ _ Hbi)). cbn [bind].
  assert (Hm : forall B0, incl B0 B -> exists states, mapM (fun x => hget (sr_store sr) (s_id x)) B0 = Ok states
      /\ Forall2 (fun x s => nth_error (sr_store sr) (s_id x) = Some s /\ x = to_bstate (s_id x) s) B0 states).
  { induction B0 as [|x B0 IH]; intros Hi; [exists []; split; [reflexivity|constructor]|].
    destruct IH as (st & E & F); [intros y Hy; apply Hi; right; exact Hy|].
    destruct (HB x (Hi x (or_introl eq_refl))) as (s & E1 & E2 & _). exists (s :: st). cbn [mapM].
    unfold hget at 1. rewrite E1. cbn [bind]. rewrite E. cbn [bind]. split; [reflexivity|]. constructor; auto. }
  destruct (Hm B (incl_refl B)) as (states & Es & Hf). destruct (ab_top_ok _ _ _ Hbi) as (top & Et & Ht).
  exists states, top. split; [exact Es|]. split; [exact Et|]. destruct top as [x|].
  - destruct Ht as [Hx Hmax]. destruct (Forall2_in_l _ _ _ Hf x Hx) as (s & Hs & E1 & E2).
    exists s. split; [exact E1|]. split; [exact Hs|]. intros s' Hs'.
    destruct (Forall2_in_r _ _ _ Hf s' Hs') as (x' & Hx' & _ & E2'). specialize (Hmax x' Hx').
    rewrite E2, E2' in Hmax. exact Hmax.
  - subst B. inversion Hf. reflexivity.
Qed.
Print Assumptions C57_top_partial.

(* at every step, no beam but the first holds more than beam_size states, and the states on a
   beam end where the beam is *)
Theorem C57_sizes_partial g o pd ranges n sr i b : 1 <= g_beam_size g ->
  (forall r, In r ranges -> (r_start r < r_end r <= length (p_durs pd))%nat) ->
  (n <= length (p_durs pd))%nat -> run_until g o pd ranges n = Ok sr ->
  (n <= i)%nat -> i <> 0%nat -> nth_error (sr_beams sr) i = Some b ->
  exists states, beam_content sr b = Ok states /\ zlen states <= g_beam_size g
    /\ Forall (fun s => st_change s = i) states.
Proof.
  intros Hb Hr Hn H Hi Hi0 Eb. pose proof (run_until_inv g o pd ranges Hr Hb n sr Hn H) as Hinv.
  destruct Hinv as [_ HS _]. destruct (HS i b Hi Eb) as (seen & B & Hbi & _ & [Hlen _] & _ & HB). specialize (Hlen Hi0).
  unfold beam_content. rewrite (proj1 (ab_list_ok _ _ _ Hbi)). cbn [bind]. clear Hbi.
  assert (Hm : forall B0, incl B0 B -> exists states, mapM (fun x => hget (sr_store sr) (s_id x)) B0 = Ok states
      /\ zlen states = zlen B0 /\ Forall (fun s => st_change s = i) states).
  { induction B0 as [|x B0 IH]; intros Hc; [exists []; split; [reflexivity|split; [reflexivity|constructor]]|].
    destruct IH as (st & E & F & F'); [intros y Hy; apply Hc; right; exact Hy|].
    destruct (HB x (Hc x (or_introl eq_refl))) as (s & E1 & _ & E2). exists (s :: st). cbn [mapM].
    unfold hget at 1. rewrite E1. cbn [bind]. rewrite E. cbn [bind]. split; [reflexivity|]. rewrite !zlen_cons. split; [lia|]. constructor; auto. }
  destruct (Hm B (incl_refl B)) as (states & E1 & E2 & E3). exists states. split; [exact E1|]. split; [lia|exact E3].
Qed.
Print Assumptions C57_sizes_partial.
Example C57_sizes_ex : exists sr b states,
  run_until (gx 20 80) (ox 10 (-5) (-3)) (pdx [-1; -1; -1] [-1; -1; -1])
    (match mapM (make_range (gx 20 80) (ox 10 (-5) (-3))) (zip4 crx [-10; -20; -30; -60] [0; 4; 5; 6] [[-1; -9]; [-9; -1]; [-1; -1]; [-2; -2]])
     with Ok l => l | Raise _ => [] end) 1 = Ok sr
  /\ nth_error (sr_beams sr) 1 = Some b /\ beam_content sr b = Ok states /\ zlen states = 4.
Proof. do 3 eexists. split; [vm_compute; reflexivity|]. split; [vm_compute; reflexivity|]. split; vm_compute; reflexivity. Qed.

(* At every step, for every position still to come: of the states ever added there (sr_store is the
   list of all of them) one with the highest score is still on the beam. *)
Theorem C57_kept_partial g o pd ranges n sr i b s' : 1 <= g_beam_size g ->
  (forall r, In r ranges -> (r_start r < r_end r <= length (p_durs pd))%nat) ->
  (n <= length (p_durs pd))%nat -> run_until g o pd ranges n = Ok sr ->
  (n <= i)%nat -> nth_error (sr_beams sr) i = Some b -> In s' (sr_store sr) -> st_change s' = i ->
  exists states s, beam_content sr b = Ok states /\ In s states /\ In s (sr_store sr)
    /\ st_change s = i /\ st_logp s' <= st_logp s.
Proof.
  intros Hb Hr Hn H Hi Eb Hs' Hc. destruct (run_until_inv g o pd ranges Hr Hb n sr Hn H) as [_ HS _].
  destruct (HS i b Hi Eb) as (seen & B & Hbi & _ & [_ Hbest] & _ & HB). destruct (Hbest s' Hs' Hc) as (x & Hx & Hle).
  unfold beam_content. rewrite (proj1 (ab_list_ok _ _ _ Hbi)). cbn [bind]. clear Hbi.
  assert (Hm : forall B0, incl B0 B -> exists states, mapM (fun x => hget (sr_store sr) (s_id x)) B0 = Ok states
      /\ Forall2 (fun x s => nth_error (sr_store sr) (s_id x) = Some s /\ x = to_bstate (s_id x) s /\ st_change s = i) B0 states).
  { induction B0 as [|y B0 IH]; intros Hc0; [exists []; split; [reflexivity|constructor]|].
    destruct IH as (st & E & F); [intros z Hz; apply Hc0; right; exact Hz|].
    destruct (HB y (Hc0 y (or_introl eq_refl))) as (s & E1 & E2 & E3). exists (s :: st). cbn [mapM].
    unfold hget at 1. rewrite E1. cbn [bind]. rewrite E. cbn [bind]. split; [reflexivity|]. constructor; auto. }
  destruct (Hm B (incl_refl B)) as (states & Es & Hf). destruct (Forall2_in_l _ _ _ Hf x Hx) as (s & Hs & E1 & E2 & E3).
  exists states, s. split; [exact Es|]. split; [exact Hs|]. split; [exact (nth_error_In _ _ E1)|]. split; [exact E3|].
  rewrite E2 in Hle. exact Hle.
Qed.
Print Assumptions C57_kept_partial.

(* the result is the best of all the states for the whole piece that the search ever came to *)
Theorem C57_best_partial g o pd chord_ranges logs rejoins classifications ranges sr : 1 <= g_beam_size g ->
  (forall r, In r ranges -> (r_start r < r_end r <= length (p_durs pd))%nat) ->
  mapM (make_range g o) (zip4 chord_ranges logs rejoins classifications) = Ok ranges ->
  run_search g o pd ranges = Ok sr ->
  exists out, beam_search g o pd chord_ranges logs rejoins classifications = Ok out
    /\ match out with
       | None => forall s', In s' (sr_store sr) -> st_change s' <> length (p_durs pd)
       | Some s => In s (sr_store sr) /\ st_change s = length (p_durs pd)
           /\ forall s', In s' (sr_store sr) -> st_change s' = length (p_durs pd) -> st_logp s' <= st_logp s
       end.
Proof.
  intros Hb Hr Em H. unfold beam_search. rewrite Em. cbn [bind]. rewrite H. cbn [bind].
  destruct (run_search_inv g o pd ranges Hr Hb sr H) as [HL HS _].
  destruct (nth_error (sr_beams sr) (length (p_durs pd))) as [b|] eqn:Eb; [|apply nth_error_None in Eb; lia].
  unfold hget at 1. rewrite Eb. cbn [bind]. destruct (HS _ b (le_n _) Eb) as (seen & B & Hbi & _ & [_ Hbest] & _ & HB).
  destruct (ab_top_ok _ _ _ Hbi) as (top & Et & Ht). rewrite Et. cbn [bind]. destruct top as [x|].
  - destruct Ht as [Hx Hmax]. destruct (HB x Hx) as (s & E1 & E2 & E3). unfold hget. rewrite E1. cbn [bind].
    exists (Some s). split; [reflexivity|]. split; [exact (nth_error_In _ _ E1)|]. split; [exact E3|].
    intros s' Hs' Hc. destruct (Hbest s' Hs' Hc) as (y & Hy & Hle). specialize (Hmax y Hy). rewrite E2 in Hmax. cbn [to_bstate s_score] in Hmax. lia.
  - exists None. split; [reflexivity|]. intros s' Hs' Hc. destruct (Hbest s' Hs' Hc) as (y & Hy & _). subst B. contradiction.
Qed.
Print Assumptions C57_best_partial.
(* twelve more states reach the end of these three inputs, all of them with lower scores *)
Example C57_best_ex :
  match mapM (make_range (gx 20 80) (ox 10 (-5) (-3))) (zip4 crx [-10; -20; -30; -60] [0; 4; 5; 6] [[-1; -9]; [-9; -1]; [-1; -1]; [-2; -2]]) with
  | Ok ranges =>
      forallb (fun r => (r_start r <? r_end r)%nat && (r_end r <=? 3)%nat) ranges &&
      match run_search (gx 20 80) (ox 10 (-5) (-3)) (pdx [-1; -1; -1] [-1; -1; -1]) ranges,
            beam_search (gx 20 80) (ox 10 (-5) (-3)) (pdx [-1; -1; -1] [-1; -1; -1]) crx [-10; -20; -30; -60] [0; 4; 5; 6] [[-1; -9]; [-9; -1]; [-1; -1]; [-2; -2]] with
      | Ok sr, Ok (Some s) => zlen (filter (fun s' => (st_change s' =? 3)%nat && (st_logp s' <? st_logp s)) (sr_store sr)) =? 12
      | _, _ => false
      end
  | Raise _ => false
  end = true.
Proof. vm_compute. reflexivity. Qed.

(* A branch is dropped although the beam has room (joint_model.py:967-972 and 1015-1024): with a
   beam of 1000 and three inputs, taking away an offered range improves the score found. *)
Definition ow : oracle := {| o_ktm := fun _ _ _ => 10; o_ksm := fun _ _ _ => repeat 0 24;
     o_csm := fun step l i => match step, nth_error l i with
                | 2%nat, Some s => match st_chord s with Some 1 => repeat 0 600 | _ => repeat (-100) 600 end
                | _, _ => repeat 0 600 end;
     o_stop := fun _ _ => true; o_icm := fun _ => repeat 0 600;
     o_argsort := fun l => match l with [0; -90; -90] => [0; 1; 2] | [-90; 0; -90] => [1; 0; 2] | [-90; -90; 0] => [2; 0; 1] | _ => zrange 0 (zlen l) end; o_exp := fun x => x; o_log := fun p => 0; o_one := 100;
     o_pitch_log := fun _ _ => 0; o_pick := fun _ => 0%nat |}.
Definition gw : search_cfg := {| g_cpt := MIDI; g_kpt := MIDI; g_beam_size := 1000; g_hash_length := None;
     g_min_key := 20; g_max_no_key := 80; g_target_chord := 100; g_max_chord := 1;
     g_target_key := 100; g_max_key := 1000; g_ksm_exp := 1; g_use_inv := true;
     g_red := NO_REDUCTION; g_pitch_based := false |}.
Definition pdw : piece_data := {| p_forced_c := [-1; -1; 2]; p_forced_k := [0; -1; -1]; p_durs := [1; 1; 1]; p_levels := [3; 2; 2; 3] |}.
Theorem C57_room_refuted :
  viewx (beam_search gw ow pdw [(0, 1); (1, 2); (2, 3); (0, 2)]%nat [-1; -10; -1; -1] [0; 0; 0; 0]
           [[0; -90; -90]; [-90; 0; -90]; [-90; -90; 0]; [0; -90; -90]])
    = Some (([Some 0; Some 2], [0; 2; 3]%nat), ([0], [0; 3]%nat), -102)
  /\ viewx (beam_search gw ow pdw [(0, 1); (1, 2); (2, 3)]%nat [-1; -10; -1] [0; 0; 0]
           [[0; -90; -90]; [-90; 0; -90]; [-90; -90; 0]])
    = Some (([Some 0; Some 1; Some 2], [0; 1; 2; 3]%nat), ([0], [0; 3]%nat), -12).
Proof. vm_compute. split; reflexivity. Qed.
Print Assumptions C57_room_refuted.
