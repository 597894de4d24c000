(* C98: the accuracies that a verbose run reports. *)
From Coq Require Import QArith Lia Lqa List Permutation. Import ListNotations.
From Verif Require Import PyBase Proof_Base Spec_Debug Proof_Piece Proof_Debug.
Close Scope Q_scope.
Open Scope Z_scope.

(* The accuracies of the chord transition model count the inputs where a chord can change: those where it does and
   those where it does not.  The inputs listed are those where the model was wrong.  If either kind is missing, the
   run stops with a division by zero. *)
Theorem C98_changes durs changes probs : durs <> [] -> List.length probs = List.length durs ->
  let l := moments probs in
  (count (change_at durs changes) l = 0 \/ count (no_change_at durs changes) l = 0 ->
     debug_chord_change_probs durs (Some changes) probs = Raise ZeroDivisionError)
  /\ (count (change_at durs changes) l <> 0 -> count (no_change_at durs changes) l <> 0 ->
     exists ms, debug_chord_change_probs durs (Some changes) probs =
       Ok (ms ++ [Accuracy 0 (count (fun x => change_at durs changes x && Qle_bool (1 # 2) (snd x)) l) (count (change_at durs changes) l);
                  Accuracy 1 (count (fun x => no_change_at durs changes x && Qle_bool (snd x) (1 # 2)) l) (count (no_change_at durs changes) l)])
     /\ forall m, In m ms <->
       (exists x, In x l /\ change_at durs changes x = true /\ (snd x < 1 # 2)%Q /\ m = MissedChange (fst x) (snd x))
       \/ (exists x, In x l /\ no_change_at durs changes x = true /\ (1 # 2 < snd x)%Q /\ m = WrongChange (fst x) (snd x))).
Proof.
  intros Hd HL l. unfold debug_chord_change_probs.
  destruct (index_invalid durs) as [inv|e] eqn:Ei; [|unfold index_invalid in Ei; destruct durs; [contradiction|discriminate]]. cbn [bind].
  rewrite (combine_invalid durs inv Ei 0 probs inv eq_refl) by (rewrite HL; symmetry; exact (proj1 (invalid_eq _ _ Ei))).
  destruct (change_loop_spec durs changes probs 0 (mkCounts 0 0 0 0 [])) as (T1 & T2 & T3 & T4 & new & T5 & T6).
  fold (moments probs) in T1, T2, T3, T4, T5, T6 |- *. fold l in T1, T2, T3, T4, T5, T6 |- *.
  set (st := change_loop _ _ _ _) in *. cbn [change_total change_correct no_change_total no_change_correct said app] in T1, T2, T3, T4, T5.
  rewrite Z.add_0_l in T1, T2, T3, T4. unfold accuracy. rewrite T1, T2, T3, T4, T5. change half with (1 # 2)%Q in *. split.
  - intros [->| ->]; [reflexivity|]. destruct (_ =? 0); reflexivity.
  - intros N1 N2. apply Z.eqb_neq in N1, N2. rewrite N1, N2. exists new. split; [reflexivity|exact T6].
Qed.
Print Assumptions C98_changes.

(* The accuracy of the chord classifier counts the ranges that are exactly an annotated chord, and those of them
   whose best class is that chord; the ranges listed are the other ones.  Without any such range the run stops with a
   division by zero. *)
Theorem C98_classes {A} (encode : A -> res Z) argsort mx chords changes ranges classes :
  from_start changes -> List.length chords = List.length changes ->
  Forall (scored encode argsort chords) (combine ranges classes) ->
  let l := combine ranges classes in
  let own x := match own_chord changes chords (fst x) with Some _ => true | None => false end in
  let good x := match own_chord changes chords (fst x) with Some c => best_is encode argsort (snd x) c | None => false end in
  (count own l = 0 -> debug_chord_classifications encode argsort mx (Some (chords, changes)) ranges classes = Raise ZeroDivisionError)
  /\ (count own l <> 0 -> exists ms,
       debug_chord_classifications encode argsort mx (Some (chords, changes)) ranges classes = Ok (ms ++ [Accuracy 2 (count good l) (count own l)])
       /\ forall a b, In (Misclassified a b) ms <-> exists x, In x l /\ (a, b) = fst x /\ own x = true /\ good x = false).
Proof.
  intros Hc HL F l own good. unfold debug_chord_classifications.
  destruct (classify_loop_spec encode argsort mx changes chords Hc HL _ 0 0 [] F) as (new & E & M). rewrite E. cbn [bind app].
  rewrite !Z.add_0_l. fold l. fold own good. unfold accuracy. split; [intros ->; reflexivity|].
  intros N. apply Z.eqb_neq in N. rewrite N. exists new. split; [reflexivity|exact M].
Qed.
Print Assumptions C98_classes.
(* a range belongs to a chord if it begins with it and ends where the next one begins *)
Theorem C98_own {A} changes (chords : list A) range c : increasing changes -> List.length chords = List.length changes ->
  (own_chord changes chords range = Some c <-> exists k, own_range changes range k /\ nth_error chords k = Some c).
Proof. exact (own_chord_iff changes chords range c). Qed.
Print Assumptions C98_own.

(* The last chord of a piece is never counted: the end of the piece is not a chord change. *)
Theorem C98_last_refuted {A} (encode : A -> res Z) argsort mx chords changes ranges classes a n probs :
  from_start changes -> List.length chords = List.length changes -> List.length ranges = List.length classes ->
  Forall (scored encode argsort chords) (combine (ranges ++ [(a, n)]) (classes ++ [probs])) -> (forall c, In c changes -> c < n) ->
  debug_chord_classifications encode argsort mx (Some (chords, changes)) (ranges ++ [(a, n)]) (classes ++ [probs])
  = debug_chord_classifications encode argsort mx (Some (chords, changes)) ranges classes.
Proof.
  intros Hc HL HL2 F Hn. unfold debug_chord_classifications.
  assert (Ecomb : combine (ranges ++ [(a, n)]) (classes ++ [probs]) = combine ranges classes ++ [((a, n), probs)]).
  { clear -HL2. revert classes HL2. induction ranges as [|r rs IH]; intros [|c cs] HL2; try discriminate; [reflexivity|]. cbn. f_equal. apply IH. cbn in HL2. lia. }
  rewrite Ecomb in *. apply Forall_app in F as [F1 F2]. inversion F2 as [|? ? F3 _]; subst.
  destruct (classify_loop_spec encode argsort mx changes chords Hc HL _ 0 0 [] F1) as (new & E & _).
  assert (App : forall l l' st, classify_loop encode argsort mx (Some (chords, changes)) (l ++ l') st =
     let! st := classify_loop encode argsort mx (Some (chords, changes)) l st in classify_loop encode argsort mx (Some (chords, changes)) l' st).
  { induction l as [|[r p] l IH]; intros l' st; [reflexivity|]. cbn [app classify_loop]. destruct (classify_range _ _ _ _ _ _ _); [|reflexivity]. cbn [bind]. apply IH. }
  rewrite App, E. cbn [bind]. set (st := (_, _, _)).
  assert (Eo : own_chord changes chords (a, n) = None).
  { destruct (own_chord changes chords (a, n)) as [c|] eqn:Eo; [|reflexivity]. exfalso. apply own_chord_iff in Eo as (k & [_ K] & _); [|exact (proj1 Hc)|exact HL].
    specialize (Hn n (nth_error_In _ _ K)). lia. }
  destruct (classify_range_spec encode argsort mx changes chords Hc HL ((a, n), probs) (0 + count (fun x => match own_chord changes chords (fst x) with Some _ => true | None => false end) (combine ranges classes))
    (0 + count (fun x => match own_chord changes chords (fst x) with Some c => best_is encode argsort (snd x) c | None => false end) (combine ranges classes)) new F3) as (new' & E' & _ & M).
  cbn [fst snd] in E', M. rewrite Eo in E', M. rewrite (M eq_refl), app_nil_r, !Z.add_0_r in E'.
  cbn [classify_loop]. subst st. cbn [app]. rewrite E'. reflexivity.
Qed.
Print Assumptions C98_last_refuted.
(* so a piece with one chord cannot be run with --verbose: both accuracies divide by zero *)
Theorem C98_one_chord_refuted :
  (forall durs probs, durs <> [] -> List.length probs = List.length durs -> debug_chord_change_probs durs (Some [0]) probs = Raise ZeroDivisionError)
  /\ (forall A (encode : A -> res Z) argsort mx c ranges classes, Forall (scored encode argsort [c]) (combine ranges classes) ->
      debug_chord_classifications encode argsort mx (Some ([c], [0])) ranges classes = Raise ZeroDivisionError).
Proof.
  split.
  - intros durs probs Hd HL. apply (C98_changes durs [0] probs Hd HL). left. apply count_zero. intros [i p] _. unfold change_at. cbn [fst snd].
    destruct i as [|i]; [reflexivity|]. cbn [existsb]. destruct (Z.eqb_spec (Z.of_nat (S i)) 0); [lia|]. now rewrite andb_false_r.
  - intros A encode argsort mx c ranges classes F. apply (C98_classes encode argsort mx [c] [0] ranges classes); [split; [exact Logic.I|reflexivity]|reflexivity|exact F|].
    apply count_zero. intros x _. reflexivity.
Qed.
Print Assumptions C98_one_chord_refuted.

(* Without annotations nothing is divided and nothing is looked up: the messages never stop the run. *)
Theorem C98_plain :
  (forall durs probs, durs <> [] -> exists ms, debug_chord_change_probs durs None probs = Ok ms)
  /\ (forall A (encode : A -> res Z) argsort mx ranges classes, (forall r, In r ranges -> fst r <= snd r) ->
      debug_chord_classifications encode argsort mx None ranges classes = Ok [])
  /\ (forall probs states, exists ms, debug_key_transitions None probs states = Ok ms)
  /\ (forall argsort mx mx2 states, (forall x, In x states -> Permutation (argsort (snd x)) (zrange 0 (zlen (snd x)))) ->
      exists ms, debug_chord_sequence_priors argsort mx mx2 None states = Ok ms)
  /\ (forall argsort encode_change mx states, (forall x, In x states -> Permutation (argsort (snd x)) (zrange 0 (zlen (snd x)))) ->
      exists ms, debug_key_sequences argsort encode_change mx None states = Ok ms).
Proof.
  split; [|split; [|split; [|split]]].
  - intros durs probs Hd. unfold debug_chord_change_probs, index_invalid. destruct durs as [|d r]; [contradiction|]. cbn [map bind]. eexists. reflexivity.
  - intros A encode argsort mx ranges classes H. unfold debug_chord_classifications. rewrite classify_plain; [reflexivity|].
    intros [r p] Hx. apply H. exact (in_combine_l _ _ _ _ Hx).
  - intros probs states. unfold debug_key_transitions. destruct states; eexists; reflexivity.
  - intros argsort mx mx2 states H. unfold debug_chord_sequence_priors. destruct states as [|s0 r]; [eexists; reflexivity|].
    destruct (ds_start (fst s0) =? 0); [eexists; reflexivity|]. destruct (prior_loop_plain argsort mx mx2 (s0 :: r) 0 0 [] H) as (st & E).
    rewrite E. eexists. reflexivity.
  - intros argsort encode_change mx states H. unfold debug_key_sequences. destruct states as [|s0 r]; [eexists; reflexivity|].
    destruct (sequence_loop_plain argsort mx (s0 :: r) (mkKc 0 0 0 0 []) H) as (st & E). rewrite E. eexists. reflexivity.
Qed.
Print Assumptions C98_plain.

(* The accuracy of the key transition model, at the index where the chord of the first state begins: counted are the
   states in the key and the chord in force just before that index; right are those above (no key change: below)
   one half. *)
Theorem C98_keys an probs s0 states : proper an -> 0 < ds_start s0 ->
  exists key chord, before (an_key_changes an) (an_keys an) (ds_start s0) key /\ before (an_chord_changes an) (an_chords an) (ds_start s0) chord /\
  let change := existsb (Z.eqb (ds_start s0)) (an_key_changes an) in
  let l := combine probs (s0 :: states) in
  let here x := (ds_key (snd x) =? key) && (ds_chord (snd x) =? chord) in
  let good x := if change then negb (Qle_bool (fst x) (1 # 2)) else negb (Qle_bool (1 # 2) (fst x)) in
  exists ms, debug_key_transitions (Some an) probs (s0 :: states) =
    Ok ((if change then KeyChangeHere (ds_start s0) else NoKeyChangeHere (ds_start s0)) :: ms ++
        [if 0 <? count here l then Accuracy 3 (count (fun x => here x && good x) l) (count here l) else NoStates])
  /\ forall m, In m ms <-> exists x, In x l /\ here x = true /\ good x = false /\ m = StateProb (ds_key (snd x)) (ds_prev_chord (snd x)) (ds_chord (snd x)) (fst x).
Proof.
  intros (K1 & K2 & C1 & C2) Hs.
  destruct (bisect_before _ _ _ K1 K2 Hs) as (k & key & Ek & _ & _ & Nk & Bk & Ck & _).
  destruct (bisect_before _ _ _ C1 C2 Hs) as (c & chord & Ec & _ & Lc & Nc & Bc & _ & _).
  exists key, chord. split; [exact Bk|]. split; [exact Bc|]. cbv zeta.
  unfold debug_key_transitions, correct_at. rewrite Ek, Ec. cbn [bind]. rewrite Nk. cbn [bind].
  destruct (Nat.ltb_spec (List.length (an_chord_changes an)) c) as [L|_]; [lia|]. cbn [bind]. rewrite Nc. cbn [bind].
  unfold key_changes_here. rewrite Ck. set (change := existsb _ _).
  destruct (transition_loop_spec key chord change (combine probs (s0 :: states)) 0 0 []) as (new & E & M). rewrite E, !Z.add_0_l. cbn [app].
  exists new. split; [reflexivity|exact M].
Qed.
Print Assumptions C98_keys.
(* At a change of chord the states with the right (new) chord are therefore not counted: the condition meant to look
   at the new chord, len(chord_changes) < new_chord_index, never holds. *)
Theorem C98_keys_refuted an probs s0 states old new k : proper an -> 0 < ds_start s0 ->
  nth_error (an_chord_changes an) (S k) = Some (ds_start s0) -> nth_error (an_chords an) k = Some old -> nth_error (an_chords an) (S k) = Some new -> old <> new ->
  (forall s, In s (s0 :: states) -> ds_chord s = new) ->
  exists first, debug_key_transitions (Some an) probs (s0 :: states) = Ok [first; NoStates].
Proof.
  intros Hp Hs Hk Ho Hn Hne Hall. destruct (C98_keys an probs s0 states Hp Hs) as (key & chord & _ & Bc & ms & E & M).
  destruct Hp as (_ & _ & C1 & C2).
  assert (chord = old).
  { apply (before_unique _ _ _ _ _ (proj1 C1) Bc).
    destruct (nth_error (an_chord_changes an) k) as [c|] eqn:Ec. 2:{ apply nth_error_None in Ec. assert (S k < List.length (an_chord_changes an))%nat by (apply nth_error_Some; congruence). lia. }
    exists k, c. split; [exact Ec|]. split; [exact (increasing_nth _ (proj1 C1) k (S k) _ _ Ec Hk ltac:(lia))|]. split; [|exact Ho].
    intros c' Hc'. assert (c' = ds_start s0) by congruence. lia. }
  subst chord.
  assert (Z0 : forall x, In x (combine probs (s0 :: states)) -> (ds_key (snd x) =? key) && (ds_chord (snd x) =? old) = false).
  { intros [p s] Hx. apply in_combine_r in Hx. rewrite <- (Hall s Hx) in Hne. cbn [snd]. destruct (Z.eqb_spec (ds_chord s) old); [congruence|]. apply andb_false_r. }
  assert (ms = []).
  { destruct ms as [|m ms]; [reflexivity|]. exfalso. destruct (proj1 (M m) (or_introl eq_refl)) as (x & Hx & Hh & _). rewrite (Z0 x Hx) in Hh. discriminate. }
  subst ms. rewrite E. apply count_zero in Z0. rewrite Z0. eexists. reflexivity.
Qed.
Print Assumptions C98_keys_refuted.
(* The states need not share their index (a state that continues a chord begins earlier), but all are measured at
   that of the first: here the second state's chord begins at 4, where the key does change and the model says so, and
   it is reported as wrong because the first begins at 2. *)
Theorem C98_index_refuted : exists an probs states,
  proper an /\ debug_key_transitions (Some an) probs states = Ok [NoKeyChangeHere 2; StateProb 0 5 7 (9 # 10)%Q; Accuracy 3 0 1]
  /\ exists s, nth_error states 1 = Some s /\ nth_error probs 1 = Some (9 # 10)%Q /\ ds_start s = 4
     /\ debug_key_transitions (Some an) [(9 # 10)%Q] [s] = Ok [KeyChangeHere 4; Accuracy 3 1 1].
Proof.
  exists (mkAnn [0; 4] [0; 1] [0] [7]), [(1 # 10)%Q; (9 # 10)%Q], [mkDs 1 7 5 2; mkDs 0 7 5 4].
  split; [repeat (split; [try reflexivity; cbn; auto with zarith|]); reflexivity|]. split; [reflexivity|].
  exists (mkDs 0 7 5 4). repeat (split; [reflexivity|]). reflexivity.
Qed.
Print Assumptions C98_index_refuted.

(* The accuracy of the chord sequence model, at an index where the annotated chord changes and the key does not:
   counted are the states in the annotated key whose previous chord is the annotated one; right are those whose best
   next chord is the annotated one.  The probability and the rank of the annotated chord are reported for each, and
   if it is not the best the chords before it. *)
Theorem C98_next argsort mx mx2 an relative s0 states k next : 0 <= mx -> proper an -> List.length relative = List.length (an_chords an) ->
  0 < ds_start (fst s0) -> nth_error (an_chord_changes an) k = Some (ds_start (fst s0)) -> ~ In (ds_start (fst s0)) (an_key_changes an) ->
  nth_error relative k = Some next -> 0 <= next ->
  (forall x, In x (s0 :: states) -> Permutation (argsort (snd x)) (zrange 0 (zlen (snd x))) /\ next < zlen (snd x)) ->
  exists key prev, before (an_key_changes an) (an_keys an) (ds_start (fst s0)) key /\ nth_error (an_chords an) (k - 1) = Some prev /\
  let here x := (ds_key (fst x) =? key) && (ds_prev_chord (fst x) =? prev) in
  let good x := match argsort (snd x) with b :: _ => b =? next | [] => false end in
  debug_chord_sequence_priors argsort mx mx2 (Some (an, relative)) (s0 :: states) =
    Ok (flat_map (fun x => if here x then
                             CorrectChord next (nth (Z.to_nat next) (snd x) 0%Q) (Z.of_nat (place (argsort (snd x)) next))
                             :: (if good x then [] else down_to mx (argsort (snd x)) (snd x) next)
                           else []) (s0 :: states)
        ++ [if 0 <? count here (s0 :: states) then Accuracy 4 (count (fun x => here x && good x) (s0 :: states)) (count here (s0 :: states)) else NoStates]).
Proof.
  intros Hm (K1 & K2 & C1 & C2) HLr Hs Hk Hnk Hr Hn Hx.
  destruct (bisect_before _ _ _ K1 K2 Hs) as (i & key & Ei & _ & _ & Nk & Bk & Ck & _).
  destruct (bisect_before _ _ _ C1 C2 Hs) as (c & prev & Ec & Pc & Lc & _ & _ & Cc & Vc).
  assert (Hc : nth_error (an_chord_changes an) c = Some (ds_start (fst s0))).
  { assert (E : existsb (Z.eqb (ds_start (fst s0))) (an_chord_changes an) = true) by (apply existsb_exists; eexists; split; [exact (nth_error_In _ _ Hk)|apply Z.eqb_refl]).
    rewrite E in Cc. destruct (nth_error (an_chord_changes an) c) as [x|]; [|discriminate]. apply Z.eqb_eq in Cc. congruence. }
  assert (c = k) by exact (increasing_inj _ c k _ (proj1 C1) Hc Hk). subst c.
  exists key, prev. split; [exact Bk|]. split; [exact Vc|]. cbv zeta. unfold debug_chord_sequence_priors.
  destruct (Z.eqb_spec (ds_start (fst s0)) 0) as [E|_]; [lia|]. rewrite Ec. cbn [bind]. rewrite Hc, Z.eqb_refl. cbn [negb]. rewrite Ei. cbn [bind].
  unfold key_changes_here. rewrite Ck. replace (existsb _ (an_key_changes an)) with false.
  2:{ symmetry. apply not_true_iff_false. intros F. apply existsb_exists in F as (y & Hy & E). apply Z.eqb_eq in E. subst y. contradiction. }
  rewrite Nk. cbn [bind]. rewrite (py_nth_pos relative (Z.of_nat k) next) by (solve [lia | rewrite Nat2Z.id; exact Hr]). cbn [bind].
  assert (Lk : (k < List.length (an_chords an))%nat) by (rewrite C2; apply nth_error_Some; congruence).
  assert (Ep : py_nth (py_slice (an_chords an) (Z.max 0 (Z.of_nat k - 5)) (Z.of_nat k)) (-1) = Ok prev) by exact (slice_last _ _ _ Pc Lk Vc).
  rewrite Ep. cbn [bind]. rewrite (prior_loop_spec argsort mx mx2 key prev next Hm Hn (s0 :: states) 0 0 [] Hx).
  cbn [bind app]. rewrite !Z.add_0_l. reflexivity.
Qed.
Print Assumptions C98_next.
(* If the prior has no entry for that chord (a prior over pitches has 29 entries), the run stops. *)
Theorem C98_next_refuted argsort mx mx2 an relative s0 states k next key prev : proper an -> List.length relative = List.length (an_chords an) ->
  0 < ds_start (fst s0) -> nth_error (an_chord_changes an) k = Some (ds_start (fst s0)) -> ~ In (ds_start (fst s0)) (an_key_changes an) ->
  nth_error relative k = Some next -> (forall x, In x (s0 :: states) -> zlen (snd x) <= next) ->
  before (an_key_changes an) (an_keys an) (ds_start (fst s0)) key -> nth_error (an_chords an) (k - 1) = Some prev ->
  (exists x, In x (s0 :: states) /\ ds_key (fst x) = key /\ ds_prev_chord (fst x) = prev) ->
  debug_chord_sequence_priors argsort mx mx2 (Some (an, relative)) (s0 :: states) = Raise IndexError.
Proof.
  intros (K1 & K2 & C1 & C2) HLr Hs Hk Hnk Hr Hx Hkey Hprev (x & Hin & X1 & X2).
  destruct (bisect_before _ _ _ K1 K2 Hs) as (i & key' & Ei & _ & _ & Nk & Bk & Ck & _).
  destruct (bisect_before _ _ _ C1 C2 Hs) as (c & prev' & Ec & Pc & Lc & _ & _ & Cc & Vc).
  assert (Hc : nth_error (an_chord_changes an) c = Some (ds_start (fst s0))).
  { assert (E : existsb (Z.eqb (ds_start (fst s0))) (an_chord_changes an) = true) by (apply existsb_exists; eexists; split; [exact (nth_error_In _ _ Hk)|apply Z.eqb_refl]).
    rewrite E in Cc. destruct (nth_error (an_chord_changes an) c) as [y|]; [|discriminate]. apply Z.eqb_eq in Cc. congruence. }
  assert (c = k) by exact (increasing_inj _ c k _ (proj1 C1) Hc Hk). subst c.
  assert (key' = key) by exact (before_unique _ _ _ _ _ (proj1 K1) Bk Hkey). assert (prev' = prev) by congruence. subst key' prev'.
  unfold debug_chord_sequence_priors.
  destruct (Z.eqb_spec (ds_start (fst s0)) 0) as [E|_]; [lia|]. rewrite Ec. cbn [bind]. rewrite Hc, Z.eqb_refl. cbn [negb]. rewrite Ei. cbn [bind].
  unfold key_changes_here. rewrite Ck. replace (existsb _ (an_key_changes an)) with false.
  2:{ symmetry. apply not_true_iff_false. intros F. apply existsb_exists in F as (y & Hy & E). apply Z.eqb_eq in E. subst y. contradiction. }
  rewrite Nk. cbn [bind]. rewrite (py_nth_pos relative (Z.of_nat k) next) by (solve [lia | rewrite Nat2Z.id; exact Hr]). cbn [bind].
  assert (Lk : (k < List.length (an_chords an))%nat) by (rewrite C2; apply nth_error_Some; congruence).
  assert (Ep : py_nth (py_slice (an_chords an) (Z.max 0 (Z.of_nat k - 5)) (Z.of_nat k)) (-1) = Ok prev) by exact (slice_last _ _ _ Pc Lk Vc).
  rewrite Ep. cbn [bind]. rewrite (prior_loop_out argsort mx mx2 key prev next (s0 :: states) 0 0 [] Hx); [reflexivity|].
  apply existsb_exists. exists x. split; [exact Hin|]. rewrite X1, X2, !Z.eqb_refl. reflexivity.
Qed.
Print Assumptions C98_next_refuted.

(* The accuracies of the key sequence model, at an index where the annotated key changes (the keys of a piece change
   with its chords): counted are the states in the key before the change, and among them those with the chord that
   begins there; right are those whose best change leads to the annotated key.  The others are listed. *)
Theorem C98_next_key argsort encode_change mx an s0 states k prev next change : 0 <= mx -> proper an -> incl (an_key_changes an) (an_chord_changes an) ->
  nth_error (an_key_changes an) (S k) = Some (ds_start (fst s0)) -> nth_error (an_keys an) k = Some prev -> nth_error (an_keys an) (S k) = Some next ->
  encode_change prev next = Ok change -> 0 <= change ->
  (forall x, In x (s0 :: states) -> Permutation (argsort (snd x)) (zrange 0 (zlen (snd x))) /\ change < zlen (snd x)) ->
  exists j chord, nth_error (an_chord_changes an) j = Some (ds_start (fst s0)) /\ nth_error (an_chords an) j = Some chord /\
  let l := s0 :: states in
  let right_key x := ds_key (fst x) =? prev in
  let right_chord x := (ds_key (fst x) =? prev) && (ds_chord (fst x) =? chord) in
  let good x := match argsort (snd x) with b :: _ => b =? change | [] => false end in
  debug_key_sequences argsort encode_change mx (Some an) l =
    Ok (NextKeyHere (ds_start (fst s0))
        :: flat_map (fun x => if right_key x && negb (good x) then
                                KeyState (ds_key (fst x)) (ds_prev_chord (fst x)) (ds_chord (fst x))
                                :: CorrectKey change (nth (Z.to_nat change) (snd x) 0%Q) (Z.of_nat (place (argsort (snd x)) change))
                                :: down_to mx (argsort (snd x)) (snd x) change
                              else []) l
        ++ [if 0 <? count right_key l then Accuracy 5 (count (fun x => right_key x && good x) l) (count right_key l) else NoStates;
            if 0 <? count right_chord l then Accuracy 6 (count (fun x => right_chord x && good x) l) (count right_chord l) else NoStates]).
Proof.
  intros Hm (K1 & K2 & C1 & C2) Hincl Hk Hp Hnx Hc Hc0 Hx.
  assert (Hs : 0 < ds_start (fst s0)) by exact (increasing_nth _ (proj1 K1) 0 (S k) _ _ (proj2 K1) Hk ltac:(lia)).
  destruct (bisect_before _ _ _ K1 K2 Hs) as (i & v & Ei & Pi & _ & Nk & _ & Ck & Vk).
  destruct (bisect_before _ _ _ C1 C2 Hs) as (c & v' & Ec & Pc & Lc & Nc & _ & Cc & _).
  assert (Hin := nth_error_In _ _ Hk).
  assert (Hi : nth_error (an_key_changes an) i = Some (ds_start (fst s0))).
  { replace (existsb _ (an_key_changes an)) with true in Ck by (symmetry; apply existsb_exists; eexists; split; [exact Hin|apply Z.eqb_refl]).
    destruct (nth_error (an_key_changes an) i) as [y|]; [|discriminate]. apply Z.eqb_eq in Ck. congruence. }
  assert (Hj : nth_error (an_chord_changes an) c = Some (ds_start (fst s0))).
  { replace (existsb _ (an_chord_changes an)) with true in Cc by (symmetry; apply existsb_exists; eexists; split; [exact (Hincl _ Hin)|apply Z.eqb_refl]).
    destruct (nth_error (an_chord_changes an) c) as [y|]; [|discriminate]. apply Z.eqb_eq in Cc. congruence. }
  assert (i = S k) by exact (increasing_inj _ i (S k) _ (proj1 K1) Hi Hk). subst i. cbn [Nat.sub] in Vk. rewrite Nat.sub_0_r, Hp in Vk. apply Some_inj in Vk. subst v.
  assert (Lj : (c < List.length (an_chords an))%nat) by (rewrite C2; apply nth_error_Some; congruence).
  destruct (nth_error (an_chords an) c) as [chord|] eqn:Ech; [|apply nth_error_None in Ech; lia].
  assert (E := sequence_loop_spec argsort mx prev change chord Hm Hc0 (s0 :: states) 0 0 0 0 [] Hx).
  exists c, chord. split; [exact Hj|]. split; [exact Ech|]. cbv zeta. unfold debug_key_sequences. rewrite Ei, Ec. cbn [bind].
  unfold key_changes_here. rewrite Hi, Z.eqb_refl. cbn [negb]. rewrite Nk. cbn [bind].
  rewrite (py_nth_pos (an_keys an) (Z.of_nat (S k)) next) by (solve [lia | rewrite Nat2Z.id; exact Hnx]). cbn [bind]. rewrite Hc. cbn [bind].
  rewrite (py_nth_pos (an_chord_changes an) (Z.of_nat c) (ds_start (fst s0))) by (solve [lia | rewrite Nat2Z.id; exact Hj]). cbn [bind]. rewrite Z.eqb_refl.
  destruct (Nat.eqb_spec c (List.length (an_chords an))) as [->|_]; [lia|]. rewrite Nc. cbn [bind].
  rewrite (py_nth_pos (an_chords an) (Z.of_nat c) chord) by (solve [lia | rewrite Nat2Z.id; exact Ech]). cbn [bind].
  rewrite E. cbn [bind app kc_said kc_total kc_good kc_chord kc_chord_good]. rewrite !Z.add_0_l. reflexivity.
Qed.
Print Assumptions C98_next_key.
(* at every other index nothing is said *)
Theorem C98_no_next_key argsort encode_change mx an s0 states : proper an -> 0 < ds_start (fst s0) -> ~ In (ds_start (fst s0)) (an_key_changes an) ->
  debug_key_sequences argsort encode_change mx (Some an) (s0 :: states) = Ok [].
Proof.
  intros (K1 & K2 & C1 & C2) Hs Hn.
  destruct (bisect_before _ _ _ K1 K2 Hs) as (i & v & Ei & _ & _ & _ & _ & Ck & _). destruct (bisect_before _ _ _ C1 C2 Hs) as (c & v' & Ec & _).
  unfold debug_key_sequences. rewrite Ei, Ec. cbn [bind]. unfold key_changes_here. rewrite Ck.
  replace (existsb _ (an_key_changes an)) with false; [reflexivity|]. symmetry. apply not_true_iff_false. intros F. apply existsb_exists in F as (y & Hy & E). apply Z.eqb_eq in E. subst y. contradiction.
Qed.
Print Assumptions C98_no_next_key.
(* A change of key that the vocabulary of the model does not have stops the run. *)
Theorem C98_next_key_refuted argsort encode_change mx an s0 states k prev next e : proper an ->
  nth_error (an_key_changes an) (S k) = Some (ds_start (fst s0)) -> nth_error (an_keys an) k = Some prev -> nth_error (an_keys an) (S k) = Some next ->
  encode_change prev next = Raise e -> debug_key_sequences argsort encode_change mx (Some an) (s0 :: states) = Raise e.
Proof.
  intros (K1 & K2 & C1 & C2) Hk Hp Hnx Hc.
  assert (Hs : 0 < ds_start (fst s0)) by exact (increasing_nth _ (proj1 K1) 0 (S k) _ _ (proj2 K1) Hk ltac:(lia)).
  destruct (bisect_before _ _ _ K1 K2 Hs) as (i & v & Ei & _ & _ & Nk & _ & Ck & Vk). destruct (bisect_before _ _ _ C1 C2 Hs) as (c & v' & Ec & _).
  assert (Hi : nth_error (an_key_changes an) i = Some (ds_start (fst s0))).
  { replace (existsb _ (an_key_changes an)) with true in Ck by (symmetry; apply existsb_exists; eexists; split; [exact (nth_error_In _ _ Hk)|apply Z.eqb_refl]).
    destruct (nth_error (an_key_changes an) i) as [y|]; [|discriminate]. apply Z.eqb_eq in Ck. congruence. }
  assert (i = S k) by exact (increasing_inj _ i (S k) _ (proj1 K1) Hi Hk). subst i. cbn [Nat.sub] in Vk. rewrite Nat.sub_0_r, Hp in Vk. apply Some_inj in Vk. subst v.
  unfold debug_key_sequences. rewrite Ei, Ec. cbn [bind]. unfold key_changes_here. rewrite Hi, Z.eqb_refl. cbn [negb]. rewrite Nk. cbn [bind].
  rewrite (py_nth_pos (an_keys an) (Z.of_nat (S k)) next) by (solve [lia | rewrite Nat2Z.id; exact Hnx]). cbn [bind]. rewrite Hc. reflexivity.
Qed.
Print Assumptions C98_next_key_refuted.
(* At the beginning of the piece, where a forced key may still replace the first one, the last key of the piece is
   taken as the one before: the change counted as right is the one from the last key to the first. *)
Theorem C98_start_refuted argsort encode_change mx an s0 states first last_key : 0 <= mx -> proper an -> ds_start (fst s0) = 0 ->
  nth_error (an_keys an) 0 = Some first -> nth_error (an_keys an) (List.length (an_keys an) - 1) = Some last_key ->
  (forall e, encode_change last_key first = Raise e -> debug_key_sequences argsort encode_change mx (Some an) (s0 :: states) = Raise e)
  /\ (forall change, encode_change last_key first = Ok change -> 0 <= change ->
      (forall x, In x (s0 :: states) -> Permutation (argsort (snd x)) (zrange 0 (zlen (snd x))) /\ change < zlen (snd x)) ->
      let right_key x := ds_key (fst x) =? last_key in
      let good x := match argsort (snd x) with b :: _ => b =? change | [] => false end in
      exists ms m, debug_key_sequences argsort encode_change mx (Some an) (s0 :: states) =
        Ok (NextKeyHere 0 :: ms ++ [if 0 <? count right_key (s0 :: states)
          then Accuracy 5 (count (fun x => right_key x && good x) (s0 :: states)) (count right_key (s0 :: states)) else NoStates; m])).
Proof.
  intros Hm (K1 & K2 & C1 & C2) Hs Hf Hl.
  assert (B : forall l, from_start l -> bisect_left Z.ltb l 0 0 = Ok 0%nat).
  { intros l [I0 H0]. destruct (bisect_left_spec Z.ltb l 0 0) as (k & Ek & Lk & Hlt & _); [|lia|].
    { intros x y a b L Ha Hb H. apply Z.ltb_lt in H. apply Z.ltb_lt. destruct (Nat.eq_dec x y) as [->|D]; [congruence|].
      pose proof (increasing_nth _ I0 x y a b Ha Hb ltac:(lia)). lia. }
    destruct k as [|k]; [exact Ek|]. specialize (Hlt 0%nat 0 ltac:(lia) H0). discriminate. }
  assert (Hc0 : exists c0 c1, nth_error (an_chords an) 0 = Some c0 /\ py_nth (an_chords an) (-1) = Ok c1).
  { destruct C1 as [_ H0]. destruct (an_chords an) as [|c0 cs] eqn:Ec; [destruct (an_chord_changes an); discriminate|]. exists c0.
    destruct (nth_error (c0 :: cs) (List.length cs)) as [c1|] eqn:E1; [|apply nth_error_None in E1; cbn in E1; lia].
    exists c1. split; [reflexivity|]. unfold py_nth, zlen. cbn [Z.ltb Z.compare]. replace (-1 + Z.of_nat (List.length (c0 :: cs))) with (Z.of_nat (List.length cs)) by (cbn [List.length]; lia).
    destruct (Z.ltb_spec (Z.of_nat (List.length cs)) 0); [lia|]. destruct (Z.leb_spec (Z.of_nat (List.length (c0 :: cs))) (Z.of_nat (List.length cs))); [cbn [List.length] in *; lia|].
    cbn [orb]. rewrite Nat2Z.id, E1. reflexivity. }
  destruct Hc0 as (c0 & c1 & Hc0 & Hc1).
  assert (Hk : py_nth (an_keys an) (-1) = Ok last_key).
  { assert (HL : (0 < List.length (an_keys an))%nat) by (destruct (an_keys an); [discriminate|cbn; lia]).
    unfold py_nth, zlen. cbn [Z.ltb Z.compare]. replace (-1 + Z.of_nat (List.length (an_keys an))) with (Z.of_nat (List.length (an_keys an) - 1)) by lia.
    destruct (Z.ltb_spec (Z.of_nat (List.length (an_keys an) - 1)) 0); [lia|]. destruct (Z.leb_spec (Z.of_nat (List.length (an_keys an))) (Z.of_nat (List.length (an_keys an) - 1))); [lia|].
    cbn [orb]. rewrite Nat2Z.id, Hl. reflexivity. }
  assert (Hk0 : py_nth (an_keys an) 0 = Ok first) by (apply py_nth_pos; [lia|exact Hf]).
  assert (Hx0 : py_nth (an_chord_changes an) 0 = Ok 0) by (apply py_nth_pos; [lia|exact (proj2 C1)]).
  assert (Hh : key_changes_here an 0 0 = true) by (unfold key_changes_here; rewrite (proj2 K1); reflexivity).
  assert (Hlen : (0 =? List.length (an_chords an))%nat = false) by (destruct (an_chords an); [discriminate|reflexivity]).
  split.
  - intros e He. unfold debug_key_sequences. rewrite Hs, (B _ K1), (B _ C1). cbn [bind]. rewrite Hh. cbn [negb]. change (Z.of_nat 0 - 1) with (-1). rewrite Hk. cbn [bind].
    change (Z.of_nat 0) with 0. rewrite Hk0. cbn [bind]. rewrite He. reflexivity.
  - intros change He Hch Hx. cbv zeta. assert (E := sequence_loop_spec argsort mx last_key change c0 Hm Hch (s0 :: states) 0 0 0 0 [] Hx).
    eexists. eexists. unfold debug_key_sequences. rewrite Hs, (B _ K1), (B _ C1). cbn [bind]. rewrite Hh. cbn [negb]. change (Z.of_nat 0 - 1) with (-1). rewrite Hk. cbn [bind].
    change (Z.of_nat 0) with 0. rewrite Hk0. cbn [bind]. rewrite He. cbn [bind]. rewrite Hx0. cbn [bind]. rewrite Z.eqb_refl, Hlen. change (0 - 1) with (-1). rewrite Hc1. cbn [bind].
    rewrite (py_nth_pos (an_chords an) 0 c0) by (solve [lia | exact Hc0]). cbn [bind]. rewrite E. cbn [bind app kc_said kc_total kc_good kc_chord kc_chord_good]. rewrite !Z.add_0_l. reflexivity.
Qed.
Print Assumptions C98_start_refuted.
(* The first chord: its probability, and as its rank the number of chords before it. *)
Theorem C98_first argsort chord relative prior : Permutation (argsort prior) (zrange 0 (zlen prior)) -> 0 <= chord < zlen prior ->
  exists p before_it after_it, nth_error prior (Z.to_nat chord) = Some p /\ argsort prior = before_it ++ chord :: after_it
  /\ debug_initial_chord_prior argsort (chord :: relative) prior = Ok [FirstChord chord p (zlen before_it)].
Proof.
  intros Hp Hc. destruct (py_nth_in_range prior chord Hc) as (p & Ep & Np). destruct (list_index_spec (argsort prior) chord) as (r & Er & Nr & _).
  { apply (Permutation_in chord (Permutation_sym Hp)), in_zrange. lia. }
  destruct (nth_error_split _ _ Nr) as (l1 & l2 & El & HL). exists p, l1, l2. split; [exact Np|]. split; [exact El|].
  unfold debug_initial_chord_prior. change (py_nth (chord :: relative) 0) with (Ok chord). cbn [bind]. rewrite Ep. cbn [bind]. rewrite Er. cbn [bind].
  unfold zlen. rewrite HL. reflexivity.
Qed.
Print Assumptions C98_first.

(* ---- cases ---- *)
Definition ex_sort (l : list Q) : list Z := match l with [a; b] => if Qle_bool b a then [0; 1] else [1; 0] | _ => [0; 1; 2] end.
Example ex_changes : debug_chord_change_probs [1; 0; 2; 1] (Some [0; 1]) [(1 # 2)%Q; (1 # 4)%Q; (9 # 10)%Q; (3 # 4)%Q]
  = Ok [MissedChange 1 (1 # 4)%Q; WrongChange 3 (3 # 4)%Q; Accuracy 0 0 1; Accuracy 1 0 1].
Proof. reflexivity. Qed.
Example ex_classes : debug_chord_classifications (fun c : Z => Ok c) ex_sort 5 (Some ([1; 0; 1], [0; 2; 3])) [(0, 2); (0, 3); (2, 3); (3, 5)]
    [[(1 # 4)%Q; (3 # 4)%Q]; [1%Q; 0%Q]; [(1 # 4)%Q; (3 # 4)%Q]; [1%Q; 0%Q]]
  = Ok [Misclassified 2 3; CorrectChord 0 (1 # 4)%Q 1; TopChord false 0 1 (3 # 4)%Q; TopChord true 1 0 (1 # 4)%Q; Accuracy 2 1 2].
Proof. reflexivity. Qed.
Example ex_scored : Forall (scored (fun c : Z => Ok c) ex_sort [1; 0; 1]) (combine [(0, 2); (2, 3)] [[(1 # 4)%Q; (3 # 4)%Q]; [1%Q; 0%Q]]).
Proof.
  repeat constructor; cbn; try lia; try apply Permutation_refl; try apply perm_swap; intros c Hc; exists c; (split; [reflexivity|]); intuition lia.
Qed.
Example ex_keys : debug_key_transitions (Some (mkAnn [0; 4] [0; 1] [0; 4] [7; 8])) [(9 # 10)%Q] [mkDs 0 8 7 4] = Ok [KeyChangeHere 4; NoStates].
Proof. reflexivity. Qed.
Example ex_next : debug_chord_sequence_priors ex_sort 20 5 (Some (mkAnn [0] [3] [0; 4] [7; 8], [0; 1])) [(mkDs 3 8 7 4, [(1 # 4)%Q; (3 # 4)%Q]); (mkDs 3 9 7 4, [1%Q; 0%Q])]
  = Ok [CorrectChord 1 (3 # 4)%Q 0; CorrectChord 1 0%Q 1; TopChord false 0 0 1%Q; TopChord true 1 1 0%Q; Accuracy 4 1 2].
Proof. reflexivity. Qed.
Example ex_next_out : debug_chord_sequence_priors ex_sort 20 5 (Some (mkAnn [0] [3] [0; 4] [7; 8], [0; 4])) [(mkDs 3 8 7 4, [(1 # 4)%Q; (3 # 4)%Q])] = Raise IndexError.
Proof. reflexivity. Qed.
Example ex_proper : proper (mkAnn [0; 4] [0; 1] [0; 4] [7; 8]).
Proof. unfold proper, from_start. cbn. repeat split; lia. Qed.

Example ex_next_key : debug_key_sequences ex_sort (fun _ k => Ok k) 5 (Some (mkAnn [0; 4] [0; 1] [0; 4] [7; 8]))
    [(mkDs 0 8 7 4, [(1 # 4)%Q; (3 # 4)%Q]); (mkDs 0 9 7 4, [1%Q; 0%Q]); (mkDs 1 8 7 4, [1%Q; 0%Q])]
  = Ok [NextKeyHere 4; KeyState 0 7 9; CorrectKey 1 0%Q 1; TopChord false 0 0 1%Q; TopChord true 1 1 0%Q; Accuracy 5 1 2; Accuracy 6 1 1].
Proof. reflexivity. Qed.
Example ex_first : debug_initial_chord_prior ex_sort [1; 0] [(3 # 4)%Q; (1 # 4)%Q] = Ok [FirstChord 1 (1 # 4)%Q 1].
Proof. reflexivity. Qed.
Example ex_start : debug_key_sequences ex_sort (fun _ k => Ok k) 5 (Some (mkAnn [0; 4] [0; 1] [0; 4] [7; 8])) [(mkDs 1 8 7 0, [1%Q; 0%Q])]
  = Ok [NextKeyHere 0; Accuracy 5 1 1; NoStates].
Proof. reflexivity. Qed.
