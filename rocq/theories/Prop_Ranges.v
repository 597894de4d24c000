(* C25-C28, C54, C55: the chord ranges offered to the search (joint_model.py:652-791).
   min_change <= max_no_change is asserted by the constructor (joint_model.py:287). *)
From Verif Require Import Model_Ranges Spec_Ranges Proof_Base Proof_Ranges.
From Coq Require Import Sorting.Sorted.
Open Scope nat_scope.

Definition r_cfg : range_cfg := {| min_change := 2; max_no_change := 7; max_length := 8 |}.
Definition r_in : range_in := {|
  probs := [0; 5; 5; 9; 1; 4]%Z;
  change_log := [0; -3; -3; -1; -9; -4]%Z; no_change_log := [0; -2; -2; -8; -1; -2]%Z;
  durs := [2; 0; 2; 1; 2; 3]%Z;
  forced_c := [-1; -1; -1; 4; -1; 6]%Z; forced_k := [-1; -1; -1; -1; -1; -1]%Z |}.

(* ---- the ranges offered are exactly the admissible ones; no empty or partial result ---- *)
Theorem C25_succeeds : forall cfg a, well_shaped a -> (min_change cfg <= max_no_change cfg)%Z ->
  probs a <> [] -> exists ranges logs rejoin, get_chord_ranges cfg a = Ok (ranges, logs, rejoin)
    /\ length logs = length ranges /\ length rejoin = length ranges.
Proof.
  intros cfg a H1 H2 H3. destruct (ranges_correct cfg a H1 H2) as (r & l & j & E & HL & _ & _ & Hj).
  - intros H. apply H3, length_zero_iff_nil, H.
  - exists r, l, j. split; [exact E|]. split; [exact HL|]. rewrite Hj. apply map_length.
Qed.
Print Assumptions C25_succeeds.

Theorem C25_empty : forall cfg a, probs a = [] -> get_chord_ranges cfg a = Raise IndexError.
Proof. intros cfg a H. unfold get_chord_ranges. rewrite H. reflexivity. Qed.
Print Assumptions C25_empty.

Theorem C25_tiles : forall cfg a ranges logs rejoin, well_shaped a -> (min_change cfg <= max_no_change cfg)%Z ->
  get_chord_ranges cfg a = Ok (ranges, logs, rejoin) ->
  let n := length (probs a) in
  NoDup ranges
  /\ (forall s e, In (s, e) ranges ->
        s < e <= n
        /\ (s = 0 \/ exists s', In (s', s) ranges)
        /\ (s = 0 \/ nth (s - 1) (durs a) 0%Z <> 0%Z)
        /\ (e = n \/ nth (e - 1) (durs a) 0%Z <> 0%Z))
  /\ (forall l i, (forall r, In r l -> In r ranges) -> chain 0 l n -> i < n ->
        length (filter (fun r => (fst r <=? i) && (i <? snd r)) l) = 1).
Proof.
  intros cfg a ranges logs rejoin H1 H2 E n.
  destruct (ranges_iff cfg a ranges logs rejoin H1 H2 E) as (Hin & Hs & _).
  split; [exact (sorted_nodup ranges Hs)|]. split.
  - intros s e H. apply Hin in H as [Hr Ha]. destruct Ha as (Hse & He & _). split; [exact Hse|].
    split; [|split].
    + inversion Hr as [|s' e' Hr' Ha' Hlt]; subst; [left; reflexivity|right]. exists s'. apply Hin. auto.
    + inversion Hr as [|s' e' Hr' Ha' Hlt]; subst; [left; reflexivity|right].
      destruct Ha' as (_ & Ho & _). apply Ho in Hlt as [[_ Hd] _]. exact Hd.
    + destruct (Nat.eq_dec e n) as [|Hne]; [left; assumption|right].
      destruct (He ltac:(unfold n in *; lia)) as [[_ Hd] _]. exact Hd.
  - intros l i Hl Hc Hi. apply (chain_once 0 l n i); [|exact Hc|lia].
    intros [s e] Hx. apply Hl, Hin in Hx as [_ [Hx _]]. simpl. lia.
Qed.
Print Assumptions C25_tiles.

Example C25_example : well_shaped r_in /\ (min_change r_cfg <= max_no_change r_cfg)%Z
  /\ get_chord_ranges r_cfg r_in
     = Ok ([(0, 1); (0, 3); (1, 3); (3, 5); (3, 6); (5, 6)],
           [-3; -3; -1; -5; -3; 0]%Z, [0; 0; 1; -7; -7; 2]%Z)
  /\ chain 0 [(0, 1); (1, 3); (3, 6)] 6.
Proof.
  split; [repeat split|]. split; [vm_compute; discriminate|]. split; [vm_compute; reflexivity|].
  repeat constructor.
Qed.

(* ---- C26 ---- *)
Theorem C26_exact : forall cfg a ranges logs rejoin, well_shaped a -> (min_change cfg <= max_no_change cfg)%Z ->
  get_chord_ranges cfg a = Ok (ranges, logs, rejoin) ->
  forall s e, In (s, e) ranges <->
    (s = 0 \/ exists s', In (s', s) ranges /\ s < length (probs a)) /\ admissible cfg a s e.
Proof.
  intros cfg a ranges logs rejoin H1 H2 E s e.
  destruct (ranges_iff cfg a ranges logs rejoin H1 H2 E) as (Hin & _). rewrite Hin. split.
  - intros [Hr Ha]. split; [|exact Ha]. inversion Hr as [|s' e' Hr' Ha' Hlt]; subst; [left; reflexivity|right].
    exists s'. split; [apply Hin; auto|exact Hlt].
  - intros [Hr Ha]. split; [|exact Ha]. destruct Hr as [->|(s' & Hs' & Hlt)]; [constructor|].
    apply Hin in Hs' as [Hr' Ha']. exact (reach_step cfg a s' s Hr' Ha' Hlt).
Qed.
Print Assumptions C26_exact.

Theorem C26_not_crossed : forall cfg a ranges logs rejoin, well_shaped a -> (min_change cfg <= max_no_change cfg)%Z ->
  get_chord_ranges cfg a = Ok (ranges, logs, rejoin) -> forall s e, In (s, e) ranges ->
  (forall i, s < i < e -> nth (i - 1) (durs a) 0%Z <> 0%Z -> (nth i (probs a) 0 <= max_no_change cfg)%Z)
  /\ (e < length (probs a) -> (min_change cfg <= nth e (probs a) 0)%Z).
Proof.
  intros cfg a ranges logs rejoin H1 H2 E s e H.
  destruct (ranges_iff cfg a ranges logs rejoin H1 H2 E) as (Hin & _).
  apply Hin in H as [_ (Hse & He & Hno & _)]. split.
  - intros i Hi Hd. apply Z.nlt_ge, (Hno i); [split; [lia|exact Hd]|exact Hi].
  - intros Hlt. exact (proj2 (He Hlt)).
Qed.
Print Assumptions C26_not_crossed.

(* forced changes and non-changes, in the order get_harmony applies them *)
Theorem C26_forced : forall cfg a one ch nch ps ranges logs rejoin,
  well_shaped a -> (min_change cfg <= max_no_change cfg)%Z ->
  (forall i, In i ch -> 0 < i < zlen ps /\ ~ In i nch)%Z -> (forall i, In i nch -> 0 <= i < zlen ps)%Z ->
  apply_forced_chord_changes one ps ch nch = Ok (probs a) ->
  get_chord_ranges cfg a = Ok (ranges, logs, rejoin) -> forall s e, In (s, e) ranges ->
  ((max_no_change cfg < one)%Z -> forall i, In (Z.of_nat i) ch -> nth (i - 1) (durs a) 0%Z <> 0%Z -> ~ (s < i < e))
  /\ ((0 < min_change cfg)%Z -> forall i, In (Z.of_nat i) nch -> e <> i).
Proof.
  intros cfg a one ch nch ps ranges logs rejoin H1 H2 Hch Hnch Ef E s e H.
  destruct (apply_forced_ok one ps ch nch) as (ps' & Ef' & HL & Hv).
  { intros i Hi. apply Hch in Hi. lia. }
  { exact Hnch. }
  rewrite Ef in Ef'. apply Ok_inj in Ef'. subst ps'.
  destruct (C26_not_crossed cfg a ranges logs rejoin H1 H2 E s e H) as [Hc He]. split.
  - intros Hone i Hi Hd Hr. destruct (Hch _ Hi) as [Hb Hni]. unfold zlen in Hb.
    destruct (Hv i ltac:(lia)) as (_ & Hon & _). specialize (Hc i Hr Hd). rewrite (Hon Hi Hni) in Hc. lia.
  - intros Hmin i Hi ->. specialize (Hnch _ Hi). unfold zlen in Hnch.
    destruct (Hv i ltac:(lia)) as (H0 & _). specialize (He ltac:(lia)). rewrite (H0 Hi) in He. lia.
Qed.
Print Assumptions C26_forced.

Example C26_example :
  apply_forced_chord_changes 10 [0; 5; 5; 3; 6; 4]%Z [3]%Z [4]%Z = Ok [0; 5; 5; 10; 0; 4]%Z
  /\ (exists l r, get_chord_ranges r_cfg
        {| probs := [0; 5; 5; 10; 0; 4]%Z; change_log := change_log r_in; no_change_log := no_change_log r_in;
           durs := durs r_in; forced_c := forced_c r_in; forced_k := forced_k r_in |}
      = Ok ([(0, 1); (0, 3); (1, 3); (3, 5); (3, 6); (5, 6)], l, r)).
Proof. split; [vm_compute; reflexivity|]. eexists _, _. vm_compute. reflexivity. Qed.

(* ---- C27 ---- *)
(* Missing for the full claim: the last duration of a range reaching the end of the piece
   is not counted, and the range starting at 0 counts the first duration twice. *)
Theorem C27_length_partial : forall cfg a ranges logs rejoin, well_shaped a -> (min_change cfg <= max_no_change cfg)%Z ->
  (forall d, In d (durs a) -> (0 <= d)%Z) -> (0 <= max_length cfg)%Z ->
  get_chord_ranges cfg a = Ok (ranges, logs, rejoin) -> forall s e, In (s, e) ranges ->
  (e < length (probs a) -> (span a s e <= max_length cfg)%Z)
  /\ (e = length (probs a) -> (span a s (e - 1) <= max_length cfg)%Z).
Proof.
  intros cfg a ranges logs rejoin H1 H2 Hd H0 E s e H.
  destruct (ranges_iff cfg a ranges logs rejoin H1 H2 E) as (Hin & _).
  apply Hin in H as [_ Ha]. destruct (range_length cfg a Hd s e H1 H0 Ha) as [A B].
  split; [exact A|]. intros ->. apply B. reflexivity.
Qed.
Print Assumptions C27_length_partial.

Theorem C27_complete_partial : forall cfg a ranges logs rejoin, well_shaped a -> (min_change cfg <= max_no_change cfg)%Z ->
  (forall d, In d (durs a) -> (0 <= d)%Z) ->
  get_chord_ranges cfg a = Ok (ranges, logs, rejoin) -> forall s' s e,
  In (s', s) ranges -> s < e -> e < length (probs a) ->
  nth (e - 1) (durs a) 0%Z <> 0%Z -> (min_change cfg <= nth e (probs a) 0)%Z ->
  (forall i, s < i < e -> nth (i - 1) (durs a) 0%Z <> 0%Z -> (nth i (probs a) 0 <= max_no_change cfg)%Z) ->
  one_label a (forced_c a) s e -> one_label a (forced_k a) s e ->
  (span a s e <= max_length cfg)%Z -> In (s, e) ranges.
Proof.
  intros cfg a ranges logs rejoin H1 H2 Hd E s' s e Hs' Hse Hen Ho Hmin Hmax Hc Hk Hl.
  apply (C26_exact cfg a ranges logs rejoin H1 H2 E). split; [right; exists s'; split; [exact Hs'|lia]|].
  apply range_length_complete; try assumption.
  - left. apply (C26_exact cfg a ranges logs rejoin H1 H2 E) in Hs' as [_ [Hlt _]]. lia.
  - split; [lia|exact Ho].
  - intros i Hi Hr. apply Z.le_ngt, Hmax; [exact Hr|exact (proj2 Hi)].
Qed.
Print Assumptions C27_complete_partial.

(* a chord longer than the limit is offered when it reaches the end of the piece *)
Theorem C27_end_refuted : exists cfg a ranges logs rejoin, well_shaped a /\ (min_change cfg <= max_no_change cfg)%Z
  /\ get_chord_ranges cfg a = Ok (ranges, logs, rejoin)
  /\ exists s e, In (s, e) ranges /\ (max_length cfg < span a s e)%Z.
Proof.
  exists {| min_change := 2; max_no_change := 7; max_length := 8 |},
    {| probs := [5; 5]%Z; change_log := [0; 0]%Z; no_change_log := [0; 0]%Z; durs := [2; 7]%Z;
       forced_c := [-1; -1]%Z; forced_k := [-1; -1]%Z |}.
  eexists _, _, _. split; [repeat split|]. split; [vm_compute; discriminate|].
  split; [vm_compute; reflexivity|]. exists 0, 2. split; [simpl; auto|]. vm_compute. reflexivity.
Qed.
Print Assumptions C27_end_refuted.

(* an opening chord within the limit is omitted *)
Theorem C27_start_refuted : exists cfg a ranges logs rejoin, well_shaped a /\ (min_change cfg <= max_no_change cfg)%Z
  /\ get_chord_ranges cfg a = Ok (ranges, logs, rejoin)
  /\ (forall i, nth i (forced_c a) (-1)%Z = (-1)%Z) /\ (forall i, nth i (forced_k a) (-1)%Z = (-1)%Z)
  /\ (span a 0 1 <= max_length cfg)%Z /\ nth 0 (durs a) 0%Z <> 0%Z
  /\ (min_change cfg <= nth 1 (probs a) 0 <= max_no_change cfg)%Z /\ ranges = [].
Proof.
  exists {| min_change := 2; max_no_change := 7; max_length := 8 |},
    {| probs := [5; 5]%Z; change_log := [0; 0]%Z; no_change_log := [0; 0]%Z; durs := [5; 1]%Z;
       forced_c := [-1; -1]%Z; forced_k := [-1; -1]%Z |}.
  eexists _, _, _. split; [repeat split|]. split; [vm_compute; discriminate|].
  split; [vm_compute; reflexivity|]. split; [intros [|[|[|i]]]; reflexivity|]. split; [intros [|[|[|i]]]; reflexivity|].
  vm_compute. repeat split; discriminate.
Qed.
Print Assumptions C27_start_refuted.

Example C27_example : (forall d, In d (durs r_in) -> (0 <= d)%Z) /\ (0 <= max_length r_cfg)%Z
  /\ span r_in 3 6 = 6%Z /\ span r_in 0 3 = 4%Z.
Proof.
  split; [intros d H; repeat (destruct H as [<-|H]; [lia|]); contradiction|].
  split; [vm_compute; discriminate|]. split; reflexivity.
Qed.

(* ---- C28 ---- *)
(* Missing for the full claim: labels forced on inputs other than the last one of their
   onset, and on the final onset of the piece, are not compared. *)
Theorem C28_one_label_partial : forall cfg a ranges logs rejoin, well_shaped a -> (min_change cfg <= max_no_change cfg)%Z ->
  get_chord_ranges cfg a = Ok (ranges, logs, rejoin) -> forall s e, In (s, e) ranges ->
  forall forced, forced = forced_c a \/ forced = forced_k a ->
  forall i j, s <= i < e -> s <= j < e ->
    nth i (durs a) 0%Z <> 0%Z -> nth j (durs a) 0%Z <> 0%Z ->       (* last of their onset *)
    S i < length (probs a) -> S j < length (probs a) ->             (* not the final onset *)
    nth i forced (-1)%Z <> (-1)%Z -> nth j forced (-1)%Z <> (-1)%Z ->
    nth i forced (-1)%Z = nth j forced (-1)%Z.
Proof.
  intros cfg a ranges logs rejoin H1 H2 E s e H forced Hf i j Hi Hj Di Dj Li Lj Fi Fj.
  apply (C26_exact cfg a ranges logs rejoin H1 H2 E) in H as [_ (_ & _ & _ & Hc & Hk & _)].
  assert (Ho : one_label a forced s e) by (destruct Hf as [-> | ->]; assumption).
  specialize (Ho (S i) (S j)). replace (S i - 1) with i in Ho by lia. replace (S j - 1) with j in Ho by lia.
  apply Ho; try assumption; try lia; (split; [lia|]); simpl; rewrite Nat.sub_0_r; assumption.
Qed.
Print Assumptions C28_one_label_partial.

(* two inputs with different forced chords end up in one chord *)
Theorem C28_refuted : exists cfg a ranges logs rejoin, well_shaped a /\ (min_change cfg <= max_no_change cfg)%Z
  /\ get_chord_ranges cfg a = Ok (ranges, logs, rejoin)
  /\ exists s e i j, In (s, e) ranges /\ s <= i < e /\ s <= j < e
     /\ nth i (forced_c a) (-1)%Z = 4%Z /\ nth j (forced_c a) (-1)%Z = 6%Z.
Proof.
  exists {| min_change := 2; max_no_change := 7; max_length := 8 |},
    {| probs := [0; 1]%Z; change_log := [0; 0]%Z; no_change_log := [0; 0]%Z; durs := [2; 2]%Z;
       forced_c := [4; 6]%Z; forced_k := [-1; -1]%Z |}.
  eexists _, _, _. split; [repeat split|]. split; [vm_compute; discriminate|].
  split; [vm_compute; reflexivity|]. exists 0, 2, 0, 1. simpl. repeat split; auto.
Qed.
Print Assumptions C28_refuted.

Example C28_example : exists a, well_shaped a
  /\ (exists l r, get_chord_ranges r_cfg a = Ok ([(0, 1); (1, 2); (1, 3); (2, 3)], l, r))
  /\ nth 0 (forced_c a) (-1)%Z = 4%Z /\ nth 1 (forced_c a) (-1)%Z = 6%Z.
Proof.
  exists {| probs := [0; 5; 5]%Z; change_log := [0; 0; 0]%Z; no_change_log := [0; 0; 0]%Z; durs := [2; 2; 1]%Z;
       forced_c := [4; 6; -1]%Z; forced_k := [-1; -1; -1]%Z |}.
  split; [repeat split|]. split; [eexists _, _; vm_compute; reflexivity|]. split; reflexivity.
Qed.

(* ---- C54: the log probability of a segmentation ---- *)
Theorem C54_segmentation_log : forall cfg a ranges logs rejoin, well_shaped a -> (min_change cfg <= max_no_change cfg)%Z ->
  get_chord_ranges cfg a = Ok (ranges, logs, rejoin) ->
  forall (ls : list ((nat * nat) * Z)), (forall x, In x ls -> In x (combine ranges logs)) ->
  chain 0 (map fst ls) (length (probs a)) ->
  zsum (map snd ls)
  = zsum (map (fun i => if Z.eqb (nth (i - 1) (durs a) 0%Z) 0 then 0%Z
                        else if existsb (Nat.eqb i) (map (fun x => snd (fst x)) ls)
                             then nth i (change_log a) 0%Z else nth i (no_change_log a) 0%Z)
              (seq 1 (length (probs a) - 1))).
Proof.
  intros cfg a ranges logs rejoin H1 H2 E ls Hls Hc.
  destruct (ranges_iff cfg a ranges logs rejoin H1 H2 E) as (Hin & _ & _ & Hlog & _).
  assert (Hx : forall x, In x (map fst ls) -> In x ranges).
  { intros x Hx. apply in_map_iff in Hx as ([r l] & <- & Hx). apply Hls in Hx. apply in_combine_l in Hx. exact Hx. }
  assert (Hne : length (probs a) <> 0).
  { intros H0. unfold get_chord_ranges in E. rewrite H0 in E. discriminate. }
  transitivity (zsum (map (fun r => log_of a (fst r) (snd r)) (map fst ls))).
  { rewrite map_map. apply zsum_map_ext. intros [[s e] l] Hl. simpl. apply Hlog, Hls, Hl. }
  rewrite (chain_log a 0 (map fst ls) (length (probs a))); try assumption; try lia.
  - apply zsum_map_ext. intros i Hi. apply in_seq in Hi. unfold term.
    rewrite map_map. unfold onset_atb.
    destruct (Nat.ltb_spec 0 i); [|lia]. destruct (Nat.ltb_spec i (length (probs a))); [|lia]. cbn [andb].
    destruct (nth (i - 1) (durs a) 0 =? 0)%Z; reflexivity.
  - intros [s e] H. apply Hx, Hin in H as [_ [H _]]. exact H.
  - intros [s e] H Hlt. apply Hx, Hin in H as [_ (_ & H & _)]. exact (proj1 (H Hlt)).
Qed.
Print Assumptions C54_segmentation_log.

Example C54_example :
  let ls := [((0, 1), (-3)%Z); ((1, 3), (-1)%Z); ((3, 6), (-3)%Z)] in
  chain 0 (map fst ls) 6 /\ (forall x, In x ls -> In x (combine
     [(0, 1); (0, 3); (1, 3); (3, 5); (3, 6); (5, 6)] [-3; -3; -1; -5; -3; 0]%Z)).
Proof.
  split; [repeat constructor|]. intros x H. repeat (destruct H as [<-|H]; [simpl; tauto|]). contradiction.
Qed.

(* ---- C55: joining two ranges ---- *)
Theorem C55_rejoin_log : forall cfg a ranges logs rejoin, well_shaped a -> (min_change cfg <= max_no_change cfg)%Z ->
  get_chord_ranges cfg a = Ok (ranges, logs, rejoin) ->
  forall s m e l1 l2 l3 j,
    In ((s, m), l1) (combine ranges logs) -> In ((m, e), (l2, j)) (combine ranges (combine logs rejoin)) ->
    In ((s, e), l3) (combine ranges logs) -> (l1 + l2 + j = l3)%Z.
Proof.
  intros cfg a ranges logs rejoin H1 H2 E s m e l1 l2 l3 j I1 I2 I3.
  destruct (ranges_iff cfg a ranges logs rejoin H1 H2 E) as (Hin & _ & HL & Hlog & Hj).
  assert (I2' : In ((m, e), l2) (combine ranges logs) /\ j = (nth m (no_change_log a) 0 - nth m (change_log a) 0)%Z).
  { subst rejoin. clear -I2 HL. revert logs HL I2. induction ranges as [|r rs IH]; intros [|l ls] HL I2; try contradiction.
    simpl in HL. destruct I2 as [I2|I2].
    - injection I2 as -> -> <-. split; [left; reflexivity|reflexivity].
    - destruct (IH ls ltac:(lia) I2) as [A B]. split; [right; exact A|exact B]. }
  destruct I2' as [I2' ->].
  apply Hlog in I1 as L1. apply Hlog in I2' as L2. apply Hlog in I3 as L3. subst l1 l2 l3.
  apply in_combine_l in I1. apply in_combine_l in I2'.
  apply Hin in I1 as [_ (A1 & A2 & _)]. apply Hin in I2' as [_ (B1 & _)].
  rewrite <- (rejoin_log a s m e); [lia|lia|lia|]. apply A2. lia.
Qed.
Print Assumptions C55_rejoin_log.

Example C55_example :
  let r := [(0, 1); (0, 3); (1, 3); (3, 5); (3, 6); (5, 6)] in let l := [-3; -3; -1; -5; -3; 0]%Z in
  In ((0, 1), (-3)%Z) (combine r l) /\ In ((1, 3), ((-1)%Z, 1%Z)) (combine r (combine l [0; 0; 1; -7; -7; 2]%Z))
  /\ In ((0, 3), (-3)%Z) (combine r l).
Proof. simpl. tauto. Qed.
