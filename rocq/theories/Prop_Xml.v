(* C78, C79, C80, C81, C82: pieces read from MusicXML scores and csv labels. *)
From Coq Require Import QArith Qround Lqa String Ascii.
From Verif Require Import PyBase Proof_Base Model_Types Model_Harmony Model_Strings Model_Rhythm Model_Piece Model_Xml
  Spec_Music Spec_Rhythm Spec_Piece Spec_Xml Proof_Transpose Proof_Rhythm Proof_Piece Proof_Keys Proof_Strings Proof_Xml Prop_Piece.
From Coq Require Import List.
Import ListNotations.
Close Scope Q_scope.
Open Scope Z_scope.

(* A score with a pickup of one quarter, a first ending (measure 2) and a change to 3/4. *)
Definition ex_ms : list m21_measure :=
  [mkMM 0 0 (Some (4, 4)) 1; mkMM 1 1 None 4; mkMM 5 2 None 4; mkMM 9 3 None 4; mkMM 13 4 (Some (3, 4)) 3; mkMM 16 5 None 3].
Definition ex_bs : list bracket := [mkBr (Some 1) 2 2; mkBr (Some 2) 3 3].

(* ---- C78 ---- *)
(* When the table can be made. *)
Theorem C78_exists : forall ms bs, (exists t, get_measures ms bs = Ok t) <->
  (2 <= List.length ms)%nat /\ (forall b, In b bs -> br_number b <> None) /\ kept bs ms <> [] /\
  (forall m ts, In m (kept bs ms) -> mm_ts m = Some ts -> fst ts <> 0 /\ snd ts <> 0).
Proof. exact table_exists. Qed.
Print Assumptions C78_exists.

(* One row for each measure that is not only played the first time, in order, each pointing to the
   next; the time signature is the one in force. *)
Theorem C78_rows : forall ms bs t, get_measures ms bs = Ok t ->
  List.length t = List.length (kept bs ms) /\
  forall k x, nth_error t k = Some x ->
    (exists m, nth_error (kept bs ms) k = Some m /\ x_mn x = mm_number m) /\
    m_mc (x_row x) = Z.of_nat k /\
    m_next (x_row x) = (if (S k =? List.length t)%nat then NextNA else NextMc (Z.of_nat (S k))) /\
    x_ts x = in_force (4, 4) (firstn (S k) (kept bs ms)).
Proof.
  intros ms bs t H. split; [exact (proj1 (table_length _ _ _ H))|]. intros k x Hx.
  pose proof (table_row _ _ _ _ _ H Hx) as (m & A & B & C & D & E & _). split; [exists m; split; assumption|]. repeat split; assumption.
Qed.
Print Assumptions C78_rows.

(* Every measure starts when the one before is over ... *)
Theorem C78_consecutive : forall ms bs t k x x', get_measures ms bs = Ok t ->
  nth_error t k = Some x -> nth_error t (S k) = Some x' -> (x_start x' == x_start x + m_dur (x_row x))%Q.
Proof. intros ms bs t k x x' H Hx Hx'. exact (proj1 (table_link _ _ _ _ _ _ H Hx Hx')). Qed.
Print Assumptions C78_consecutive.
(* ... and if the score has no gaps, it lasts as long as in the score, and starts after all the
   earlier rows. *)
Theorem C78_times : forall ms bs t k x m, get_measures ms bs = Ok t -> gapless 0 ms ->
  nth_error t k = Some x -> nth_error (kept bs ms) k = Some m ->
  (m_dur (x_row x) == whole m)%Q /\ (x_start x == total (map whole (firstn k (kept bs ms))))%Q.
Proof.
  intros ms bs t k x m H G Hx Hm. split; [exact (table_duration _ _ _ _ _ _ _ H G Hx Hm)|].
  rewrite (table_start _ _ _ _ _ _ H G Hx). assert (E : (0 / 4 == 0)%Q) by reflexivity. lra.
Qed.
Print Assumptions C78_times.

(* The offset of a measure is where in the bar it starts: it is in the bar, it goes on from the measure
   before (up to whole bars) while the time signature stays, and is zero when that changes. *)
Theorem C78_offsets : forall ms bs t k x, get_measures ms bs = Ok t -> nth_error t k = Some x ->
  ((0 < bar (x_ts x))%Q -> (0 <= m_off (x_row x))%Q /\ (m_off (x_row x) < bar (x_ts x))%Q) /\
  forall x', nth_error t (S k) = Some x' ->
    (x_ts x' = x_ts x -> exists z, (m_off (x_row x') == m_off (x_row x) + m_dur (x_row x) - inject_Z z * bar (x_ts x))%Q) /\
    (x_ts x' <> x_ts x -> (m_off (x_row x') == 0)%Q).
Proof.
  intros ms bs t k x H Hx. split; [pose proof (table_row _ _ _ _ _ H Hx) as (m & _ & _ & _ & _ & _ & _ & B); exact B|].
  intros x' Hx'. exact (proj2 (table_link _ _ _ _ _ _ H Hx Hx')).
Qed.
Print Assumptions C78_offsets.

(* The first measure ends with a bar: a pickup is the end of one. *)
Theorem C78_pickup : forall m0 m1 rest bs t x, get_measures (m0 :: m1 :: rest) bs = Ok t ->
  first_time_only bs m0 = false -> first_time_only bs m1 = false -> nth_error t 0 = Some x ->
  (exists z, (m_off (x_row x) + m_dur (x_row x) == inject_Z z * bar (x_ts x))%Q) /\
  ((0 < m_dur (x_row x))%Q -> (m_dur (x_row x) <= bar (x_ts x))%Q ->
   (m_off (x_row x) == bar (x_ts x) - m_dur (x_row x))%Q).
Proof.
  intros m0 m1 rest bs t x H F0 F1 Hx. destruct (table_pickup _ _ _ _ _ _ H F0 F1 Hx) as (z & Z0).
  split; [exists z; exact Z0|]. intros P L. assert (B : (0 < bar (x_ts x))%Q) by lra.
  destruct (C78_offsets _ _ _ _ _ H Hx) as [R _]. destruct (R B) as [R1 R2].
  assert (E : (inject_Z z * bar (x_ts x) == bar (x_ts x))%Q).
  { destruct (Z.lt_trichotomy z 1) as [C|[->|C]]; [|change (inject_Z 1) with 1%Q; lra|].
    - assert (I0 : (inject_Z z <= 0)%Q) by (change 0%Q with (inject_Z 0); rewrite <- Zle_Qle; lia).
      exfalso. set (q := inject_Z z) in *. nra.
    - assert (I0 : (2 <= inject_Z z)%Q) by (change 2%Q with (inject_Z 2); rewrite <- Zle_Qle; lia).
      exfalso. set (q := inject_Z z) in *. nra. }
  lra.
Qed.
Print Assumptions C78_pickup.

(* After a full bar comes a downbeat. *)
Theorem C78_downbeats : forall ms bs t k x x', get_measures ms bs = Ok t ->
  nth_error t k = Some x -> nth_error t (S k) = Some x' -> (0 < bar (x_ts x))%Q -> (0 < bar (x_ts x'))%Q ->
  (exists z, (m_off (x_row x) + m_dur (x_row x) == inject_Z z * bar (x_ts x))%Q) -> (m_off (x_row x') == 0)%Q.
Proof.
  intros ms bs t k x x' H Hx Hx' B B' (z & Z0). destruct (C78_offsets _ _ _ _ _ H Hx) as [_ R].
  destruct (R x' Hx') as [R1 R2].
  destruct (Z.eq_dec (fst (x_ts x')) (fst (x_ts x))) as [E1|N]; [|apply R2; congruence].
  destruct (Z.eq_dec (snd (x_ts x')) (snd (x_ts x))) as [E2|N]; [|apply R2; congruence].
  assert (E : x_ts x' = x_ts x) by (destruct (x_ts x), (x_ts x'); cbn in *; congruence).
  destruct (R1 E) as (w & W). destruct (C78_offsets _ _ _ _ _ H Hx') as [Bd _]. destruct (Bd B') as [B1 B2]. rewrite E in *.
  assert (X : (m_off (x_row x') == inject_Z (z - w) * bar (x_ts x))%Q).
  { unfold Z.sub. rewrite inject_Z_plus, inject_Z_opp. lra. }
  destruct (Z.lt_trichotomy (z - w) 0) as [C|[C|C]].
  - assert (I0 : (inject_Z (z - w) <= -1)%Q) by (change (-1)%Q with (inject_Z (-1)); rewrite <- Zle_Qle; lia).
    exfalso. set (q := inject_Z (z - w)) in *. nra.
  - rewrite C in X. change (inject_Z 0) with 0%Q in X. lra.
  - assert (I0 : (1 <= inject_Z (z - w))%Q) by (change 1%Q with (inject_Z 1); rewrite <- Zle_Qle; lia).
    exfalso. set (q := inject_Z (z - w)) in *. nra.
Qed.
Print Assumptions C78_downbeats.

(* The rows form one path from the first to the last, and the start column is its clock: the theorems
   about distances (C23) hold for these tables. *)
Theorem C78_playable : forall ms bs t, get_measures ms bs = Ok t ->
  unique_mcs (measures_of t) /\ forward (measures_of t) /\ clock (measures_of t) (start_of t) /\
  forall mc, In mc (map m_mc (measures_of t)) -> plays_to (measures_of t) 0 mc.
Proof.
  intros ms bs t H. split; [exact (table_unique _ _ _ H)|]. split; [exact (table_forward _ _ _ H)|].
  split; [exact (table_clock _ _ _ H)|]. intros mc I. rewrite (table_mcs _ _ _ H) in I. apply in_map_iff in I.
  destruct I as (k & <- & I). apply in_seq in I. apply (table_plays _ _ _ _ H). lia.
Qed.
Print Assumptions C78_playable.

(* A score of one measure cannot be read, nor one with a bracket over two endings. *)
Theorem C78_single_refuted : forall m bs, get_measures [m] bs = Raise IndexError.
Proof. reflexivity. Qed.
Print Assumptions C78_single_refuted.
Theorem C78_brackets_refuted : forall m0 m1 rest first last bs,
  get_measures (m0 :: m1 :: rest) (mkBr None first last :: bs) = Raise ValueError.
Proof. reflexivity. Qed.
Print Assumptions C78_brackets_refuted.

Example C78_ex : gapless 0 ex_ms /\
  match get_measures ex_ms ex_bs with
  | Ok t => map (fun x => (x_mn x, x_ts x, Qred (x_start x), Qred (m_dur (x_row x)), Qred (m_off (x_row x)), m_next (x_row x))) t =
      [(0, (4, 4), 0%Q, (1#4)%Q, (3#4)%Q, NextMc 1); (1, (4, 4), (1#4)%Q, 1%Q, 0%Q, NextMc 2);
       (3, (4, 4), (5#4)%Q, 1%Q, 0%Q, NextMc 3); (4, (3, 4), (9#4)%Q, (3#4)%Q, 0%Q, NextMc 4);
       (5, (3, 4), 3%Q, (3#4)%Q, 0%Q, NextNA)]
  | _ => False
  end.
Proof. split; [cbn; repeat split|vm_compute; reflexivity]. Qed.

(* ---- C79 ---- *)
(* A label is put where its times are; it lasts from its start to its end. *)
Theorem C79_times : forall ms bs t pt on off r c, get_measures ms bs = Ok t -> chord_from_csv t pt on off r = Ok c ->
  at_time (measures_of t) (start_of t) (pc_on c) on /\ at_time (measures_of t) (start_of t) (pc_off c) off /\
  (pc_dur c == off - on)%Q /\
  exists d, get_range_length (pc_on c) (pc_off c) (measures_of t) = Ok d /\ (d == off - on)%Q.
Proof.
  intros ms bs t pt on off r c H Hc. apply chord_from_csv_inv in Hc.
  destruct Hc as (key & ty & i & root & bass & m1 & b1 & m2 & b2 & _ & _ & _ & _ & _ & P1 & P2 & O1 & O2 & D & _).
  apply position_inv in P1, P2. destruct P1 as (k1 & K1 & _ & _ & E1), P2 as (k2 & K2 & _ & _ & E2).
  pose proof (table_row _ _ _ _ _ H K1) as (_ & _ & _ & M1 & _). pose proof (table_row _ _ _ _ _ H K2) as (_ & _ & _ & M2 & _).
  rewrite M1 in O1. rewrite M2 in O2. rewrite O1, O2.
  assert (A1 : at_time (measures_of t) (start_of t) (Z.of_nat k1, b1) on).
  { destruct (table_at _ _ _ _ _ b1 H K1) as (m & R & T). exists m. split; [exact R|].
    cbn [fst snd] in *. rewrite <- T, E1. lra. }
  assert (A2 : at_time (measures_of t) (start_of t) (Z.of_nat k2, b2) off).
  { destruct (table_at _ _ _ _ _ b2 H K2) as (m & R & T). exists m. split; [exact R|].
    cbn [fst snd] in *. rewrite <- T, E2. lra. }
  split; [exact A1|]. split; [exact A2|]. split; [rewrite D; reflexivity|].
  destruct (table_distance _ _ _ _ _ _ _ b1 b2 H K1 K2) as (d & Ed & D'). exists d. split; [exact Ed|].
  rewrite D', E1, E2. lra.
Qed.
Print Assumptions C79_times.

(* It is in the measure that is playing then: within it, if before the end of the piece. *)
Theorem C79_within : forall ms bs t pt on off r c last, get_measures ms bs = Ok t -> chord_from_csv t pt on off r = Ok c ->
  nth_error t (List.length t - 1) = Some last ->
  ((on < x_start last + m_dur (x_row last))%Q -> within (measures_of t) (pc_on c)) /\
  ((off < x_start last + m_dur (x_row last))%Q -> within (measures_of t) (pc_off c)).
Proof.
  intros ms bs t pt on off r c last H Hc Hl. apply chord_from_csv_inv in Hc.
  destruct Hc as (key & ty & i & root & bass & m1 & b1 & m2 & b2 & _ & _ & _ & _ & _ & P1 & P2 & O1 & O2 & D & _).
  assert (X : forall x m b, position_of t x = Ok (m, b) -> (x < x_start last + m_dur (x_row last))%Q ->
     within (measures_of t) (m_mc (x_row m), b)).
  { intros x m b P L. apply position_inv in P. destruct P as (k & K & S1 & N & ->).
    exists (x_row m). split; [split; [apply in_map; eapply nth_error_In; exact K|reflexivity]|]. cbn [snd]. split; [lra|].
    assert (Lk : (k < List.length t)%nat) by (apply nth_error_Some; congruence).
    destruct (nth_error t (S k)) as [m'|] eqn:K'.
    - pose proof (proj1 (table_link _ _ _ _ _ _ H K K')). pose proof (N (S k) m' ltac:(lia) K'). lra.
    - apply nth_error_None in K'. replace (List.length t - 1)%nat with k in Hl by lia. assert (last = m) by congruence. subst last. lra. }
  rewrite O1, O2. split; intros L; eapply X; eauto.
Qed.
Print Assumptions C79_within.

(* Times and positions are in the same order. *)
Theorem C79_order : forall ms bs t pt on off r c on' off' r' c', get_measures ms bs = Ok t ->
  chord_from_csv t pt on off r = Ok c -> chord_from_csv t pt on' off' r' = Ok c' ->
  ((on < on')%Q <-> before (pc_on c) (pc_on c')) /\ ((on == on')%Q <-> same_pos (pc_on c) (pc_on c')) /\
  ((off < on')%Q <-> before (pc_off c) (pc_on c')) /\ ((off == on')%Q <-> same_pos (pc_off c) (pc_on c')).
Proof.
  intros ms bs t pt on off r c on' off' r' c' H Hc Hc'. apply chord_from_csv_inv in Hc, Hc'.
  destruct Hc as (key & ty & i & root & bass & m1 & b1 & m2 & b2 & _ & _ & _ & _ & _ & P1 & P2 & O1 & O2 & _).
  destruct Hc' as (key' & ty' & i' & root' & bass' & m1' & b1' & m2' & b2' & _ & _ & _ & _ & _ & P1' & _ & O1' & _).
  assert (X : forall x m b y m' b', position_of t x = Ok (m, b) -> position_of t y = Ok (m', b') ->
     ((x < y)%Q <-> before (m_mc (x_row m), b) (m_mc (x_row m'), b')) /\
     ((x == y)%Q <-> same_pos (m_mc (x_row m), b) (m_mc (x_row m'), b'))).
  { intros x m b y m' b' Px Py. apply position_inv in Px, Py.
    destruct Px as (k & K & S1 & N & E), Py as (k' & K' & S1' & N' & E').
    pose proof (table_row _ _ _ _ _ H K) as (_ & _ & _ & M & _). pose proof (table_row _ _ _ _ _ H K') as (_ & _ & _ & M' & _).
    rewrite M, M'. unfold before, same_pos. cbn [fst snd].
    assert (Up : (x <= y)%Q -> (k < k')%nat \/ k = k' /\ (b' == b + (y - x))%Q).
    { intros L. exact (position_order t x y m b m' b' k k' L K S1 N K' S1' N' E E'). }
    assert (Dn : (y <= x)%Q -> (k' < k)%nat \/ k' = k /\ (b == b' + (x - y))%Q).
    { intros L. exact (position_order t y x m' b' m b k' k L K' S1' N' K S1 N E' E). }
    assert (Eq : (x == y)%Q -> k = k' /\ (b == b')%Q).
    { intros L. destruct (Up ltac:(lra)) as [C|[C D]]; destruct (Dn ltac:(lra)) as [C'|[C' D']]; try lia. split; [exact C|lra]. }
    split.
    - split.
      + intros L. destruct (Up ltac:(lra)) as [C|[C D]]; [left; lia|right]. split; [lia|lra].
      + intros B. apply Qnot_le_lt. intros L. destruct (Dn L) as [C|[C D]]; [lia|]. destruct B as [B|[_ B]]; [lia|lra].
    - split.
      + intros L. destruct (Eq L) as [-> Eb]. split; [reflexivity|exact Eb].
      + intros [Z1 B]. destruct (Q_dec x y) as [[L|L]|L]; [| |exact L].
        * destruct (Up ltac:(lra)) as [C|[C D]]; [lia|lra].
        * destruct (Dn ltac:(lra)) as [C|[C D]]; [lia|lra]. }
  rewrite O1, O2, O1'. destruct (X _ _ _ _ _ _ P1 P1') as [X1 X2]. destruct (X _ _ _ _ _ _ P2 P1') as [X3 X4].
  split; [exact X1|]. split; [exact X2|]. split; [exact X3|exact X4].
Qed.
Print Assumptions C79_order.

(* The metrical level of a label says whether it starts on a downbeat. *)
Theorem C79_levels : forall ms bs t pt on off r c, get_measures ms bs = Ok t -> chord_from_csv t pt on off r = Ok c ->
  exists x y, row_of (measures_of t) (fst (pc_on c)) (x_row x) /\ row_of (measures_of t) (fst (pc_off c)) (x_row y) /\ In x t /\ In y t /\
    0 <= pc_on_level c <= 3 /\ 0 <= pc_off_level c <= 3 /\
    (pc_on_level c = 3 <-> multiple (snd (pc_on c)) (bar (x_ts x))) /\
    (pc_off_level c = 3 <-> multiple (snd (pc_off c)) (bar (x_ts y))).
Proof.
  intros ms bs t pt on off r c H Hc. apply chord_from_csv_inv in Hc.
  destruct Hc as (key & ty & i & root & bass & m1 & b1 & m2 & b2 & _ & _ & _ & _ & _ & P1 & P2 & O1 & O2 & _ & _ & L1 & L2 & _).
  apply position_inv in P1, P2. destruct P1 as (k1 & K1 & _), P2 as (k2 & K2 & _).
  exists m1, m2. rewrite O1, O2. cbn [fst snd].
  assert (I1 : In m1 t) by (eapply nth_error_In; exact K1). assert (I2 : In m2 t) by (eapply nth_error_In; exact K2).
  split; [split; [now apply in_map|reflexivity]|]. split; [split; [now apply in_map|reflexivity]|]. split; [exact I1|]. split; [exact I2|].
  pose proof (table_row _ _ _ _ _ H K1) as (_ & _ & _ & _ & _ & _ & B1 & _). pose proof (table_row _ _ _ _ _ H K2) as (_ & _ & _ & _ & _ & _ & B2 & _).
  apply bar_nonzero in B1, B2. unfold bar. destruct (x_ts m1) as [n1 d1], (x_ts m2) as [n2 d2]. destruct B1 as [B1 B1'], B2 as [B2 B2'].
  cbn [fst snd] in *. destruct (level_spec n1 d1 b1 B1 B1') as (l1 & E1 & R1 & T1 & _).
  destruct (level_spec n2 d2 b2 B2 B2') as (l2 & E2 & R2 & T2 & _).
  rewrite L1 in E1. rewrite L2 in E2. apply Ok_inj in E1, E2. rewrite E1, E2. repeat split; try lia; apply T1 || apply T2.
Qed.
Print Assumptions C79_levels.

(* Labels from D major: the pickup, two beats of measure 1, measure 3 from its second beat. *)
Definition lab_row on off key deg ty inv := mkRow on off (list_ascii_of_string key) (list_ascii_of_string deg) (list_ascii_of_string ty) inv.
Definition ex_rows : list csv_row :=
  [lab_row (-1) 0 "D" "1" "M" 0; lab_row 0 1 "D" "1+" "M" 0; lab_row 1 3 "D" "5" "D7" 1; lab_row 3 3 "D" "1" "M" 0;
   lab_row 3 6 "D" "4/5" "M" 2; lab_row 6 (15#2) "b" "7" "d7" 5; lab_row (15#2) 12 "b" "-2" "M" 1].
Example C79_ex :
  match get_measures ex_ms ex_bs with
  | Ok t => match chord_from_csv t TPC (3#2) (15#8) (nth 6 ex_rows (lab_row 0 0 "" "" "" 0)) with
            | Ok c => fst (pc_on c) = 2 /\ Qred (snd (pc_on c)) = (1#4)%Q /\ fst (pc_off c) = 2 /\ Qred (snd (pc_off c)) = (5#8)%Q /\
                      Qred (pc_dur c) = (3#8)%Q /\ pc_on_level c = 2 /\ pc_off_level c = 1
            | _ => False
            end
  | _ => False
  end.
Proof. vm_compute. repeat split; reflexivity. Qed.

(* ---- C80 ---- *)
(* Every note of a measure that is in the table is read, once, in order, and is placed in the first
   row with the measure's number. *)
Theorem C80_notes : forall ms bs t score ns, get_measures ms bs = Ok t -> get_notes t score = Ok ns ->
  exists parts, map fst ns = concat parts /\
    Forall2 (fun part notes =>
      (forall x, In x t -> x_mn x <> fst part) /\ notes = [] \/
      exists k, first_row t (fst part) k /\
        Forall2 (fun ip n => note_of t k (fst ip) (snd ip) n) (pitches_of (snd part)) notes) score parts.
Proof.
  intros ms bs t score ns H Hn. unfold get_notes in Hn. apply bind_ok in Hn. destruct Hn as (ls & Hl & Hn).
  apply Ok_inj in Hn. subst ns. apply mapM_ok in Hl. exists (map (map fst) ls). split; [now rewrite concat_map|].
  induction Hl as [|[number items] l score ls Hp F IH]; [constructor|]. cbn [map]. constructor; [|exact IH]. cbn [fst snd].
  destruct (find (fun x => x_mn x =? number) t) as [x|] eqn:Fx.
  - right. apply bind_ok in Hp. destruct Hp as (l2 & Hp & E). apply Ok_inj in E. subst l.
    assert (K : exists k, nth_error t k = Some x /\ forall j y, (j < k)%nat -> nth_error t j = Some y -> x_mn y <> number).
    { clear -Fx. induction t as [|y t IH]; [discriminate Fx|]. cbn in Fx. destruct (Z.eqb_spec (x_mn y) number) as [E|N].
      - injection Fx as <-. exists 0%nat. split; [reflexivity|]. intros; lia.
      - destruct (IH Fx) as (k & K & N'). exists (S k). split; [exact K|]. intros [|j] z L0 Hz; cbn in Hz.
        + injection Hz as <-. exact N.
        + apply (N' j); [lia|exact Hz]. }
    destruct K as (k & K & N). pose proof (find_some _ _ Fx) as [_ Ex]. apply Z.eqb_eq in Ex.
    exists k. split; [exists x; split; [exact K|split; [exact Ex|exact N]]|].
    pose proof (table_row _ _ _ _ _ H K) as (_ & _ & _ & M & _). rewrite M in Hp. apply mapM_ok in Hp.
    clear IH F. unfold pitches_of. induction Hp as [|it l items l2 Hi Hp IH]; [constructor|].
    cbn [concat flat_map]. rewrite map_app. apply Forall2_app; [|exact IH]. apply mapM_ok in Hi. clear IH Hp.
    induction Hi as [|p [n mo] ps l Hn Hi IH]; [constructor|]. cbn [map]. constructor; [|exact IH]. cbn [fst snd].
    pose proof (note_inv _ _ _ _ _ _ _ _ _ _ H K Hn) as (k' & m' & tmp & _ & _ & _ & _ & _ & O & D & _ & _ & _ & P & Oc & Pt & _).
    exists x. split; [exact K|]. split; [exact Pt|]. split; [rewrite O; split; [reflexivity|cbn; lra]|]. split; [rewrite D; reflexivity|].
    split; [exact Oc|]. intros c v sh fl En Ec. rewrite En, (m21_name_read c v sh fl Ec) in P. cbn zeta in P.
    destruct ((0 <=? _) && _) in P; [|discriminate P]. apply Ok_inj in P. lia.
  - left. apply Ok_inj in Hp. subst l. split; [|reflexivity]. intros x I E. pose proof (find_none _ _ Fx x I) as X. cbn in X. lia.
Qed.
Print Assumptions C80_notes.

(* The notes can be read if the names of those in the table can. *)
Theorem C80_exists : forall ms bs t score, get_measures ms bs = Ok t ->
  (forall number items it p, In (number, items) score -> In it items -> In p (it_pitches it) ->
     (exists x, In x t /\ x_mn x = number) ->
     exists c v sh fl, fst p = m21_name c sh fl /\ letter_fifths c = Some v /\ 0 <= 15 + v + 7 * (Z.of_nat sh - Z.of_nat fl) < 35) ->
  exists ns, get_notes t score = Ok ns.
Proof.
  intros ms bs t score H P. unfold get_notes.
  assert (X : forall {A B} (f : A -> res B) l, (forall x, In x l -> exists y, f x = Ok y) -> exists ys, mapM f l = Ok ys).
  { intros A B f l. induction l as [|x l IH]; intros T; [exists []; reflexivity|]. cbn.
    destruct (T x (or_introl eq_refl)) as (y & ->). destruct (IH (fun z I => T z (or_intror I))) as (ys & ->). eexists. reflexivity. }
  destruct (X _ _ (fun mi => let (number, items) := mi : Z * list m21_item in
      match find (fun x => x_mn x =? number) t with
      | None => Ok []
      | Some x =>
          let! l := mapM (fun it => mapM (note_from_music21 t (m_mc (x_row x)) TPC it) (it_pitches it)) items in
          Ok (concat l)
      end) score) as (ls & E).
  - intros [number items] I. destruct (find (fun x => x_mn x =? number) t) as [x|] eqn:Fx; [|eexists; reflexivity].
    pose proof (find_some _ _ Fx) as [Ix Ex]. apply Z.eqb_eq in Ex.
    destruct (X _ _ (fun it => mapM (note_from_music21 t (m_mc (x_row x)) TPC it) (it_pitches it)) items) as (l & El).
    + intros it Ii. apply X. intros p Ip.
      destruct (P number items it p I Ii Ip (ex_intro _ x (conj Ix Ex))) as (c & v & sh & fl & En & Ec & R).
      destruct (table_in _ _ _ _ H Ix) as (k & K & ->).
      apply (note_total _ _ _ _ _ _ _ _ (15 + v + 7 * (Z.of_nat sh - Z.of_nat fl)) H K).
      rewrite En, (m21_name_read c v sh fl Ec). cbn zeta.
      replace ((0 <=? _) && _) with true by (symmetry; apply andb_true_iff; lia). reflexivity.
    + rewrite El. eexists. reflexivity.
  - rewrite E. eexists. reflexivity.
Qed.
Print Assumptions C80_exists.

(* The levels of a note's positions say whether they are downbeats. *)
Theorem C80_levels : forall ms bs t k m it p n mo, get_measures ms bs = Ok t -> nth_error t k = Some m ->
  note_from_music21 t (Z.of_nat k) TPC it p = Ok (n, mo) ->
  exists y, row_of (measures_of t) (fst (no_off n)) (x_row y) /\ In y t /\
    0 <= no_on_level n <= 3 /\ 0 <= no_off_level n <= 3 /\
    (no_on_level n = 3 <-> multiple (snd (no_on n)) (bar (x_ts m))) /\
    (no_off_level n = 3 <-> multiple (snd (no_off n)) (bar (x_ts y))) /\
    (mo == it_offset it / 4)%Q.
Proof.
  intros ms bs t k m it p n mo H Hm Hn.
  pose proof (note_inv _ _ _ _ _ _ _ _ _ _ H Hm Hn) as (k' & m' & tmp & _ & Hm' & _ & _ & _ & O & _ & Of & L1 & L2 & _ & _ & _ & Mo).
  pose proof (table_row _ _ _ _ _ H Hm) as (_ & _ & _ & _ & _ & _ & B1 & _).
  pose proof (table_row _ _ _ _ _ H Hm') as (_ & _ & _ & M' & _ & _ & B2 & _).
  assert (I' : In m' t) by (eapply nth_error_In; exact Hm').
  exists m'. rewrite O, Of. cbn [fst snd]. split; [split; [apply in_map; exact I'|exact M']|]. split; [exact I'|].
  apply bar_nonzero in B1, B2. unfold bar. destruct (x_ts m) as [n1 d1], (x_ts m') as [n2 d2]. destruct B1 as [B1 B1'], B2 as [B2 B2'].
  cbn [fst snd] in *. destruct (level_spec n1 d1 (it_offset it / 4 + m_off (x_row m)) B1 B1') as (l1 & E1 & R1 & T1 & _).
  destruct (level_spec n2 d2 (tmp + m_off (x_row m') + m_off (x_row m')) B2 B2') as (l2 & E2 & R2 & T2 & _).
  rewrite L1 in E1. rewrite L2 in E2. apply Ok_inj in E1, E2. rewrite E1, E2.
  split; [lia|]. split; [lia|]. split; [apply T1|]. split; [apply T2|]. rewrite Mo. lra.
Qed.
Print Assumptions C80_levels.

(* The positions of a note are as far apart as it is long, up to the offsets of the two measures. *)
Theorem C80_length_partial : forall ms bs t k m it p n mo, get_measures ms bs = Ok t -> nth_error t k = Some m ->
  note_from_music21 t (Z.of_nat k) TPC it p = Ok (n, mo) ->
  exists k' m' d, (k <= k')%nat /\ nth_error t k' = Some m' /\ fst (no_off n) = Z.of_nat k' /\
    get_range_length (no_on n) (no_off n) (measures_of t) = Ok d /\
    (d == no_dur n + m_off (x_row m') - m_off (x_row m))%Q /\
    (* ... so exactly if they start at the same place in the bar *)
    ((m_off (x_row m') == m_off (x_row m))%Q -> (d == no_dur n)%Q) /\
    (* and, if they start with the bar, within the measure, unless it is the last *)
    ((m_off (x_row m) == 0)%Q -> (m_off (x_row m') == 0)%Q -> (S k' < List.length t)%nat ->
     (snd (no_off n) < m_dur (x_row m'))%Q).
Proof.
  intros ms bs t k m it p n mo H Hm Hn.
  pose proof (note_inv _ _ _ _ _ _ _ _ _ _ H Hm Hn) as (k' & m' & tmp & Lk & Hm' & T & F & J & O & D & Of & _).
  destruct (table_distance _ _ _ _ _ _ _ (it_offset it / 4 + m_off (x_row m)) (tmp + m_off (x_row m') + m_off (x_row m')) H Hm Hm') as (d & E & Ed).
  exists k', m', d. rewrite O, Of. split; [exact Lk|]. split; [exact Hm'|]. split; [reflexivity|]. split; [exact E|].
  assert (Q0 : (d == no_dur n + m_off (x_row m') - m_off (x_row m))%Q) by (rewrite Ed, T, D; ring).
  split; [exact Q0|]. split; [intros; lra|]. intros Z1 Z2 Lt. cbn [snd]. destruct F as [F|F]; [lra|lia].
Qed.
Print Assumptions C80_length_partial.

(* Tied out of a pickup, a whole note ends after a quarter. *)
Theorem C80_pickup_refuted : exists t n mo d, get_measures ex_ms ex_bs = Ok t /\
  note_from_music21 t 0 TPC (mkItem 0 4 [(L"C", 4)]) (L"C", 4) = Ok (n, mo) /\
  (no_dur n == 1)%Q /\ get_range_length (no_on n) (no_off n) (measures_of t) = Ok d /\ (d == 1 # 4)%Q.
Proof. do 4 eexists. split; [vm_compute; reflexivity|]. split; [vm_compute; reflexivity|]. split; [reflexivity|]. split; [vm_compute; reflexivity|reflexivity]. Qed.
Print Assumptions C80_pickup_refuted.

(* Measures with the same number (a pickup in the middle of a piece, a second movement): the notes of
   the later one are placed in the earlier one. *)
Theorem C80_numbers_refuted : exists t n mo,
  get_measures [mkMM 0 1 (Some (2, 4)) 2; mkMM 2 2 None 2; mkMM 4 1 None 2] [] = Ok t /\
  get_notes t [(1, []); (2, []); (1, [mkItem 1 1 [(L"C", 4)]])] = Ok [(n, mo)] /\
  map x_mn t = [1; 2; 1] /\ fst (no_on n) = 0.
Proof. do 3 eexists. split; [vm_compute; reflexivity|]. split; [vm_compute; reflexivity|]. split; reflexivity. Qed.
Print Assumptions C80_numbers_refuted.

(* Notes and labels agree: what starts at the same time in the score has the same position. *)
Theorem C80_labels : forall ms bs t k m it p n mo pt on off r c, get_measures ms bs = Ok t -> nth_error t k = Some m ->
  note_from_music21 t (Z.of_nat k) TPC it p = Ok (n, mo) -> chord_from_csv t pt on off r = Ok c ->
  (forall x, In x t -> (0 <= m_dur (x_row x))%Q) ->
  (0 <= it_offset it / 4)%Q -> (it_offset it / 4 < m_dur (x_row m))%Q ->
  (before (no_on n) (pc_on c) <-> (x_start m + it_offset it / 4 < on)%Q) /\
  (same_pos (no_on n) (pc_on c) <-> (x_start m + it_offset it / 4 == on)%Q).
Proof.
  intros ms bs t k m it p n mo pt on off r c H Hm Hn Hc Nd P0 P1.
  pose proof (note_inv _ _ _ _ _ _ _ _ _ _ H Hm Hn) as (k' & m' & tmp & _ & _ & _ & _ & _ & O & _).
  apply chord_from_csv_inv in Hc.
  destruct Hc as (key & ty & i & root & bass & m1 & b1 & m2 & b2 & _ & _ & _ & _ & _ & Pp & _ & O1 & _).
  apply position_inv in Pp. destruct Pp as (j & K & S1 & N & E).
  pose proof (table_row _ _ _ _ _ H K) as (_ & _ & _ & M & _). rewrite O, O1, M. unfold before, same_pos. cbn [fst snd].
  set (s := (it_offset it / 4)%Q) in *.
  (* starts do not go back *)
  assert (Mono : forall d i0 x y, nth_error t i0 = Some x -> nth_error t (i0 + S d) = Some y -> (x_start x + m_dur (x_row x) <= x_start y)%Q).
  { induction d as [|d IH]; intros i0 x y Hx Hy.
    - rewrite Nat.add_1_r in Hy. pose proof (proj1 (table_link _ _ _ _ _ _ H Hx Hy)). lra.
    - destruct (nth_error t (i0 + S d)) as [z|] eqn:Hz.
      2: { apply nth_error_None in Hz. assert (i0 + S (S d) < List.length t)%nat by (apply nth_error_Some; congruence). lia. }
      pose proof (IH _ _ _ Hx Hz). replace (i0 + S (S d))%nat with (S (i0 + S d)) in Hy by lia.
      pose proof (proj1 (table_link _ _ _ _ _ _ H Hz Hy)). pose proof (Nd z (nth_error_In _ _ Hz)). lra. }
  destruct (Nat.lt_trichotomy k j) as [C|[C|C]].
  - assert (X : (x_start m + m_dur (x_row m) <= x_start m1)%Q).
    { apply (Mono (j - k - 1)%nat k); [exact Hm|]. replace (k + S (j - k - 1))%nat with j by lia. exact K. }
    split; split; intros Y; [lra|left; lia|destruct Y; lia|lra].
  - subst j. assert (m1 = m) by congruence. subst m1. split; split; intros Y.
    + destruct Y as [Y|[_ Y]]; [lia|]. rewrite E in Y. lra.
    + right. split; [lia|]. rewrite E. lra.
    + destruct Y as [_ Y]. rewrite E in Y. lra.
    + split; [lia|]. rewrite E. lra.
  - pose proof (N k m C Hm) as X. split; split; intros Y; [destruct Y as [Y|[Y _]]; lia|lra|destruct Y; lia|lra].
Qed.
Print Assumptions C80_labels.

Example C80_ex :
  match get_measures ex_ms ex_bs with
  | Ok t => match get_notes t [(0, [mkItem 0 1 [(L"A", 4)]]); (1, [mkItem 0 2 [(L"D", 4); (L"F#", 4)]]); (2, [mkItem 0 4 [(L"C", 4)]]);
                               (3, [mkItem 1 5 [(L"B-", 4)]])] with
            | Ok ns => map (fun x => let n := fst x in (no_pitch n, no_octave n, fst (no_on n), Qred (snd (no_on n)), fst (no_off n), Qred (snd (no_off n)))) ns =
                [(18, 4, 0, (3#4)%Q, 0, 1%Q); (17, 4, 1, 0%Q, 1, (1#2)%Q); (21, 4, 1, 0%Q, 1, (1#2)%Q); (13, 4, 2, (1#4)%Q, 3, (1#2)%Q)]
            | _ => False
            end
  | _ => False
  end.
Proof. vm_compute. reflexivity. Qed.

(* ---- C81 ---- *)
Lemma clean_used : forall rows, clean_labels rows = map (fun r => drop_plus (whole_notes r)) (filter label_used rows).
Proof.
  unfold clean_labels. induction rows as [|r rows IH]; [reflexivity|]. cbn [map filter].
  assert (E : usable (whole_notes r) = label_used r).
  { unfold usable, label_used, whole_notes. cbn [r_on r_off].
    assert (Q1 : (r_on r == 4 * (r_on r / 4))%Q) by field. assert (Q2 : (r_off r == 4 * (r_off r / 4))%Q) by field.
    set (on4 := (r_on r / 4)%Q) in *. set (off4 := (r_off r / 4)%Q) in *.
    assert (A : Qle_bool 0 on4 = Qle_bool 0 (r_on r)).
    { apply eq_true_iff_eq. rewrite !Qle_bool_iff. split; intros X; lra. }
    assert (B : Qle_bool off4 on4 = Qle_bool (r_off r) (r_on r)).
    { apply eq_true_iff_eq. rewrite !Qle_bool_iff. split; intros X; lra. }
    rewrite A, B. destruct (Qle_bool 0 (r_on r)) eqn:C; [|reflexivity].
    destruct (Qle_bool (r_off r) (r_on r)) eqn:D; [now rewrite andb_false_r|].
    apply Qle_bool_iff in C. apply Qle_bool_false in D. destruct (Qle_bool off4 0) eqn:F; [|reflexivity].
    apply Qle_bool_iff in F. exfalso. lra. }
  rewrite E. destruct (label_used r); cbn [map]; now rewrite IH.
Qed.
Lemma forall2_map_l {A B C} (f : A -> B) (R : B -> C -> Prop) : forall l l', Forall2 R (map f l) l' -> Forall2 (fun a c => R (f a) c) l l'.
Proof. induction l as [|a l IH]; intros l' H; inversion H; subst; constructor; auto. Qed.
Lemma forall2_impl' {A B} (R R' : A -> B -> Prop) l l' : (forall a b, R a b -> R' a b) -> Forall2 R l l' -> Forall2 R' l l'.
Proof. intros I H. induction H; constructor; auto. Qed.

(* One chord for every label that is used; it is at the times of the label. *)
Theorem C81_chords : forall ms bs score rows t p, piece_from_xml ms bs score rows = Ok (t, p) ->
  get_measures ms bs = Ok t /\
  (exists ns, get_notes t score = Ok ns /\ p_notes p = map fst ns) /\
  Forall2 (fun r c => at_time (measures_of t) (start_of t) (pc_on c) (r_on r / 4) /\
                      at_time (measures_of t) (start_of t) (pc_off c) (r_off r / 4) /\
                      (pc_dur c == (r_off r - r_on r) / 4)%Q) (filter label_used rows) (p_chords p).
Proof.
  intros ms bs score rows t p H. destruct (piece_inv _ _ _ _ _ _ H) as (ns & keys & first & global & Ht & Hn & En & F & _).
  split; [exact Ht|]. split; [exists ns; split; [exact Hn|exact En]|]. rewrite clean_used in F. apply forall2_map_l in F.
  eapply forall2_impl'; [|exact F]. intros r c Hc. cbn beta in Hc.
  destruct (C79_times _ _ _ _ _ _ _ _ Ht Hc) as (A & B & D & _). split; [exact A|]. split; [exact B|].
  rewrite D. cbn. field.
Qed.
Print Assumptions C81_chords.

(* The change index of a chord is the first note not before it, or the last note. *)
Theorem C81_changes : forall ms bs score rows t p, piece_from_xml ms bs score rows = Ok (t, p) -> p_notes p <> [] ->
  List.length (p_changes p) = List.length (p_chords p) /\
  non_decreasing (map Z.of_nat (p_changes p)) /\
  ((forall k r r', nth_error (filter label_used rows) k = Some r -> nth_error (filter label_used rows) (S k) = Some r' -> (r_on r <= r_on r')%Q) ->
   forall k c i, nth_error (p_chords p) k = Some c -> nth_error (p_changes p) k = Some i ->
     first_or_last (fun n => ~ before (no_on n) (pc_on c)) (p_notes p) i).
Proof.
  intros ms bs score rows t p H Nn. destruct (piece_inv _ _ _ _ _ _ H) as (ns & keys & first & global & Ht & Hn & En & F & Ec & _).
  split; [rewrite Ec, chord_changes_length; apply map_length|]. rewrite Ec. split; [now apply changes_mono_gen|].
  intros So. assert (IO : in_order (map pc_on (p_chords p))); [|intros k c i; now apply changes_gen].
  rewrite clean_used in F. apply forall2_map_l in F. revert So F. generalize (filter label_used rows). generalize (p_chords p). clear - Ht.
  induction l as [|c l IH]; intros rs So F; [exact I|]. inversion F as [|r c0 rs' l0 Hc F' E1 E2]; subst. cbn beta in Hc.
  destruct l as [|c' l]; [exact I|]. inversion F' as [|r' c0 rs'' l0 Hc' F'' E1 E2]; subst. cbn beta in Hc'. split.
  - intros B. apply (C79_order _ _ _ _ _ _ _ _ _ _ _ _ Ht Hc' Hc) in B. unfold drop_plus, whole_notes in B. cbn [r_on] in B.
    pose proof (So 0%nat r r' eq_refl eq_refl). assert (Q1 : (r_on r == 4 * (r_on r / 4))%Q) by field. assert (Q2 : (r_on r' == 4 * (r_on r' / 4))%Q) by field.
    change (Qdiv (r_on r) 4) with (r_on r / 4)%Q in B. set (x := (r_on r / 4)%Q) in *. set (y := (r_on r' / 4)%Q) in *. lra.
  - apply (IH (r' :: rs'')); [|exact F']. intros k. apply (So (S k)).
Qed.
Print Assumptions C81_changes.

(* The notes of a chord (as C47_ranges). *)
Theorem C81_ranges : forall ms bs score rows t p k c, piece_from_xml ms bs score rows = Ok (t, p) ->
  nth_error (p_chords p) k = Some c ->
  exists s e, nth_error (p_ranges p) k = Some (s, e) /\
    e = match nth_error (p_changes p) (S k) with Some i => i | None => List.length (p_notes p) end /\
    (forall n, nth_error (p_notes p) s = Some n ->
       ~ before (no_on n) (pc_on c) \/ before (pc_on c) (no_off n)) /\
    (forall j n, nth_error (p_notes p) j = Some n -> (j < e)%nat ->
       ~ before (no_on n) (pc_on c) \/ before (pc_on c) (no_off n) -> (s <= j < e)%nat).
Proof.
  intros ms bs score rows t p k c H Hc. destruct (piece_inv _ _ _ _ _ _ H) as (ns & keys & first & global & _ & _ & _ & _ & Ec & Er & _).
  rewrite Er. apply ranges_gen; [|exact Hc]. rewrite Ec, chord_changes_length. apply map_length.
Qed.
Print Assumptions C81_ranges.

(* The key in force at a chord is the one it was read in; no change is recorded where the key stays
   the same; the first label's key is the global one. *)
Theorem C81_keys : forall ms bs score rows t p, piece_from_xml ms bs score rows = Ok (t, p) ->
  List.length (p_keys p) = List.length (p_key_changes p) /\ strictly_increasing (p_key_changes p) /\
  (forall k c, nth_error (p_chords p) k = Some c ->
     exists key, last_up_to (combine (p_key_changes p) (p_keys p)) k key /\
       c_tonic (pc c) = k_rel key /\ c_mode (pc c) = k_rel_mode key) /\
  (forall j a b, nth_error (p_keys p) j = Some a -> nth_error (p_keys p) (S j) = Some b -> ~ same_key true b a) /\
  (exists first, nth_error (p_keys p) 0 = Some first /\
     forall key, In key (p_keys p) -> k_global key = k_local first /\ k_global_mode key = k_local_mode first).
Proof.
  intros ms bs score rows t p H.
  destruct (piece_inv _ _ _ _ _ _ H) as (ns & keys & first & global & _ & _ & _ & F & _ & _ & H0 & Hg & Fk & Ek & Ekc).
  destruct (kept_keys keys) as (L & Inc & Fo). cbn zeta in L, Inc, Fo. rewrite <- Ek, <- Ekc in L, Inc, Fo.
  split; [exact L|]. split.
  { clear Fo H Ek Ekc. revert Inc L. generalize (p_keys p). generalize (p_key_changes p).
    induction l as [|a l IH]; intros ks Inc L; [exact I|]. destruct ks as [|k0 ks]; [discriminate L|].
    destruct l as [|b l]; [exact I|]. destruct ks as [|k1 ks]; [discriminate L|].
    destruct Inc as [I1 I2]. split; [apply (I1 (b, k1)); now left|]. apply (IH (k1 :: ks) I2). cbn in *. lia. }
  split; [|split].
  - intros k c Hc. assert (X : exists r key, nth_error keys k = Some key /\ key_from_csv TPC (Some global) r = Ok key /\
       chord_from_csv t TPC (r_on r) (r_off r) r = Ok c).
    { revert k Hc. clear - F Fk. revert keys Fk. induction F as [|r c0 rs cs Hc0 F IH]; intros keys Fk k Hc; [destruct k; discriminate Hc|].
      inversion Fk as [|r0 key rs0 keys' Hk Fk' E1 E2]; subst. destruct k as [|k]; cbn in Hc.
      - injection Hc as <-. exists r, key. split; [reflexivity|]. split; assumption.
      - destruct (IH keys' Fk' k Hc) as (r1 & key1 & A & B & C). exists r1, key1. auto. }
    destruct X as (r & key & Kk & Hk & Hch). destruct (Fo k key Kk) as (key' & Fc & S0).
    exists key'. split; [exact Fc|]. destruct S0 as (_ & S0 & _). destruct (S0 eq_refl) as [S1 S2]. rewrite S1, S2.
    apply key_global_change in Hk. destruct Hk as (k0 & Hk0 & R1 & R2 & _). rewrite R1, R2.
    apply chord_from_csv_inv in Hch. destruct Hch as (key0 & ty & i & root & bass & m1 & b1 & m2 & b2 & Hk1 & Hch). cbn zeta in Hch.
    assert (key0 = k0) by congruence. subst key0. decompose [and] Hch. 
    match goal with E : pc c = _ |- _ => rewrite E end. cbn. split; reflexivity.
  - intros j a b Ha Hb. destruct (C46_key_runs true keys) as (ks & (_ & _ & D) & _ & E). rewrite Ek, E in Ha, Hb.
    revert j Ha Hb D. clear. induction ks as [|g ks IH]; intros j Ha Hb D; [destruct j; discriminate Ha|].
    destruct ks as [|g' ks]; [destruct j as [|[|j]]; discriminate Hb|]. destruct D as [D1 D2].
    destruct j as [|j]; cbn in Ha, Hb; [|now apply (IH j)].
    injection Ha as <-. injection Hb as <-. exact D1.
  - destruct (key_none_global _ _ _ Hg) as [G1 G2]. destruct keys as [|key0 keys].
    { inversion Fk as [E1 E2|]; subst. rewrite <- E1 in H0. discriminate H0. }
    inversion Fk as [|r0 k0 rs0 ks0 Hk0 Fk' E1 E2]; subst. rewrite <- E1 in H0. cbn in H0. apply Some_inj in H0. subst r0.
    exists key0. split.
    { rewrite Ek. cbn. reflexivity. }
    apply key_global_change in Hk0. destruct Hk0 as (k1 & Hk1 & _ & _ & L1 & L2 & _ & _ & _ & GG1 & GG2).
    assert (k1 = global) by congruence. subst k1. intros key Ik. rewrite Ek in Ik. apply apply_mask_incl in Ik.
    rewrite L1, L2, <- G1, <- G2.
    assert (X : forall r, In r (clean_labels rows) -> forall kk, key_from_csv TPC (Some global) r = Ok kk -> k_global kk = k_global global /\ k_global_mode kk = k_global_mode global).
    { intros r _ kk Hkk. apply key_global_change in Hkk. decompose [ex and] Hkk. auto. }
    clear - Ik Fk X. revert X Ik. induction Fk as [|r kk rs kks Hkk Fk IH]; intros X Ik; [destruct Ik|].
    destruct Ik as [<-|Ik]; [eapply X; [now left|exact Hkk]|]. apply IH; [|exact Ik]. intros r' I'. apply X. now right.
Qed.
Print Assumptions C81_keys.

(* Without a label that is used the piece cannot be read, although its notes can. *)
Theorem C81_unlabelled_refuted : forall ms bs score rows t ns, get_measures ms bs = Ok t -> get_notes t score = Ok ns ->
  filter label_used rows = [] ->
  notes_from_xml ms bs score = Ok (t, map fst ns) /\ piece_from_xml ms bs score rows = Raise IndexError.
Proof.
  intros ms bs score rows t ns Ht Hn E. unfold notes_from_xml, piece_from_xml. rewrite Ht. cbn [bind]. rewrite Hn. cbn [bind].
  split; [reflexivity|]. cbn zeta. rewrite clean_used, E. cbn [map mapM bind].
  destruct (py_nth rows (-1)) as [x|e] eqn:X; [reflexivity|]. cbn [bind].
  unfold py_nth in X. repeat (match goal with X : context [if ?b then _ else _] |- _ => destruct b end); try congruence;
    destruct (nth_error _ _) in X; congruence.
Qed.
Print Assumptions C81_unlabelled_refuted.

Example C81_ex : filter label_used ex_rows = [nth 1 ex_rows (lab_row 0 0 "" "" "" 0); nth 2 ex_rows (lab_row 0 0 "" "" "" 0);
    nth 4 ex_rows (lab_row 0 0 "" "" "" 0); nth 5 ex_rows (lab_row 0 0 "" "" "" 0); nth 6 ex_rows (lab_row 0 0 "" "" "" 0)] /\
  match piece_from_xml ex_ms ex_bs [(0, [mkItem 0 1 [(L"A", 4)]]); (1, [mkItem 0 2 [(L"D", 4); (L"F#", 4)]; mkItem 2 2 [(L"G", 4)]]);
                                    (2, [mkItem 0 4 [(L"C", 4)]]); (3, [mkItem 1 5 [(L"B-", 4)]])] ex_rows with
  | Ok (_, p) =>
      map (fun c => (c_root (pc c), c_type (pc c), c_inv (pc c), c_bass (pc c), c_tonic (pc c), c_mode (pc c))) (p_chords p) =
        [(17, Maj, 0, 17, 17, MAJOR); (18, Maj_Min7, 1, 22, 17, MAJOR); (17, Maj, 2, 18, 18, MAJOR);
         (25, Dim7, 1, 22, 20, MINOR); (15, Maj, 1, 19, 20, MINOR)] /\
      p_changes p = [0; 1; 3; 4; 4]%nat /\ p_ranges p = [(0, 1); (1, 3); (3, 4); (4, 4); (4, 5)]%nat /\
      p_key_changes p = [0; 2; 3]%nat /\ map k_rel (p_keys p) = [17; 18; 20] /\ map k_global (p_keys p) = [17; 17; 17]
  | _ => False
  end.
Proof. vm_compute. repeat split; reflexivity. Qed.

(* ---- C82 ---- *)
Lemma drop_plus_degree : forall r a d by_, csv_reads (r_degree r) a d by_ ->
  r_degree (drop_plus r) = csv_degree_text a d by_.
Proof.
  intros r a d by_ (Dd & Db & [E|(-> & D5 & -> & E)]); unfold drop_plus; cbn [r_degree]; rewrite E.
  - destruct (existsb _ _) eqn:X; [|reflexivity]. exfalso. apply existsb_exists in X. destruct X as (s & Is & Es).
    apply str_eqb_eq in Es.
    assert (Y : exists s' c, csv_degree_text a d by_ = s' ++ [c] /\ c <> "+"%char).
    { unfold csv_degree_text, csv_degree. destruct by_ as [[a2 d2]|].
      - exists ((if a <? 0 then repeat "-"%char (Z.to_nat (- a)) else repeat "+"%char (Z.to_nat a)) ++ [digit d] ++ "/"%char ::
          (if a2 <? 0 then repeat "-"%char (Z.to_nat (- a2)) else repeat "+"%char (Z.to_nat a2))), (digit d2).
        split; [rewrite <- !app_assoc; reflexivity|apply digit_plain; cbn; tauto].
      - eexists. exists (digit d). split; [rewrite app_nil_r; reflexivity|apply digit_plain; cbn; tauto]. }
    destruct Y as (s' & c & Ey & Nc). rewrite Ey in Es.
    assert (Z0 : exists z, s = [z; "+"%char]).
    { cbn in Is. repeat (destruct Is as [<-|Is]; [eexists; reflexivity|]). destruct Is. }
    destruct Z0 as (z & ->). change [z; "+"%char] with ([z] ++ ["+"%char]) in Es. apply app_inj_tail in Es. destruct Es as [_ Es]. congruence.
  - assert (C : d = 1 \/ d = 2 \/ d = 3 \/ d = 4 \/ d = 5) by lia. destruct C as [C|[C|[C|[C|C]]]]; subst d; reflexivity.
Qed.
Lemma by_ok_iff : forall by_ : option (Z * Z), (forall a2 d2, by_ = Some (a2, d2) -> 1 <= d2 <= 7) -> by_ok by_.
Proof. intros [[a2 d2]|] H; [exact (H a2 d2 eq_refl)|exact I]. Qed.

(* What a label means: its key, and its chord in that key. *)
Theorem C82_chords : forall ms bs score rows t p, piece_from_xml ms bs score rows = Ok (t, p) ->
  Forall2 (fun r c => forall x, says r x -> exists tonic mode f, label_key x = Some (tonic, mode) /\
      c_pt (pc c) = TPC /\ c_tonic (pc c) = tonic /\ c_mode (pc c) = mode /\
      c_root (pc c) = tonic + csv_fifths mode (cl_a x) (cl_d x) /\ c_type (pc c) = cl_type x /\
      c_inv (pc c) = (if cl_inverts x then r_inv r else 0) mod positions (cl_type x) /\
      nth_error (chord_fifths (cl_type x)) (Z.to_nat (c_inv (pc c))) = Some f /\ c_bass (pc c) = c_root (pc c) + f)
    (filter label_used rows) (p_chords p).
Proof.
  intros ms bs score rows t p H. destruct (piece_inv _ _ _ _ _ _ H) as (ns & keys & first & global & Ht & Hn & En & F & _).
  rewrite clean_used in F. apply forall2_map_l in F. eapply forall2_impl'; [|exact F]. intros r c Hc x S0. cbn beta in Hc.
  destruct S0 as (Lf & Ek & Rd & name & In0 & Et).
  pose proof (drop_plus_degree (whole_notes r) _ _ _ Rd) as Ed. destruct Rd as (Dd & Db & _).
  set (r' := drop_plus (whole_notes r)) in *.
  assert (Ek' : r_key r' = csv_key (cl_letter x) (cl_sharps x) (cl_flats x)) by exact Ek.
  assert (Et' : r_type r' = list_ascii_of_string name) by exact Et.
  assert (Ei : r_inv r' = r_inv r) by reflexivity.
  apply chord_from_csv_inv in Hc.
  destruct Hc as (key & ty & i & root & bass & m1 & b1 & m2 & b2 & Hk & Hty & Hi & Hr & Hb & _ & _ & _ & _ & _ & _ & _ & _ & Hpc).
  rewrite (key_from_csv_spec None r' _ _ _ _ _ _ _ Lf Ek' Ed (by_ok_iff _ Db)) in Hk. cbn zeta in Hk.
  fold (label_tonic x) (label_mode x) in Hk. fold (label_key x) in Hk.
  destruct ((0 <=? label_tonic x) && (label_tonic x <? 35)); [|discriminate Hk].
  destruct (label_key x) as [[tonic mode]|] eqn:Lk; [|discriminate Hk]. apply Ok_inj in Hk.
  destruct (csv_type_read _ _ _ In0) as [T1 T2]. rewrite Et', T1 in Hty. apply Ok_inj in Hty. subst ty.
  rewrite Et', T2, chord_size, Ei in Hb, Hpc. rewrite Ed, csv_degree_head in Hi. subst key. cbn [k_rel k_rel_mode] in *.
  pose proof (chord_degree mode (cl_a x) (cl_d x) Dd) as Cd. cbn zeta in Cd. rewrite Cd in Hi. apply Ok_inj in Hi. subst i.
  rewrite transpose_pitch_eq in Hr. destruct ((0 <=? _) && _) in Hr; [|discriminate Hr]. apply Ok_inj in Hr.
  assert (Ib : (if negb (cl_inverts x) then 0 else r_inv r) = (if cl_inverts x then r_inv r else 0)) by (destruct (cl_inverts x); reflexivity).
  rewrite Ib in Hb, Hpc. set (inv := if cl_inverts x then r_inv r else 0) in *.
  destruct (chord_fifths_some (cl_type x) inv) as (f & Ef). rewrite (bass_note_mod _ _ _ _ Ef) in Hb.
  destruct ((0 <=? root + f) && (root + f <? 35)); [|discriminate Hb]. apply Ok_inj in Hb.
  exists tonic, mode, f. rewrite Hpc. cbn. split; [reflexivity|]. split; [reflexivity|]. split; [reflexivity|]. split; [reflexivity|].
  split; [now symmetry|]. split; [reflexivity|]. split; [reflexivity|]. split; [exact Ef|now symmetry].
Qed.
Print Assumptions C82_chords.

(* When a label can be read. *)
Theorem C82_exists : forall ms bs t x0 r x on off, get_measures ms bs = Ok t -> nth_error t 0 = Some x0 ->
  says r x -> r_degree r = csv_degree_text (cl_a x) (cl_d x) (cl_by x) -> (x_start x0 <= on)%Q -> (x_start x0 <= off)%Q ->
  (exists c, chord_from_csv t TPC on off r = Ok c) <->
  0 <= label_tonic x < 35 /\
  exists tonic mode f, label_key x = Some (tonic, mode) /\ 0 <= tonic + csv_fifths mode (cl_a x) (cl_d x) < 35 /\
    nth_error (chord_fifths (cl_type x)) (Z.to_nat ((if cl_inverts x then r_inv r else 0) mod positions (cl_type x))) = Some f /\
    0 <= tonic + csv_fifths mode (cl_a x) (cl_d x) + f < 35.
Proof.
  intros ms bs t x0 r x on off Ht H0 (Lf & Ek & Rd & name & In0 & Et) Ed P1 P2. destruct Rd as (Dd & Db & _).
  destruct (position_total t on x0 H0 P1) as ([m1 b1] & Q1). destruct (position_total t off x0 H0 P2) as ([m2 b2] & Q2).
  destruct (position_inv _ _ _ _ Q1) as (k1 & K1 & _). destruct (position_inv _ _ _ _ Q2) as (k2 & K2 & _).
  destruct (Proof_Xml.level_total t k1 m1 b1 I (ex_intro _ ms (ex_intro _ bs Ht)) K1) as (l1 & L1 & _).
  destruct (Proof_Xml.level_total t k2 m2 b2 I (ex_intro _ ms (ex_intro _ bs Ht)) K2) as (l2 & L2 & _).
  destruct (csv_type_read _ _ _ In0) as [T1 T2].
  unfold chord_from_csv. rewrite (key_from_csv_spec None r _ _ _ _ _ _ _ Lf Ek Ed (by_ok_iff _ Db)). cbn zeta.
  fold (label_tonic x) (label_mode x). fold (label_key x).
  destruct ((0 <=? label_tonic x) && (label_tonic x <? 35)) eqn:R1.
  2: { cbn [bind]. split; [intros (c & X); discriminate X|]. intros (X & _). apply andb_false_iff in R1. lia. }
  apply andb_true_iff in R1. destruct (label_key x) as [[tonic mode]|].
  2: { cbn [bind]. split; [intros (c & X); discriminate X|]. intros (_ & a & b & f & X & _). discriminate X. }
  cbn [bind]. rewrite Et, T1. cbn [bind]. rewrite T2, chord_size, Ed, csv_degree_head. cbn [bind k_rel k_rel_mode].
  pose proof (chord_degree mode (cl_a x) (cl_d x) Dd) as Cd. cbn zeta in Cd. rewrite Cd. cbn [bind].
  rewrite transpose_pitch_eq. set (root := tonic + csv_fifths mode (cl_a x) (cl_d x)).
  assert (Ib : (if negb (cl_inverts x) then 0 else r_inv r) = (if cl_inverts x then r_inv r else 0)) by (destruct (cl_inverts x); reflexivity).
  rewrite Ib. set (inv := if cl_inverts x then r_inv r else 0).
  destruct (chord_fifths_some (cl_type x) inv) as (f & Ef).
  destruct ((0 <=? root) && (root <? 35)) eqn:R2.
  2: { cbn [bind]. split; [intros (c & X); discriminate X|]. intros (_ & a & b & f' & X & Y & _). injection X as <- <-.
       fold root in Y. apply andb_false_iff in R2. lia. }
  apply andb_true_iff in R2. cbn [bind]. rewrite Q1. cbn [bind]. rewrite Q2. cbn [bind]. rewrite L1. cbn [bind]. rewrite L2. cbn [bind].
  rewrite (bass_note_mod _ _ _ _ Ef). destruct ((0 <=? root + f) && (root + f <? 35)) eqn:R3.
  - apply andb_true_iff in R3. split; [|intros _; eexists; reflexivity]. intros _. split; [lia|]. exists tonic, mode, f.
    split; [reflexivity|]. fold root. split; [lia|]. split; [exact Ef|lia].
  - cbn [bind]. split; [intros (c & X); discriminate X|]. intros (_ & a & b & f' & X & Y & Z0 & W). injection X as <- <-. fold root in W.
    unfold bass_fifths in Ef. assert (f' = f) by congruence. subst f'. apply andb_false_iff in R3. lia.
Qed.
Print Assumptions C82_exists.

Example C82_ex : says (nth 4 ex_rows (lab_row 0 0 "" "" "" 0)) (mkLabel "D" 2 0 0 0 4 (Some (0, 5)) Maj true) /\
  label_key (mkLabel "D" 2 0 0 0 4 (Some (0, 5)) Maj true) = Some (18, MAJOR) /\
  says (nth 1 ex_rows (lab_row 0 0 "" "" "" 0)) (mkLabel "D" 2 0 0 0 1 None Maj true) /\
  says (nth 5 ex_rows (lab_row 0 0 "" "" "" 0)) (mkLabel "b" 5 0 0 0 7 None Dim7 true) /\ csv_fifths MINOR 0 7 = 5.
Proof.
  split; [|split; [reflexivity|split; [|split; [|reflexivity]]]].
  - split; [reflexivity|]. split; [reflexivity|]. split.
    + split; [cbn; lia|]. split; [intros a2 d2 E; cbn in E; injection E as <- <-; lia|]. left. reflexivity.
    + exists "M"%string. split; [cbn; tauto|reflexivity].
  - split; [reflexivity|]. split; [reflexivity|]. split.
    + split; [cbn; lia|]. split; [intros a2 d2 E; discriminate E|]. right. cbn. repeat split; lia || reflexivity.
    + exists "M"%string. split; [cbn; tauto|reflexivity].
  - split; [reflexivity|]. split; [reflexivity|]. split.
    + split; [cbn; lia|]. split; [intros a2 d2 E; discriminate E|]. left. reflexivity.
    + exists "d7"%string. split; [cbn; tauto|reflexivity].
Qed.
