(* Note vectors and chord windows. *)
From Coq Require Import QArith Lqa.
From Verif Require Import PyBase Model_Types Model_Harmony Model_Strings Model_Rhythm Model_Piece
  Spec_Music Spec_Rhythm Spec_Piece Proof_Base Proof_Codec Proof_Strings Proof_Transpose Proof_Rhythm Proof_Piece.
From Coq Require Import List.
Import ListNotations.
Close Scope Q_scope.
Open Scope Z_scope.

(* ---- one-hot parts ---- *)
Lemma qone_hot_ok n i : 0 <= i < n -> exists v, qone_hot n i = Ok v /\ one_hot_at v n i.
Proof.
  intros H. unfold qone_hot. rewrite py_upd_pos by (rewrite zlen_repeat; lia).
  eexists. split; [reflexivity|]. unfold one_hot_at, zlen. rewrite upd_nat_length, repeat_length.
  split; [lia|]. split; [exact H|]. intros j x E.
  rewrite nth_error_upd_nat, repeat_length in E.
  destruct (Z.of_nat j =? i) eqn:D.
  - replace (Z.to_nat i =? j)%nat with true in E by lia.
    replace (Z.to_nat i <? Z.to_nat n)%nat with true in E by lia. cbn in E. congruence.
  - replace (Z.to_nat i =? j)%nat with false in E by lia. cbn [andb] in E.
    apply nth_error_In in E. now apply repeat_spec in E.
Qed.

Lemma midi_number_ok n : no_pt n = TPC -> midi_note_number n = Ok (spelled_midi n).
Proof.
  intros H. unfold midi_note_number. rewrite H. rewrite tpc_to_midi. reflexivity.
Qed.

Definition oct_num (n : note) : Z * Z := (no_octave n, spelled_midi n).
Lemma oct_of n : no_octave n = spelled_midi n / 12.
Proof. unfold spelled_midi. pose proof (Z.mod_pos_bound (7 * (no_pitch n - 15)) 12). lia. Qed.
Lemma pair_lt_num a b : pair_lt (oct_num a) (oct_num b) = (spelled_midi a <? spelled_midi b).
Proof.
  unfold pair_lt, oct_num. cbn [fst snd]. rewrite (oct_of a), (oct_of b).
  destruct (spelled_midi a <? spelled_midi b) eqn:E; [|].
  - destruct (spelled_midi a / 12 <? spelled_midi b / 12) eqn:E1; [reflexivity|]. cbn [orb].
    assert (spelled_midi a / 12 <= spelled_midi b / 12) by (apply Z.div_le_mono; lia).
    replace (spelled_midi a / 12 =? spelled_midi b / 12) with true by lia. reflexivity.
  - assert (spelled_midi b / 12 <= spelled_midi a / 12) by (apply Z.div_le_mono; lia).
    replace (spelled_midi a / 12 <? spelled_midi b / 12) with false by lia. cbn [orb].
    apply andb_false_r.
Qed.

Lemma fold_min win : forall b, exists b',
  fold_left (fun best x => if pair_lt x best then x else best) (map oct_num win) (oct_num b) = oct_num b' /\
  (b' = b \/ In b' win) /\ spelled_midi b' <= spelled_midi b /\
  forall m, In m win -> spelled_midi b' <= spelled_midi m.
Proof.
  induction win as [|x win IH]; intros b.
  - exists b. cbn. split; [reflexivity|]. split; [now left|]. split; [lia|]. intros m [].
  - cbn [map fold_left]. rewrite pair_lt_num. destruct (spelled_midi x <? spelled_midi b) eqn:E.
    + destruct (IH x) as (b' & H1 & H2 & H3 & H4). exists b'. split; [exact H1|].
      split; [destruct H2 as [->|H2]; right; [now left|now right]|]. split; [lia|].
      intros m [<-|I]; auto.
    + destruct (IH b) as (b' & H1 & H2 & H3 & H4). exists b'. split; [exact H1|].
      split; [destruct H2 as [->|H2]; [now left|right; now right]|]. split; [lia|].
      intros m [<-|I]; [lia|auto].
Qed.
Lemma fold_max win : forall b, exists b',
  fold_left (fun best x => if pair_lt best x then x else best) (map oct_num win) (oct_num b) = oct_num b' /\
  (b' = b \/ In b' win) /\ spelled_midi b <= spelled_midi b' /\
  forall m, In m win -> spelled_midi m <= spelled_midi b'.
Proof.
  induction win as [|x win IH]; intros b.
  - exists b. cbn. split; [reflexivity|]. split; [now left|]. split; [lia|]. intros m [].
  - cbn [map fold_left]. rewrite pair_lt_num. destruct (spelled_midi b <? spelled_midi x) eqn:E.
    + destruct (IH x) as (b' & H1 & H2 & H3 & H4). exists b'. split; [exact H1|].
      split; [destruct H2 as [->|H2]; right; [now left|now right]|]. split; [lia|].
      intros m [<-|I]; auto.
    + destruct (IH b) as (b' & H1 & H2 & H3 & H4). exists b'. split; [exact H1|].
      split; [destruct H2 as [->|H2]; [now left|right; now right]|]. split; [lia|].
      intros m [<-|I]; [lia|auto].
Qed.

Lemma pitches_ok win : (forall n, In n win -> no_pt n = TPC) ->
  mapM (fun n => let! m := midi_note_number n in Ok (no_octave n, m)) win = Ok (map oct_num win).
Proof.
  induction win as [|n win IH]; intros H; [reflexivity|]. cbn [mapM].
  rewrite midi_number_ok by (apply H; now left). cbn [bind].
  rewrite IH by (intros; apply H; now right). reflexivity.
Qed.

Lemma extremes win : win <> [] -> exists b t,
  pair_min (map oct_num win) = Ok (oct_num b) /\ pair_max (map oct_num win) = Ok (oct_num t) /\
  lowest win b /\ highest win t.
Proof.
  destruct win as [|x win]; [congruence|]. intros _. cbn [map pair_min pair_max].
  destruct (fold_min win x) as (b & B1 & B2 & B3 & B4). destruct (fold_max win x) as (t & T1 & T2 & T3 & T4).
  exists b, t. rewrite B1, T1. split; [reflexivity|]. split; [reflexivity|]. split; split.
  - destruct B2 as [->|B2]; [now left|now right].
  - intros m [<-|I]; auto.
  - destruct T2 as [->|T2]; [now left|now right].
  - intros m [<-|I]; auto.
Qed.

(* ---- one row ---- *)
Lemma note_vector_ok win n con coff D ms b t o prev next on off du :
  (forall m, In m win -> good_note m) -> In n win -> lowest win b -> highest win t ->
  rhythm_part n con coff D ms o = Ok [on; off; du] ->
  exists v, note_vector n con coff D ms (oct_num b) (oct_num t) o prev next = Ok v /\
    describes win n on off du (match prev with None => 0%Q | Some d => d end) next v.
Proof.
  intros G I Lb Ht R. pose proof (G n I) as (Hp & P & O & L1 & L2).
  pose proof (G b (proj1 Lb)) as (_ & _ & Ob & _).
  unfold note_vector. rewrite Hp. change (NUM_PITCHES TPC) with 35.
  destruct (qone_hot_ok 35 (no_pitch n) P) as (v1 & E1 & H1). rewrite E1. cbn [bind].
  change NUM_OCTAVES with 10.
  destruct (qone_hot_ok 10 (no_octave n) O) as (v2 & E2 & H2). rewrite E2. cbn [bind].
  destruct (qone_hot_ok 4 (no_on_level n)) as (v3 & E3 & H3); [lia|]. rewrite E3. cbn [bind].
  destruct (qone_hot_ok 4 (no_off_level n)) as (v4 & E4 & H4); [lia|]. rewrite E4. cbn [bind].
  rewrite R. cbn [bind]. rewrite midi_number_ok by exact Hp. cbn [bind].
  unfold oct_num. cbn [fst snd].
  assert (Lo : spelled_midi b <= spelled_midi n) by (apply Lb; exact I).
  assert (Hi : spelled_midi n <= spelled_midi t) by (apply Ht; exact I).
  destruct (qone_hot_ok 10 (no_octave n - no_octave b)) as (v5 & E5 & H5).
  { pose proof (Z.div_le_mono (spelled_midi b) (spelled_midi n) 12 ltac:(lia) Lo).
    rewrite <- !oct_of in H. lia. }
  rewrite E5. cbn [bind]. eexists. split; [reflexivity|].
  exists v1, v2, v3, v4, (if spelled_midi n =? spelled_midi b then 1%Q else 0%Q), v5,
    (Qdiv (inject_Z (spelled_midi n)) (127 # 1)).
  eexists. split; [cbn [app]; reflexivity|].
  split; [exact H1|]. split; [exact H2|]. split; [exact H3|]. split; [exact H4|].
  assert (Low : spelled_midi n = spelled_midi b <-> lowest win n).
  { split.
    - intros E. split; [exact I|]. intros m Im. rewrite E. now apply Lb.
    - intros [_ X]. pose proof (X b (proj1 Lb)). lia. }
  split.
  { destruct (spelled_midi n =? spelled_midi b) eqn:E; [left|right]; (split; [reflexivity|]).
    - apply Low. lia.
    - rewrite <- Low. lia. }
  split.
  { intros b' Lb'. replace (no_octave b') with (no_octave b); [exact H5|].
    rewrite !oct_of. f_equal. pose proof (proj2 Lb b' (proj1 Lb')). pose proof (proj2 Lb' b (proj1 Lb)). lia. }
  split; [reflexivity|].
  set (r := if spelled_midi t - spelled_midi b =? 0 then 1 else spelled_midi t - spelled_midi b).
  assert (Rp : 0 < r) by (unfold r; destruct (spelled_midi t - spelled_midi b =? 0) eqn:E; lia).
  assert (Rq : (0 < inject_Z r)%Q) by (change 0%Q with (inject_Z 0); rewrite <- Zlt_Qlt; exact Rp).
  assert (Nr : (0 <= inject_Z (spelled_midi n - spelled_midi b))%Q)
    by (change 0%Q with (inject_Z 0); rewrite <- Zle_Qle; lia).
  assert (Ur : (inject_Z (spelled_midi n - spelled_midi b) <= inject_Z r)%Q).
  { rewrite <- Zle_Qle. unfold r. destruct (spelled_midi t - spelled_midi b =? 0) eqn:E; lia. }
  split; [apply Qle_shift_div_l; [exact Rq|lra]|].
  split; [apply Qle_shift_div_r; [exact Rq|lra]|].
  split.
  { rewrite <- Low. split.
    - intros E. assert (Z0 : (inject_Z (spelled_midi n - spelled_midi b) == inject_Z 0)%Q).
      { assert (X : (inject_Z (spelled_midi n - spelled_midi b) / inject_Z r * inject_Z r ==
                     inject_Z (spelled_midi n - spelled_midi b))%Q) by (field; lra).
        rewrite <- X, E. change (inject_Z 0) with 0%Q. ring. }
      apply -> inject_Z_injective in Z0. clear -Z0. lia.
    - intros ->. rewrite Z.sub_diag. change (inject_Z 0) with 0%Q. field. lra. }
  intros b' t' Lb' Ht'.
  assert (Eb : spelled_midi b' = spelled_midi b)
    by (pose proof (proj2 Lb b' (proj1 Lb')); pose proof (proj2 Lb' b (proj1 Lb)); lia).
  assert (Et : spelled_midi t' = spelled_midi t)
    by (pose proof (proj2 Ht t' (proj1 Ht')); pose proof (proj2 Ht' t (proj1 Ht)); lia).
  rewrite Eb, Et. unfold r. destruct (spelled_midi t - spelled_midi b =? 0) eqn:E.
  - replace (spelled_midi t - spelled_midi b) with 0 by lia.
    replace (spelled_midi n - spelled_midi b) with 0 by lia. change (inject_Z 0) with 0%Q. ring.
  - field. intros X. change 0%Q with (inject_Z 0) in X. apply -> inject_Z_injective in X. clear -X E. lia.
Qed.

(* ---- slices ---- *)
Lemma nth_firstn_lt {A} (l : list A) : forall m k, (k < m)%nat -> nth_error (firstn m l) k = nth_error l k.
Proof.
  induction l as [|x l IH]; intros m k H; [rewrite firstn_nil; reflexivity|].
  destruct m as [|m]; [lia|]. destruct k as [|k]; [reflexivity|]. cbn. apply IH. lia.
Qed.
Lemma nth_skipn {A} (l : list A) : forall a k, nth_error (skipn a l) k = nth_error l (a + k).
Proof.
  induction l as [|x l IH]; intros a k; [rewrite skipn_nil; destruct k, a; reflexivity|].
  destruct a as [|a]; [reflexivity|]. cbn. apply IH.
Qed.
Lemma nth_slice {A} (l : list A) a b k : 0 <= a -> 0 <= b -> (k < Z.to_nat (b - a))%nat ->
  nth_error (py_slice l a b) k = nth_error l (Z.to_nat a + k).
Proof. intros Ha Hb H. rewrite py_slice_spec by assumption. now rewrite nth_firstn_lt, nth_skipn by lia. Qed.
Lemma slice_length {A} (l : list A) a b : 0 <= a -> a <= b -> b <= zlen l ->
  List.length (py_slice l a b) = Z.to_nat (b - a).
Proof.
  intros Ha Hb H. rewrite py_slice_spec by lia. unfold zlen in H.
  rewrite firstn_length, skipn_length. lia.
Qed.

Lemma vec_rows_ok f (R : nat -> list Q -> Prop) : forall ns os ps ds (k0 : nat),
  List.length os = List.length ns -> List.length ps = List.length ns -> List.length ds = List.length ns ->
  (forall k n o p d, nth_error ns k = Some n -> nth_error os k = Some o -> nth_error ps k = Some p ->
     nth_error ds k = Some d -> exists v, f n o p d = Ok v /\ R (k0 + k)%nat v) ->
  exists rows, vec_rows f ns os ps ds = Ok rows /\ List.length rows = List.length ns /\
    forall k v, nth_error rows k = Some v -> R (k0 + k)%nat v.
Proof.
  induction ns as [|n ns IH]; intros [|o os] [|p ps] [|d ds] k0 L1 L2 L3 H; try discriminate.
  - exists []. split; [reflexivity|]. split; [reflexivity|]. intros [|k] v E; discriminate E.
  - cbn [vec_rows]. destruct (H 0%nat n o p d) as (v & E & Rv); [reflexivity..|]. rewrite E. cbn [bind].
    destruct (IH os ps ds (S k0)) as (rows & E2 & L & Rs); [cbn in *; lia..| |].
    { intros k n' o' p' d' A1 A2 A3 A4. destruct (H (S k) n' o' p' d') as (v' & E' & R'); auto.
      exists v'. split; [exact E'|]. now replace (S k0 + k)%nat with (k0 + S k)%nat by lia. }
    rewrite E2. cbn [bind]. exists (v :: rows). split; [reflexivity|]. split; [cbn; lia|].
    intros [|k] v' X; cbn in X.
    + injection X as <-. exact Rv.
    + replace (k0 + S k)%nat with (S k0 + k)%nat by lia. now apply Rs.
Qed.

Lemma place_rows_ok total a b w rows : 0 <= a -> a <= b -> b <= total -> b - a = zlen rows ->
  exists m, place_rows total a b w rows = Ok m /\ zlen m = total /\
    forall j v, nth_error m j = Some v ->
      (a <= Z.of_nat j < b -> nth_error rows (j - Z.to_nat a) = Some v) /\
      (~ (a <= Z.of_nat j < b) -> v = repeat 0%Q w).
Proof.
  intros Ha Hab Hb Hr. unfold place_rows, py_bound.
  replace (a <? 0) with false by lia. replace (b <? 0) with false by lia.
  replace (Z.max 0 (Z.min total a)) with a by lia. replace (Z.max a (Z.max 0 (Z.min total b))) with b by lia.
  rewrite Hr, Z.eqb_refl. eexists. split; [reflexivity|].
  assert (Lf : List.length (firstn (Z.to_nat a) (repeat (repeat 0%Q w) (Z.to_nat total))) = Z.to_nat a)
    by (rewrite firstn_length, repeat_length; lia).
  split.
  - unfold zlen in *. rewrite !app_length, Lf, skipn_length, repeat_length. lia.
  - intros j v E. unfold zlen in Hr. destruct (Nat.lt_ge_cases j (Z.to_nat a)) as [J|J].
    + rewrite nth_error_app1 in E by lia. split; [lia|]. intros _. apply nth_error_In in E.
      apply repeat_spec with (n := Z.to_nat total). rewrite <- (firstn_skipn (Z.to_nat a)). apply in_or_app. now left.
    + rewrite nth_error_app2, Lf in E by lia.
      destruct (Nat.lt_ge_cases (j - Z.to_nat a) (List.length rows)) as [K|K].
      * rewrite nth_error_app1 in E by lia. split; [auto|]. intros X. lia.
      * rewrite nth_error_app2 in E by lia. split; [lia|]. intros _. apply nth_error_In in E.
        apply repeat_spec with (n := Z.to_nat total). rewrite <- (firstn_skipn (Z.to_nat b)). apply in_or_app. now right.
Qed.

(* Row j of the window of a chord: the note with this index, or zeros. *)
Lemma describes_length win n on off du prev next v : describes win n on off du prev next v ->
  In n win -> (forall m, In m win -> good_note m) -> List.length v = 71%nat.
Proof.
  intros (P & O & L1 & L2 & low & R & h & rel & -> & H1 & H2 & H3 & H4 & H5 & H6 & _) I G.
  destruct win as [|x win']; [destruct I|]. destruct (extremes (x :: win')) as (b & t & _ & _ & Lb & _); [discriminate|].
  specialize (H6 b Lb). unfold one_hot_at, zlen in *.
  rewrite !app_length. cbn [List.length]. lia.
Qed.

Lemma input_ok notes ms con coff D c a b w durs ch (Rh : nat -> Q -> Q -> Q -> Prop) :
  let win := py_slice notes (Z.max (a - w) 0) (Z.min (b + w) (zlen notes)) in
  let aligned := match ch with None => true | Some x => pos_eqb (pc_on x) con end in
  let con' := match ch with None => con | Some x => if aligned then con else pc_on x end in
  let coff' := match ch with None => coff | Some x => if pos_eqb (pc_off x) coff then coff else pc_off x end in
  List.length durs = List.length notes ->
  0 < zlen notes -> a - w < zlen notes -> 0 < b + w -> a - w < b + w ->
  (forall n, In n win -> good_note n) ->
  (forall i n, nth_error notes i = Some n -> In n win -> a - w <= Z.of_nat i < b + w ->
     exists on off du,
       rhythm_part n con' coff' D ms (if aligned then Some (note_onset_of durs c (Z.of_nat i)) else None)
       = Ok [on; off; du] /\ Rh i on off du) ->
  exists m, get_chord_note_input notes ms con coff D c a b w durs ch = Ok m /\
    zlen m = b - a + 2 * w /\
    forall j v, nth_error m j = Some v ->
      let i := a - w + Z.of_nat j in
      List.length v = 71%nat /\
      (~ (0 <= i < zlen notes) -> zeros v) /\
      (0 <= i < zlen notes -> exists n on off du next,
         nth_error notes (Z.to_nat i) = Some n /\ In n win /\ Rh (Z.to_nat i) on off du /\
         nth_error durs (Z.to_nat i) = Some next /\
         describes win n on off du
           (if i =? 0 then 0%Q else nth (Z.to_nat (i - 1)) durs 0%Q) next v).
Proof.
  intros win aligned con' coff' Ld Hn H1 H2 H3 G HR. unfold get_chord_note_input.
  set (first := Z.max (a - w) 0) in *. set (last := Z.min (b + w) (zlen notes)) in *.
  assert (F0 : 0 <= first) by (unfold first; lia).
  assert (FL : first < last) by (unfold first, last; lia).
  assert (LN : last <= zlen notes) by (unfold last; lia).
  fold win. rewrite pitches_ok by (intros n I; apply (G n I)). cbn [bind].
  assert (Lw : List.length win = Z.to_nat (last - first)) by (unfold win; apply slice_length; lia).
  assert (Wn : win <> []) by (intros E; rewrite E in Lw; cbn in Lw; lia).
  destruct (extremes win Wn) as (lo & hi & Elo & Ehi & Llo & Hhi). rewrite Elo, Ehi. cbn [bind].
  assert (Al : (match ch with None => true | Some x => pos_eqb (pc_on x) con end) = aligned) by reflexivity.
  rewrite Al.
  assert (E1 : match ch with Some c0 => if aligned then con else pc_on c0 | None => con end = con')
    by (unfold con'; destruct ch; reflexivity).
  rewrite E1.
  assert (E2 : match ch with
     | Some c0 => if match ch with Some c1 => pos_eqb (pc_off c1) coff | None => true end then coff else pc_off c0
     | None => coff end = coff') by (unfold coff'; destruct ch; reflexivity).
  rewrite E2. clear E1 E2.
  set (onsets := if aligned then map (fun i => Some (note_onset_of durs c i)) (zrange first last)
                 else map (fun _ => None) win).
  assert (Lo : List.length onsets = List.length win).
  { unfold onsets. destruct aligned; rewrite map_length, ?zrange_length; lia. }
  assert (Lnd : zlen durs = zlen notes) by (unfold zlen; lia).
  assert (Lp : List.length (py_slice (None :: map Some durs) first last) = List.length win).
  { rewrite slice_length; [lia..|]. rewrite zlen_cons, zlen_map. lia. }
  assert (Lx : List.length (py_slice durs first last) = List.length win) by (rewrite slice_length; lia).
  destruct (vec_rows_ok (fun n o p d => note_vector n con' coff' D ms (oct_num lo) (oct_num hi) o p d)
     (fun k v => exists n on off du next, nth_error notes (Z.to_nat first + k) = Some n /\ In n win /\
        Rh (Z.to_nat first + k)%nat on off du /\ nth_error durs (Z.to_nat first + k) = Some next /\
        describes win n on off du (if (Z.to_nat first + k =? 0)%nat then 0%Q else nth (Z.to_nat first + k - 1) durs 0%Q) next v)
     win onsets (py_slice (None :: map Some durs) first last) (py_slice durs first last) 0%nat Lo Lp Lx)
    as (rows & Er & Lr & Rr).
  { intros k n o p d K1 K2 K3 K4.
    assert (Kl : (k < Z.to_nat (last - first))%nat).
    { rewrite <- Lw. apply nth_error_Some. congruence. }
    assert (In n win) by (eapply nth_error_In; eauto).
    unfold win in K1. rewrite nth_slice in K1 by lia.
    rewrite nth_slice in K3 by lia. rewrite nth_slice in K4 by lia.
    destruct (HR (Z.to_nat first + k)%nat n K1 H) as (on & off & du & Erh & HRh).
    { unfold first, last in *. lia. }
    assert (Eo : o = if aligned then Some (note_onset_of durs c (Z.of_nat (Z.to_nat first + k))) else None).
    { unfold onsets in K2. destruct aligned.
      - rewrite nth_error_map, nth_error_zrange in K2 by lia. cbn in K2. injection K2 as <-.
        repeat f_equal. lia.
      - apply nth_error_In, in_map_iff in K2. destruct K2 as (? & <- & _). reflexivity. }
    rewrite <- Eo in Erh.
    destruct (note_vector_ok win n con' coff' D ms lo hi o p d on off du) as (v & Ev & Dv); auto.
    exists v. split; [exact Ev|]. exists n, on, off, du, d.
    rewrite Nat.add_0_l. split; [exact K1|]. split; [exact H|]. split; [exact HRh|]. split; [exact K4|].
    assert (Ep : match p with Some d0 => d0 | None => 0%Q end =
                 if (Z.to_nat first + k =? 0)%nat then 0%Q else nth (Z.to_nat first + k - 1) durs 0%Q).
    { destruct (Z.to_nat first + k)%nat as [|q] eqn:Q; cbn in K3 |- *.
      - injection K3 as <-. reflexivity.
      - rewrite nth_error_map in K3. rewrite Nat.sub_0_r. destruct (nth_error durs q) as [y|] eqn:Y; [|discriminate K3].
        cbn in K3. injection K3 as <-. symmetry. now apply nth_error_nth. }
    rewrite <- Ep. exact Dv. }
  rewrite Er. cbn [bind].
  assert (W71 : forall k v, nth_error rows k = Some v -> List.length v = 71%nat).
  { intros k v E. destruct (Rr k v E) as (n & on & off & du & nx & _ & I & _ & _ & Dv).
    eapply describes_length; eauto. }
  destruct rows as [|r rows'] eqn:ER; [cbn in Lr; lia|]. rewrite <- ER in *.
  assert (Lr71 : List.length r = 71%nat) by (apply (W71 0%nat); rewrite ER; reflexivity).
  replace (b + w - (a - w) <? 0) with false by lia.
  destruct (place_rows_ok (b + w - (a - w)) (first - (a - w)) (b + w - (a - w) - (b + w - last)) (List.length r) rows)
    as (m & Em & Lm & Rm); [unfold first, last in *; lia..|unfold zlen; lia|].
  rewrite Em. exists m. split; [reflexivity|]. split; [lia|]. intros j v E. cbn zeta.
  destruct (Rm j v E) as [R1 R2].
  assert (Jl : Z.of_nat j < b + w - (a - w)).
  { rewrite <- Lm. unfold zlen. apply inj_lt. apply nth_error_Some. congruence. }
  assert (C : 0 <= a - w + Z.of_nat j < zlen notes <->
              first - (a - w) <= Z.of_nat j < b + w - (a - w) - (b + w - last)) by (unfold first, last; lia).
  destruct (Z_lt_ge_dec (Z.of_nat j) (first - (a - w))) as [X|X];
    [|destruct (Z_lt_ge_dec (Z.of_nat j) (b + w - (a - w) - (b + w - last))) as [Y|Y]].
  - rewrite R2 by lia. split; [now rewrite repeat_length|]. split; [|lia].
    intros _ x I. now apply repeat_spec in I.
  - assert (X' : first - (a - w) <= Z.of_nat j) by lia. pose proof (R1 (conj X' Y)) as Rw. split; [eapply W71; exact Rw|]. split; [lia|]. intros _.
    destruct (Rr _ _ Rw) as (n & on & off & du & nx & N1 & N2 & N3 & N4 & N5).
    rewrite Nat.add_0_l in *.
    assert (Ei : (Z.to_nat first + (j - Z.to_nat (first - (a - w))))%nat = Z.to_nat (a - w + Z.of_nat j)) by lia.
    rewrite Ei in *. exists n, on, off, du, nx. split; [exact N1|]. split; [exact N2|]. split; [exact N3|].
    split; [exact N4|].
    replace (a - w + Z.of_nat j =? 0) with (Z.to_nat (a - w + Z.of_nat j) =? 0)%nat by lia.
    replace (Z.to_nat (a - w + Z.of_nat j - 1)) with (Z.to_nat (a - w + Z.of_nat j) - 1)%nat by lia. exact N5.
  - rewrite R2 by lia. split; [now rewrite repeat_length|]. split; [|lia].
    intros _ x I. now apply repeat_spec in I.
Qed.

(* ---- the times of the notes ---- *)
Lemma qsum_same l : Model_Piece.qsum l = qsum l.
Proof. induction l as [|x l IH]; [reflexivity|]. cbn. unfold Model_Piece.qsum in IH. now rewrite IH. Qed.

Section Times.
Variables (durs : list Q) (tt : list Q).
Hypothesis Tel : forall i j ti tj, (i <= j)%nat -> nth_error tt i = Some ti ->
  nth_error tt j = Some tj -> (qsum (firstn (j - i) (skipn i durs)) == tj - ti)%Q.

Lemma slice_sum a b ta tb : 0 <= a <= b -> nth_error tt (Z.to_nat a) = Some ta ->
  nth_error tt (Z.to_nat b) = Some tb -> (Model_Piece.qsum (py_slice durs a b) == tb - ta)%Q.
Proof.
  intros H Ha Hb. rewrite qsum_same, py_slice_spec by lia.
  replace (Z.to_nat (b - a)) with (Z.to_nat b - Z.to_nat a)%nat by lia. apply Tel; auto. lia.
Qed.
Lemma note_onset_time c i tc ti : 0 <= c -> 0 <= i -> nth_error tt (Z.to_nat c) = Some tc ->
  nth_error tt (Z.to_nat i) = Some ti -> (note_onset_of durs c i == ti - tc)%Q.
Proof.
  intros Hc Hi Tc Ti. unfold note_onset_of. destruct (i <? c) eqn:E1; [|destruct (c <? i) eqn:E2].
  - rewrite (slice_sum i c ti tc); [lra|lia|auto..].
  - rewrite (slice_sum c i tc ti); [lra|lia|auto..].
  - assert (i = c) by lia. subst i. rewrite Tc in Ti. apply Some_inj in Ti. subst. lra.
Qed.
Lemma dur_time i d ti tn : nth_error durs i = Some d -> nth_error tt i = Some ti ->
  nth_error tt (S i) = Some tn -> (d == tn - ti)%Q.
Proof.
  intros Hd Ti Tn. rewrite <- (Tel i (S i) ti tn) by (auto; lia).
  replace (S i - i)%nat with 1%nat by lia.
  assert (X : nth_error (skipn i durs) 0 = Some d) by (rewrite nth_skipn, Nat.add_0_r; exact Hd).
  destruct (skipn i durs) as [|y r]; [discriminate X|]. cbn in X. injection X as ->. cbn. lra.
Qed.
End Times.

Lemma rhythm_some n con coff D ms o t t0 : (o == t - t0)%Q ->
  exists on off du, rhythm_part n con coff D ms (Some o) = Ok [on; off; du] /\
    relative_to t (no_dur n) t0 D on off du.
Proof.
  intros H. cbn [rhythm_part]. destruct (Qeq_bool D 0) eqn:E.
  - apply Qeq_bool_iff in E. do 3 eexists. split; [reflexivity|]. split; [intros N; contradiction|].
    intros _. repeat split; reflexivity.
  - assert (N : ~ (D == 0)%Q) by (intros X; apply Qeq_bool_iff in X; congruence).
    do 3 eexists. split; [reflexivity|]. split; [|intros X; contradiction]. intros _.
    split; [now rewrite H|]. split; [|reflexivity]. rewrite H. field. exact N.
Qed.

Lemma at_time_same ms T p q t : unique_mcs ms -> same_pos p q -> at_time ms T p t -> at_time ms T q t.
Proof.
  intros U [E1 E2] (m & R & H). exists m. rewrite <- E1. split; [exact R|]. rewrite <- E2. exact H.
Qed.
Lemma at_time_unique ms T p t u : unique_mcs ms -> at_time ms T p t -> at_time ms T p u -> (t == u)%Q.
Proof.
  intros U (m & R & H) (m' & R' & H').
  assert (m = m') by (eapply row_of_unique; eauto). subst. lra.
Qed.
Lemma pos_eqb_same a b : pos_eqb a b = true <-> same_pos a b.
Proof. unfold pos_eqb, same_pos. rewrite andb_true_iff, Z.eqb_eq, Qeq_bool_iff. tauto. Qed.

Lemma relative_to_compat t d t0 t0' D D' on off du : (t0 == t0')%Q -> (D == D')%Q ->
  relative_to t d t0 D on off du -> relative_to t d t0' D' on off du.
Proof.
  intros E0 E [H1 H2]. split.
  - intros N. rewrite <- E in N. destruct (H1 N) as (A & B & C). rewrite A, B, C, E, E0.
    repeat split; reflexivity.
  - intros Z0. apply H2. now rewrite E.
Qed.

Lemma window_tensor_compat notes tt a b w t0 t0' D m : (t0 == t0')%Q ->
  window_tensor notes tt a b w t0 D m -> window_tensor notes tt a b w t0' D m.
Proof.
  intros E [L H]. split; [exact L|]. intros j v Hj i. destruct (H j v Hj) as (A & B & C).
  split; [exact A|]. split; [exact B|]. intros Hi.
  destruct (C Hi) as (n & t & tn & on & off & du & prev & next & X1 & X2 & X3 & X4 & X5 & X6).
  exists n, t, tn, on, off, du, prev, next. do 4 (split; [assumption|]). split; [|exact X6].
  eapply relative_to_compat; [exact E|reflexivity|exact X5].
Qed.

Section Inputs.
Variables (ms : table) (T : Z -> Q) (s : Z) (notes : list note) (times : list Q) (last : pos) (tl : Q)
  (durs : list Q).
Hypothesis U : unique_mcs ms.
Hypothesis Fw : forward ms.
Hypothesis Ck : clock ms T.
Hypothesis FA : Forall2 (fun p t => plays_to ms s (fst p) /\ at_time ms T p t) (map no_on notes) times.
Hypothesis Pl : plays_to ms s (fst last).
Hypothesis Al : at_time ms T last tl.
Hypothesis Cache : get_duration_cache (map no_on notes) last ms = Ok durs.
Hypothesis Good : forall n, In n notes -> good_note n.
Hypothesis Nonempty : notes <> [].
Notation tt := (times ++ [tl]).

Lemma lens : List.length durs = List.length notes /\ List.length tt = S (List.length notes).
Proof.
  destruct (duration_cache_spec ms T s U Fw Ck _ _ last tl FA Pl Al) as (cache & E & Sp).
  rewrite Cache in E. apply Ok_inj in E. subst cache.
  pose proof (Forall2_len _ _ _ FA) as L. rewrite map_length in L.
  rewrite (Forall2_len _ _ _ Sp), combine_length, !app_length. destruct times; cbn [List.tl List.length] in *; lia.
Qed.
Lemma tel : forall i j ti tj, (i <= j)%nat -> nth_error tt i = Some ti ->
  nth_error tt j = Some tj -> (qsum (firstn (j - i) (skipn i durs)) == tj - ti)%Q.
Proof.
  destruct (duration_cache_spec ms T s U Fw Ck _ _ last tl FA Pl Al) as (cache & E & Sp).
  rewrite Cache in E. apply Ok_inj in E. subst cache. exact (telescope times tl durs Sp).
Qed.
Lemma tt_some i : (i <= List.length notes)%nat -> exists t, nth_error tt i = Some t.
Proof.
  intros H. destruct (nth_error tt i) eqn:E; [eauto|]. apply nth_error_None in E. destruct lens. lia.
Qed.
Lemma note_time i n t : nth_error notes i = Some n -> nth_error tt i = Some t ->
  plays_to ms s (fst (no_on n)) /\ at_time ms T (no_on n) t.
Proof.
  intros Hn Ht. pose proof (Forall2_len _ _ _ FA) as L. rewrite map_length in L.
  assert (Li : (i < List.length notes)%nat) by (apply nth_error_Some; congruence).
  rewrite nth_error_app1 in Ht by lia. clear -FA Hn Ht. revert times FA i n t Hn Ht.
  induction notes as [|x l IH]; intros [|y ts] FA [|i] n t Hn Ht; try discriminate.
  - cbn in *. inversion FA; subst. congruence.
  - cbn in Hn, Ht. inversion FA; subst. eapply IH; eauto.
Qed.
Lemma zlen_pos : 0 < zlen notes.
Proof. destruct notes; [congruence|]. rewrite zlen_cons. pose proof (zlen_nonneg l). lia. Qed.

Lemma window_good a b w n : In n (window_notes notes a b w) -> good_note n /\ exists i, nth_error notes i = Some n.
Proof.
  intros I. unfold window_notes, py_slice in I.
  assert (In n notes).
  { rewrite <- (firstn_skipn (Z.to_nat (py_bound (zlen notes) (Z.max (a - w) 0)))).
    apply in_or_app. right.
    rewrite <- (firstn_skipn (Z.to_nat
      (py_bound (zlen notes) (Z.min (b + w) (zlen notes)) - py_bound (zlen notes) (Z.max (a - w) 0)))).
    apply in_or_app. now left. }
  split; [auto|]. apply In_nth_error. exact H.
Qed.

(* one range *)
Lemma one_window con coff D c a b w ch t0 D' :
  0 <= c < zlen notes -> a - w < zlen notes -> 0 < b + w -> a - w < b + w -> (D == D')%Q ->
  nth_error (map no_on notes) (Z.to_nat c) = Some con ->
  (exists tf, at_time ms T coff tf /\ plays_to ms s (fst coff)) ->
  match ch with
  | None => nth_error tt (Z.to_nat c) = Some t0
  | Some x => chord_times ms T s x t0 /\ (pc_dur x == D)%Q /\ (same_pos (pc_on x) con \/ ~ (D == 0)%Q)
  end ->
  exists m, get_chord_note_input notes ms con coff D c a b w durs ch = Ok m /\
    window_tensor notes tt a b w t0 D' m.
Proof.
  intros Hc H1 H2 H3 ED Hcon (tf & Tf & Pf) Hch. destruct lens as [L1 L2].
  destruct (input_ok notes ms con coff D c a b w durs ch
    (fun i on off du => forall n t, nth_error notes i = Some n -> nth_error tt i = Some t ->
       relative_to t (no_dur n) t0 D on off du)) as (m & Em & Lm & Rm);
    [exact L1|exact zlen_pos|exact H1|exact H2|exact H3|intros n I; apply (window_good a b w n I)| |].
  - intros i n Hn Iw Hi. destruct (tt_some i) as (t & Ht).
    { apply Nat.lt_le_incl, nth_error_Some. congruence. }
    destruct (tt_some (Z.to_nat c)) as (tc & Htc); [unfold zlen in Hc; lia|].
    assert (On : (note_onset_of durs c (Z.of_nat i) == t - tc)%Q).
    { eapply note_onset_time; [exact tel|lia|lia|exact Htc|]. now rewrite Nat2Z.id. }
    destruct (note_time i n t Hn Ht) as [Pn Tn].
    destruct ch as [x|].
    + destruct Hch as ((t1 & P0 & P1 & T0 & T1 & Dd) & Dx & Alt).
      destruct (pos_eqb (pc_on x) con) eqn:Ax.
      * apply pos_eqb_same in Ax.
        rewrite nth_error_map in Hcon. destruct (nth_error notes (Z.to_nat c)) as [nc|] eqn:Nc; [|discriminate Hcon].
        cbn in Hcon. apply Some_inj in Hcon. subst con.
        destruct (note_time _ _ _ Nc Htc) as [_ Tc].
        assert (E0 : (t0 == tc)%Q).
        { apply (at_time_unique ms T (no_on nc)); auto. eapply at_time_same; eauto. }
        destruct (rhythm_some n (no_on nc) (if pos_eqb (pc_off x) coff then coff else pc_off x) D ms
          (note_onset_of durs c (Z.of_nat i)) t t0) as (on & off & du & E & R); [lra|].
        exists on, off, du. split; [exact E|]. intros n' t' N' T'. rewrite Hn in N'. rewrite Ht in T'.
        apply Some_inj in N'. apply Some_inj in T'. now subst.
      * destruct Alt as [Alt|Nz]; [apply pos_eqb_same in Alt; congruence|].
        cbn [rhythm_part].
        set (cf := if pos_eqb (pc_off x) coff then coff else pc_off x).
        assert (Tc : at_time ms T cf t1 /\ plays_to ms s (fst cf)).
        { unfold cf. destruct (pos_eqb (pc_off x) coff) eqn:Y; [|auto]. apply pos_eqb_same in Y.
          split; [eapply at_time_same; eauto|]. destruct Y as [<- _]. exact P1. }
        destruct Tc as [Tcf Pcf].
        destruct (rhythmic_info_spec ms T s (no_on n) (no_dur n) (pc_on x) cf t t0 t1 (Some D))
          as (on & off & du & G & A1 & A2 & A3); auto.
        { intros E. apply Nz. lra. }
        { right. exists D. split; [reflexivity|lra]. }
        rewrite G. cbn [bind]. exists on, off, du. split; [reflexivity|].
        intros n' t' N' T'. rewrite Hn in N'. rewrite Ht in T'. apply Some_inj in N'. apply Some_inj in T'. subst n' t'.
        split; [|intros X; contradiction]. intros _.
        assert (EE : (t1 - t0 == D)%Q) by lra. rewrite EE in A1, A2, A3.
        split; [exact A1|]. split; [exact A2|exact A3].
    + rewrite Htc in Hch. apply Some_inj in Hch. subst t0.
      destruct (rhythm_some n con coff D ms (note_onset_of durs c (Z.of_nat i)) t tc On) as (on & off & du & E & R).
      exists on, off, du. split; [exact E|]. intros n' t' N' T'. rewrite Hn in N'. rewrite Ht in T'.
      apply Some_inj in N'. apply Some_inj in T'. now subst.
  - exists m. split; [exact Em|]. split; [exact Lm|]. intros j v Ev. cbn zeta.
    destruct (Rm j v Ev) as (Lv & Z0 & In0). split; [exact Lv|]. split; [exact Z0|].
    intros Hi. destruct (In0 Hi) as (n & on & off & du & next & Nn & Iw & R & Dn & Ds).
    set (i := a - w + Z.of_nat j) in *. unfold zlen in Hi.
    destruct (tt_some (Z.to_nat i)) as (t & Ht); [lia|].
    destruct (tt_some (S (Z.to_nat i))) as (tn & Htn); [lia|].
    exists n, t, tn, on, off, du, (if i =? 0 then 0%Q else nth (Z.to_nat (i - 1)) durs 0%Q), next.
    split; [exact Nn|]. split; [exact Ht|]. split; [exact Htn|]. split; [exact Ds|].
    split; [apply (relative_to_compat t (no_dur n) t0 t0 D D' on off du); [reflexivity|exact ED|]; now apply R|].
    split; [eapply dur_time; [exact tel|exact Dn|exact Ht|exact Htn]|].
    split; [intros ->; reflexivity|].
    intros tp Ip Htp. replace (i =? 0) with false by lia.
    destruct (nth_error durs (Z.to_nat (i - 1))) as [dp|] eqn:Dp; [|apply nth_error_None in Dp; lia].
    rewrite (nth_error_nth _ _ _ Dp).
    eapply dur_time; [exact tel|exact Dp|exact Htp|].
    replace (S (Z.to_nat (i - 1))) with (Z.to_nat i) by lia. exact Ht.
Qed.
End Inputs.

Lemma mapM_each {A B} (f : A -> res B) (R : nat -> B -> Prop) : forall l k0,
  (forall k x, nth_error l k = Some x -> exists y, f x = Ok y /\ R (k0 + k)%nat y) ->
  exists ys, mapM f l = Ok ys /\ List.length ys = List.length l /\
    forall k y, nth_error ys k = Some y -> R (k0 + k)%nat y.
Proof.
  induction l as [|x l IH]; intros k0 H.
  - exists []. split; [reflexivity|]. split; [reflexivity|]. intros [|k] y E; discriminate E.
  - destruct (H 0%nat x eq_refl) as (y & E & Ry). cbn [mapM]. rewrite E. cbn [bind].
    destruct (IH (S k0)) as (ys & E2 & L & Rs).
    { intros k x' Hx. destruct (H (S k) x' Hx) as (y' & E' & R'). exists y'. split; [exact E'|].
      now replace (S k0 + k)%nat with (k0 + S k)%nat by lia. }
    rewrite E2. cbn [bind]. exists (y :: ys). split; [reflexivity|]. split; [cbn; lia|].
    intros [|k] y' Hy; cbn in Hy; [injection Hy as <-; exact Ry|].
    replace (k0 + S k)%nat with (S k0 + k)%nat by lia. now apply Rs.
Qed.

Lemma nth_combine {A B} : forall (l : list A) (l' : list B) k x, nth_error (combine l l') k = Some x ->
  nth_error l k = Some (fst x) /\ nth_error l' k = Some (snd x).
Proof.
  induction l as [|a l IH]; intros [|b l'] [|k] x H; try discriminate H; cbn in *.
  - injection H as <-. auto.
  - now apply IH.
Qed.
Lemma nth_repeat {A} (x y : A) n k : nth_error (repeat x n) k = Some y -> y = x.
Proof. intros H. apply nth_error_In in H. now apply repeat_spec in H. Qed.

Lemma nth_error_py {A} (l : list A) i x : 0 <= i -> nth_error l (Z.to_nat i) = Some x -> py_nth l i = Ok x.
Proof.
  intros Hi H. unfold py_nth. assert (L : (Z.to_nat i < List.length l)%nat) by (apply nth_error_Some; congruence).
  replace (i <? 0) with false by lia. unfold zlen. replace ((i <? 0) || (Z.of_nat (List.length l) <=? i)) with false by lia.
  now rewrite H.
Qed.

Section AllInputs.
Variables (ms : table) (T : Z -> Q) (s : Z) (notes : list note) (times : list Q) (last : pos) (tl : Q)
  (chords : option (list pchord)).
Hypothesis U : unique_mcs ms.
Hypothesis Fw : forward ms.
Hypothesis Ck : clock ms T.
Hypothesis FA : Forall2 (fun p t => plays_to ms s (fst p) /\ at_time ms T p t) (map no_on notes) times.
Hypothesis Pl : plays_to ms s (fst last).
Hypothesis Al : at_time ms T last tl.
Hypothesis Last : last_offset notes chords = Ok last.
Hypothesis Good : forall n, In n notes -> good_note n.
Notation tt := (times ++ [tl]).

Lemma coff_known b : 0 <= b -> exists tf,
  at_time ms T (match py_nth notes b with Ok m => no_on m | Raise _ => last end) tf /\
  plays_to ms s (fst (match py_nth notes b with Ok m => no_on m | Raise _ => last end)).
Proof.
  intros Hb. destruct (py_nth notes b) as [m|] eqn:E; [|eauto].
  apply py_nth_ok_inv in E.
  assert (I : In m notes).
  { destruct E as [[_ E]|[_ E]]; eapply nth_error_In; exact E. }
  assert (I' : In (no_on m) (map no_on notes)) by now apply in_map.
  destruct (Forall2_in_l _ _ _ FA _ I') as (t & _ & P & A). eauto.
Qed.

Lemma all_windows w (ranges : list (Z * Z)) (changes : list Z) (real : list (option pchord)) (t0s Ds : nat -> Q) (use_real : bool) :
  notes <> [] -> List.length ranges = List.length changes ->
  (if use_real then exists cs, chords = Some cs /\ real = map Some cs /\ List.length cs = List.length ranges
   else real = repeat None (List.length ranges)) ->
  (forall k a b c x, nth_error ranges k = Some (a, b) -> nth_error changes k = Some c -> nth_error real k = Some x ->
     0 <= c < zlen notes /\ 0 <= b <= zlen notes /\ a - w < zlen notes /\ 0 < b + w /\ a - w < b + w /\
     match x with
     | None => c <= b /\ nth_error tt (Z.to_nat c) = Some (t0s k) /\
               (exists tb, nth_error tt (Z.to_nat b) = Some tb /\ (Ds k == tb - t0s k)%Q)
     | Some h => chord_times ms T s h (t0s k) /\ (pc_dur h == Ds k)%Q /\
                 ((exists n, nth_error notes (Z.to_nat c) = Some n /\ same_pos (pc_on h) (no_on n)) \/ ~ (Ds k == 0)%Q)
     end) ->
  exists tensors, get_chord_note_inputs notes ms chords w ranges changes use_real = Ok tensors /\
    List.length tensors = List.length ranges /\
    forall k m a b, nth_error tensors k = Some m -> nth_error ranges k = Some (a, b) ->
      window_tensor notes tt a b w (t0s k) (Ds k) m.
Proof.
  intros Nn Lrc Hreal H. unfold get_chord_note_inputs.
  assert (E0 : (if use_real then match chords with Some cs => Ok (map Some cs) | None => Raise TypeError end
                else Ok (repeat None (List.length ranges))) = Ok real).
  { destruct use_real; [destruct Hreal as (cs & -> & -> & _); reflexivity|now rewrite Hreal]. }
  rewrite E0. cbn [bind]. rewrite Last. cbn [bind].
  destruct (duration_cache_spec ms T s U Fw Ck _ _ last tl FA Pl Al) as (durs & Ed & Sp). rewrite Ed. cbn [bind].
  assert (Lre : List.length real = List.length ranges).
  { destruct use_real; [destruct Hreal as (cs & _ & -> & L); now rewrite map_length|rewrite Hreal; apply repeat_length]. }
  match goal with |- exists tensors, mapM ?f ?l = _ /\ _ =>
    destruct (mapM_each f (fun k m => forall a b, nth_error ranges k = Some (a, b) ->
      window_tensor notes tt a b w (t0s k) (Ds k) m) l 0%nat) as (ys & E & L & R) end.
  - intros k [[[a b] c] x] Hk. apply nth_combine in Hk. destruct Hk as [Hk Hx]. cbn [fst snd] in *.
    apply nth_combine in Hk. destruct Hk as [Hr Hc]. cbn [fst snd] in *.
    destruct (H k a b c x Hr Hc Hx) as (Bc & Bb & B1 & B2 & B3 & Hm).
    assert (Hn : exists n, nth_error notes (Z.to_nat c) = Some n).
    { destruct (nth_error notes (Z.to_nat c)) eqn:X; [eauto|]. apply nth_error_None in X. unfold zlen in Bc. lia. }
    destruct Hn as (n & Hn). rewrite (nth_error_py notes c n) by (auto; lia). cbn [bind].
    set (D := match x with None => Model_Piece.qsum (py_slice durs c b) | Some h => pc_dur h end).
    assert (ED : (D == Ds k)%Q).
    { unfold D. destruct x as [h|]; [tauto|]. destruct Hm as (Hcb & Ht0 & tb & Htb & EDk).
      rewrite (slice_sum durs tt (telescope times tl durs Sp) c b (t0s k) tb); auto; [|lia]. lra. }
    destruct (one_window ms T s notes times last tl durs U Fw Ck FA Pl Al Ed Good Nn (no_on n)
      (match py_nth notes b with Ok m => no_on m | Raise _ => last end) D c a b w x (t0s k) (Ds k)) as (m & Em & Wm); auto.
    + now rewrite nth_error_map, Hn.
    + apply coff_known. lia.
    + destruct x as [h|]; [|tauto]. destruct Hm as (Ct & _ & Alt). split; [exact Ct|]. split; [reflexivity|].
      destruct Alt as [(n' & Hn' & Sp')|Nz]; [left|right].
      * rewrite Hn in Hn'. apply Some_inj in Hn'. now subst.
      * now rewrite ED.
    + exists m. split; [exact Em|]. rewrite Nat.add_0_l. intros a' b' Hr'. rewrite Hr in Hr'.
      apply Some_inj in Hr'. injection Hr' as -> ->. exact Wm.
  - exists ys. split; [exact E|]. split.
    + rewrite L, !combine_length. lia.
    + intros k m a b Hm Hr. exact (R k m Hm a b Hr).
Qed.
End AllInputs.
