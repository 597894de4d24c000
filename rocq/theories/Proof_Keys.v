(* Chords of a range of inputs; keys of a piece. *)
From Coq Require Import QArith Lqa.
From Verif Require Import PyBase Model_Types Model_Harmony Model_Strings Model_Rhythm Model_Piece
  Spec_Piece Proof_Base Proof_Codec Proof_Strings Proof_Rhythm Proof_Piece Proof_Window.
From Coq Require Import List.
Import ListNotations.
Close Scope Q_scope.
Open Scope Z_scope.

(* ---- get_chords_within_range ---- *)
Lemma filter_interval {A} (p : nat -> bool) : forall (l : list A) k a b,
  (forall i, (k <= i < k + List.length l)%nat -> p i = ((a <=? i) && (i <? b))%nat) ->
  map snd (filter (fun x => p (fst x)) (combine (seq k (List.length l)) l)) =
  firstn (b - Nat.max a k) (skipn (a - k) l).
Proof.
  induction l as [|x l IH]; intros k a b H; [now rewrite skipn_nil, firstn_nil|].
  cbn [List.length seq combine filter fst].
  assert (Ht : forall i, (S k <= i < S k + List.length l)%nat -> p i = ((a <=? i) && (i <? b))%nat)
    by (intros i Hi; apply H; cbn; lia).
  specialize (IH (S k) a b Ht). rewrite (H k) by (cbn; lia).
  destruct (a <=? k)%nat eqn:E1; cbn [andb]; [destruct (k <? b)%nat eqn:E2|].
  - cbn [map snd]. rewrite IH. replace (a - k)%nat with 0%nat by lia. replace (a - S k)%nat with 0%nat by lia.
    replace (b - Nat.max a k)%nat with (S (b - Nat.max a (S k)))%nat by lia. reflexivity.
  - rewrite IH. replace (b - Nat.max a k)%nat with 0%nat by lia. replace (b - Nat.max a (S k))%nat with 0%nat by lia. reflexivity.
  - rewrite IH. replace (a - k)%nat with (S (a - S k))%nat by lia. cbn [skipn]. f_equal. lia.
Qed.

Lemma non_decreasing_nth l : non_decreasing l -> forall i j a b, (i <= j)%nat -> nth_error l i = Some a ->
  nth_error l j = Some b -> a <= b.
Proof.
  induction l as [|x l IH]; intros N i j a b L Hi Hj; [now destruct i|].
  destruct l as [|y l].
  - destruct i as [|[|i]], j as [|[|j]]; try discriminate; cbn in *; try lia. congruence || (assert (a = b) by congruence; lia).
  - destruct N as [N1 N2]. destruct i as [|i], j as [|j]; cbn in Hi, Hj.
    + assert (a = b) by congruence. lia.
    + injection Hi as <-. assert (y <= b); [|lia]. apply (IH N2 0%nat j); [lia|reflexivity|exact Hj].
    + lia.
    + apply (IH N2 i j); [lia|exact Hi|exact Hj].
Qed.

Lemma within_range_spec {A} (chords : list A) changes start stop c0 :
  List.length chords = List.length changes -> non_decreasing changes ->
  nth_error changes 0 = Some c0 -> c0 <= start ->
  match stop with Some s => start <= s | None => True end ->
  get_chords_within_range chords changes start stop =
  Ok (map snd (filter (fun x => meets changes start stop (fst x)) (combine (seq 0 (List.length chords)) chords))).
Proof.
  intros L N C0 H0 Hs. unfold get_chords_within_range.
  assert (Hs' : match stop with Some s => s <? start | None => false end = false)
    by (destruct stop; [lia|reflexivity]).
  rewrite Hs'. clear Hs'.
  assert (M : forall x i j a b, (i <= j)%nat -> nth_error changes i = Some a -> nth_error changes j = Some b ->
     Z.ltb b x = true -> Z.ltb a x = true).
  { intros x i j a b I Ia Ib X. pose proof (non_decreasing_nth _ N i j a b I Ia Ib). lia. }
  destruct (bisect_left_spec Z.ltb changes start 0 (M start)) as (k & E & K & P & Q); [lia|].
  rewrite E. cbn [bind].
  set (si := match nth_error changes k with
             | Some c => if c =? start then Z.of_nat k else Z.of_nat k - 1
             | None => Z.of_nat k - 1 end).
  assert (LT : forall i c, nth_error changes i = Some c -> (i < List.length changes)%nat)
    by (intros i c X; apply nth_error_Some; congruence).
  assert (S0 : 0 <= si /\ forall i c, nth_error changes i = Some c ->
     ((Z.to_nat si <= i)%nat <-> start <= c \/ (forall c', nth_error changes (S i) = Some c' -> start < c'))).
  { unfold si. destruct (nth_error changes k) as [c|] eqn:Ck; [destruct (c =? start) eqn:Ec|].
    - split; [lia|]. intros i ci Hi. rewrite Nat2Z.id. split; intros X.
      + left. pose proof (Q i ci X Hi). lia.
      + destruct (Nat.le_gt_cases k i) as [Y|Y]; [exact Y|]. pose proof (P i ci ltac:(lia) Hi).
        destruct X as [X|X]; [lia|].
        destruct (nth_error changes (S i)) as [c'|] eqn:Hc'.
        * specialize (X c' eq_refl). destruct (Nat.eq_dec (S i) k) as [D|D]; [rewrite D in Hc'; assert (c' = c) by congruence; lia|].
          pose proof (P (S i) c' ltac:(lia) Hc'). lia.
        * apply nth_error_None in Hc'. pose proof (LT _ _ Ck). lia.
    - pose proof (Q k c (le_n k) Ck) as X.
      assert (0 < k)%nat. { destruct k; [|lia]. assert (c = c0) by congruence. lia. }
      split; [lia|]. intros i ci Hi. replace (Z.to_nat (Z.of_nat k - 1)) with (k - 1)%nat by lia. split; intros Y.
      + destruct (Nat.eq_dec i (k - 1)) as [->|D].
        * right. intros c' Hc'. replace (S (k - 1)) with k in Hc' by lia. assert (c' = c) by congruence. lia.
        * left. pose proof (Q i ci ltac:(lia) Hi). lia.
      + destruct (Nat.le_gt_cases (k - 1) i) as [Z1|Z1]; [exact Z1|]. pose proof (P i ci ltac:(lia) Hi).
        destruct Y as [Y|Y]; [lia|].
        destruct (nth_error changes (S i)) as [c'|] eqn:Hc'.
        * specialize (Y c' eq_refl). pose proof (P (S i) c' ltac:(lia) Hc'). lia.
        * apply nth_error_None in Hc'. pose proof (LT _ _ Ck). lia.
    - apply nth_error_None in Ck. pose proof (LT _ _ C0). split; [lia|]. intros i ci Hi.
      pose proof (LT _ _ Hi).
      replace (Z.to_nat (Z.of_nat k - 1)) with (k - 1)%nat by lia. split; intros Y.
      + right. intros c' Hc'. pose proof (LT _ _ Hc'). lia.
      + pose proof (P i ci ltac:(lia) Hi). destruct Y as [Y|Y]; [lia|].
        destruct (Nat.le_gt_cases (k - 1) i) as [Z1|Z1]; [exact Z1|].
        destruct (nth_error changes (S i)) as [c'|] eqn:Hc'.
        * specialize (Y c' eq_refl). pose proof (P (S i) c' ltac:(lia) Hc'). lia.
        * apply nth_error_None in Hc'. lia. }
  destruct S0 as [S0 S1].
  assert (S2 : forall i c, nth_error changes i = Some c ->
     ((start <=? c) || match nth_error changes (S i) with Some c' => start <? c' | None => true end) = (Z.to_nat si <=? i)%nat).
  { intros i c Hi. apply eq_true_iff_eq. rewrite orb_true_iff, Nat.leb_le, (S1 i c Hi), Z.leb_le.
    destruct (nth_error changes (S i)) as [c'|] eqn:Hc'.
    - rewrite Z.ltb_lt. split; (intros [X|X]; [now left|right]).
      + intros c'' H. congruence.
      + now apply X.
    - split; (intros [X|X]; [now left|right]); [discriminate|reflexivity]. }
  assert (Sl : (Z.to_nat si <= List.length changes)%nat).
  { unfold si. destruct (nth_error changes k) as [c|]; [destruct (c =? start)|]; lia. }
  destruct stop as [s|].
  - replace (Z.to_nat (Z.max si 0)) with (Z.to_nat si) by lia.
    destruct (bisect_left_spec Z.ltb changes s (Z.to_nat si) (M s) Sl) as (e & Ee & Ke & Pe & Qe).
    rewrite Ee. cbn [bind]. f_equal. rewrite py_slice_spec by lia.
    symmetry. etransitivity; [apply (filter_interval (meets changes start (Some s)) chords 0 (Z.to_nat si) e)|].
    + intros i Hi. unfold meets. destruct (nth_error changes i) as [c|] eqn:Ci; [|apply nth_error_None in Ci; lia].
      rewrite (S2 i c Ci). rewrite andb_comm. destruct (Z.to_nat si <=? i)%nat eqn:Y; [|reflexivity]. cbn [andb].
      destruct (i <? e)%nat eqn:W.
      * apply (Pe i c); [lia|exact Ci].
      * apply (Qe i c); [lia|exact Ci].
    + rewrite Nat.sub_0_r. replace (Nat.max (Z.to_nat si) 0) with (Z.to_nat si) by lia. f_equal. lia.
  - f_equal. rewrite py_slice_spec by (try lia; apply zlen_nonneg).
    symmetry. etransitivity; [apply (filter_interval (meets changes start None) chords 0 (Z.to_nat si) (List.length chords))|].
    + intros i Hi. unfold meets. destruct (nth_error changes i) as [c|] eqn:Ci; [|apply nth_error_None in Ci; lia].
      rewrite (S2 i c Ci). cbn [andb]. replace (i <? List.length chords)%nat with true by lia. now rewrite andb_true_r.
    + rewrite Nat.sub_0_r. replace (Nat.max (Z.to_nat si) 0) with (Z.to_nat si) by lia. f_equal. unfold zlen. lia.
Qed.

(* ---- the value in force ---- *)
Section Force.
Context {V : Type}.
Definition force (l : list (nat * V)) (k : nat) (v : V) : Prop :=
  exists l1 c l2, l = l1 ++ (c, v) :: l2 /\ (c <= k)%nat /\ forall x, In x l2 -> (k < fst x)%nat.
Fixpoint increasing (l : list (nat * V)) : Prop :=
  match l with
  | [] => True
  | x :: r => (forall y, In y r -> (fst x < fst y)%nat) /\ increasing r
  end.

Lemma force_cons x l k v : force l k v -> force (x :: l) k v.
Proof. intros (l1 & c & l2 & -> & H). exists (x :: l1), c, l2. split; [reflexivity|exact H]. Qed.
Lemma force_here c v l k : (c <= k)%nat -> (forall x, In x l -> (k < fst x)%nat) -> force ((c, v) :: l) k v.
Proof. intros H1 H2. exists [], c, l. auto. Qed.

Lemma apply_mask_incl {A} : forall mask (l : list A) x, In x (apply_mask mask l) -> In x l.
Proof.
  induction mask as [|b mask IH]; intros [|y l] x I; cbn in I; try contradiction.
  destruct b; [destruct I as [<-|I]; [now left|]|]; right; auto.
Qed.
Lemma increasing_mask : forall mask l, increasing l -> increasing (apply_mask mask l).
Proof.
  induction mask as [|b mask IH]; intros [|x l] H; cbn; auto. destruct H as [H1 H2].
  destruct b; [|auto]. split; [|auto]. intros y I. apply H1. eapply apply_mask_incl; eauto.
Qed.

Variable rep : V -> V -> bool.
Hypothesis T : forall a b c, rep a b = true -> rep b c = true -> rep a c = true.
Hypothesis Sy : forall a b, rep a b = true -> rep b a = true.
Hypothesis Re : forall a, rep a a = true.

Lemma force_mask_from : forall l prev k v, increasing l -> force l k v ->
  (exists v', force (apply_mask (mask_from rep prev (map snd l)) l) k v' /\ rep v' v = true) \/
  ((forall x, In x (apply_mask (mask_from rep prev (map snd l)) l) -> (k < fst x)%nat) /\ rep prev v = true).
Proof.
  induction l as [|[c0 v0] l IH]; intros prev k v Inc (l1 & c & l2 & E & Hc & H2).
  - destruct l1; discriminate E.
  - destruct Inc as [I1 I2]. cbn [map snd mask_from apply_mask]. destruct l1 as [|y l1].
    + cbn in E. injection E as -> -> <-. destruct (rep v prev) eqn:R; cbn [negb].
      * right. split; [|now apply Sy]. intros x Ix. apply H2. eapply apply_mask_incl; eauto.
      * left. exists v. split; [|apply Re]. apply force_here; [exact Hc|].
        intros x Ix. apply H2. eapply apply_mask_incl; eauto.
    + cbn in E. injection E as <- ->.
      assert (Hc0 : (c0 <= k)%nat).
      { specialize (I1 (c, v)). cbn in I1. assert (c0 < c)%nat; [apply I1; apply in_or_app; right; now left|lia]. }
      destruct (IH v0 k v I2) as [(v' & F & R)|(N & R)].
      { exists l1, c, l2. auto. }
      * left. exists v'. split; [|exact R]. destruct (negb (rep v0 prev)); [now apply force_cons|exact F].
      * destruct (rep v0 prev) eqn:R0; cbn [negb].
        -- right. split; [exact N|]. apply T with v0; [now apply Sy|exact R].
        -- left. exists v0. split; [|exact R]. now apply force_here.
Qed.

Lemma force_mask l k v : increasing l -> force l k v ->
  exists v', force (apply_mask (get_reduction_mask rep (map snd l)) l) k v' /\ rep v' v = true.
Proof.
  destruct l as [|[c0 v0] l]; intros Inc (l1 & c & l2 & E & Hc & H2); [destruct l1; discriminate E|].
  destruct Inc as [I1 I2].
  cbn [map snd get_reduction_mask apply_mask]. destruct l1 as [|y l1].
  - cbn in E. injection E as -> -> <-. exists v. split; [|apply Re]. apply force_here; [exact Hc|].
    intros x Ix. apply H2. eapply apply_mask_incl; eauto.
  - cbn in E. injection E as <- ->.
    assert (Hc0 : (c0 <= k)%nat).
    { specialize (I1 (c, v)). cbn in I1. assert (c0 < c)%nat; [apply I1; apply in_or_app; right; now left|lia]. }
    destruct (force_mask_from (l1 ++ (c, v) :: l2) v0 k v I2) as [(v' & F & R)|(N & R)].
    { exists l1, c, l2. auto. }
    + exists v'. split; [now apply force_cons|exact R].
    + exists v0. split; [now apply force_here|exact R].
Qed.
End Force.

(* ---- rows with a new key ---- *)
Section KeyRows.
Variables (V : Type) (g : label_row -> V).
Hypothesis G : forall a b, same_key_cols a b = true -> g a = g b.

Definition with_val (x : nat * label_row) : nat * V := (fst x, g (snd x)).

Lemma key_rows_ge : forall rows i prev x, In x (key_rows_from i prev rows) -> (i <= fst x)%nat.
Proof.
  induction rows as [|r rows IH]; intros i prev x I; [destruct I|]. cbn [key_rows_from] in I.
  destruct (match prev with None => true | Some p => negb (same_key_cols r p) end).
  - destruct I as [<-|I]; [cbn; lia|]. apply IH in I. lia.
  - apply IH in I. lia.
Qed.
Lemma key_rows_increasing : forall rows i prev, increasing (map with_val (key_rows_from i prev rows)).
Proof.
  induction rows as [|r rows IH]; intros i prev; [exact I|]. cbn [key_rows_from].
  destruct (match prev with None => true | Some p => negb (same_key_cols r p) end); [|apply IH].
  cbn [map increasing]. split; [|apply IH]. intros y Iy. apply in_map_iff in Iy.
  destruct Iy as (z & <- & Iz). apply key_rows_ge in Iz. cbn. lia.
Qed.
Lemma key_rows_force : forall rows i prev k r, nth_error rows k = Some r ->
  force (map with_val (key_rows_from i prev rows)) (i + k) (g r) \/
  (exists p, prev = Some p /\ g p = g r /\ forall x, In x (key_rows_from i prev rows) -> (i + k < fst x)%nat).
Proof.
  induction rows as [|r0 rows IH]; intros i prev k r Hk; [now destruct k|].
  cbn [key_rows_from].
  destruct (match prev with None => true | Some p => negb (same_key_cols r0 p) end) eqn:Ch.
  - left. cbn [map]. change (with_val (i, r0)) with (i, g r0). destruct k as [|k]; cbn in Hk.
    + injection Hk as <-. apply force_here; [lia|]. intros x Ix. apply in_map_iff in Ix.
      destruct Ix as (z & <- & Iz). apply key_rows_ge in Iz. unfold with_val; cbn [fst]; lia.
    + destruct (IH (S i) (Some r0) k r Hk) as [F|(p & E & Eg & N)].
      * apply force_cons. now replace (i + S k)%nat with (S i + k)%nat by lia.
      * apply Some_inj in E. subst p. rewrite Eg.
        apply force_here; [lia|]. intros x Ix. apply in_map_iff in Ix. destruct Ix as (z & <- & Iz).
        apply N in Iz. unfold with_val; cbn [fst]; lia.
  - destruct prev as [p|]; [|discriminate Ch]. apply negb_false_iff in Ch. apply G in Ch.
    destruct k as [|k]; cbn in Hk.
    + injection Hk as <-. right. exists p. split; [reflexivity|]. split; [congruence|].
      intros x Ix. apply key_rows_ge in Ix. lia.
    + destruct (IH (S i) (Some r0) k r Hk) as [F|(p' & E & Eg & N)].
      * left. now replace (i + S k)%nat with (S i + k)%nat by lia.
      * apply Some_inj in E. subst p'. right. exists p. split; [reflexivity|]. split; [congruence|].
        intros x Ix. apply N in Ix. lia.
Qed.
End KeyRows.

(* ---- a loaded piece ---- *)
Lemma same_cols_key pt a b : same_key_cols a b = true -> key_from_series pt a = key_from_series pt b.
Proof.
  unfold same_key_cols. rewrite !andb_true_iff, !str_eqb_eq, ostr_eqb_iff.
  intros ((((H1 & H2) & H3) & H4) & H5). apply Bool.eqb_prop in H2. apply Bool.eqb_prop in H3.
  unfold key_from_series, key_of_row. now rewrite H1, H2, H4, H5.
Qed.

Lemma mask_map {A B} (rep : B -> B -> bool) (f : A -> B) l :
  get_reduction_mask rep (map f l) = get_reduction_mask (fun a b => rep (f a) (f b)) l.
Proof.
  destruct l as [|x l]; [reflexivity|]. cbn. f_equal. revert x.
  induction l as [|y l IH]; intros x; [reflexivity|]. cbn. now rewrite IH.
Qed.

Lemma in_somes {A} (l : list (option A)) x : In x (somes l) <-> In (Some x) l.
Proof.
  induction l as [|[y|] l IH]; cbn; [tauto| |].
  - rewrite IH. split; (intros [H|H]; [left; congruence|now right]).
  - rewrite IH. split; [now right|]. intros [H|H]; [discriminate H|exact H].
Qed.
Lemma somes_all {A B} (f : A -> option B) (g : A -> B) l : (forall x, In x l -> f x = Some (g x)) ->
  somes (map f l) = map g l.
Proof.
  induction l as [|x l IH]; intros H; [reflexivity|]. cbn. rewrite H by now left.
  cbn. f_equal. apply IH. intros y I. apply H. now right.
Qed.

Notation merged := merge_group.
Definition firsts {A B} (g : (A * B) * list (A * B)) : A * list A := (fst (fst g), map fst (snd g)).

Lemma concat_firsts {A B} (gs : list ((A * B) * list (A * B))) :
  map fst (concat (map (fun g => fst g :: snd g) gs)) =
  concat (map (fun g => fst g :: snd g) (map firsts gs)).
Proof.
  induction gs as [|[h t] gs IH]; [reflexivity|]. cbn. rewrite map_app, IH. reflexivity.
Qed.
Lemma run_mask_firsts {A B} (gs : list ((A * B) * list (A * B))) : run_mask (map firsts gs) = run_mask gs.
Proof.
  unfold run_mask. induction gs as [|[h t] gs IH]; [reflexivity|]. cbn. rewrite IH, map_map. reflexivity.
Qed.

Section Loaded.
Variables (timesig : Z -> option (Z * Z)) (red : reduction) (ui ur us : bool)
  (note_rows : list note_row) (rows : list label_row).
Notation parse := (chord_from_series timesig TPC red ui ur).
Definition parsed_rows : list (pchord * label_row) :=
  somes (map (fun r => match parse r with Some c => Some (c, r) | None => None end) rows).

Lemma parsed_in c r : In (c, r) parsed_rows -> In r rows /\ parse r = Some c.
Proof.
  unfold parsed_rows. rewrite in_somes, in_map_iff. intros (r' & E & I).
  destruct (parse r') eqn:P; [|discriminate E]. injection E as -> ->. auto.
Qed.

Lemma parse_key r c : parse r = Some c -> exists k, key_from_series TPC r = Some k /\
  c_tonic (pc c) = (if ur then k_rel k else k_local k) /\
  c_mode (pc c) = (if ur then k_rel_mode k else k_local_mode k) /\ c_pt (pc c) = TPC /\
  pc_on c = lr_on r /\ pc_off c = lr_off r /\ pc_dur c = lr_dur r.
Proof.
  unfold chord_from_series. destruct (lr_numeral r) as [n|]; [|discriminate].
  destruct (str_eqb n _); [discriminate|].
  destruct (key_from_series TPC r) as [k|]; [|discriminate].
  cbn [bind or_none]. intros E. exists k. split; [reflexivity|].
  destruct (transpose_pitch (k_local k) (lr_root r) TPC) as [root|]; [|discriminate E]. cbn [bind] in E.
  destruct (get_chord_type_from_string (lr_type r)) as [t|]; [|discriminate E]. cbn [bind] in E.
  destruct (if ui then get_chord_inversion (lr_figbass r) else Ok 0) as [i|]; [|discriminate E]. cbn [bind] in E.
  destruct (get_bass_note _ root _ TPC false) as [b|]; [|discriminate E]. cbn [bind] in E.
  destruct (negb _); [discriminate E|].
  destruct (level_at timesig (lr_on r)); [|discriminate E]. cbn [bind] in E.
  destruct (level_at timesig (lr_off r)); [|discriminate E]. cbn [bind] in E.
  cbn [or_none] in E. apply Some_inj in E. subst c. cbn. repeat split; reflexivity.
Qed.

(* The shape of a loaded piece. *)
Lemma score_piece_inv p : get_score_piece timesig red ui ur us note_rows rows = Ok p ->
  exists gs,
    maximal_runs (fun a b => chord_repeated ui us (fst a) (fst b) = true) parsed_rows gs /\ gs <> [] /\
    p_notes p = somes (map (note_from_series timesig TPC) note_rows) /\
    p_chords p = map merged (map firsts gs) /\
    p_changes p = chord_changes (map no_on (p_notes p)) 0 (map pc_on (p_chords p)) /\
    p_ranges p = chord_ranges (p_notes p) (map pc_on (p_chords p)) (p_changes p) /\
    exists keys, let kr := key_rows_from 0 None (map (fun g => snd (fst g)) gs) in
      keys = somes (map (fun x => key_from_series TPC (snd x)) kr) /\
      List.length keys = List.length kr /\
      p_keys p = apply_mask (get_reduction_mask (key_repeated ur) keys) keys /\
      p_key_changes p = apply_mask (get_reduction_mask (key_repeated ur) keys) (map fst kr).
Proof.
  unfold get_score_piece. fold parsed_rows. cbn zeta.
  set (mask := get_reduction_mask (chord_repeated ui us) (map fst parsed_rows)).
  destruct (mask_runs (fun a b : pchord * label_row => chord_repeated ui us (fst a) (fst b))) with (l := parsed_rows)
    as (gs & Mr & Em).
  { intros a b c. rewrite !chord_repeated_iff. apply same_chord_trans. }
  { intros a b. rewrite !chord_repeated_iff. apply same_chord_sym. }
  assert (E1 : mask = run_mask gs) by (unfold mask; now rewrite mask_map).
  assert (E2 : merge_repeats [] (combine (map fst parsed_rows) mask) = Ok (map merged (map firsts gs))).
  { rewrite E1, <- run_mask_firsts. destruct Mr as [<- _]. rewrite concat_firsts.
    rewrite merge_repeats_runs. cbn [rev app]. reflexivity. }
  assert (E3 : map snd (apply_mask mask parsed_rows) = map (fun g => snd (fst g)) gs).
  { rewrite E1. destruct Mr as [<- _]. rewrite apply_run_mask, map_map. reflexivity. }
  assert (Ng : parsed_rows <> [] -> gs <> []).
  { intros N ->. destruct Mr as [M _]. cbn in M. congruence. }
  intros H. exists gs. split; [exact Mr|].
  destruct parsed_rows as [|x [|y l]] eqn:Ep; [discriminate H|discriminate H|].
  rewrite E2 in H. cbn [bind] in H. rewrite E3 in H.
  split; [apply Ng; discriminate|].
  destruct (somes (map (note_from_series timesig TPC) note_rows)) as [|n0 [|n1 ns]] eqn:En; [|discriminate H|];
  match type of H with (if ?b then _ else _) = _ => destruct b eqn:Lk; [|discriminate H] end;
  apply Ok_inj in H; subst p; cbn [p_notes p_chords p_changes p_ranges p_keys p_key_changes];
  (do 4 (split; [reflexivity|]); eexists; cbn zeta; split; [reflexivity|]; apply Nat.eqb_eq in Lk;
   split; [exact Lk|split; reflexivity]).
Qed.

(* The key in force at each chord is the key the chord was read with. *)
Lemma keys_in_force p : get_score_piece timesig red ui ur us note_rows rows = Ok p ->
  List.length (p_keys p) = List.length (p_key_changes p) /\
  increasing (combine (p_key_changes p) (p_keys p)) /\
  forall k ch, nth_error (p_chords p) k = Some ch ->
    exists key, force (combine (p_key_changes p) (p_keys p)) k key /\
      c_tonic (pc ch) = (if ur then k_rel key else k_local key) /\
      c_mode (pc ch) = (if ur then k_rel_mode key else k_local_mode key).
Proof.
  intros H. destruct (score_piece_inv p H) as (gs & Mr & Ng & _ & Hch & _ & _ & keys & Hk & Lk & Hkeys & Hkc).
  cbn zeta in *.
  set (kept := map (fun g => snd (fst g)) gs) in *. set (kr := key_rows_from 0 None kept) in *.
  pose (g := fun r => match key_from_series TPC r with Some k => k
                      | None => mkKey 0 0 0 MAJOR MAJOR MAJOR TPC end).
  assert (Gg : forall a b, same_key_cols a b = true -> g a = g b).
  { intros a b E. unfold g. now rewrite (same_cols_key TPC a b E). }
  assert (Pk : forall q, In q gs -> parse (snd (fst q)) = Some (fst (fst q))).
  { intros q I. destruct Mr as [Mc _].
    assert (Ip : In (fst q) parsed_rows).
    { rewrite <- Mc. apply in_concat. exists (fst q :: snd q). split; [|now left].
      apply in_map_iff. exists q. auto. }
    destruct q as [[c r] t]. cbn in Ip |- *. apply parsed_in in Ip. apply Ip. }
  assert (Gk : forall r, In r kept -> key_from_series TPC r = Some (g r)).
  { intros r I. unfold kept in I. apply in_map_iff in I. destruct I as (q & <- & Iq).
    destruct (parse_key _ _ (Pk q Iq)) as (k & E & _). unfold g. now rewrite E. }
  assert (Sub : forall rs i prev x, In x (key_rows_from i prev rs) -> In (snd x) rs).
  { clear. induction rs as [|r rs IH]; intros i prev x I; [destruct I|]. cbn [key_rows_from] in I.
    destruct (match prev with None => true | Some p => negb (same_key_cols r p) end).
    - destruct I as [<-|I]; [now left|]. right. eapply IH; eauto.
    - right. eapply IH; eauto. }
  assert (Ek : keys = map (fun x => g (snd x)) kr).
  { rewrite Hk. apply somes_all. intros x I. apply Gk. unfold kr in I. eapply Sub; eauto. }
  assert (Ecomb : combine (map fst kr) keys = map (with_val key_obj g) kr).
  { rewrite Ek. clear. induction kr as [|x kr IH]; [reflexivity|]. cbn. now rewrite IH. }
  assert (Ezip : forall (m : list bool) (l1 : list nat) (l2 : list key_obj), List.length l1 = List.length l2 ->
     combine (apply_mask m l1) (apply_mask m l2) = apply_mask m (combine l1 l2) /\
     List.length (apply_mask m l1) = List.length (apply_mask m l2)).
  { clear. induction m as [|b m IH]; intros [|x l1] [|y l2] L; try discriminate L; try (split; reflexivity).
    cbn in L. injection L as L. destruct (IH l1 l2 L) as [A B]. destruct b; cbn; [|auto]. rewrite A, B. auto. }
  assert (Lz : List.length (map fst kr) = List.length keys) by (rewrite map_length; lia).
  destruct (Ezip (get_reduction_mask (key_repeated ur) keys) _ _ Lz) as [Z1 Z2].
  rewrite <- Hkeys, <- Hkc in Z1, Z2. split; [lia|].
  assert (Snd : map snd (map (with_val key_obj g) kr) = keys).
  { rewrite Ek, map_map. reflexivity. }
  assert (Inc : increasing (map (with_val key_obj g) kr)) by (apply key_rows_increasing; exact Gg).
  rewrite Z1, Ecomb. split; [apply increasing_mask; exact Inc|].
  intros k ch Hc. rewrite Hch, map_map, nth_error_map in Hc.
  destruct (nth_error gs k) as [q|] eqn:Hq; [|discriminate Hc]. cbn in Hc. apply Some_inj in Hc.
  assert (Iq : In q gs) by (eapply nth_error_In; eauto).
  assert (Hrow : nth_error kept k = Some (snd (fst q))) by (unfold kept; now rewrite nth_error_map, Hq).
  destruct (key_rows_force key_obj g Gg kept 0 None k _ Hrow) as [F|(p' & E & _)]; [|discriminate E].
  rewrite Nat.add_0_l in F. fold kr in F.
  destruct (force_mask (key_repeated ur)) with (l := map (with_val key_obj g) kr) (k := k) (v := g (snd (fst q)))
    as (v' & F' & R'); auto.
  { intros a b c. rewrite !key_repeated_iff. apply same_key_trans. }
  { intros a b. rewrite !key_repeated_iff. apply same_key_sym. }
  { intros a. rewrite key_repeated_iff. repeat split; reflexivity. }
  rewrite Snd in F'. exists v'. split; [exact F'|].
  apply key_repeated_iff in R'. destruct R' as (_ & R1 & R2).
  destruct (parse_key _ _ (Pk q Iq)) as (k0 & E0 & T0 & M0 & _).
  assert (Eg : g (snd (fst q)) = k0) by (unfold g; now rewrite E0).
  rewrite Eg in *. subst ch.
  pose proof (fold_merge (map fst (snd q)) (fst (fst q))) as (Fm & _). cbn zeta in Fm.
  unfold merge_group, firsts. cbn [fst snd]. rewrite Fm, T0, M0.
  destruct ur.
  - destruct (R1 eq_refl) as [-> ->]. auto.
  - destruct (R2 eq_refl) as [-> ->]. auto.
Qed.
End Loaded.
