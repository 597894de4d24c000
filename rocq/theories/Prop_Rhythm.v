(* C23, C24, C38, C48, C58, C59: score positions, metrical levels, note offsets. *)
From Coq Require Import QArith Qround Lqa.
From Verif Require Import PyBase Proof_Base Model_Rhythm Spec_Rhythm Proof_Rhythm.
Close Scope Q_scope.
Open Scope Z_scope.

(* A piece with a pick-up measure, a split measure (3 and 5), a first ending (4) that no
   longer is on the path, and a missing next value at the end. *)
Definition tab : table :=
  [mkM 1 (1#4) (3#4) (NextMc 2); mkM 2 1 0 (NextMc 3); mkM 3 (1#2) 0 (NextMc 5);
   mkM 4 (1#2) (1#2) (NextMc 5); mkM 5 (1#2) (1#2) NextNA].

Example tab_unique : unique_mcs tab.
Proof. unfold unique_mcs. cbn. repeat constructor; cbn; intuition discriminate. Qed.
Example tab_forward : forward tab.
Proof.
  intros m I n E. cbn in I.
  destruct I as [<-|[<-|[<-|[<-|[<-|[]]]]]]; cbn in E; try discriminate;
    injection E as <-; (split; [reflexivity|cbn; tauto]).
Qed.
Example tab_plays : plays_to tab 1 5 /\ plays_to tab 1 2.
Proof.
  assert (P : forall m n b, In m tab -> m_next m = NextMc n -> plays_to tab n b ->
              plays_to tab (m_mc m) b) by (intros m n b I E P; eapply pt_step; [split; eauto|exact E|exact P]).
  split.
  - apply (P (mkM 1 (1#4) (3#4) (NextMc 2)) 2); [cbn; tauto|reflexivity|].
    apply (P (mkM 2 1 0 (NextMc 3)) 3); [cbn; tauto|reflexivity|].
    apply (P (mkM 3 (1#2) 0 (NextMc 5)) 5); [cbn; tauto|reflexivity|]. apply pt_refl.
  - apply (P (mkM 1 (1#4) (3#4) (NextMc 2)) 2); [cbn; tauto|reflexivity|]. apply pt_refl.
Qed.
Example tab_clock : clock tab (fun c => nth (Z.to_nat c) [0; 0; 1#4; 5#4; 5#4; 7#4] 0)%Q.
Proof.
  intros m n I E. cbn in I.
  destruct I as [<-|[<-|[<-|[<-|[<-|[]]]]]]; cbn in E; try discriminate;
    injection E as <-; vm_compute; reflexivity.
Qed.

(* ---- C23 ---- *)
(* The distance between two positions of a piece is the difference of their times. *)
Theorem C23_distance : forall ms T s a b ta tb,
  unique_mcs ms -> forward ms -> clock ms T ->
  plays_to ms s (fst a) -> plays_to ms s (fst b) ->
  at_time ms T a ta -> at_time ms T b tb ->
  exists d, get_range_length a b ms = Ok d /\ (d == tb - ta)%Q.
Proof. exact range_length_spec. Qed.
Print Assumptions C23_distance.

(* Such a time assignment exists for every table whose next column points forward. *)
Theorem C23_clock_exists : forall ms, unique_mcs ms -> forward ms -> exists T, clock ms T.
Proof. exact clock_exists. Qed.
Print Assumptions C23_clock_exists.

Theorem C23_antisymmetric : forall a b ms d, get_range_length a b ms = Ok d ->
  exists d', get_range_length b a ms = Ok d' /\ (d' == - d)%Q.
Proof. exact range_length_antisym. Qed.
Print Assumptions C23_antisymmetric.

Lemma has_time ms T p : In (fst p) (map m_mc ms) -> exists t, at_time ms T p t.
Proof.
  intros I. destruct (in_row_of _ _ I) as (m & R). eexists. exists m. split; [exact R|reflexivity].
Qed.

(* Additive, for three positions that can be played from the same measure s. *)
Theorem C23_additive : forall ms s a b c,
  unique_mcs ms -> forward ms -> In s (map m_mc ms) ->
  plays_to ms s (fst a) -> plays_to ms s (fst b) -> plays_to ms s (fst c) ->
  exists ab bc ac, get_range_length a b ms = Ok ab /\ get_range_length b c ms = Ok bc /\
    get_range_length a c ms = Ok ac /\ (ac == ab + bc)%Q.
Proof.
  intros ms s a b c U F I Pa Pb Pc. destruct (clock_exists ms U F) as (T & C).
  destruct (has_time ms T a (plays_to_in _ _ _ F Pa I)) as (ta & Ta).
  destruct (has_time ms T b (plays_to_in _ _ _ F Pb I)) as (tb & Tb).
  destruct (has_time ms T c (plays_to_in _ _ _ F Pc I)) as (tc & Tc).
  destruct (range_length_spec ms T s a b ta tb) as (d1 & G1 & D1); auto.
  destruct (range_length_spec ms T s b c tb tc) as (d2 & G2 & D2); auto.
  destruct (range_length_spec ms T s a c ta tc) as (d3 & G3 & D3); auto.
  exists d1, d2, d3. repeat split; auto. lra.
Qed.
Print Assumptions C23_additive.

(* Positions inside measures of positive length at distance zero are the same position. *)
Theorem C23_zero_means_equal : forall ms s a b d,
  unique_mcs ms -> forward ms -> (forall m, In m ms -> (0 < m_dur m)%Q) ->
  plays_to ms s (fst a) -> plays_to ms s (fst b) -> within ms a -> within ms b ->
  get_range_length a b ms = Ok d -> (d == 0)%Q ->
  fst a = fst b /\ (snd a == snd b)%Q.
Proof.
  intros ms s a b d U F D Pa Pb Wa Wb G Z0. destruct (clock_exists ms U F) as (T & C).
  assert (Ia : In (fst a) (map m_mc ms)) by (destruct Wa as (m & R & _); eapply row_of_in; eauto).
  assert (Ib : In (fst b) (map m_mc ms)) by (destruct Wb as (m & R & _); eapply row_of_in; eauto).
  destruct (has_time ms T a Ia) as (ta & Ta). destruct (has_time ms T b Ib) as (tb & Tb).
  destruct (range_length_spec ms T s a b ta tb) as (d1 & G1 & D1); auto.
  rewrite G in G1. apply Ok_inj in G1. subst d1.
  apply (same_time_same_position ms T s a b ta); auto.
  destruct Tb as (m & R & Tb). exists m. split; [exact R|lra].
Qed.
Print Assumptions C23_zero_means_equal.

(* On any table, a number is returned only when one of the two positions can be reached
   from the other by playing; otherwise the call raises. *)
Theorem C23_only_when_connected : forall a b ms d, get_range_length a b ms = Ok d ->
  plays_to ms (fst a) (fst b) \/ plays_to ms (fst b) (fst a).
Proof. exact range_length_plays. Qed.
Print Assumptions C23_only_when_connected.

Example C23_example :
  (exists d, get_range_length (1, (7#8)%Q) (5, (3#4)%Q) tab = Ok d /\ (d == 15#8)%Q) /\
  (exists d, get_range_length (5, (3#4)%Q) (1, (7#8)%Q) tab = Ok d /\ (d == -(15#8))%Q) /\
  within tab (1, (7#8)%Q) /\ within tab (5, (3#4)%Q) /\
  at_time tab (fun c => nth (Z.to_nat c) [0; 0; 1#4; 5#4; 5#4; 7#4] 0)%Q (5, (3#4)%Q) (2#1) /\
  get_range_length (3, 0%Q) (4, 0%Q) tab = Raise TypeError.
Proof.
  split; [eexists; split; [vm_compute; reflexivity|reflexivity]|].
  split; [eexists; split; [vm_compute; reflexivity|reflexivity]|].
  split; [exists (mkM 1 (1#4) (3#4) (NextMc 2)); split; [split; [cbn; tauto|reflexivity]|split; vm_compute; [discriminate|reflexivity]]|].
  split; [exists (mkM 5 (1#2) (1#2) NextNA); split; [split; [cbn; tauto|reflexivity]|split; vm_compute; [discriminate|reflexivity]]|].
  split; [exists (mkM 5 (1#2) (1#2) NextNA); split; [split; [cbn; tauto|reflexivity]|reflexivity]|].
  vm_compute. reflexivity.
Qed.

(* ---- C24 ---- *)
Theorem C24_levels : forall n d beat, n <> 0 -> d <> 0 ->
  let compound := (3 < n /\ n mod 3 = 0)%Z in
  exists l, get_metrical_level beat (n, d) = Ok l /\ 0 <= l <= 3 /\
    (l = 3 <-> multiple beat (inject_Z n / inject_Z d)) /\
    (compound -> (2 <= l <-> multiple beat (3 / inject_Z d)) /\
                 (1 <= l <-> multiple beat (1 / inject_Z d))) /\
    (~ compound -> (2 <= l <-> multiple beat (1 / inject_Z d)) /\
                   (1 <= l <-> multiple beat (1 / inject_Z (2 * d)))).
Proof. exact level_spec. Qed.
Print Assumptions C24_levels.

(* Inside a measure, only its start is a downbeat. *)
Theorem C24_downbeat : forall n d beat, 0 < n -> 0 < d ->
  (0 <= beat)%Q -> (beat < inject_Z n / inject_Z d)%Q ->
  (get_metrical_level beat (n, d) = Ok 3 <-> (beat == 0)%Q).
Proof.
  intros n d beat Hn Hd L H.
  destruct (level_spec n d beat) as (l & E & R & H3 & _); [lia..|]. rewrite E. split.
  - intros X. apply Ok_inj in X. apply H3 in X. destruct X as (k & Hk).
    assert (P : (0 < inject_Z n / inject_Z d)%Q).
    { apply Qlt_shift_div_l; [|rewrite Qmult_0_l]; replace 0%Q with (inject_Z 0) by reflexivity;
        rewrite <- Zlt_Qlt; lia. }
    set (y := (inject_Z n / inject_Z d)%Q) in *.
    assert (K0 : k = 0).
    { destruct (Z_lt_le_dec k 0) as [K|K].
      - assert (X : (inject_Z k <= inject_Z (-1))%Q) by (rewrite <- Zle_Qle; lia).
        change (inject_Z (-1)) with (-1)%Q in X. nra.
      - destruct (Z_lt_le_dec 0 k) as [K'|K']; [|lia].
        assert (X : (inject_Z 1 <= inject_Z k)%Q) by (rewrite <- Zle_Qle; lia).
        change (inject_Z 1) with 1%Q in X. nra. }
    rewrite Hk, K0. reflexivity.
  - intros Z0. f_equal. apply H3. exists 0. rewrite Z0. reflexivity.
Qed.
Print Assumptions C24_downbeat.

(* The level repeats every measure. *)
Theorem C24_periodic : forall n d beat k, n <> 0 -> d <> 0 ->
  get_metrical_level (beat + inject_Z k * (inject_Z n / inject_Z d)) (n, d) =
  get_metrical_level beat (n, d).
Proof.
  intros n d beat k Hn Hd.
  set (y := (inject_Z n / inject_Z d)%Q).
  assert (M : forall z, multiple y z -> (multiple (beat + inject_Z k * y) z <-> multiple beat z)).
  { intros z (j & Hj). split; intros (i & Hi).
    - exists (i + - (k * j)). rewrite inject_Z_plus, inject_Z_opp, inject_Z_mult. rewrite Hj in Hi. lra.
    - exists (i + k * j). rewrite inject_Z_plus, inject_Z_mult. rewrite Hj. lra. }
  assert (Nd : ~ (inject_Z d == 0)%Q) by now apply inject_Z_nz.
  assert (M3 : multiple y y) by (exists 1; change (inject_Z 1) with 1%Q; ring).
  assert (Mb : multiple y (1 / inject_Z d)).
  { exists n. unfold y. field. exact Nd. }
  assert (Ms : multiple y (1 / inject_Z (2 * d))).
  { exists (2 * n). unfold y. rewrite !inject_Z_mult. change (inject_Z 2) with 2%Q. field. exact Nd. }
  destruct (level_spec n d (beat + inject_Z k * y)%Q Hn Hd) as (l & E & R & H3 & Hc & Hs).
  destruct (level_spec n d beat Hn Hd) as (l' & E' & R' & H3' & Hc' & Hs').
  rewrite E, E'. f_equal. fold y in H3, H3'. rewrite (M y M3) in H3.
  assert (D : (3 < n /\ n mod 3 = 0) \/ ~ (3 < n /\ n mod 3 = 0)) by lia.
  destruct D as [D|D].
  - destruct (Hc D) as [H2 H1]. destruct (Hc' D) as [H2' H1'].
    assert (Mc : multiple y (3 / inject_Z d)).
    { exists (n / 3). assert (Hq : n = 3 * (n / 3)) by (apply Z.div_exact; lia).
      unfold y. rewrite Hq at 1. rewrite inject_Z_mult. change (inject_Z 3) with 3%Q.
      field. exact Nd. }
    rewrite (M _ Mc) in H2. rewrite (M _ Mb) in H1.
    pose proof (iff_trans H3 (iff_sym H3')). pose proof (iff_trans H2 (iff_sym H2')).
    pose proof (iff_trans H1 (iff_sym H1')). lia.
  - destruct (Hs D) as [H2 H1]. destruct (Hs' D) as [H2' H1'].
    rewrite (M _ Mb) in H2. rewrite (M _ Ms) in H1.
    pose proof (iff_trans H3 (iff_sym H3')). pose proof (iff_trans H2 (iff_sym H2')).
    pose proof (iff_trans H1 (iff_sym H1')). lia.
Qed.
Print Assumptions C24_periodic.

Example C24_example :
  map (fun b => get_metrical_level b (6, 8)) [0; 3#8; 1#8; 1#16; 3#4; 5#8]%Q
    = [Ok 3; Ok 2; Ok 1; Ok 0; Ok 3; Ok 1] /\
  map (fun b => get_metrical_level b (4, 4)) [0; 3#8; 1#4; 1#16; 1]%Q
    = [Ok 3; Ok 1; Ok 2; Ok 0; Ok 3] /\
  get_metrical_level (1#8) (3, 8) = Ok 2.
Proof. vm_compute. repeat split. Qed.

(* ---- C38 ---- *)
(* The offset is the position whose time is the onset's time plus the duration, it is
   reached by playing from the onset, and it lies inside its measure unless that is the
   last one. *)
Theorem C38_offset : forall ms T note dur t fuel,
  unique_mcs ms -> forward ms -> clock ms T -> (forall m, In m ms -> (0 < m_dur m)%Q) ->
  at_time ms T note t -> (List.length ms <= fuel)%nat ->
  exists mc b m, add_note_offset fuel ms note dur = Ok (mc, Some b) /\
    at_time ms T (mc, b) (t + dur) /\ plays_to ms (fst note) mc /\
    row_of ms mc m /\
    ((b < m_off m + m_dur m)%Q \/ (forall n, m_next m <> NextMc n)) /\
    ((0 <= dur)%Q -> within ms note -> (m_off m <= b)%Q).
Proof.
  intros ms T note dur t fuel U F C D (mo & Ro & Ho) L. unfold add_note_offset.
  destruct (offset_loop_spec ms T U F C fuel (fst note) (snd note + dur)%Q (t + dur)%Q)
    as (mc & b & E & A & P & (m & Rm & N) & W).
  - exists mo. cbn [fst snd]. split; [exact Ro|lra].
  - pose proof (rows_from_le ms (fst note)). lia.
  - exists mc, b, m. split; [exact E|]. split; [exact A|]. split; [exact P|]. split; [exact Rm|].
    split.
    + unfold m_end in N. destruct N as [N|[N|N]].
      * right. intros n H. unfold next_of in N. rewrite H in N. discriminate.
      * left. lra.
      * left. destruct Rm as [Im _]. pose proof (D m Im). lra.
    + intros Dd (mo' & Ro' & Lo & _).
      destruct (W mo' Ro') as (m' & Rm' & H); [lra|].
      rewrite (row_of_unique ms mc m m' U Rm Rm'). exact H.
Qed.
Print Assumptions C38_offset.

(* Read with get_range_length: the distance from onset to offset is the duration. *)
Theorem C38_distance_is_duration : forall ms note dur fuel,
  unique_mcs ms -> forward ms -> In (fst note) (map m_mc ms) -> (List.length ms <= fuel)%nat ->
  exists mc b d, add_note_offset fuel ms note dur = Ok (mc, Some b) /\
    get_range_length note (mc, b) ms = Ok d /\ (d == dur)%Q.
Proof.
  intros ms note dur fuel U F I L. destruct (clock_exists ms U F) as (T & C).
  destruct (has_time ms T note I) as (t & A).
  destruct (offset_loop_spec ms T U F C fuel (fst note) (snd note + dur)%Q (t + dur)%Q)
    as (mc & b & E & A' & P & _ & _).
  - destruct A as (m & R & H). exists m. cbn [fst snd]. split; [exact R|lra].
  - pose proof (rows_from_le ms (fst note)). lia.
  - destruct (range_length_spec ms T (fst note) note (mc, b) t (t + dur)%Q) as (d & G & D); auto.
    + apply pt_refl.
    + exists mc, b, d. split; [exact E|]. split; [exact G|lra].
Qed.
Print Assumptions C38_distance_is_duration.

Example C38_example :
  match add_note_offset 5 tab (1, (7#8)%Q) (3#2) with
  | Ok (mc, Some b) => mc = 3 /\ (b == 3#8)%Q
  | _ => False
  end /\
  match add_note_offset 5 tab (2, (1#2)%Q) 1 with
  | Ok (mc, Some b) => mc = 5 /\ (b == 1#2)%Q
  | _ => False
  end.
Proof. vm_compute. repeat split. Qed.

(* ---- C48 ---- *)
Theorem C48_telescopes : forall ms T s onsets times last tl,
  unique_mcs ms -> forward ms -> clock ms T ->
  Forall2 (fun p t => plays_to ms s (fst p) /\ at_time ms T p t) onsets times ->
  plays_to ms s (fst last) -> at_time ms T last tl ->
  exists cache, get_duration_cache onsets last ms = Ok cache /\
    List.length cache = List.length onsets /\
    (* any range of the cache sums to the distance between its ends; index
       [length onsets] is the end of the piece *)
    (forall i j ti tj, (i <= j)%nat -> nth_error (times ++ [tl]) i = Some ti ->
       nth_error (times ++ [tl]) j = Some tj ->
       (qsum (firstn (j - i) (skipn i cache)) == tj - ti)%Q) /\
    (* and no entry is negative when the onsets are in order *)
    ((forall i ti tj, nth_error (times ++ [tl]) i = Some ti ->
        nth_error (times ++ [tl]) (S i) = Some tj -> (ti <= tj)%Q) ->
     forall d, In d cache -> (0 <= d)%Q).
Proof.
  intros ms T s onsets times last tl U F C FA Pl Al.
  destruct (duration_cache_spec ms T s U F C onsets times last tl FA Pl Al) as (cache & E & Sp).
  exists cache. split; [exact E|].
  assert (Lc : List.length cache = List.length onsets).
  { rewrite (Forall2_len _ _ _ Sp), combine_length, app_length.
    rewrite (Forall2_len _ _ _ FA). destruct times; cbn [List.tl List.length]; lia. }
  split; [exact Lc|]. split; [exact (telescope times tl cache Sp)|].
  intros Sorted d I. apply In_nth_error in I. destruct I as (i & Hi).
  assert (Li : (i < List.length cache)%nat) by (apply nth_error_Some; congruence).
  assert (Lt : List.length times = List.length cache) by (rewrite Lc; symmetry; exact (Forall2_len _ _ _ FA)).
  destruct (nth_error (times ++ [tl]) i) as [ti|] eqn:E1.
  2:{ apply nth_error_None in E1. rewrite app_length in E1. cbn in E1. lia. }
  destruct (nth_error (times ++ [tl]) (S i)) as [tj|] eqn:E2.
  2:{ apply nth_error_None in E2. rewrite app_length in E2. cbn in E2. lia. }
  pose proof (telescope times tl cache Sp i (S i) ti tj (Nat.le_succ_diag_r i) E1 E2) as Te.
  replace (S i - i)%nat with 1%nat in Te by lia.
  destruct (skipn i cache) as [|x r] eqn:Sk.
  { exfalso. assert (List.length (skipn i cache) = 0)%nat by now rewrite Sk.
    rewrite skipn_length in H. lia. }
  assert (x = d).
  { assert (X : nth_error (skipn i cache) 0 = Some d).
    { rewrite <- Hi. clear. revert i. induction cache as [|c cache IH]; intros [|i]; cbn; auto.
      destruct i; reflexivity || (now rewrite <- IH). }
    rewrite Sk in X. cbn in X. congruence. }
  subst x. cbn [firstn qsum] in Te. pose proof (Sorted i ti tj E1 E2). lra.
Qed.
Print Assumptions C48_telescopes.

Example C48_example :
  match get_duration_cache [(1, (3#4)%Q); (1, (7#8)%Q); (2, 0%Q); (2, 0%Q); (5, (1#2)%Q)] (5, 1%Q) tab with
  | Ok l => Forall2 Qeq l [1#8; 1#8; 0; 3#2; 1#2]%Q
  | Raise _ => False
  end.
Proof. vm_compute. repeat constructor. Qed.

(* ---- C58 ---- *)
(* Whichever end of the range the note is nearer to (the code measures from that end), the
   three numbers are the same affine function of the note's position in the range. *)
Theorem C58_proportions : forall ms T s note dur rs re tn ts te len,
  unique_mcs ms -> forward ms -> clock ms T ->
  plays_to ms s (fst note) -> plays_to ms s (fst rs) -> plays_to ms s (fst re) ->
  at_time ms T note tn -> at_time ms T rs ts -> at_time ms T re te ->
  ~ (ts == te)%Q -> (len = None \/ exists l, len = Some l /\ (l == te - ts)%Q) ->
  exists on off du, get_rhythmic_info note dur rs re ms len = Ok (on, off, du) /\
    (on == (tn - ts) / (te - ts))%Q /\ (off == (tn + dur - ts) / (te - ts))%Q /\
    (du == dur / (te - ts))%Q.
Proof. exact rhythmic_info_spec. Qed.
Print Assumptions C58_proportions.

(* An empty range is an error, never a number. *)
Theorem C58_empty_range : forall note dur rs ms len,
  len = None \/ (exists l, len = Some l /\ (l == 0)%Q) ->
  get_rhythmic_info note dur rs rs ms len = Raise ZeroDivisionError.
Proof.
  intros note dur rs ms len H. unfold get_rhythmic_info.
  assert (HL : exists l, match len with Some l => Ok l | None => get_range_length rs rs ms end = Ok l
                         /\ (l == 0)%Q).
  { destruct H as [->|(l & -> & E)]; [|eauto].
    destruct (range_length_same rs rs ms eq_refl) as (l & G & D). exists l. split; [exact G|lra]. }
  destruct HL as (l & -> & El). cbn [bind]. unfold frac_div at 1.
  apply Qeq_bool_iff in El. now rewrite El.
Qed.
Print Assumptions C58_empty_range.

Example C58_example :
  match get_rhythmic_info (5, (1#2)%Q) (1#4) (1, (3#4)%Q) (5, 1%Q) tab None with
  | Ok (on, off, du) => (on == 7#9)%Q /\ (off == 8#9)%Q /\ (du == 1#9)%Q
  | _ => False
  end /\
  match get_rhythmic_info (2, (1#2)%Q) (1#4) (1, (3#4)%Q) (5, 1%Q) tab (Some (9#4)%Q) with
  | Ok (on, off, du) => (on == 1#3)%Q /\ (off == 4#9)%Q /\ (du == 1#9)%Q
  | _ => False
  end.
Proof. vm_compute. repeat split. Qed.

(* ---- C59 ---- *)
(* Reading levels through the shared cache gives the same levels, in any order of
   queries, with the same exceptions. *)
Theorem C59_cache_transparent : forall queries,
  match mapM (fun q => get_metrical_level (fst q) (snd q)) queries with
  | Ok ls => exists c', cached_levels [] queries = Ok (ls, c')
  | Raise e => cached_levels [] queries = Raise e
  end.
Proof. intros queries. apply cached_levels_spec. intros ts b l []. Qed.
Print Assumptions C59_cache_transparent.

Example C59_example :
  match cached_levels [] [((1#4)%Q, (3, 4)); ((2#8)%Q, (3, 4)); ((1#4)%Q, (6, 8))] with
  | Ok (ls, c) => ls = [2; 2; 1] /\ List.length c = 2%nat
  | _ => False
  end.
Proof. vm_compute. repeat split. Qed.
