(* C46, C47, C53, C62: pieces.  *)
From Coq Require Import QArith Lqa String Ascii.
From Verif Require Import PyBase Model_Types Model_Harmony Model_Strings Model_Rhythm Model_Piece
  Spec_Music Spec_Rhythm Spec_Piece Proof_Base Proof_Codec Proof_Strings Proof_Transpose Proof_Rhythm Proof_Piece Proof_Window Proof_Keys Prop_Rhythm.
From Coq Require Import List.
Import ListNotations.
Close Scope Q_scope.
Open Scope Z_scope.

(* A chord with the given root, type, inversion in C major. *)
Definition ch (root : Z) (t : chord_type) (inv : Z) (on off : pos) (d : Q) : pchord :=
  mkPC {| c_root := root; c_bass := root; c_tonic := 15; c_mode := MAJOR; c_type := t; c_inv := inv;
          c_pt := TPC |} on 3 off 3 d None.

(* ---- C46 ---- *)
(* What counts as a repetition. *)
Theorem C46_chord_repetition : forall ui us a b, chord_repeated ui us a b = true <-> same_chord ui us a b.
Proof. exact chord_repeated_iff. Qed.
Print Assumptions C46_chord_repetition.
Theorem C46_key_repetition : forall ur a b, key_repeated ur a b = true <-> same_key ur a b.
Proof. exact key_repeated_iff. Qed.
Print Assumptions C46_key_repetition.

(* The mask keeps the first element of every maximal run and drops the others. *)
Theorem C46_chord_runs : forall ui us l, exists gs,
  maximal_runs (same_chord ui us) l gs /\
  List.length (get_reduction_mask (chord_repeated ui us) l) = List.length l /\
  apply_mask (get_reduction_mask (chord_repeated ui us) l) l = map fst gs.
Proof.
  intros ui us l. destruct (mask_runs (chord_repeated ui us)) with (l := l) as (gs & M & E).
  { intros a b c. rewrite !chord_repeated_iff. apply same_chord_trans. }
  { intros a b. rewrite !chord_repeated_iff. apply same_chord_sym. }
  exists gs. split; [eapply maximal_runs_iff; [apply chord_repeated_iff|exact M]|].
  rewrite E. destruct M as [<- _]. split; [|apply apply_run_mask].
  clear. induction gs as [|[h t] gs IH]; [reflexivity|]. unfold run_mask in *. cbn.
  now rewrite !app_length, map_length, IH.
Qed.
Print Assumptions C46_chord_runs.
Theorem C46_key_runs : forall ur l, exists gs,
  maximal_runs (same_key ur) l gs /\
  List.length (get_reduction_mask (key_repeated ur) l) = List.length l /\
  apply_mask (get_reduction_mask (key_repeated ur) l) l = map fst gs.
Proof.
  intros ur l. destruct (mask_runs (key_repeated ur)) with (l := l) as (gs & M & E).
  { intros a b c. rewrite !key_repeated_iff. apply same_key_trans. }
  { intros a b. rewrite !key_repeated_iff. apply same_key_sym. }
  exists gs. split; [eapply maximal_runs_iff; [apply key_repeated_iff|exact M]|].
  rewrite E. destruct M as [<- _]. split; [|apply apply_run_mask].
  clear. induction gs as [|[h t] gs IH]; [reflexivity|]. unfold run_mask in *. cbn.
  now rewrite !app_length, map_length, IH.
Qed.
Print Assumptions C46_key_runs.

(* In a loaded piece each maximal run of readable labels is one chord: the first label of the
   run, with the end of its last label and the sum of the durations. *)
Theorem C46_piece_chords : forall ts red ui ur us note_rows rows p,
  get_score_piece ts red ui ur us note_rows rows = Ok p ->
  exists gs,
    maximal_runs (same_chord ui us) (somes (map (chord_from_series ts TPC red ui ur) rows)) gs /\
    Forall2 (fun g m =>
      pc m = pc (fst g) /\ pc_on m = pc_on (fst g) /\ pc_on_level m = pc_on_level (fst g) /\
      pc_susp m = pc_susp (fst g) /\
      pc_off m = pc_off (List.last (snd g) (fst g)) /\
      pc_off_level m = pc_off_level (List.last (snd g) (fst g)) /\
      (pc_dur m == pc_dur (fst g) + total (map pc_dur (snd g)))%Q) gs (p_chords p).
Proof.
  intros ts red ui ur us note_rows rows p H.
  destruct (score_piece_inv _ _ _ _ _ _ _ _ H) as (gs & M & _ & _ & Hc & _).
  exists (map firsts gs). split.
  - destruct M as (M1 & M2 & M3). split; [|split].
    + rewrite <- concat_firsts, M1. unfold parsed_rows. clear.
      induction rows as [|r rows IH]; [reflexivity|]. cbn.
      destruct (chord_from_series ts TPC red ui ur r); cbn; now rewrite IH.
    + intros g x Ig Ix. apply in_map_iff in Ig. destruct Ig as (q & <- & Iq). cbn in Ix |- *.
      apply in_map_iff in Ix. destruct Ix as (y & <- & Iy). apply chord_repeated_iff. eauto.
    + clear -M3. induction gs as [|g gs IH]; [exact I|]. destruct gs as [|g' gs]; [exact I|].
      destruct M3 as [A B]. split; [|now apply IH]. cbn. rewrite <- chord_repeated_iff. exact A.
  - rewrite Hc. clear. induction (map firsts gs) as [|g l IH]; [constructor|]. cbn [map]. constructor; [|exact IH].
    destruct g as [h t]. exact (fold_merge t h).
Qed.
Print Assumptions C46_piece_chords.

(* If the readable labels leave no gap, nor do the chords of the piece, and no time is lost. *)
Theorem C46_time : forall ts red ui ur us note_rows rows p,
  get_score_piece ts red ui ur us note_rows rows = Ok p ->
  let labels := somes (map (chord_from_series ts TPC red ui ur) rows) in
  (touching labels -> touching (p_chords p)) /\
  (total (map pc_dur (p_chords p)) == total (map pc_dur labels))%Q.
Proof.
  intros ts red ui ur us note_rows rows p H labels.
  destruct (score_piece_inv _ _ _ _ _ _ _ _ H) as (gs & (M1 & _) & _ & _ & Hc & _).
  assert (E : labels = concat (map (fun g => fst g :: snd g) (map firsts gs))).
  { rewrite <- concat_firsts, M1. unfold parsed_rows, labels. clear.
    induction rows as [|r rows IH]; [reflexivity|]. cbn.
    destruct (chord_from_series ts TPC red ui ur r); cbn; now rewrite IH. }
  rewrite Hc, E. split; [apply touching_merged|apply total_merged].
Qed.
Print Assumptions C46_time.

Definition labels46 : list pchord :=
  [ch 15 Maj 0 (0, 0%Q) (0, (1#2)%Q) (1#2); ch 15 Maj 1 (0, (1#2)%Q) (1, 0%Q) (1#2);
   ch 16 Maj_Min7 0 (1, 0%Q) (1, (1#2)%Q) (1#2); ch 15 Maj 0 (1, (1#2)%Q) (2, 0%Q) (1#2)].
Example C46_example :
  get_reduction_mask (chord_repeated false false) labels46 = [true; false; true; true] /\
  get_reduction_mask (chord_repeated true false) labels46 = [true; true; true; true] /\
  touching labels46.
Proof. vm_compute. repeat split; reflexivity. Qed.

(* Labels and notes of a small piece: C: I I6 V65, then G: I V *)
Definition ts44 (mc : Z) : option (Z * Z) := if (0 <=? mc) && (mc <? 10) then Some (4, 4) else None.
Definition lab (num : pystr) (root : Z) (type fb local : pystr) (on off : pos) (d : Q) : label_row :=
  mkLR (Some num) root type fb (L"C") false local false None on off d None.
Definition rows1 : list label_row :=
  [lab (L"I") 0 (L"M") [] (L"I") (0, 0%Q) (0, (1#2)%Q) (1#2);
   lab (L"I") 0 (L"M") (L"6") (L"I") (0, (1#2)%Q) (1, 0%Q) (1#2);
   lab (L"V") 1 (L"Mm7") (L"65") (L"I") (1, 0%Q) (1, (1#2)%Q) (1#2);
   lab (L"I") 0 (L"M") [] (L"V") (1, (1#2)%Q) (2, 0%Q) (1#2);
   lab (L"V") 1 (L"M") [] (L"V") (2, 0%Q) (3, 0%Q) 1].
Definition notes1 : list note_row :=
  [mkNR 60 0 (0, 0%Q) (0, (1#2)%Q) (1#2); mkNR 64 4 (0, (1#2)%Q) (1, 0%Q) (1#2);
   mkNR 67 1 (1, 0%Q) (1, (1#2)%Q) (1#2); mkNR 71 5 (1, 0%Q) (2, 0%Q) 1;
   mkNR 74 2 (1, (3#4)%Q) (2, 0%Q) (1#4); mkNR 62 2 (2, 0%Q) (3, 0%Q) 1].

Example C46_piece_example :
  match get_score_piece ts44 (fun t => t) false false false notes1 rows1 with
  | Ok p => map (fun c => (c_root (pc c), c_type (pc c), pc_on c, pc_off c)) (p_chords p) =
      [(15, Maj, (0, 0%Q), (1, 0%Q)); (16, Maj_Min7, (1, 0%Q), (1, (1#2)%Q));
       (16, Maj, (1, (1#2)%Q), (2, 0%Q)); (17, Maj, (2, 0%Q), (3, 0%Q))] /\ touching (p_chords p)
  | _ => False
  end.
Proof. vm_compute. repeat split; reflexivity. Qed.

(* A label that cannot be read (here: the annotators marked "no chord") leaves a gap, and equal
   chords on both sides of it become one: it ends at 3/4 but lasts only 1/2. *)
Definition rows_gap : list label_row :=
  [lab (L"I") 0 (L"M") [] (L"I") (0, 0%Q) (0, (1#4)%Q) (1#4);
   lab (L"@none") 0 (L"M") [] (L"I") (0, (1#4)%Q) (0, (1#2)%Q) (1#4);
   lab (L"I") 0 (L"M") [] (L"I") (0, (1#2)%Q) (0, (3#4)%Q) (1#4);
   lab (L"V") 1 (L"M") [] (L"I") (0, (3#4)%Q) (1, 0%Q) (1#4)].
Theorem C46_gap_refuted : exists p c, get_score_piece ts44 (fun t => t) true false false notes1 rows_gap = Ok p /\
  nth_error (p_chords p) 0 = Some c /\ pc_on c = (0, 0%Q) /\ pc_off c = (0, (3#4)%Q) /\ (pc_dur c == 1#2)%Q.
Proof.
  eexists. eexists. split; [vm_compute; reflexivity|]. cbn. split; [reflexivity|].
  split; [reflexivity|]. split; [reflexivity|]. reflexivity.
Qed.
Print Assumptions C46_gap_refuted.

(* ---- C47 ---- *)
(* The change index of a chord is the first note not before the chord, or the last note. *)
Theorem C47_changes : forall ts red ui ur us note_rows rows p,
  get_score_piece ts red ui ur us note_rows rows = Ok p -> p_notes p <> [] ->
  in_order (map pc_on (p_chords p)) ->
  List.length (p_changes p) = List.length (p_chords p) /\
  forall k c i, nth_error (p_chords p) k = Some c -> nth_error (p_changes p) k = Some i ->
    first_or_last (fun n => ~ before (no_on n) (pc_on c)) (p_notes p) i.
Proof.
  intros ts red ui ur us note_rows rows p H Nn O.
  destruct (score_piece_inv _ _ _ _ _ _ _ _ H) as (gs & _ & _ & _ & _ & Hc & _).
  split; [now rewrite Hc, chord_changes_length, map_length|].
  intros k c i Kc Ki. rewrite Hc in Ki.
  destruct (chord_changes_spec (map pc_on (p_chords p)) [] (map no_on (p_notes p)) k (pc_on c) i) as (F & _); auto.
  - destruct (p_notes p); [congruence|discriminate].
  - intros x [].
  - now rewrite nth_error_map, Kc.
  - destruct F as (F1 & F2 & F3). cbn [app] in *. rewrite map_length in *. split; [exact F1|]. split.
    + intros j n Hj Hn. apply (F2 j (no_on n) Hj). now rewrite nth_error_map, Hn.
    + intros n Hn. apply F3. now rewrite nth_error_map, Hn.
Qed.
Print Assumptions C47_changes.

(* Change indexes never decrease, in whatever order the labels are. *)
Theorem C47_changes_monotone : forall ts red ui ur us note_rows rows p,
  get_score_piece ts red ui ur us note_rows rows = Ok p -> p_notes p <> [] ->
  non_decreasing (map Z.of_nat (p_changes p)).
Proof.
  intros ts red ui ur us note_rows rows p H Nn.
  destruct (score_piece_inv _ _ _ _ _ _ _ _ H) as (gs & _ & _ & _ & _ & Hc & _).
  assert (M : forall k i j, nth_error (p_changes p) k = Some i -> nth_error (p_changes p) (S k) = Some j -> (i <= j)%nat).
  { rewrite Hc. intros k i j. apply (chord_changes_mono (map pc_on (p_chords p)) [] (map no_on (p_notes p)) k i j).
    destruct (p_notes p); [congruence|discriminate]. }
  revert M. clear. generalize (p_changes p). induction l as [|a l IH]; intros M; [exact I|].
  destruct l as [|b l]; [exact I|]. cbn [map]. split.
  - pose proof (M 0%nat a b eq_refl eq_refl). lia.
  - apply IH. intros k. apply (M (S k)).
Qed.
Print Assumptions C47_changes_monotone.

(* The notes of a chord: every note that starts before the next chord's change index and is
   sounding at the chord's onset or starts later is in the range; the range starts with such a
   note (or is empty) and reaches to the next chord's change index, or the last note. *)
Theorem C47_ranges : forall ts red ui ur us note_rows rows p k c,
  get_score_piece ts red ui ur us note_rows rows = Ok p ->
  nth_error (p_chords p) k = Some c ->
  exists s e, nth_error (p_ranges p) k = Some (s, e) /\
    e = match nth_error (p_changes p) (S k) with Some i => i | None => List.length (p_notes p) end /\
    (forall n, nth_error (p_notes p) s = Some n ->
       ~ before (no_on n) (pc_on c) \/ before (pc_on c) (no_off n)) /\
    (forall j n, nth_error (p_notes p) j = Some n -> (j < e)%nat ->
       ~ before (no_on n) (pc_on c) \/ before (pc_on c) (no_off n) -> (s <= j < e)%nat).
Proof.
  intros ts red ui ur us note_rows rows p k c H Kc.
  destruct (score_piece_inv _ _ _ _ _ _ _ _ H) as (gs & _ & _ & _ & _ & Hc & Hr & _).
  destruct (range_start_from_spec (pc_on c) (p_notes p) 0) as (s & E & L & P1 & P2).
  assert (Lc : List.length (p_changes p) = List.length (p_chords p)) by (now rewrite Hc, chord_changes_length, map_length).
  assert (Lk : (k < List.length (p_chords p))%nat) by (apply nth_error_Some; congruence).
  exists s, (match nth_error (p_changes p) (S k) with Some i => i | None => List.length (p_notes p) end).
  split; [|split; [reflexivity|split]].
  - rewrite Hr. unfold chord_ranges.
    assert (A : nth_error (map (fun o => get_range_start o (p_notes p)) (map pc_on (p_chords p))) k = Some s).
    { rewrite map_map, nth_error_map, Kc. cbn. unfold get_range_start. rewrite E. reflexivity. }
    assert (B : nth_error (tl (p_changes p) ++ [List.length (p_notes p)]) k =
                Some (match nth_error (p_changes p) (S k) with Some i => i | None => List.length (p_notes p) end)).
    { rewrite <- Lc in Lk. clear -Lk. destruct (p_changes p) as [|a l]; cbn in *; [lia|].
      destruct (nth_error l k) as [i|] eqn:X.
      - rewrite nth_error_app1; [exact X|]. apply nth_error_Some. congruence.
      - apply nth_error_None in X. rewrite nth_error_app2 by lia. replace (k - List.length l)%nat with 0%nat by lia. reflexivity. }
    revert A B. generalize (map (fun o => get_range_start o (p_notes p)) (map pc_on (p_chords p))).
    generalize (tl (p_changes p) ++ [List.length (p_notes p)]).
    generalize (match nth_error (p_changes p) (S k) with Some i => i | None => List.length (p_notes p) end).
    clear. intros e l l'. revert k l'. induction l as [|x l IH]; intros [|k] [|y l'] A B; try discriminate; cbn in *.
    + congruence.
    + now apply IH.
  - exact P2.
  - intros j n Hn Hj C. split; [|exact Hj]. destruct (Nat.le_gt_cases s j) as [X|X]; [exact X|].
    exfalso. destruct (P1 j n X Hn) as [B1 B2]. destruct C as [C|C]; contradiction.
Qed.
Print Assumptions C47_ranges.

(* Looking up the chords of the inputs [start, stop). *)
Theorem C47_lookup : forall (A : Type) (chords : list A) changes start stop c0,
  List.length chords = List.length changes -> non_decreasing changes ->
  nth_error changes 0 = Some c0 -> c0 <= start ->
  match stop with Some s => start <= s | None => True end ->
  get_chords_within_range chords changes start stop =
  Ok (map snd (filter (fun x => meets changes start stop (fst x))
                 (combine (seq 0 (List.length chords)) chords))).
Proof. intros A. exact (@within_range_spec A). Qed.
Print Assumptions C47_lookup.

(* Inputs before the first chord: start_index is -1, so the last chord is looked at instead. *)
Theorem C47_lookup_refuted :
  get_chords_within_range [10; 20; 30] [2; 5; 7] 0 (Some 6) = Ok [] /\
  get_chords_within_range [10; 20; 30] [2; 5; 7] 0 None = Ok [30] /\
  meets [2; 5; 7] 0 (Some 6) 0 = true /\ meets [2; 5; 7] 0 None 1 = true.
Proof. repeat split; reflexivity. Qed.
Print Assumptions C47_lookup_refuted.

Example C47_example :
  match get_score_piece ts44 (fun t => t) false false false notes1 rows1 with
  | Ok p => p_changes p = [0; 2; 4; 5]%nat /\ p_ranges p = [(0, 2); (2, 4); (3, 5); (5, 6)]%nat /\
            get_chords_within_range (p_chords p) (map Z.of_nat (p_changes p)) 3 (Some 5) =
            Ok (firstn 2 (skipn 1 (p_chords p)))
  | _ => False
  end.
Proof. vm_compute. repeat split; reflexivity. Qed.

(* ---- C62 ---- *)
(* The keys of a piece: the key in force at a chord is the key the chord's label was read in. *)
Theorem C62_keys_in_force : forall ts red ui ur us note_rows rows p,
  get_score_piece ts red ui ur us note_rows rows = Ok p ->
  List.length (p_keys p) = List.length (p_key_changes p) /\
  strictly_increasing (p_key_changes p) /\
  forall k c, nth_error (p_chords p) k = Some c ->
    exists key, last_up_to (combine (p_key_changes p) (p_keys p)) k key /\
      c_tonic (pc c) = (if ur then k_rel key else k_local key) /\
      c_mode (pc c) = (if ur then k_rel_mode key else k_local_mode key).
Proof.
  intros ts red ui ur us note_rows rows p H.
  destruct (keys_in_force _ _ _ _ _ _ _ _ H) as (L & Inc & F). split; [exact L|]. split; [|exact F].
  clear F H. revert Inc L. generalize (p_keys p). generalize (p_key_changes p).
  induction l as [|a l IH]; intros ks Inc L; [exact I|]. destruct ks as [|k0 ks]; [discriminate L|].
  destruct l as [|b l]; [exact I|]. destruct ks as [|k1 ks]; [discriminate L|].
  destruct Inc as [I1 I2]. split; [apply (I1 (b, k1)); now left|]. apply (IH (k1 :: ks) I2). cbn in *. lia.
Qed.
Print Assumptions C62_keys_in_force.

(* No key change is recorded where the key stays the same. *)
Theorem C62_keys_differ : forall ts red ui ur us note_rows rows p,
  get_score_piece ts red ui ur us note_rows rows = Ok p ->
  forall j a b, nth_error (p_keys p) j = Some a -> nth_error (p_keys p) (S j) = Some b -> ~ same_key ur b a.
Proof.
  intros ts red ui ur us note_rows rows p H j a b Ha Hb.
  destruct (score_piece_inv _ _ _ _ _ _ _ _ H) as (gs & _ & _ & _ & _ & _ & _ & keys & _ & _ & Hk & _).
  destruct (C46_key_runs ur keys) as (ks & (_ & _ & D) & _ & E). rewrite Hk, E in Ha, Hb.
  revert j Ha Hb D. clear. induction ks as [|g ks IH]; intros j Ha Hb D; [destruct j; discriminate Ha|].
  destruct ks as [|g' ks]; [destruct j as [|[|j]]; discriminate Hb|]. destruct D as [D1 D2].
  destruct j as [|j]; cbn in Ha, Hb; [|now apply (IH j)].
  injection Ha as <-. injection Hb as <-. exact D1.
Qed.
Print Assumptions C62_keys_differ.

Example C62_example :
  match get_score_piece ts44 (fun t => t) false false false notes1 rows1 with
  | Ok p => p_key_changes p = [0; 2]%nat /\ map k_local (p_keys p) = [15; 16] /\
            map (fun c => c_tonic (pc c)) (p_chords p) = [15; 15; 16; 16]
  | _ => False
  end.
Proof. vm_compute. repeat split; reflexivity. Qed.

(* Two labels of the same chord, the second in a new key: the chord keeps the first key, and the
   key change is recorded with the chord after it. *)
Definition rows_pivot : list label_row :=
  [lab (L"I") 0 (L"M") [] (L"I") (0, 0%Q) (0, (1#2)%Q) (1#2);
   lab (L"IV") (-1) (L"M") [] (L"V") (0, (1#2)%Q) (1, 0%Q) (1#2);
   lab (L"V") 1 (L"M") [] (L"V") (1, 0%Q) (1, (1#2)%Q) (1#2)].
Theorem C62_pivot_refuted :
  (* the second label is in G major ... *)
  (exists k, key_from_series TPC (nth 1 rows_pivot (nth 0 rows_pivot (lab [] 0 [] [] [] (0, 0%Q) (0, 0%Q) 0%Q))) = Some k /\
     k_local k = 16) /\
  (* ... but the piece is in C major until the third *)
  exists p, get_score_piece ts44 (fun t => t) true false false notes1 rows_pivot = Ok p /\
    map (fun c => (pc_on c, c_tonic (pc c))) (p_chords p) = [((0, 0%Q), 15); ((1, 0%Q), 16)] /\
    p_key_changes p = [0; 1]%nat.
Proof.
  split; [eexists; split; [vm_compute; reflexivity|reflexivity]|].
  eexists. split; [vm_compute; reflexivity|]. split; reflexivity.
Qed.
Print Assumptions C62_pivot_refuted.

(* A piece whose labels give a single chord, or that has a single note, cannot be loaded. *)
Theorem C62_single_refuted : forall ts red ui ur us note_rows rows c,
  somes (map (chord_from_series ts TPC red ui ur) rows) = [c] ->
  get_score_piece ts red ui ur us note_rows rows = Raise TypeError.
Proof.
  intros ts red ui ur us note_rows rows c E. unfold get_score_piece. fold (parsed_rows ts red ui ur rows).
  assert (X : map fst (parsed_rows ts red ui ur rows) = [c]).
  { rewrite <- E. unfold parsed_rows. clear. induction rows as [|r rows IH]; [reflexivity|]. cbn.
    destruct (chord_from_series ts TPC red ui ur r); cbn; now rewrite IH. }
  destruct (parsed_rows ts red ui ur rows) as [|x [|y l]]; try discriminate X. reflexivity.
Qed.
Print Assumptions C62_single_refuted.
Example C62_single_example :
  List.length (somes (map (chord_from_series ts44 TPC (fun t => t) true false) (firstn 1 rows1))) = 1%nat.
Proof. reflexivity. Qed.

(* The column localkey_is_minor ("True if the local key is minor", key.py:303) is not read: the mode of the local key is
   the case of its numeral.  The row is the one of tests/test_piece.py:230-239, where a major key is expected. *)
Definition with_local_minor (b : bool) (r : label_row) : label_row :=
  mkLR (lr_numeral r) (lr_root r) (lr_type r) (lr_figbass r) (lr_globalkey r) (lr_global_minor r) (lr_localkey r) b
       (lr_relroot r) (lr_on r) (lr_off r) (lr_dur r) (lr_changes r).
Theorem C62_minor_refuted :
  (forall ts pt red ui ur r b, key_from_series pt (with_local_minor b r) = key_from_series pt r /\
     chord_from_series ts pt red ui ur (with_local_minor b r) = chord_from_series ts pt red ui ur r) /\
  (exists r k, lr_globalkey r = L"A" /\ lr_global_minor r = true /\ lr_localkey r = L"iii" /\ lr_local_minor r = false /\
     lr_relroot r = None /\ key_from_series TPC r = Some k /\ k_local_mode k = MINOR).
Proof.
  split; [intros ts pt red ui ur r b; split; reflexivity|].
  exists (mkLR (Some (L"III")) 5 (L"M") [] (L"A") true (L"iii") false None (1, (1 # 2)%Q) (2, (3 # 4)%Q) (5 # 6)%Q None).
  exists (mkKey 15 15 18 MINOR MINOR MINOR TPC). do 5 (split; [reflexivity|]). split; [vm_compute; reflexivity|reflexivity].
Qed.
Print Assumptions C62_minor_refuted.

(* ---- reading one label row ---- *)
Theorem C62_label_key : forall r k, row_key r k -> key_from_series TPC r = Some k.
Proof.
  intros r k (Pt & Gr & (c & v & sh & fl & Lf & Gk & G) & Gm & (path & Pn & Po & Lk & Lr) & Rel).
  unfold key_from_series, key_of_row. rewrite Gk, (tpc_spelling c v sh fl Lf), <- G. cbn zeta.
  replace ((0 <=? k_global k) && (k_global k <? 35)) with true by (symmetry; apply andb_true_iff; lia).
  cbn [bind]. rewrite Lk, (decode_relative_keys_spec TPC path _ _ Pn Po), <- Gm, Lr. cbn [bind].
  destruct k as [kr kl kg mr ml mg pt]; cbn in *. subst pt.
  destruct (lr_relroot r) as [s|].
  - destruct Rel as (rp & Rn & Ro & -> & Rr). rewrite (decode_relative_keys_spec TPC rp _ _ Rn Ro), Rr. reflexivity.
  - destruct Rel as [-> ->]. reflexivity.
Qed.
Print Assumptions C62_label_key.

Lemma label_types_read : forall s t, In (s, t) label_types ->
  get_chord_type_from_string (list_ascii_of_string s) = Ok t.
Proof.
  intros s t H.
  repeat (destruct H as [H|H]; [apply pair_equal_spec in H; destruct H as [<- <-]; reflexivity|]).
  destruct H.
Qed.
Lemma figures_read : forall s i, In (s, i) figures -> get_chord_inversion (list_ascii_of_string s) = Ok i /\ 0 <= i.
Proof.
  intros s t H.
  repeat (destruct H as [H|H]; [apply pair_equal_spec in H; destruct H as [<- <-]; split; [reflexivity|lia]|]).
  destruct H.
Qed.
Lemma level_total : forall ts p n d, ts (fst p) = Some (n, d) -> n <> 0 -> d <> 0 ->
  exists l, level_at ts p = Ok l.
Proof.
  intros ts p n d E N D. unfold level_at. rewrite E.
  destruct (C24_levels n d (snd p) N D) as (l & El & _). eauto.
Qed.
Lemma positions_pitches : forall t, zlen (CHORD_PITCHES TPC t) = positions t.
Proof. intros []; reflexivity. Qed.

(* A label row gives a chord exactly if its root and its bass can be spelled, and it is the chord
   that the row names. *)
Theorem C46_label_chord : forall ts red ui ur r k n ty t fg fig non noff,
  row_key r k -> lr_numeral r = Some n -> n <> L"@none" ->
  In (ty, t) label_types -> lr_type r = list_ascii_of_string ty ->
  In (fg, fig) figures -> lr_figbass r = list_ascii_of_string fg ->
  ts (fst (lr_on r)) = Some non -> fst non <> 0 -> snd non <> 0 ->
  ts (fst (lr_off r)) = Some noff -> fst noff <> 0 -> snd noff <> 0 ->
  (forall c, chord_from_series ts TPC red ui ur r = Some c -> row_chord red ui ur r k t fig c) /\
  ((exists c, chord_from_series ts TPC red ui ur r = Some c) <->
   0 <= k_local k + lr_root r < 35 /\
   exists f, nth_error (chord_fifths (red t)) (Z.to_nat (if ui then fig mod positions (red t) else 0)) = Some f /\
     0 <= k_local k + lr_root r + f < 35).
Proof.
  intros ts red ui ur r k n ty t fg fig non noff K Num Nn Ty Ety Fg Efg E1 A1 B1 E2 A2 B2.
  apply C62_label_key in K. destruct (figures_read _ _ Fg) as [Rf Pf]. apply label_types_read in Ty.
  destruct non as [n1 d1], noff as [n2 d2]. cbn [fst snd] in *.
  destruct (level_total ts (lr_on r) n1 d1 E1 A1 B1) as (l1 & L1).
  destruct (level_total ts (lr_off r) n2 d2 E2 A2 B2) as (l2 & L2).
  set (inv := if ui then fig mod positions (red t) else 0).
  assert (Pp : 0 < positions (red t)) by (destruct (red t); reflexivity).
  assert (Bi : 0 <= inv < positions (red t)).
  { unfold inv. destruct ui; [apply Z.mod_pos_bound|]; lia. }
  assert (X : chord_from_series ts TPC red ui ur r =
    or_none (let! root := transpose_pitch (k_local k) (lr_root r) TPC in
             let! bass := get_bass_note (red t) root inv TPC false in
             if negb ((0 <=? bass) && (bass <? NUM_PITCHES TPC)) then Raise AssertionError else
             Ok (mkPC {| c_root := root; c_bass := bass;
                    c_tonic := if ur then k_rel k else k_local k;
                    c_mode := if ur then k_rel_mode k else k_local_mode k;
                    c_type := red t; c_inv := inv; c_pt := TPC |}
                 (lr_on r) l1 (lr_off r) l2 (lr_dur r) (lr_changes r)))).
  { unfold chord_from_series. rewrite Num.
    destruct (str_eqb n (L"@none")) eqn:S0; [apply str_eqb_eq in S0; contradiction|].
    rewrite K. cbn [bind]. rewrite Ety, Ty. rewrite L1, L2.
    destruct (transpose_pitch (k_local k) (lr_root r) TPC) as [root|e]; [|reflexivity]. cbn [bind].
    rewrite positions_pitches.
    assert (Y : (if ui then get_chord_inversion (lr_figbass r) else Ok 0) = Ok (if ui then fig else 0))
      by (destruct ui; [rewrite Efg; exact Rf|reflexivity]).
    rewrite Y. cbn [bind].
    replace ((if ui then fig else 0) mod positions (red t)) with inv
      by (unfold inv; destruct ui; [reflexivity|now rewrite Z.mod_0_l by lia]).
    reflexivity. }
  rewrite X. clear X. rewrite transpose_pitch_eq.
  destruct ((0 <=? k_local k + lr_root r) && (k_local k + lr_root r <? 35)) eqn:Rr; cbn [bind or_none].
  2: { split; [discriminate|]. split; [intros (c & H); discriminate H|].
       intros ((H1 & H2) & _). apply andb_false_iff in Rr. lia. }
  apply andb_true_iff in Rr. rewrite bass_note_spec. cbn zeta.
  replace (inv <? 0) with false by (symmetry; apply Z.ltb_ge; lia).
  replace ((inv <? - positions (red t)) || (positions (red t) <=? inv)) with false
    by (symmetry; apply orb_false_iff; split; [apply Z.ltb_ge|apply Z.leb_gt]; lia).
  destruct (nth_error (chord_fifths (red t)) (Z.to_nat inv)) as [f|] eqn:Nf.
  2: { cbn [bind or_none]. split; [discriminate|]. split; [intros (c & H); discriminate H|].
       intros (_ & f & H & _). discriminate H. }
  destruct ((0 <=? k_local k + lr_root r + f) && (k_local k + lr_root r + f <? 35)) eqn:Rb; cbn [bind or_none].
  2: { split; [discriminate|]. split; [intros (c & H); discriminate H|].
       intros (_ & f' & H & B). apply Some_inj in H. subst f'. apply andb_false_iff in Rb. lia. }
  change (NUM_PITCHES TPC) with 35. rewrite Rb. cbn [negb or_none]. apply andb_true_iff in Rb.
  split.
  - intros c H. apply Some_inj in H. subst c. unfold row_chord. fold inv. cbn. repeat (split; [reflexivity|]).
    split; [exists f; split; [exact Nf|reflexivity]|]. repeat (split; [reflexivity|]). reflexivity.
  - split; [intros _|intros _; eexists; reflexivity]. split; [lia|]. exists f. split; [reflexivity|lia].
Qed.
Print Assumptions C46_label_chord.

(* V65/V in the key of E flat of a piece in c minor: the root is F, the bass A. *)
Definition row_applied : label_row :=
  mkLR (Some (L"V")) 2 (L"Mm7") (L"65") (L"c") true (L"III") false (Some (L"V")) (0, 0%Q) (1, 0%Q) 1 None.
Definition key_applied : key_obj := mkKey 13 12 15 MAJOR MAJOR MINOR TPC.
Example C46_label_example : row_key row_applied key_applied /\
  (exists c, chord_from_series ts44 TPC (fun _ => Maj) true true row_applied = Some c /\
     c_root (pc c) = 14 /\ c_bass (pc c) = 18 /\ c_type (pc c) = Maj /\ c_inv (pc c) = 1 /\ c_tonic (pc c) = 13) /\
  In ("Mm7"%string, Maj_Min7) label_types /\ In ("65"%string, 1) figures.
Proof.
  split; [|split; [eexists; split; [vm_compute; reflexivity|cbn; auto]|cbn; auto 20]].
  unfold row_key; cbn. split; [reflexivity|]. split; [lia|].
  split; [exists "c"%char, 0, 0%nat, 0%nat; auto|]. split; [reflexivity|]. split.
  - exists [{| n_acc := 0; n_degree := 3; n_minor := false |}]. split; [discriminate|]. auto.
  - exists [{| n_acc := 0; n_degree := 5; n_minor := false |}]. split; [discriminate|]. auto.
Qed.

(* ---- the end of a piece ---- *)
Lemma pos_max_from : forall l a,
  let m := fold_left (fun best x => if pos_lt best x then x else best) l a in
  In m (a :: l) /\ forall x, In x (a :: l) -> ~ before m x.
Proof.
  induction l as [|b l IH]; intros a; cbn zeta; cbn [fold_left].
  - split; [now left|]. intros x [<-|[]] [B|[_ B]]; [lia|revert B; apply Qlt_irrefl].
  - destruct (IH (if pos_lt a b then b else a)) as [I M]. cbn zeta in I, M. split.
    + destruct I as [I|I]; [|right; now right]. rewrite <- I. destruct (pos_lt a b); [right; now left|now left].
    + set (m := fold_left _ l _) in *. intros x [<-|[<-|Hx]].
      * intros B. destruct (pos_lt a b) eqn:Lt; [|apply (M a); [now left|exact B]].
        apply pos_lt_iff in Lt. apply (M b); [now left|]. eapply before_trans; eassumption.
      * intros B. destruct (pos_lt a b) eqn:Lt; [apply (M b); [now left|exact B]|].
        apply pos_lt_false in Lt. apply (M a); [now left|]. eapply before_not; eassumption.
      * apply M. now right.
Qed.
Lemma ends_at_last : forall notes chords last, ends_at notes chords last ->
  exists last', last_offset notes chords = Ok last' /\ same_pos last' last.
Proof.
  intros notes [cs|] last H; cbn in H.
  - destruct H as (cs' & c & -> & ->). exists (pc_off c). split; [|split; reflexivity].
    cbn [last_offset]. unfold py_nth, py_bound, zlen. rewrite app_length. cbn [List.length].
    replace (-1 + Z.of_nat (List.length cs' + 1)) with (Z.of_nat (List.length cs')) by lia. cbn [Z.ltb Z.compare].
    replace (-1 + Z.of_nat (List.length cs' + 1)) with (Z.of_nat (List.length cs')) by lia.
    replace (Z.of_nat (List.length cs') <? 0) with false by (symmetry; apply Z.ltb_ge; lia).
    replace (Z.of_nat (List.length cs' + 1) <=? Z.of_nat (List.length cs')) with false
      by (symmetry; apply Z.leb_gt; lia).
    rewrite Nat2Z.id, nth_error_app2, Nat.sub_diag by lia. reflexivity.
  - destruct H as [I M]. unfold last_offset, pos_max. destruct (map no_off notes) as [|a l] eqn:E; [destruct I|].
    destruct (pos_max_from l a) as [I' M']. cbn zeta in *. set (m := fold_left _ l a) in *.
    exists m. split; [reflexivity|]. apply M' in I as N1. rewrite <- E in I'. apply in_map_iff in I'.
    destruct I' as (n & En & I'). apply M in I' as N2. rewrite En in N2. clear -N1 N2.
    unfold before, same_pos in *.
    destruct (Z.lt_total (fst m) (fst last)) as [L|[L|L]]; [exfalso; apply N1; now left| |exfalso; apply N2; now left].
    split; [exact L|]. apply Qle_antisym; apply Qnot_lt_le; intros Q; [apply N2|apply N1]; right; split; auto.
Qed.
Lemma at_time_same : forall ms T p q t, same_pos p q -> at_time ms T q t -> at_time ms T p t.
Proof.
  intros ms T p q t [E1 E2] (m & R & H). exists m. rewrite E1. split; [exact R|]. rewrite E2. exact H.
Qed.

(* ---- C53 ---- *)
(* The candidate ranges of the search: range k is [a, b) and its chord starts at note c.  One
   tensor per range: b - a + 2w rows, one for each note from w before the range to w after it in
   order, zeros where there is no note, with onsets and durations as proportions of the time from
   note c to note b (or the end of the piece). *)
Theorem C53_candidates : forall ms T s notes times last tl chords w ranges changes,
  unique_mcs ms -> forward ms -> clock ms T ->
  Forall2 (fun p t => plays_to ms s (fst p) /\ at_time ms T p t) (map no_on notes) times ->
  ends_at notes chords last -> plays_to ms s (fst last) -> at_time ms T last tl ->
  (forall n, In n notes -> good_note n) -> notes <> [] ->
  List.length ranges = List.length changes ->
  (forall k a b c, nth_error ranges k = Some (a, b) -> nth_error changes k = Some c ->
     0 <= c < zlen notes /\ c <= b <= zlen notes /\ a - w < zlen notes /\ 0 < b + w /\ a - w < b + w) ->
  exists tensors, get_chord_note_inputs notes ms chords w ranges changes false = Ok tensors /\
    List.length tensors = List.length ranges /\
    forall k m a b c t0 tb, nth_error tensors k = Some m ->
      nth_error ranges k = Some (a, b) -> nth_error changes k = Some c ->
      nth_error (times ++ [tl]) (Z.to_nat c) = Some t0 ->
      nth_error (times ++ [tl]) (Z.to_nat b) = Some tb ->
      window_tensor notes (times ++ [tl]) a b w t0 (tb - t0) m.
Proof.
  intros ms T s notes times last tl chords w ranges changes U Fw Ck FA En Pl Al Good Nn L H.
  destruct (ends_at_last _ _ _ En) as (last' & Last & Sm). apply (at_time_same _ _ _ _ _ Sm) in Al.
  rewrite <- (proj1 Sm) in Pl. clear En Sm last. rename last' into last.
  pose (t0s := fun k => nth (Z.to_nat (nth k changes 0)) (times ++ [tl]) 0%Q).
  pose (Ds := fun k => (nth (Z.to_nat (snd (nth k ranges (0%Z, 0%Z)))) (times ++ [tl]) 0 - t0s k)%Q).
  assert (Lt : List.length (times ++ [tl]) = S (List.length notes)).
  { pose proof (Forall2_len _ _ _ FA) as X. rewrite map_length in X. rewrite app_length. cbn. lia. }
  destruct (all_windows ms T s notes times last tl chords U Fw Ck FA Pl Al Last Good w ranges changes
    (repeat None (List.length ranges)) t0s Ds false Nn L eq_refl) as (ys & E & Ly & W).
  - intros k a b c x Hr Hc Hx. apply Proof_Window.nth_repeat in Hx. subst x.
    destruct (H k a b c Hr Hc) as (B1 & B2 & B3 & B4 & B5). repeat (split; [lia|]).
    unfold Ds, t0s. rewrite (nth_error_nth _ _ 0 Hc), (nth_error_nth _ _ (0, 0) Hr). cbn [snd]. unfold zlen in *.
    split; [apply nth_error_nth'; lia|].
    exists (nth (Z.to_nat b) (times ++ [tl]) 0%Q). split; [apply nth_error_nth'; lia|reflexivity].
  - exists ys. split; [exact E|]. split; [exact Ly|].
    intros k m a b c t0 tb Hm Hr Hc H0 Hb. specialize (W k m a b Hm Hr). unfold Ds, t0s in W.
    rewrite (nth_error_nth _ _ 0 Hc), (nth_error_nth _ _ (0, 0) Hr) in W. cbn [snd] in W.
    rewrite (nth_error_nth _ _ 0%Q H0), (nth_error_nth _ _ 0%Q Hb) in W. exact W.
Qed.
Print Assumptions C53_candidates.

(* Notes read from a TSV have a place in the vectors if their MIDI number is below 120. *)
Lemma read_good : forall ts r n,
  (forall mc nd, ts mc = Some nd -> fst nd <> 0 /\ snd nd <> 0) ->
  0 <= nr_midi r < 120 -> note_from_series ts TPC r = Some n -> good_note n.
Proof.
  intros ts r n Ts M H. unfold note_from_series in H.
  destruct ((nr_tpc r + TPC_C <? 0) || (NUM_PITCHES TPC <=? nr_tpc r + TPC_C)) eqn:P; [discriminate H|].
  cbn [bind] in H.
  assert (Lv : forall q l, level_at ts q = Ok l -> 0 <= l <= 3).
  { intros q l E. unfold level_at in E. destruct (ts (fst q)) as [[a b]|] eqn:X; [|discriminate E].
    destruct (Ts _ _ X) as [Na Nb]. destruct (C24_levels a b (snd q) Na Nb) as (l' & E' & R & _).
    rewrite E in E'. apply Ok_inj in E'. now subst. }
  destruct (level_at ts (nr_on r)) as [l1|] eqn:E1; [|discriminate H].
  destruct (level_at ts (nr_off r)) as [l2|] eqn:E2; [|discriminate H].
  cbn [bind or_none] in H. apply Some_inj in H. subst n. unfold good_note. cbn.
  apply orb_false_iff in P. change (NUM_PITCHES TPC) with 35 in P. split; [reflexivity|]. split; [lia|].
  change (NUM_PITCHES MIDI) with 12.
  split; [split; [apply Z.div_pos; lia|apply Z.div_lt_upper_bound; lia]|].
  split; eapply Lv; eassumption.
Qed.

(* The labelled chords of a piece, as used for training: proportions are taken of the label's own
   time, which also need not start at a note. *)
Theorem C53_piece : forall ts red ui ur us note_rows rows p ms T s times last tl w,
  get_score_piece ts red ui ur us note_rows rows = Ok p -> p_notes p <> [] ->
  (forall mc nd, ts mc = Some nd -> fst nd <> 0 /\ snd nd <> 0) ->
  (forall r, In r note_rows -> 0 <= nr_midi r < 120) ->
  in_order (map pc_on (p_chords p)) ->
  unique_mcs ms -> forward ms -> clock ms T ->
  Forall2 (fun p t => plays_to ms s (fst p) /\ at_time ms T p t) (map no_on (p_notes p)) times ->
  ends_at (p_notes p) (Some (p_chords p)) last -> plays_to ms s (fst last) -> at_time ms T last tl ->
  (forall c, In c (p_chords p) -> (exists t0, chord_times ms T s c t0) /\ ~ (pc_dur c == 0)%Q) ->
  1 <= w ->
  exists tensors,
    get_chord_note_inputs (p_notes p) ms (Some (p_chords p)) w
      (map (fun r => (Z.of_nat (fst r), Z.of_nat (snd r))) (p_ranges p)) (map Z.of_nat (p_changes p)) true
      = Ok tensors /\
    List.length tensors = List.length (p_chords p) /\
    forall k m a b c t0, nth_error tensors k = Some m -> nth_error (p_ranges p) k = Some (a, b) ->
      nth_error (p_chords p) k = Some c -> chord_times ms T s c t0 ->
      window_tensor (p_notes p) (times ++ [tl]) (Z.of_nat a) (Z.of_nat b) w t0 (pc_dur c) m.
Proof.
  intros ts red ui ur us note_rows rows p ms T s times last tl w H Nn Ts M O U Fw Ck FA En Pl Al Ct Hw.
  destruct (ends_at_last _ _ _ En) as (last' & Last & Sm). apply (at_time_same _ _ _ _ _ Sm) in Al.
  rewrite <- (proj1 Sm) in Pl. clear En Sm last. rename last' into last.
  destruct (C47_changes _ _ _ _ _ _ _ _ H Nn O) as [Lc Fc].
  destruct (score_piece_inv _ _ _ _ _ _ _ _ H) as (gs & _ & _ & Hn & _ & _ & Hr & _).
  assert (Lr : List.length (p_ranges p) = List.length (p_chords p)).
  { rewrite Hr. unfold chord_ranges. rewrite combine_length, !map_length, app_length.
    clear -Lc. destruct (p_changes p); cbn [List.tl List.length] in *; lia. }
  assert (Good : forall n, In n (p_notes p) -> good_note n).
  { intros n I. rewrite Hn in I. apply in_somes in I. apply in_map_iff in I. destruct I as (r & E & I).
    eapply read_good; [exact Ts|apply M; exact I|exact E]. }
  (* some onset time for every chord *)
  assert (Ch : exists f : nat -> Q, forall k c, nth_error (p_chords p) k = Some c -> chord_times ms T s c (f k)).
  { clear -Ct. induction (p_chords p) as [|c l IH]; [exists (fun _ => 0%Q); intros [|k] c' E; discriminate E|].
    destruct IH as (f & Hf); [intros c' I; apply Ct; now right|].
    destruct (Ct c (or_introl eq_refl)) as ((t0 & Ht) & _).
    exists (fun k => match k with O => t0 | S k' => f k' end). intros [|k] c' E; cbn in E.
    - apply Some_inj in E. now subst c'.
    - now apply Hf. }
  destruct Ch as (t0s & Ht0).
  pose (Ds := fun k => match nth_error (p_chords p) k with Some c => pc_dur c | None => 0%Q end).
  destruct (all_windows ms T s (p_notes p) times last tl (Some (p_chords p)) U Fw Ck FA Pl Al Last Good w
    (map (fun r => (Z.of_nat (fst r), Z.of_nat (snd r))) (p_ranges p)) (map Z.of_nat (p_changes p))
    (map Some (p_chords p)) t0s Ds true Nn) as (ys & E & Ly & W).
  - now rewrite !map_length, Lc.
  - exists (p_chords p). rewrite map_length, Lr. auto.
  - intros k a b c x Hk Hc Hx. rewrite nth_error_map in Hk, Hc, Hx.
    destruct (nth_error (p_ranges p) k) as [[a' b']|] eqn:Kr; [|discriminate Hk].
    destruct (nth_error (p_changes p) k) as [c'|] eqn:Kc; [|discriminate Hc].
    destruct (nth_error (p_chords p) k) as [h|] eqn:Kh; [|discriminate Hx].
    cbn in Hk, Hc, Hx. apply Some_inj in Hk, Hc, Hx. apply pair_equal_spec in Hk. destruct Hk as [<- <-]. subst c x.
    destruct (Fc k h c' Kh Kc) as (F1 & F2 & F3).
    destruct (C47_ranges _ _ _ _ _ _ _ _ k h H Kh) as (s' & e' & Kr' & He & _ & Hs).
    rewrite Kr in Kr'. apply Some_inj in Kr'. apply pair_equal_spec in Kr'. destruct Kr' as [<- <-].
    (* the next change is not earlier, and never past the end *)
    assert (Hb : (c' <= b' <= List.length (p_notes p))%nat).
    { subst b'. destruct (nth_error (p_changes p) (S k)) as [j|] eqn:Kj; [|lia].
      assert (Lk : (S k < List.length (p_chords p))%nat) by (rewrite <- Lc; apply nth_error_Some; congruence).
      destruct (nth_error (p_chords p) (S k)) as [h'|] eqn:Kh'; [|apply nth_error_None in Kh'; lia].
      destruct (Fc (S k) h' j Kh' Kj) as (G1 & _). split; [|lia].
      pose proof (C47_changes_monotone _ _ _ _ _ _ _ _ H Nn) as Mo.
      assert (Z.of_nat c' <= Z.of_nat j); [|lia].
      apply (non_decreasing_nth (map Z.of_nat (p_changes p)) Mo k (S k)); [lia| |];
        rewrite nth_error_map; [rewrite Kc|rewrite Kj]; reflexivity. }
    assert (Ha0 : (a' <= List.length (p_notes p))%nat).
    { rewrite Hr in Kr. unfold chord_ranges in Kr. apply nth_combine in Kr. destruct Kr as [Kr _]. cbn in Kr.
      rewrite map_map, nth_error_map, Kh in Kr. cbn in Kr. apply Some_inj in Kr.
      destruct (range_start_from_spec (pc_on h) (p_notes p) 0) as (s' & E' & L' & _). unfold get_range_start in Kr. lia. }
    assert (Ha : (a' <= S b')%nat).
    { destruct (nth_error (p_notes p) c') as [n|] eqn:Kn.
      2: { apply nth_error_None in Kn. lia. }
      destruct (Nat.lt_ge_cases c' b') as [Lt|Ge].
      - destruct (F3 n eq_refl) as [F3'|F3'].
        + assert (a' <= c' < b')%nat; [|lia]. apply (Hs c' n Kn Lt). now left.
        + lia.
      - assert (b' = c') by lia. subst c'.
        destruct (F3 n eq_refl) as [F3'|F3']; [|lia].
        (* the range starts at or before the change note *)
        rewrite Hr in Kr. unfold chord_ranges in Kr. apply nth_combine in Kr. destruct Kr as [Kr _]. cbn in Kr.
        rewrite map_map, nth_error_map, Kh in Kr. cbn in Kr. apply Some_inj in Kr.
        destruct (range_start_from_spec (pc_on h) (p_notes p) 0) as (s' & E' & L' & P1 & P2). unfold get_range_start in Kr.
        destruct (Nat.le_gt_cases a' b') as [X|X]; [lia|]. exfalso.
        assert (Ea : s' = a') by lia. subst s'. destruct (P1 b' n X Kn) as [Q1 Q2]. contradiction. }
    unfold zlen. repeat (split; [lia|]). split; [now apply Ht0|].
    unfold Ds. rewrite Kh. split; [reflexivity|]. right. apply Ct. eapply nth_error_In. exact Kh.
  - exists ys. split; [exact E|]. split; [now rewrite Ly, map_length|].
    intros k m a b c t0 Hm Hk Hc Hct.
    assert (Et : (t0s k == t0)%Q).
    { destruct Hct as (x1 & _ & _ & A1 & _). destruct (Ht0 k c Hc) as (x2 & _ & _ & A2 & _).
      eapply at_time_unique; eassumption. }
    assert (Hz : nth_error (map (fun r => (Z.of_nat (fst r), Z.of_nat (snd r))) (p_ranges p)) k = Some (Z.of_nat a, Z.of_nat b))
      by (rewrite nth_error_map, Hk; reflexivity).
    specialize (W k m _ _ Hm Hz). unfold Ds in W. rewrite Hc in W.
    eapply window_tensor_compat; eassumption.
Qed.
Print Assumptions C53_piece.

(* The piece of the examples above, in four measures of 4/4. *)
Definition tab53 : table :=
  [mkM 0 1 0 (NextMc 1); mkM 1 1 0 (NextMc 2); mkM 2 1 0 (NextMc 3); mkM 3 1 0 NextNA].
Definition times53 : list Q := [0; 1#2; 1; 1; 7#4; 2]%Q.
Definition clock53 (mc : Z) : Q := inject_Z mc.
Lemma tab53_row i : 0 <= i <= 3 -> exists m, row_of tab53 i m /\ m_off m = 0%Q.
Proof.
  intros H. assert (i = 0 \/ i = 1 \/ i = 2 \/ i = 3) as [-> | [-> | [-> | ->]]] by lia;
    [exists (mkM 0 1 0 (NextMc 1))|exists (mkM 1 1 0 (NextMc 2))|exists (mkM 2 1 0 (NextMc 3))|exists (mkM 3 1 0 NextNA)];
    (split; [split; [cbn; tauto|reflexivity]|reflexivity]).
Qed.
Lemma tab53_at i b t : 0 <= i <= 3 -> (t == inject_Z i + b)%Q -> at_time tab53 clock53 (i, b) t.
Proof.
  intros H E. destruct (tab53_row i H) as (m & R & O). exists m. split; [exact R|]. rewrite O, E. cbn [fst snd]. unfold clock53. lra.
Qed.
Lemma tab53_plays i : 0 <= i <= 3 -> plays_to tab53 0 i.
Proof.
  assert (P : forall n b, plays_to tab53 (n + 1) b -> 0 <= n <= 2 -> plays_to tab53 n b).
  { intros n b H Hn. eapply pt_step; [|instantiate (1 := n + 1)|exact H].
    - instantiate (1 := mkM n 1 0 (NextMc (n + 1))).
      assert (n = 0 \/ n = 1 \/ n = 2) as [-> | [-> | ->]] by lia; (split; [cbn; tauto|reflexivity]).
    - reflexivity. }
  intros H. assert (i = 0 \/ i = 1 \/ i = 2 \/ i = 3) as [-> | [-> | [-> | ->]]] by lia;
    repeat (try apply pt_refl; apply P; [cbn|lia]); apply pt_refl.
Qed.

(* All hypotheses of C53_piece hold for it. *)
Example C53_piece_applies : exists p last,
  get_score_piece ts44 (fun t => t) false false false notes1 rows1 = Ok p /\ p_notes p <> [] /\
  (forall mc nd, ts44 mc = Some nd -> fst nd <> 0 /\ snd nd <> 0) /\
  (forall r, In r notes1 -> 0 <= nr_midi r < 120) /\
  in_order (map pc_on (p_chords p)) /\
  unique_mcs tab53 /\ forward tab53 /\ clock tab53 clock53 /\
  Forall2 (fun p t => plays_to tab53 0 (fst p) /\ at_time tab53 clock53 p t) (map no_on (p_notes p)) times53 /\
  ends_at (p_notes p) (Some (p_chords p)) last /\ plays_to tab53 0 (fst last) /\
  at_time tab53 clock53 last 3 /\
  (forall c, In c (p_chords p) -> (exists t0, chord_times tab53 clock53 0 c t0) /\ ~ (pc_dur c == 0)%Q).
Proof.
  eexists. eexists. split; [vm_compute; reflexivity|]. split; [discriminate|]. split.
  { intros mc nd H. unfold ts44 in H. destruct ((0 <=? mc) && (mc <? 10)); [|discriminate H].
    injection H as <-. cbn. lia. }
  split. { intros r H. cbn in H. repeat (destruct H as [<-|H]; [cbn; lia|]). destruct H. }
  split. { cbn. unfold before. cbn. repeat split; try (left; lia); try (right; split; [reflexivity|vm_compute; reflexivity]);
           intros [X|[X Y]]; cbn in *; try lia; vm_compute in Y; discriminate Y. }
  split. { unfold unique_mcs. cbn. repeat constructor; cbn; intuition lia. }
  split. { intros m I n E. cbn in I. repeat (destruct I as [<-|I]; [cbn in E; try discriminate E; injection E as <-; cbn; intuition lia|]). destruct I. }
  split. { intros m n I E. cbn in I. repeat (destruct I as [<-|I]; [cbn in E; try discriminate E; injection E as <-; vm_compute; reflexivity|]). destruct I. }
  split. { cbn. repeat (constructor; [split; [apply tab53_plays; cbn; lia|apply tab53_at; [lia|vm_compute; reflexivity]]|]). constructor. }
  split; [eexists (_ :: _ :: _ :: []); eexists; split; reflexivity|]. split; [apply tab53_plays; cbn; lia|].
  split; [apply tab53_at; [lia|vm_compute; reflexivity]|].
  intros c H. cbn in H.
  repeat (destruct H as [<-|H];
    [split; [eexists; eexists; cbn [pc_on pc_off pc_dur fst];
             (split; [apply tab53_plays; lia|]); (split; [apply tab53_plays; lia|]);
             (split; [apply tab53_at; [lia|reflexivity]|]); (split; [apply tab53_at; [lia|reflexivity]|]);
             vm_compute; reflexivity
            |vm_compute; discriminate]|]).
  destruct H.
Qed.
(* Its second chord, G7 in bar 1, with a window of 1: a row for the note before, one for each of
   its two notes, one for the note after. *)
Example C53_example :
  match get_score_piece ts44 (fun t => t) false false false notes1 rows1 with
  | Ok p =>
      match get_chord_note_inputs (p_notes p) tab53 (Some (p_chords p)) 1
              (map (fun r => (Z.of_nat (fst r), Z.of_nat (snd r))) (p_ranges p)) (map Z.of_nat (p_changes p)) true with
      | Ok [m0; m1; m2; m3] =>
          map (fun v => map Qred (firstn 5 (skipn 53 v))) m1 =
            [[- 1; 0; 1; 1#2; 1#2]; [0; 1; 1; 1#2; 0]; [0; 2; 2; 0; 3#4]; [3#2; 2; 1#2; 3#4; 1#4]]%Q /\
          hd [] m0 = repeat 0%Q 71 /\ List.length m3 = 3%nat /\ last m3 [] = repeat 0%Q 71
      | _ => False
      end
  | _ => False
  end.
Proof. vm_compute. repeat split; reflexivity. Qed.
(* Candidate ranges of the search, which are not those of the labels. *)
Example C53_candidates_example :
  match get_score_piece ts44 (fun t => t) false false false notes1 rows1 with
  | Ok p =>
      match get_chord_note_inputs (p_notes p) tab53 None 1 [(0, 4); (1, 6)] [0; 2] false with
      | Ok [m0; m1] => List.length m0 = 6%nat /\ List.length m1 = 7%nat /\
          map (fun v => map Qred (firstn 3 (skipn 53 v))) (firstn 2 m1) = [[- 1#2; - 1#4; 1#4]; [- 1#4; 0; 1#4]]%Q
      | _ => False
      end
  | _ => False
  end.
Proof. vm_compute. repeat split; reflexivity. Qed.

(* The eight highest MIDI pitches are not catered for. *)
Theorem C53_high_refuted : exists note_rows p,
  Forall (fun r => 0 <= nr_midi r <= 127) note_rows /\
  get_score_piece ts44 (fun t => t) false false false note_rows rows1 = Ok p /\
  get_chord_note_inputs (p_notes p) tab53 (Some (p_chords p)) 1
    (map (fun r => (Z.of_nat (fst r), Z.of_nat (snd r))) (p_ranges p)) (map Z.of_nat (p_changes p)) true
  = Raise IndexError.
Proof.
  set (rows := [mkNR 60 0 (0, 0%Q) (0, (1#2)%Q) (1#2); mkNR 120 0 (0, (1#2)%Q) (1, 0%Q) (1#2)]). exists rows.
  assert (K : match get_score_piece ts44 (fun t => t) false false false rows rows1 with
              | Ok p => match get_chord_note_inputs (p_notes p) tab53 (Some (p_chords p)) 1
                                (map (fun r => (Z.of_nat (fst r), Z.of_nat (snd r))) (p_ranges p)) (map Z.of_nat (p_changes p)) true
                        with Raise IndexError => true | _ => false end
              | Raise _ => false end = true) by (vm_compute; reflexivity).
  destruct (get_score_piece ts44 (fun t => t) false false false rows rows1) as [p|]; [|discriminate]. exists p.
  split; [repeat constructor; cbn; lia|]. split; [reflexivity|].
  destruct (get_chord_note_inputs _ _ _ _ _ _ _) as [r|[]]; try discriminate K. reflexivity.
Qed.
Print Assumptions C53_high_refuted.

(* ---- C63 ---- *)
(* A note of the corpus whose spelling fits its MIDI number keeps that number. *)
Theorem C63_midi_number : forall ts r n,
  note_from_series ts TPC r = Some n -> (7 * nr_tpc r - nr_midi r) mod 12 = 0 ->
  midi_note_number n = Ok (nr_midi r).
Proof.
  intros ts r n H E. unfold note_from_series in H.
  destruct ((nr_tpc r + TPC_C <? 0) || (NUM_PITCHES TPC <=? nr_tpc r + TPC_C)) eqn:P; [discriminate H|].
  cbn [bind] in H. destruct (level_at ts (nr_on r)); [|discriminate H]. destruct (level_at ts (nr_off r)); [|discriminate H].
  cbn [bind or_none] in H. apply Some_inj in H. subst n. rewrite midi_number_ok by reflexivity.
  unfold spelled_midi. cbn [no_octave no_pitch]. change (NUM_PITCHES MIDI) with 12. f_equal.
  replace (nr_tpc r + TPC_C - 15) with (nr_tpc r) by (unfold TPC_C; lia).
  assert (X : (7 * nr_tpc r) mod 12 = nr_midi r mod 12).
  { pose proof (Z.div_mod (7 * nr_tpc r - nr_midi r) 12). rewrite E in H.
    replace (7 * nr_tpc r) with (nr_midi r + (7 * nr_tpc r - nr_midi r) / 12 * 12) by lia. now rewrite Z.mod_add. }
  rewrite X. pose proof (Z.div_mod (nr_midi r) 12). lia.
Qed.
Print Assumptions C63_midi_number.
(* The number also orders notes by height across octaves, whatever their spelling. *)
Theorem C63_octave : forall ts r n,
  note_from_series ts TPC r = Some n ->
  exists m, midi_note_number n = Ok m /\ m / 12 = nr_midi r / 12 /\ m mod 12 = (7 * nr_tpc r) mod 12.
Proof.
  intros ts r n H. unfold note_from_series in H.
  destruct ((nr_tpc r + TPC_C <? 0) || (NUM_PITCHES TPC <=? nr_tpc r + TPC_C)) eqn:P; [discriminate H|].
  cbn [bind] in H. destruct (level_at ts (nr_on r)); [|discriminate H]. destruct (level_at ts (nr_off r)); [|discriminate H].
  cbn [bind or_none] in H. apply Some_inj in H. subst n. rewrite midi_number_ok by reflexivity.
  eexists. split; [reflexivity|]. unfold spelled_midi. cbn [no_octave no_pitch]. change (NUM_PITCHES MIDI) with 12.
  replace (nr_tpc r + TPC_C - 15) with (nr_tpc r) by (unfold TPC_C; lia).
  pose proof (Z.mod_pos_bound (7 * nr_tpc r) 12 ltac:(lia)).
  set (x := (7 * nr_tpc r) mod 12) in *. replace (12 * (nr_midi r / 12) + x) with (x + nr_midi r / 12 * 12) by lia. split.
  - rewrite Z.div_add by lia. rewrite (Z.div_small x) by lia. lia.
  - rewrite Z.mod_add by lia. now apply Z.mod_small.
Qed.
Print Assumptions C63_octave.
(* A note stored by MIDI pitch counts 35 semitones to the octave. *)
Theorem C63_midi_type_refuted : exists r n,
  note_from_series ts44 MIDI r = Some n /\ midi_note_number n = Ok 175 /\ nr_midi r = 60.
Proof. exists (nth 0 notes1 (mkNR 0 0 (0, 0%Q) (0, 0%Q) 0%Q)). eexists. split; [vm_compute; reflexivity|]. split; reflexivity. Qed.
Print Assumptions C63_midi_type_refuted.
Example C63_example : Forall (fun r => (7 * nr_tpc r - nr_midi r) mod 12 = 0) notes1.
Proof. repeat constructor. Qed.
