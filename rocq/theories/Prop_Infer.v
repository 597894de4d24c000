(* Properties C34, C35 (loading), C69, C70: forced labels, from the request to the harmony. *)
From Verif Require Import Spec_Infer Proof_Base Proof_Paths Proof_Infer Prop_Ranges Prop_Search.
Open Scope Z_scope.

(* ---- a small piece used in the examples: three inputs of one beat each; probabilities are
   percentages; the same chord prior for every range ---- *)
Definition cfgx : range_cfg := {| min_change := 20; max_no_change := 80; max_length := 50 |}.
Definition wx (change : list Z) : networks :=
  {| n_change := change; n_one := 100; n_log := fun p => p - 100; n_log_not := fun p => - p;
     n_classify := map (fun _ => [-1; -2]); n_inv := true; n_red := NO_REDUCTION |}.
Definition qx cc cn kc kn c k :=
  {| q_chord_changes := cc; q_chord_non := cn; q_key_changes := kc; q_key_non := kn; q_chords := c; q_keys := k |}.
Definition runx ktm change q :=
  get_harmony (gx 20 80) cfgx (wx change) (ox ktm (-5) (-3)) [1; 1; 1] [3; 2; 2; 3] q.
Definition keys_are (s : state) (keys : list Z) (changes : list nat) : bool :=
  if list_eq_dec Z.eq_dec (fst (get_keys s)) keys then
    if list_eq_dec Nat.eq_dec (snd (get_keys s)) changes then true else false else false.
Lemma keys_are_ok s keys changes : keys_are s keys changes = true -> get_keys s = (keys, changes).
Proof.
  unfold keys_are. destruct (list_eq_dec Z.eq_dec _ _) as [E1|]; [|discriminate]. destruct (list_eq_dec Nat.eq_dec _ _) as [E2|]; [|discriminate].
  intros _. rewrite (surjective_pairing (get_keys s)), E1, E2. reflexivity.
Qed.
Definition oz_dec (x y : option Z) : {x = y} + {x <> y}.
Proof. decide equality. apply Z.eq_dec. Defined.
Definition chords_are (s : state) (chords : list (option Z)) (changes : list nat) : bool :=
  if list_eq_dec oz_dec (fst (get_chords s)) chords then
    if list_eq_dec Nat.eq_dec (snd (get_chords s)) changes then true else false else false.
Lemma chords_are_ok s chords changes : chords_are s chords changes = true -> get_chords s = (chords, changes).
Proof.
  unfold chords_are. destruct (list_eq_dec _ _ _) as [E1|]; [|discriminate]. destruct (list_eq_dec Nat.eq_dec _ _) as [E2|]; [|discriminate].
  intros _. rewrite (surjective_pairing (get_chords s)), E1, E2. reflexivity.
Qed.
Lemma natural_dec q : forallb (Z.leb 0) (q_chord_changes q ++ q_chord_non q ++ q_key_changes q ++ q_key_non q) = true ->
  forallb (fun l => (0 <=? fst (fst l)) && (0 <=? snd (fst l))) (q_chords q ++ q_keys q) = true -> natural q.
Proof.
  intros H1 H2. rewrite forallb_forall in H1, H2. split.
  - intros c Hc. apply Z.leb_le, H1, Hc.
  - intros a b x Hx. specialize (H2 _ Hx). cbn [fst snd] in H2. lia.
Qed.
Definition vocab_c : Z := get_chord_vector_length MIDI true false true false NO_REDUCTION.
Definition vocab_k : Z := NUM_PITCHES MIDI * 2.

Lemma runx_inferred ktm change q s : length change = 3%nat -> natural q -> runx ktm change q = Ok (Some s) ->
  inferred (gx 20 80) cfgx (wx change) (ox ktm (-5) (-3)) [1; 1; 1] [3; 2; 2; 3] q s.
Proof.
  intros Hl Hn H. split; [cbn; lia|]. split; [cbn; lia|]. split; [exact Hl|]. split; [exact Hn|exact H].
Qed.

(* ---- C69: inconsistent requests are refused ---- *)
Theorem C69_sound durs mc mk q r : natural q -> validate durs mc mk q = Ok r -> consistent durs mc mk q.
Proof.
  intros Hn H. destruct r as [[cc ci] ki]. exact (proj1 (validate_ok _ _ _ _ _ _ _ Hn H)).
Qed.
Print Assumptions C69_sound.

(* consistent requests are accepted, if no non-change is at 0 and the forced keys are the same on
   both sides of a chord non-change.  Missing: the two refutations below *)
Theorem C69_complete_partial durs mc mk q : natural q -> consistent durs mc mk q ->
  ~ In 0 (q_chord_non q) -> ~ In 0 (q_key_non q) ->
  (forall c, In c (q_chord_non q) -> forall x, forced_to (q_keys q) (c - 1) x <-> forced_to (q_keys q) c x) ->
  exists r, validate durs mc mk q = Ok r.
Proof. exact (validate_total durs mc mk q). Qed.
Print Assumptions C69_complete_partial.

(* a key label that begins where the chord may not change: no contradiction, and refused *)
Theorem C69_complete_refuted : exists durs q, natural q /\ consistent durs vocab_c vocab_k q
  /\ validate durs vocab_c vocab_k q = Raise TypeError.
Proof.
  exists [1; 1; 1], (qx [] [1] [] [] [] [(1, 2, 3)]). split; [|split].
  - split; cbn; [intros c [<-|[]]; lia|intros a b x [E|[]]; injection E as <- <- <-; lia].
  - assert (F : forall x, ~ forced_to [(1, 2, 3)] 0 x) by (intros x (a & b & [E|[]] & Hi); injection E as <- <- <-; lia).
    assert (F' : forall i x, ~ forced_to [] i x) by (intros i x (a & b & [] & _)).
    split; [|split; [|split]]; cbn [qx q_chord_changes q_chord_non q_key_changes q_key_non q_chords q_keys].
    + split; [intros c []|]. split; [|split; [intros a b x []|intros i x y _ H; exfalso; exact (F' _ _ H)]].
      intros c [<-|[]]. split; [unfold zlen; cbn; lia|]. intros _ x y H. exfalso. exact (F' _ _ H).
    + split; [intros c []|]. split; [intros c []|]. split.
      * intros a b x [E|[]]. injection E as <- <- <-. unfold vocab_k. cbn. lia.
      * intros i x y _ (a & b & [E|[]] & _) (a' & b' & [E'|[]] & _). congruence.
    + intros c [].
    + intros c [<-|[]] _ x y H. exfalso. exact (F _ H).
  - vm_compute. reflexivity.
Qed.
Print Assumptions C69_complete_refuted.
(* a non-change at 0 is compared with the last input: refused, although it says nothing *)
Theorem C69_zero_refuted : exists durs q, natural q /\ consistent durs vocab_c vocab_k q
  /\ q_chord_non q = [0] /\ validate durs vocab_c vocab_k q = Raise KeyError.
Proof.
  exists [1; 1; 1], (qx [] [0] [] [] [(0, 1, 3); (2, 3, 4)] []). split; [|split; [|split]].
  - split; cbn; [intros c [<-|[]]; lia|intros a b x [E|[E|[]]]; injection E as <- <- <-; lia].
  - assert (F' : forall i x, ~ forced_to [] i x) by (intros i x (a & b & [] & _)).
    split; [|split; [|split]]; cbn [qx q_chord_changes q_chord_non q_key_changes q_key_non q_chords q_keys].
    + split; [intros c []|]. split; [|split].
      * intros c [<-|[]]. split; [unfold zlen; cbn; lia|]. intros H. lia.
      * intros a b x [E|[E|[]]]; injection E as <- <- <-; unfold vocab_c; vm_compute; split; congruence.
      * intros i x y _ (a & b & [E|[E|[]]] & Hi) (a' & b' & [E'|[E'|[]]] & Hi'); injection E as <- <- <-; injection E' as <- <- <-; lia.
    + split; [intros c []|]. split; [intros c []|]. split; [intros a b x []|].
      intros i x y _ H. exfalso. exact (F' _ _ H).
    + intros c [].
    + intros c [<-|[]] H. lia.
  - reflexivity.
  - vm_compute. reflexivity.
Qed.
Print Assumptions C69_zero_refuted.

(* a refusal is never the documented ArgumentError *)
Theorem C69_errors durs mc mk q e : natural q -> validate durs mc mk q = Raise e ->
  In e [TypeError; AttributeError; KeyError].
Proof. exact (validate_errors durs mc mk q e). Qed.
Print Assumptions C69_errors.

Example C69_ex : validate [0; 1; 1] vocab_c vocab_k (qx [0; 2] [1] [2] [1] [(0, 2, 7); (1, 2, 7); (2, 3, 9)] [(0, 2, 4)])
  = Ok ([2], [7; 7; 9], [4; 4; -1]).
Proof. vm_compute. reflexivity. Qed.
Example C69_refused : map (fun q => validate [0; 1; 1] vocab_c vocab_k q)
  [qx [1] [] [] [] [] []; qx [3] [] [] [] [] []; qx [2] [2] [] [] [] []; qx [] [2] [2] [] [] [];
   qx [2] [] [] [] [(0, 3, 7)] []; qx [] [] [2] [] [(0, 3, 7)] [];
   qx [] [] [] [] [(0, 2, 7); (1, 3, 8)] []; qx [] [2] [] [] [(0, 2, 7); (2, 3, 8)] [];
   qx [] [] [] [] [(0, 2, 1000)] []; qx [] [] [] [] [] [(0, 2, 24)]]
  = [Raise TypeError; Raise TypeError; Raise TypeError; Raise TypeError; Raise TypeError; Raise TypeError;
     Raise AttributeError; Raise KeyError; Raise TypeError; Raise TypeError].
Proof. vm_compute. reflexivity. Qed.

(* ---- C35: the arrays used by the search agree with the labels given ---- *)
Theorem C35_loaded durs mc mk q cc chord_ids key_ids : natural q ->
  validate durs mc mk q = Ok (cc, chord_ids, key_ids) ->
  loaded chord_ids (q_chords q) (length durs) /\ loaded key_ids (q_keys q) (length durs).
Proof. intros Hn H. destruct (validate_ok _ _ _ _ _ _ _ Hn H) as (_ & H1 & H2 & _). split; assumption. Qed.
Print Assumptions C35_loaded.

(* ---- C34: forced key changes and non-changes have no effect ---- *)
Theorem C34_ignored g cfg w o durs levels q1 q2 r1 r2 :
  q_chord_changes q1 = q_chord_changes q2 -> q_chord_non q1 = q_chord_non q2 ->
  q_chords q1 = q_chords q2 -> q_keys q1 = q_keys q2 ->
  get_harmony g cfg w o durs levels q1 = Ok r1 -> get_harmony g cfg w o durs levels q2 = Ok r2 -> r1 = r2.
Proof.
  intros E1 E2 E3 E4 H1 H2. unfold get_harmony in *.
  apply bind_ok in H1 as ([[c1 i1] k1] & V1 & H1). apply bind_ok in H2 as ([[c2 i2] k2] & V2 & H2).
  assert (c1 = c2 /\ i1 = i2 /\ k1 = k2) as (<- & <- & <-).
  { destruct (validate_parts _ _ _ _ _ V1) as (A1 & B1). destruct (validate_parts _ _ _ _ _ V2) as (A2 & B2).
    cbn [fst snd] in *. rewrite E1, E2, E3, A2 in A1. rewrite E4, B2 in B1. apply Ok_inj in A1, B1. injection A1 as -> ->.
    repeat split; congruence. }
  rewrite E2 in H1. congruence.
Qed.
Print Assumptions C34_ignored.
(* a key change asked for at 1, and one forbidden at 2 *)
Example C34_ex : map (fun q => viewx (runx 10 [0; 90; 90] q)) [qx [] [] [1] [] [] []; qx [] [] [] [2] [] []] =
  repeat (Some (([Some 0; Some 1; Some 0], [0; 1; 2; 3]%nat), ([0], [0; 3]%nat), -54)) 2.
Proof. vm_compute. reflexivity. Qed.
(* a key change is forced at 1 and there is none *)
Theorem C34_change_refuted : exists g cfg w o durs levels q s, inferred g cfg w o durs levels q s
  /\ In 1 (q_key_changes q) /\ get_keys s = ([0], [0; 3]%nat).
Proof.
  destruct (checkx_true (fun s => keys_are s [0] [0; 3]%nat) (runx 10 [0; 90; 90] (qx [] [] [1] [] [] [])))
    as (s & E & Hr); [vm_compute; reflexivity|].
  exists (gx 20 80), cfgx, (wx [0; 90; 90]), (ox 10 (-5) (-3)), [1; 1; 1], [3; 2; 2; 3], (qx [] [] [1] [] [] []), s.
  split; [|split; [left; reflexivity|exact (keys_are_ok _ _ _ Hr)]].
  apply runx_inferred; [reflexivity|apply natural_dec; reflexivity|exact E].
Qed.
Print Assumptions C34_change_refuted.
(* the key may not change at 1, and changes *)
Theorem C34_non_change_refuted : exists g cfg w o durs levels q s, inferred g cfg w o durs levels q s
  /\ In 1 (q_key_non q) /\ get_keys s = ([0; 1; 2], [0; 1; 2; 3]%nat).
Proof.
  destruct (checkx_true (fun s => keys_are s [0; 1; 2] [0; 1; 2; 3]%nat) (runx 90 [0; 90; 90] (qx [] [] [] [1] [] [])))
    as (s & E & Hr); [vm_compute; reflexivity|].
  exists (gx 20 80), cfgx, (wx [0; 90; 90]), (ox 90 (-5) (-3)), [1; 1; 1], [3; 2; 2; 3], (qx [] [] [] [1] [] []), s.
  split; [|split; [left; reflexivity|exact (keys_are_ok _ _ _ Hr)]].
  apply runx_inferred; [reflexivity|apply natural_dec; reflexivity|exact E].
Qed.
Print Assumptions C34_non_change_refuted.

(* ---- C70: forced chord changes, non-changes and labels in the harmony ---- *)
(* chords change only where an onset begins *)
Theorem C70_onsets g cfg w o durs levels q s : inferred g cfg w o durs levels q s ->
  let (chords, changes) := get_chords s in
  segmentation chords changes (length durs)
  /\ forall i, In i changes -> (0 < i < length durs)%nat -> nth (i - 1) durs 0 <> 0.
Proof.
  intros H. destruct (harmony_facts _ _ _ _ _ _ _ _ H) as (ci & ki & ps & rs & ls & rj & K & L1 & L2 & Ea & Lp & W & Er & V & Eb).
  destruct H as (Hb & Hcfg & _). assert (HS := C29_chords _ _ _ _ _ _ _ _ Hb V Eb). assert (HI := C29_intervals _ _ _ _ _ _ _ _ Hb V Eb).
  destruct (get_chords s) as [chords changes]. cbn [p_durs] in HS. destruct HS as (HS & _). split; [exact HS|].
  intros i Hi Hlt. destruct (change_ends _ _ _ _ HS Hi ltac:(lia)) as (k & x & a & E1 & E2 & E3).
  destruct (HI k x a i E1 E2 E3) as (c & wt & _ & J). destruct (joined_end _ _ _ _ _ _ _ _ J) as (a' & Ha).
  destruct (C25_tiles _ _ _ _ _ W Hcfg Er) as (_ & HT & _). destruct (HT a' i Ha) as (_ & _ & _ & [E|E]); cbn in E; [lia|exact E].
Qed.
Print Assumptions C70_onsets.

Lemma forced_sets durs mc mk q (ps : list Z) : natural q -> consistent durs mc mk q -> length ps = length durs ->
  (forall i, In i (filter (fun c => negb (c =? 0)) (q_chord_changes q)) -> 0 < i < zlen ps /\ ~ In i (q_chord_non q))
  /\ (forall i, In i (q_chord_non q) -> 0 <= i < zlen ps).
Proof.
  intros [Nc _] ((K1 & K2 & _) & _) L. unfold zlen in *. rewrite L. split.
  - intros i Hi. apply filter_In in Hi as [Hi Hz]. assert (H0 : 0 <= i) by (apply Nc; rewrite !in_app_iff; tauto).
    destruct (K1 i Hi ltac:(lia)) as (H1 & _ & H3 & _). split; [lia|exact H3].
  - intros i Hi. assert (H0 : 0 <= i) by (apply Nc; rewrite !in_app_iff; tauto). destruct (K2 i Hi). lia.
Qed.

(* no chord change where none may be *)
Theorem C70_non_changes g cfg w o durs levels q s : inferred g cfg w o durs levels q s -> 0 < min_change cfg ->
  let (chords, changes) := get_chords s in
  forall i, In (Z.of_nat i) (q_chord_non q) -> (0 < i)%nat -> ~ In i changes.
Proof.
  intros H Hm. destruct (harmony_facts _ _ _ _ _ _ _ _ H) as (ci & ki & ps & rs & ls & rj & K & L1 & L2 & Ea & Lp & W & Er & V & Eb).
  destruct H as (Hb & Hcfg & Hlen & Hnat & _).
  assert (HS := C29_chords _ _ _ _ _ _ _ _ Hb V Eb). assert (HI := C29_intervals _ _ _ _ _ _ _ _ Hb V Eb).
  destruct (get_chords s) as [chords changes]. destruct HS as (HS & _). cbn [p_durs] in HS.
  intros i Hi H0 Hin. destruct (change_ends _ _ _ _ HS Hin H0) as (k & x & a & E1 & E2 & E3).
  destruct (HI k x a i E1 E2 E3) as (c & wt & _ & J). destruct (joined_end _ _ _ _ _ _ _ _ J) as (a' & Ha).
  destruct (forced_sets _ _ _ _ (n_change w) Hnat K Hlen) as [F1 F2].
  exact (proj2 (C26_forced _ _ _ _ _ _ _ _ _ W Hcfg F1 F2 Ea Er a' i Ha) Hm i Hi eq_refl).
Qed.
Print Assumptions C70_non_changes.

(* a chord that lasts over a forced change is assembled from one ending there and a range beginning
   there, both with this chord, and pays log(1 - 1) - log(1) for the change (in floating point
   -infinity, so it is returned only if nothing else is left).  Missing: that this never happens,
   see C70_changes_refuted *)
Theorem C70_changes_partial g cfg w o durs levels q s : inferred g cfg w o durs levels q s -> max_no_change cfg < n_one w ->
  let (chords, changes) := get_chords s in
  forall i, In (Z.of_nat i) (q_chord_changes q) -> (0 < i)%nat ->
  In i changes
  \/ exists ranges logs rejoins c a b w1 w2 e lg rj prior,
       labelled chords changes i (Some c) /\ In a changes /\ In b changes /\ (a < i < b)%nat
       /\ joined ranges logs rejoins (n_classify w ranges) c a b w2
       /\ joined ranges logs rejoins (n_classify w ranges) c a i w1
       /\ offered ranges logs rejoins (n_classify w ranges) i e lg rj prior /\ (e <= b)%nat
       /\ rj = n_log_not w (n_one w) - n_log w (n_one w).
Proof.
  intros H Hm. destruct (harmony_facts _ _ _ _ _ _ _ _ H) as (ci & ki & ps & rs & ls & rj & K & L1 & L2 & Ea & Lp & W & Er & V & Eb).
  destruct H as (Hb & Hcfg & Hlen & Hnat & _).
  assert (HS := C29_chords _ _ _ _ _ _ _ _ Hb V Eb). assert (HI := C29_intervals _ _ _ _ _ _ _ _ Hb V Eb).
  assert (HL : forall j, (j < length durs)%nat -> let (chords, changes) := get_chords s in exists x, labelled chords changes j x).
  { intros j Hj. destruct (result_path _ _ _ _ _ _ _ _ Hb V Eb) as (rs' & _ & Hp & Hs). assert (HC := path_chords _ _ _ _ s Hp).
    cbn [p_durs] in Hs. destruct (get_chords s) as [chords changes]. destruct HC as (_ & _ & _ & _ & _ & HC).
    destruct (path_steps_cover _ _ _ _ s Hp j ltac:(lia)) as (p & f & Hin & Hpf). exists (st_chord f). apply HC. exists p, f. auto. }
  destruct (get_chords s) as [chords changes]. destruct HS as (HS & _). cbn [p_durs] in HS.
  intros i Hi H0. destruct (forced_sets _ _ _ _ (n_change w) Hnat K Hlen) as [F1 F2].
  assert (Hci : In (Z.of_nat i) (filter (fun c => negb (c =? 0)) (q_chord_changes q))) by (apply filter_In; split; [exact Hi|lia]).
  destruct (F1 _ Hci) as [Hb1 Hnn]. assert (Hli : (i < length durs)%nat) by (unfold zlen in Hb1; lia).
  destruct (HL i Hli) as (x & k & a & b & E1 & E2 & E3 & Hab).
  destruct (Nat.eq_dec a i) as [->|Hne]; [left; exact (nth_error_In _ _ E2)|].
  destruct (HI k x a b E1 E2 E3) as (c & wt & -> & J). right.
  destruct (proj1 K) as (K1 & _). destruct (K1 _ Hi ltac:(lia)) as (_ & Hon & _). replace (Z.to_nat (Z.of_nat i - 1)) with (i - 1)%nat in Hon by lia.
  destruct (joined_inside _ _ _ _ _ _ V _ _ _ J i ltac:(lia)) as [(x & y & Hxy & Hin)|(e & w1 & lg & r & p & J1 & O & Hle)].
  - exfalso. exact (proj1 (C26_forced _ _ _ _ _ _ _ _ _ W Hcfg F1 F2 Ea Er x y Hxy) Hm i Hci Hon Hin).
  - exists rs, ls, rj, c, a, b, w1, wt, e, lg, r, p. split; [exists k, a, b; auto|].
    split; [exact (nth_error_In _ _ E2)|]. split; [exact (nth_error_In _ _ E3)|]. split; [lia|]. repeat (split; [assumption|]).
    destruct (ranges_iff _ _ _ _ _ W Hcfg Er) as (_ & _ & _ & _ & Hj). destruct O as (m & O1 & _ & O3 & _).
    rewrite Hj in O3. rewrite nth_error_map, O1 in O3. apply Some_inj in O3. cbn [fst no_change_log change_log] in O3.
    destruct (apply_forced_ok (n_one w) (n_change w) (filter (fun c => negb (c =? 0)) (q_chord_changes q)) (q_chord_non q)) as (ps' & Ef' & HL' & Hv).
    { intros j Hj'. apply F1 in Hj'. lia. } { exact F2. }
    rewrite Ea in Ef'. apply Ok_inj in Ef'. subst ps'. assert (Hp := proj1 (proj2 (Hv i ltac:(lia))) Hci Hnn).
    rewrite (nth_indep _ 0 (n_log_not w 0)) in O3 by (rewrite map_length; lia).
    rewrite (nth_indep (map (n_log w) ps) 0 (n_log w 0)) in O3 by (rewrite map_length; lia).
    rewrite !map_nth, Hp in O3. symmetry. exact O3.
Qed.
Print Assumptions C70_changes_partial.
(* a forced change at 1 between two inputs forced to the same chord: nothing in between may start a
   chord, and one chord lasts over all *)
Theorem C70_changes_refuted : exists g cfg w o durs levels q s, inferred g cfg w o durs levels q s
  /\ max_no_change cfg < n_one w /\ In 1 (q_chord_changes q) /\ get_chords s = ([Some 1], [0; 3]%nat).
Proof.
  destruct (checkx_true (fun s => chords_are s [Some 1] [0; 3]%nat) (runx 10 [0; 50; 0] (qx [1] [] [] [] [(0, 1, 1); (2, 3, 1)] [])))
    as (s & E & Hr); [vm_compute; reflexivity|].
  exists (gx 20 80), cfgx, (wx [0; 50; 0]), (ox 10 (-5) (-3)), [1; 1; 1], [3; 2; 2; 3], (qx [1] [] [] [] [(0, 1, 1); (2, 3, 1)] []), s.
  split; [|split; [cbn; lia|split; [left; reflexivity|exact (chords_are_ok _ _ _ Hr)]]].
  apply runx_inferred; [reflexivity|apply natural_dec; reflexivity|exact E].
Qed.
Print Assumptions C70_changes_refuted.

(* every input gets the chord it is forced to, if notes sounding together are forced alike and the
   last onset is not forced *)
Theorem C70_chords_partial g cfg w o durs levels q s : inferred g cfg w o durs levels q s ->
  same_in_onset durs (q_chords q) ->
  (forall i x, last_onset durs i -> ~ forced_to (q_chords q) (Z.of_nat i) x) ->
  let (chords, changes) := get_chords s in
  forall i c, (i < length durs)%nat -> forced_to (q_chords q) (Z.of_nat i) c -> labelled chords changes i (Some c).
Proof.
  intros H Hs Hl. destruct (harmony_facts _ _ _ _ _ _ _ _ H) as (ci & ki & ps & rs & ls & rj & K & L1 & L2 & Ea & Lp & W & Er & V & Eb).
  destruct H as (Hb & Hcfg & Hlen & Hnat & _).
  assert (HC := fun i c => C35_chords _ _ _ _ _ _ _ s i c Hb V Eb). cbn [p_durs p_forced_c] in HC.
  destruct (get_chords s) as [chords changes]. intros i c Hi Hc.
  assert (Hat : forall j y, (j < length durs)%nat -> forced_to (q_chords q) (Z.of_nat j) y -> nth_error ci j = Some y /\ y <> -1).
  { intros j y Hj Hy. destruct (proj2 L1 j Hj) as (z & Ez & Hz). destruct (proj1 (Hz y) Hy) as [Hyz Hn]. split; congruence. }
  destruct (Hat i c Hi Hc) as [Hi1 Hi2]. apply HC; [exact Hi|exact Hi1|exact Hi2|].
  intros a b Hab Hin j y Hj Hy. destruct (Z.eq_dec y (-1)) as [->|Hy1]; [right; reflexivity|left].
  assert (Hvab := V a b Hab). cbn [p_durs] in Hvab. assert (Hjl : (j < length durs)%nat) by lia.
  assert (Fy : forced_to (q_chords q) (Z.of_nat j) y).
  { destruct (proj2 L1 j Hjl) as (z & Ez & Hz). apply Hz. rewrite Hy in Ez. apply Some_inj in Ez. split; congruence. }
  assert (Hend : forall j y, (a <= j < b)%nat -> forced_to (q_chords q) (Z.of_nat j) y ->
    exists e, (a <= e < b)%nat /\ (S e < length durs)%nat /\ nth e durs 0 <> 0 /\ nth e ci (-1) = y /\ y <> -1).
  { intros j' y' Hj' Hf. destruct (onset_end durs (length durs) j' ltac:(lia) ltac:(lia)) as (e & G1 & G2 & G3 & G4).
    { intros Hlast. exact (Hl j' y' Hlast Hf). }
    exists e. assert (Heb : (e < b)%nat).
    { destruct (Nat.lt_ge_cases e b) as [?|Hge]; [assumption|]. exfalso.
      destruct (C25_tiles _ _ _ _ _ W Hcfg Er) as (_ & HT & _). destruct (HT a b Hab) as (_ & _ & _ & [E|E]); cbn in E; [lia|].
      apply E. apply G4. lia. }
    assert (Hf' := onset_label durs (q_chords q) y' Hs j' e G1 ltac:(lia) G4 Hf). destruct (Hat e y' ltac:(lia) Hf') as [Hn Hy'].
    split; [lia|]. split; [exact G2|]. split; [exact G3|]. split; [exact (nth_error_nth _ _ _ Hn)|exact Hy']. }
  destruct (Hend i c Hin Hc) as (e1 & A1 & A2 & A3 & A4 & A5). destruct (Hend j y Hj Fy) as (e2 & B1 & B2 & B3 & B4 & B5).
  assert (HO := C28_one_label_partial _ _ _ _ _ W Hcfg Er a b Hab ci (or_introl eq_refl) e1 e2 A1 B1).
  cbn [Model_Ranges.durs Model_Ranges.probs] in HO. rewrite Lp in HO. specialize (HO A3 B3 A2 B2). rewrite A4, B4 in HO. symmetry. exact (HO A5 B5).
Qed.
Print Assumptions C70_chords_partial.
(* the forced chord of the last onset is not given *)
Theorem C70_chords_refuted : exists g cfg w o durs levels q s, inferred g cfg w o durs levels q s
  /\ same_in_onset durs (q_chords q) /\ forced_to (q_chords q) 2 0 /\ get_chords s = ([Some 0; Some 1], [0; 1; 3]%nat).
Proof.
  destruct (checkx_true (fun s => chords_are s [Some 0; Some 1] [0; 1; 3]%nat) (runx 10 [0; 50; 0] (qx [] [] [] [] [(1, 2, 1); (2, 3, 0)] [])))
    as (s & E & Hr); [vm_compute; reflexivity|].
  exists (gx 20 80), cfgx, (wx [0; 50; 0]), (ox 10 (-5) (-3)), [1; 1; 1], [3; 2; 2; 3], (qx [] [] [] [] [(1, 2, 1); (2, 3, 0)] []), s.
  split; [|split; [|split; [exists 2, 3; split; [right; left; reflexivity|lia]|exact (chords_are_ok _ _ _ Hr)]]].
  - apply runx_inferred; [reflexivity|apply natural_dec; reflexivity|exact E].
  - clear. intros [|[|[|i]]] x H Hz; cbn in H, Hz; try discriminate; lia.
Qed.
Print Assumptions C70_chords_refuted.

(* forced chord 1 on the first two inputs, no change at 1, a change at 2 *)
Example C70_ex : viewx (runx 10 [0; 90; 0] (qx [2] [1] [] [] [(0, 2, 1)] [])) =
  Some (([Some 1; Some 0], [0; 2; 3]%nat), ([0], [0; 3]%nat), -35)
  /\ viewx (runx 10 [0; 90; 0] (qx [] [] [] [] [] [])) = Some (([Some 0; Some 1], [0; 1; 3]%nat), ([0], [0; 3]%nat), -45).
Proof. vm_compute. split; reflexivity. Qed.
