(* Properties C49, C50: forced labels written into a score. *)
From Coq Require Import QArith Lqa String Ascii.
From Verif Require Import Spec_Forces Proof_Base Proof_Forces.
From Coq Require Import List.
Import ListNotations.
Close Scope Q_scope.
Open Scope Z_scope.

(* ---- C50 ---- *)
(* marks written as label or lyric, one in each: every change, non-change, key and chord is read, at
   its position and in order, labels before lyrics, and as nothing else.  Missing: chord types whose
   text begins with that of another one, and chords without inversion, below *)
Theorem C50_marks_partial : forall labels lyrics,
  Forall good_mark (map snd labels) -> Forall good_mark (map snd lyrics) ->
  exists chords keys, extract_forces (written labels) (written lyrics)
    = Ok (at_marks is_chord_change (labels ++ lyrics), at_marks is_no_chord_change (labels ++ lyrics),
          at_marks is_key_change (labels ++ lyrics), at_marks is_no_key_change (labels ++ lyrics), chords, keys)
    /\ labels_of is_chord (labels ++ lyrics) chords /\ labels_of is_key (labels ++ lyrics) keys.
Proof. exact extract_marks. Qed.
Print Assumptions C50_marks_partial.

(* a chord inside other text: read in the same way, and refused if it has no such inversion *)
Theorem C50_parse : forall c a t inv before_text after_text,
  letter_fifths c <> None -> readable t = true -> 0 <= inv < 4 -> ~ In "C"%char before_text ->
  let found := match search CHORD_REGEX (before_text ++ mark_text (AChord c a t inv) ++ after_text) with
               | Some groups => chord_of groups | None => Raise TypeError end in
  if inv <? positions t then exists i, found = Ok i /\ id_of_mark (AChord c a t inv) i
  else found = Raise ValueError.
Proof.
  intros c a t inv b r Hc Ht Hi Hb found. unfold found. rewrite search_skip by exact Hb. exact (read_good c a t inv r Hc Ht Hi).
Qed.
Print Assumptions C50_parse.

(* all other seventh chords stop the reading, whatever follows *)
Theorem C50_sevenths_refuted : forall c a t inv after_text p,
  letter_fifths c <> None -> readable t = false -> 0 <= inv < 4 ->
  extract_forces [(p, mark_text (AChord c a t inv) ++ after_text)] [] = Raise TypeError.
Proof.
  intros c a t inv r p Hc Ht Hi. assert (R := read_bad c a t inv r Hc Ht Hi). unfold read_chord in R. unfold extract_forces.
  cbn [app filter snd]. unfold contains at 1. destruct (search CHORD_REGEX (mark_text (AChord c a t inv) ++ r)) as [g|] eqn:E.
  - cbn [mapM snd]. rewrite E, R. reflexivity.
  - exfalso.
    assert (G : all_chords (fun c a t i => match search CHORD_REGEX (mark_text (AChord c a t i) ++ r) with Some _ => true | None => false end) = true)
      by (vm_compute; reflexivity).
    assert (E' := all_chords_spec _ G c a t inv Hc Hi). clear G. cbv beta in E'. rewrite E in E'. discriminate E'.
Qed.
Print Assumptions C50_sevenths_refuted.
(* and so does every chord written without an inversion *)
Theorem C50_plain_refuted : forall c a t p, letter_fifths c <> None ->
  extract_forces [(p, chord_text c a t)] [] = Raise TypeError.
Proof.
  intros c a t p Hc. assert (R := read_plain c a t Hc). unfold read_chord in R. unfold extract_forces.
  cbn [app filter snd]. unfold contains at 1. destruct (search CHORD_REGEX (chord_text c a t)) as [g|] eqn:E.
  - cbn [mapM snd]. rewrite E, R. reflexivity.
  - exfalso.
    assert (G : all_chords (fun c a t i => match search CHORD_REGEX (chord_text c a t) with Some _ => true | None => false end) = true)
      by (vm_compute; reflexivity).
    assert (E' := all_chords_spec _ G c a t 0 Hc ltac:(lia)). clear G. cbv beta in E'. rewrite E in E'. discriminate E'.
Qed.
Print Assumptions C50_plain_refuted.

Definition at_beat (n : Z) : pos := (n, 1 # 4)%Q.
Example C50_ex : extract_forces
  (written [(at_beat 1, AKey "c"%char Sharp); (at_beat 1, AChord "B"%char Flat Half_Dim7 3); (at_beat 2, NoKeyChange)])
  (written [(at_beat 4, ChordChange); (at_beat 3, AChord "f"%char Natural Maj 1); (at_beat 5, NoChordChange); (at_beat 5, KeyChange)])
  = Ok ([at_beat 4], [at_beat 5], [at_beat 5], [at_beat 2], [(at_beat 1, 1175); (at_beat 3, 43)], [(at_beat 1, 57)])
  /\ get_chord_from_one_hot_index 1175 TPC true false false NO_REDUCTION = Ok (13, Half_Dim7, 3)
  /\ get_chord_from_one_hot_index 43 TPC true false false NO_REDUCTION = Ok (14, Maj, 1)
  /\ get_key_from_one_hot_index 57 TPC false = Ok (22, MINOR).
Proof. vm_compute. repeat split. Qed.
(* several marks in one text are read, unless one is a key: the text from its third character on must
   be its pitch *)
Example C50_texts : extract_forces [(at_beat 1, L"C=CM_0 !C !K")] [] =
    Ok ([at_beat 1], [], [at_beat 1], [], [(at_beat 1, 45)], [])
  /\ extract_forces [(at_beat 1, L"K=C !K")] [] = Raise KeyError.
Proof. vm_compute. split; reflexivity. Qed.

(* ---- C49 ---- *)
(* the indexes returned are those of the first note at each position; the ids stay *)
Theorem C49_first : forall onsets forces l, never_back onsets -> convert_score_positions onsets forces = Ok l ->
  Forall2 (fun f x => first_at onsets (fst f) (fst x) /\ snd x = snd f) forces l.
Proof.
  intros onsets forces l H. revert l. unfold convert_score_positions. induction forces as [|f fs IH]; intros l E.
  - cbn [mapM] in E. apply Ok_inj in E. subst l. constructor.
  - cbn [mapM] in E. apply bind_ok in E as (x & Ex & E). apply bind_ok in E as (xs & Es & E). apply Ok_inj in E. subst l.
    constructor; [|exact (IH _ Es)]. destruct (convert_one onsets (fst f) H) as (k & Ek & _ & H1 & H2). rewrite Ek in Ex. cbn [bind] in Ex.
    destruct (nth_error onsets k) as [a|] eqn:Ea; [|discriminate]. destruct (pos_eqb a (fst f)) eqn:Ep; [|discriminate].
    apply Ok_inj in Ex. subst x. cbn [fst snd]. split; [|reflexivity]. split; [exists a; split; [exact Ea|apply pos_eqb_iff; exact Ep]|].
    intros j b Hj Hb Hs. exact (proj1 (same_not_before _ _ Hs) (H1 j b Hj Hb)).
Qed.
Print Assumptions C49_first.
(* positions with a note are accepted *)
Theorem C49_accepts : forall onsets forces, never_back onsets ->
  (forall f, In f forces -> exists a, In a onsets /\ same_pos a (fst f)) ->
  exists l, convert_score_positions onsets forces = Ok l.
Proof.
  intros onsets forces H. unfold convert_score_positions. induction forces as [|f fs IH]; intros Hf; [exists []; reflexivity|].
  destruct IH as (l & El); [intros f' Hf'; apply Hf; right; exact Hf'|]. cbn [mapM].
  destruct (convert_one onsets (fst f) H) as (k & Ek & Hk & H1 & H2). rewrite Ek. cbn [bind].
  destruct (Hf f (or_introl eq_refl)) as (a & Ha & Hs). apply In_nth_error in Ha as (j & Hj).
  assert (Hkj : (k <= j)%nat) by (destruct (Nat.le_gt_cases k j) as [?|Hlt]; [assumption|]; exfalso; exact (proj1 (same_not_before _ _ Hs) (H1 j a Hlt Hj))).
  destruct (nth_error onsets k) as [b|] eqn:Eb; [|apply nth_error_None in Eb; assert (j < List.length onsets)%nat by (apply nth_error_Some; congruence); lia].
  assert (Ep : pos_eqb b (fst f) = true).
  { apply pos_eqb_iff. assert (N1 := H2 k b ltac:(lia) Eb). assert (N2 := H k j b a Hkj Eb Hj). clear -N1 N2 Hs. unfold before, same_pos in *.
    destruct Hs as [S1 S2]. destruct (Z.lt_trichotomy (fst b) (fst (fst f))) as [G|[G|G]]; [exfalso; apply N1; left; exact G| |exfalso; apply N2; left; lia].
    split; [exact G|]. destruct (Q_dec (snd b) (snd (fst f))) as [[L|L]|L]; [exfalso; apply N1; right; split; assumption| |exact L].
    exfalso. apply N2. right. split; [lia|]. lra. }
  rewrite Ep. cbn [bind]. rewrite El. eexists. reflexivity.
Qed.
Print Assumptions C49_accepts.
(* a position without note is refused: with ValueError before the last note.  Missing: after it *)
Theorem C49_refuses_partial : forall onsets f a, never_back onsets ->
  (forall b, In b onsets -> ~ same_pos b (fst f)) -> In a onsets -> before (fst f) a ->
  convert_score_positions onsets [f] = Raise ValueError.
Proof.
  intros onsets f a H Hn Ha Hb. unfold convert_score_positions. cbn [mapM].
  destruct (convert_one onsets (fst f) H) as (k & Ek & Hk & H1 & H2). rewrite Ek. cbn [bind].
  apply In_nth_error in Ha as (j & Hj).
  destruct (nth_error onsets k) as [b|] eqn:Eb.
  - destruct (pos_eqb b (fst f)) eqn:Ep; [|reflexivity]. exfalso. apply pos_eqb_iff in Ep. exact (Hn b (nth_error_In _ _ Eb) Ep).
  - exfalso. apply nth_error_None in Eb. assert (Hjl : (j < List.length onsets)%nat) by (apply nth_error_Some; congruence).
    assert (Hba := H1 j a ltac:(lia) Hj). clear -Hba Hb. unfold before in *. destruct Hba as [?|[? ?]], Hb as [?|[? ?]]; try lia. lra.
Qed.
Print Assumptions C49_refuses_partial.
(* every position after the last note is an IndexError *)
Theorem C49_after_refuted : forall onsets f, never_back onsets -> (forall b, In b onsets -> before b (fst f)) ->
  convert_score_positions onsets [f] = Raise IndexError.
Proof.
  intros onsets f H Hn. unfold convert_score_positions. cbn [mapM].
  destruct (convert_one onsets (fst f) H) as (k & Ek & Hk & H1 & H2). rewrite Ek. cbn [bind].
  destruct (nth_error onsets k) as [b|] eqn:Eb; [|reflexivity]. exfalso. exact (H2 k b (Nat.le_refl k) Eb (Hn b (nth_error_In _ _ Eb))).
Qed.
Print Assumptions C49_after_refuted.
Definition beat (n : Z) (x : Q) : pos := (n, x).
Example C49_ex : let onsets := [beat 1 0; beat 1 (1 # 4); beat 1 (2 # 8); beat 2 0] in
  convert_score_positions onsets [(beat 1 (1 # 4), Some 7); (beat 2 0, None)] = Ok [(1%nat, Some 7); (3%nat, None)]
  /\ convert_score_positions onsets [(beat 1 (1 # 3), None)] = Raise ValueError
  /\ convert_score_positions onsets [(beat 2 (1 # 3), None)] = Raise IndexError.
Proof. vm_compute. repeat split. Qed.
