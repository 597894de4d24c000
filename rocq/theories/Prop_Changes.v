(* C51, second half: what get_added_and_removed_pitches says about the alterations of a
   chord.  The vocabulary is in Spec_Changes.v; pitches are counted in fifths. *)
From Coq Require Import String Ascii Lia ZArith.
From Verif Require Import Model_Changes Spec_Music Spec_Text Spec_Changes Proof_Base Proof_Strings Proof_Labels Proof_Changes.
From Coq Require Import List.
Import ListNotations.
Open Scope Z_scope.

Lemma mapM_total' {A B} (f : A -> res B) (P : A -> B -> Prop) l :
  Forall (fun a => exists b, f a = Ok b /\ P a b) l ->
  exists bs, mapM f l = Ok bs /\ Forall2 P l bs.
Proof.
  induction 1 as [|a l (b & Hb & HP) _ (bs & Ebs & F)]; [exists []; split; [reflexivity|constructor]|].
  exists (b :: bs). cbn [mapM]. rewrite Hb. cbn [bind]. rewrite Ebs. split; [reflexivity|constructor; assumption].
Qed.

Lemma mapM_map {A B C} (g : A -> B) (f : B -> res C) l : mapM f (map g l) = mapM (fun a => f (g a)) l.
Proof. induction l; cbn [map mapM]; [reflexivity|]. rewrite IHl. reflexivity. Qed.

Lemma fits_iff root t : (forall f, In f (chord_fifths t) -> 0 <= root + f < 35) -> fits root t = true.
Proof.
  intros H. unfold fits, tones. apply forallb_forall. intros p Hp.
  apply in_map_iff in Hp as (f & <- & Hf). specialize (H f Hf). lia.
Qed.

(* the common part: everything up to the two lists *)
Lemma changes_run root t tonic m cs :
  Forall change_ok cs -> fits root t = true ->
  exists d, 1 <= d <= 7 /\ same_letter (tonic + degree_fifths m d) root /\
    get_added_and_removed_pitches root t (concat (map change_text cs)) tonic m =
    let! added := mapM (fun c => added_pitch d tonic m (change_text c)) cs in
    let! removed := mapM (fun c => removed_pitch (tones root t) (change_text c)) cs in
    Ok (dict_of_pairs (combine (concat removed) added)).
Proof.
  intros HF Hf. destruct (root_degree_total root tonic m) as (d & Ed & Hd & Hl).
  exists d. split; [exact Hd|]. split; [exact Hl|].
  unfold get_added_and_removed_pitches. destruct (first_letter root) as (rest & Er).
  rewrite Er. cbn [bind]. rewrite py_nth_head. cbn [bind]. rewrite Ed. cbn [bind].
  unfold split_changes_into_list. rewrite split_texts; [|eapply Forall_impl; [|exact HF]; intros c [Hc _]; exact Hc|lia].
  cbn [bind]. rewrite ascending_spec by exact Hf. rewrite mapM_map.
  destruct (mapM _ cs); [|reflexivity]. cbn [bind]. rewrite mapM_map. reflexivity.
Qed.

(* Every list of alterations without "+" (marks "^" and "v" on 2, 4 and 6 only; numbers 2 to
   19), for every chord whose tones are spellable and every key: entry by entry, the new note
   is the note of the key's scale on the letter the number names, counted from the letter of
   the root, with the alteration's own accidentals, and starts with "+" exactly from 8 on; the
   replaced note is the chord tone next to it (above for "^" and for sharps, below otherwise),
   and no note for numbers other than 2, 4, 6 and for "#6" on a triad.  The result is the
   dictionary of these entries, in which a later entry overwrites an earlier one with the
   same replaced note. *)
Theorem C51_alterations : forall root t tonic m cs,
  Forall change_ok cs -> Forall (has_tone t) cs ->
  (forall f, In f (chord_fifths t) -> 0 <= root + f < 35) ->
  exists d entries,
    get_added_and_removed_pitches root t (concat (map change_text cs)) tonic m = Ok d
    /\ Forall2 (change_entry root t tonic m) cs entries
    /\ NoDup (map fst d) /\ forall k, str_lookup k d = last_value k entries.
Proof.
  intros root t tonic m cs HF HT Hf. apply fits_iff in Hf.
  destruct (changes_run root t tonic m cs HF Hf) as (d & Hd & Hl & E).
  destruct (mapM_total' (fun c => added_pitch d tonic m (change_text c))
    (fun c s => exists p, s = (if 8 <=? c_num c then L"+" else []) ++ z_to_str p /\ altered_note root tonic m c p) cs)
    as (added & Ea & Fa).
  { apply Forall_forall. intros c Hc. rewrite Forall_forall in HF. destruct (HF c Hc) as [Hn _].
    destruct (added_spec root tonic m d c Hn Hd Hl) as (p & Ep & Hp). eexists. split; [exact Ep|].
    exists p. split; [reflexivity|exact Hp]. }
  destruct (mapM_total' (fun c => removed_pitch (tones root t) (change_text c))
    (fun c l => exists s, l = [s] /\ match replaces c with
     | None => s = []
     | Some up =>
         if up && (c_num c =? 6) && (positions t =? 3) then sharp_six c /\ s = []
         else exists p, neighbour root t c up p /\ is_decimal_of s p
     end) cs) as (removed & Erm & Fr).
  { apply Forall_forall. intros c Hc. rewrite Forall_forall in HF, HT.
    pose proof (removed_spec root t c (HF c Hc)) as R. specialize (HT c Hc). unfold has_tone in HT.
    destruct (replaces c) as [up|] eqn:Eup.
    - destruct (up && (c_num c =? 6) && (positions t =? 3)) eqn:E6.
      + apply andb_true_iff in E6 as [E6 E3]. apply andb_true_iff in E6 as [Eu E6].
        apply Z.eqb_eq in E6, E3. subst up. specialize (HT eq_refl E6 E3).
        rewrite (proj2 (sharp_six_text c (proj1 (HF c Hc))) HT) in R.
        eexists. split; [exact R|]. exists []. split; [reflexivity|]. split; [exact HT|reflexivity].
      + destruct R as (p & Hp & R). eexists. split; [exact R|]. exists (z_to_str p). split; [reflexivity|].
        exists p. split; [exact Hp|apply z_to_str_decimal].
    - eexists. split; [exact R|]. exists []. split; reflexivity. }
  rewrite Ea in E. cbn [bind] in E. rewrite Erm in E. cbn [bind] in E.
  exists (dict_of_pairs (combine (concat removed) added)), (combine (concat removed) added).
  split; [exact E|]. split; [|apply dict_of_pairs_spec].
  clear -Fa Fr. revert removed Fr. induction Fa as [|c s cs added (p & Es & Hp) Fa IH]; intros removed Fr.
  - inversion Fr. subst. constructor.
  - inversion Fr as [|c' l cs' removed' (s' & El & Hs) Fr']. subst. cbn [concat app combine].
    constructor; [|apply IH; exact Fr']. split; cbn [fst snd].
    + exists p, (z_to_str p). split; [exact Hp|]. split; [apply z_to_str_decimal|reflexivity].
    + exact Hs.
Qed.
Print Assumptions C51_alterations.

(* Without the tone: "^6" or "##6" on a triad is refused. *)
Theorem C51_no_tone : forall root t tonic m cs,
  Forall change_ok cs -> ~ Forall (has_tone t) cs ->
  (forall f, In f (chord_fifths t) -> 0 <= root + f < 35) ->
  get_added_and_removed_pitches root t (concat (map change_text cs)) tonic m = Raise IndexError.
Proof.
  intros root t tonic m cs HF HT Hf. apply fits_iff in Hf.
  destruct (changes_run root t tonic m cs HF Hf) as (d & Hd & Hl & E). rewrite E. clear E.
  destruct (mapM_total' (fun c => added_pitch d tonic m (change_text c)) (fun _ _ => True) cs) as (added & Ea & _).
  { apply Forall_forall. intros c Hc. rewrite Forall_forall in HF. destruct (HF c Hc) as [Hn _].
    destruct (added_spec root tonic m d c Hn Hd Hl) as (p & Ep & Hp). eexists. split; [exact Ep|exact I]. }
  rewrite Ea. cbn [bind]. clear Ea Hd Hl.
  enough (M : mapM (fun c => removed_pitch (tones root t) (change_text c)) cs = Raise IndexError)
    by (rewrite M; reflexivity).
  induction HF as [|c cs Hc HF IH]; [destruct HT; constructor|]. cbn [mapM].
  pose proof (removed_spec root t c Hc) as R.
  assert (G : (has_tone t c /\ exists l, removed_pitch (tones root t) (change_text c) = Ok l)
              \/ removed_pitch (tones root t) (change_text c) = Raise IndexError).
  { unfold has_tone. destruct (replaces c) as [up|] eqn:Eup.
    - destruct (up && (c_num c =? 6) && (positions t =? 3)) eqn:E6.
      + destruct (str_eqb (change_text c) (L"#6")) eqn:Es; [left|right; exact R].
        split; [|eexists; exact R]. intros _ _ _. apply sharp_six_text; [apply Hc|exact Es].
      + left. destruct R as (p & _ & R). split; [|eexists; exact R].
        intros Eu E1 E2. apply Some_inj in Eu. subst up. rewrite E1, E2 in E6. discriminate.
    - left. split; [discriminate|eexists; exact R]. }
  destruct G as [[Hh (l & El)]|Er].
  - rewrite El. cbn [bind]. rewrite IH; [reflexivity|]. intros HT'. apply HT. constructor; assumption.
  - rewrite Er. reflexivity.
Qed.
Print Assumptions C51_no_tone.

(* V7 of C major with a 4 for its third and a ninth: G-B-D-F; "4" replaces the B (20) by the
   C (15), "b9" adds the A flat (11) above the octave.  "#2" on F in A minor replaces the
   third (A, 18) by the G sharp (23). *)
Example C51_alterations_example :
  let cs := [{| c_mark := NoMark; c_acc := 0; c_num := 4 |}; {| c_mark := NoMark; c_acc := -1; c_num := 9 |}] in
  concat (map change_text cs) = L"4b9"
  /\ Forall change_ok cs /\ Forall (has_tone Maj_Min7) cs
  /\ (forall f, In f (chord_fifths Maj_Min7) -> 0 <= 16 + f < 35)
  /\ get_added_and_removed_pitches 16 Maj_Min7 (L"4b9") 15 MAJOR = Ok [(L"20", L"15"); ([], L"+11")]
  /\ get_added_and_removed_pitches 14 Maj (L"#2") 18 MINOR = Ok [(L"18", L"23")]
  /\ get_added_and_removed_pitches 14 Maj (L"v2^4") 15 MAJOR = Ok [(L"14", L"16"); (L"15", L"20")].
Proof.
  cbn zeta. split; [reflexivity|]. split; [repeat constructor; cbn; lia|].
  split; [constructor; [intros H; discriminate H|constructor; [intros H; discriminate H|constructor]]|].
  split; [intros f Hf; vm_compute in Hf; lia|]. vm_compute. auto.
Qed.
Example C51_no_tone_example :
  change_text {| c_mark := Above; c_acc := 0; c_num := 6 |} = L"^6"
  /\ ~ Forall (has_tone Maj) [{| c_mark := Above; c_acc := 0; c_num := 6 |}]
  /\ get_added_and_removed_pitches 15 Maj (L"^6") 15 MAJOR = Raise IndexError
  /\ get_added_and_removed_pitches 15 Maj (L"#6") 15 MAJOR = Ok [([], L"25")].
Proof.
  split; [reflexivity|]. split; [|vm_compute; auto].
  intros H. apply Forall_inv in H. specialize (H eq_refl eq_refl eq_refl). destruct H as (H & _). discriminate.
Qed.

(* The docstring: "each entry represents a mapping original_pitch -> new_pitch" and "+" marks
   a note that is only added.  Refuted: a "+" makes the loop record two removed notes, so
   that all later entries are shifted: of "+42" on a C major chord (add the F, replace the C
   by the D) only the D is left, as an addition, whereas "4" and "2" alone work. *)
Theorem C51_plus_refuted :
  get_added_and_removed_pitches 15 Maj (L"+42") 15 MAJOR = Ok [([], L"17")]
  /\ get_added_and_removed_pitches 15 Maj (L"+4") 15 MAJOR = Ok [([], L"14")]
  /\ get_added_and_removed_pitches 15 Maj (L"2") 15 MAJOR = Ok [(L"15", L"17")].
Proof. vm_compute. auto. Qed.
Print Assumptions C51_plus_refuted.

(* Refuted: two notes that replace nothing share the empty key, only the last is reported:
   of "79" on a C major chord the D (17) is kept and the B (20) is lost. *)
Theorem C51_two_additions_refuted :
  get_added_and_removed_pitches 15 Maj (L"79") 15 MAJOR = Ok [([], L"+17")]
  /\ get_added_and_removed_pitches 15 Maj (L"7") 15 MAJOR = Ok [([], L"20")].
Proof. vm_compute. auto. Qed.
Print Assumptions C51_two_additions_refuted.

(* A mark before a number of two digits: the tone that is replaced is the one for the last digit
   alone, whatever the chord and the key. *)
Theorem C51_last_digit : forall root t tonic m mark d r a r' a',
  mark = L"^" \/ mark = L"v" -> In d [L"2"; L"3"; L"4"; L"5"; L"6"; L"7"; L"8"; L"9"] ->
  get_added_and_removed_pitches root t (mark ++ L"1" ++ d) tonic m = Ok [(r, a)] ->
  get_added_and_removed_pitches root t (mark ++ d) tonic m = Ok [(r', a')] -> r = r'.
Proof.
  intros root t tonic m mark d r a r' a' Hm Hd H1 H2. unfold get_added_and_removed_pitches in H1, H2.
  apply bind_ok in H1 as (rs & Ers & H1). rewrite Ers in H2. cbn [bind] in H2.
  apply bind_ok in H1 as (rc & Erc & H1). rewrite Erc in H2. cbn [bind] in H2.
  apply bind_ok in H1 as (dg & Edg & H1). rewrite Edg in H2. cbn [bind] in H2.
  apply bind_ok in H1 as (cl & Ecl & H1). apply bind_ok in H2 as (cl' & Ecl' & H2).
  apply bind_ok in H1 as (ad & Ead & H1). apply bind_ok in H2 as (ad' & Ead' & H2).
  apply bind_ok in H1 as (asc & Easc & H1). rewrite Easc in H2. cbn [bind] in H2. clear Easc Edg Erc Ers.
  apply bind_ok in H1 as (rm & Erm & H1). apply bind_ok in H2 as (rm' & Erm' & H2).
  assert (E : cl = [mark ++ L"1" ++ d] /\ cl' = [mark ++ d] /\ removed_pitch asc (mark ++ L"1" ++ d) = removed_pitch asc (mark ++ d)).
  { repeat split; repeat (destruct Hd as [<-|Hd]; [destruct Hm as [-> | ->]; vm_compute in Ecl; vm_compute in Ecl'; vm_compute; congruence|]); destruct Hd. }
  destruct E as (-> & -> & E). cbn [mapM] in Erm, Erm', Ead, Ead'.
  apply bind_ok in Erm as (x & Ex & Erm). apply bind_ok in Erm' as (x' & Ex' & Erm'). rewrite E, Ex' in Ex. apply Ok_inj in Ex. subst x'.
  apply bind_ok in Ead as (y & _ & Ead). apply bind_ok in Ead' as (y' & _ & Ead').
  cbn [bind] in Erm, Erm', Ead, Ead'. apply Ok_inj in Erm, Erm', Ead, Ead'. subst rm rm' ad ad'.
  apply Ok_inj in H1, H2. cbn [concat] in H1, H2. rewrite app_nil_r in H1, H2.
  destruct x as [|x0 x]; [discriminate|]. cbn in H1, H2. rewrite combine_nil in H1, H2. cbn in H1, H2. congruence.
Qed.
Print Assumptions C51_last_digit.

(* Refuted: "^" is for the tone above the new one and "v" for the tone below.  On C-E-G-B flat the
   thirteenth A (18) marked "^" replaces the E (19), like "^2" and "^12" do, and not the B flat
   (13); marked "v" it replaces the C, and the tenth E marked "v" replaces the B flat, for the
   index is then -1. *)
Theorem C51_tens_refuted :
  get_added_and_removed_pitches 15 Maj_Min7 (L"^13") 15 MAJOR = Ok [(L"19", L"+18")]
  /\ get_added_and_removed_pitches 15 Maj_Min7 (L"^12") 15 MAJOR = Ok [(L"19", L"+16")]
  /\ get_added_and_removed_pitches 15 Maj_Min7 (L"^2") 15 MAJOR = Ok [(L"19", L"17")]
  /\ get_added_and_removed_pitches 15 Maj_Min7 (L"v13") 15 MAJOR = Ok [(L"15", L"+18")]
  /\ get_added_and_removed_pitches 15 Maj_Min7 (L"v10") 15 MAJOR = Ok [(L"13", L"+19")].
Proof. vm_compute. auto 6. Qed.
Print Assumptions C51_tens_refuted.
