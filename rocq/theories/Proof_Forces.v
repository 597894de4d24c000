(* Lemmas about reading marks and positions. *)
From Coq Require Import QArith Lqa String Ascii.
From Verif Require Export Spec_Forces Proof_Base Proof_Piece.
From Coq Require Import List.
Import ListNotations.
Close Scope Q_scope.
Open Scope Z_scope.

Definition letters : pystr := L"ABCDEFGabcdefg".
Definition accs := [DoubleFlat; Flat; Natural; Sharp; DoubleSharp].
Lemma in_letters c : letter_fifths c <> None -> In c letters.
Proof.
  intros H. assert (G : forallb (fun n => let c := ascii_of_nat n in
     match letter_fifths c with None => true | Some _ => existsb (Ascii.eqb c) letters end) (seq 0 256) = true) by (vm_compute; reflexivity).
  rewrite forallb_forall in G. specialize (G (nat_of_ascii c)). rewrite ascii_nat_embedding in G. cbv zeta in G.
  destruct (letter_fifths c); [|contradiction]. assert (E : existsb (Ascii.eqb c) letters = true).
  { apply G. apply in_seq. pose proof (nat_ascii_bounded c). lia. }
  apply existsb_exists in E as (x & Hx & E). apply Ascii.eqb_eq in E. subst x. exact Hx.
Qed.
Lemma in_accs a : In a accs.
Proof. destruct a; cbn; tauto. Qed.
Lemma in_types t : In t CHORD_TYPES.
Proof. destruct t; cbn; tauto. Qed.
Definition four : list Z := [0; 1; 2; 3].
Lemma in_four i : 0 <= i < 4 -> In i four.
Proof. intros H. cbn. lia. Qed.
Lemma positions_le4 t : positions t <= 4.
Proof. destruct t; cbn; lia. Qed.

(* a property of all chord labels, checked one by one *)
Definition all_chords (P : ascii -> accidental -> chord_type -> Z -> bool) : bool :=
  forallb (fun c => forallb (fun a => forallb (fun t => forallb (P c a t) four) CHORD_TYPES) accs) letters.
Lemma all_chords_spec P : all_chords P = true -> forall c a t i, letter_fifths c <> None -> 0 <= i < 4 -> P c a t i = true.
Proof.
  unfold all_chords. intros H c a t i Hc Hi. rewrite forallb_forall in H. specialize (H c (in_letters c Hc)).
  rewrite forallb_forall in H. specialize (H a (in_accs a)). rewrite forallb_forall in H. specialize (H t (in_types t)).
  rewrite forallb_forall in H. exact (H i (in_four i Hi)).
Qed.

Definition triple_eqb (x : res (Z * chord_type * Z)) (p : Z) (t : chord_type) (i : Z) : bool :=
  match x with Ok (p', t', i') => (p' =? p) && ct_eqb t' t && (i' =? i) | Raise _ => false end.
Definition read_chord (s : pystr) : res Z :=
  match search CHORD_REGEX s with Some c => chord_of c | None => Raise TypeError end.
Definition no_C (s : pystr) : Prop := ~ In "C"%char s.

Lemma search_skip s t : no_C s -> search CHORD_REGEX (s ++ t) = search CHORD_REGEX t.
Proof.
  induction s as [|x s IH]; intros H; [reflexivity|]. rewrite <- IH by (intros Hx; apply H; right; exact Hx).
  cbn [app search]. assert (E : matches CHORD_REGEX (x :: s ++ t) [] = []).
  { unfold CHORD_REGEX. cbn [matches RLit L list_ascii_of_string fold_right flat_map app].
    destruct (Ascii.eqb "C" x) eqn:E; [|reflexivity]. apply Ascii.eqb_eq in E. exfalso. apply H. left. symmetry. exact E. }
  rewrite E. reflexivity.
Qed.

Lemma ct_eqb_true a b : ct_eqb a b = true -> a = b.
Proof. destruct a, b; intros H; try reflexivity; discriminate. Qed.
Lemma triple_ok x p t i : triple_eqb x p t i = true -> x = Ok (p, t, i).
Proof.
  unfold triple_eqb. destruct x as [[[p' t'] i']|]; [|discriminate]. intros H. apply andb_true_iff in H as [H H3]. apply andb_true_iff in H as [H1 H2].
  apply ct_eqb_true in H2. subst t'. repeat f_equal; lia.
Qed.

(* a chord label, with any text after it *)
Lemma read_good c a t i rest : letter_fifths c <> None -> readable t = true -> 0 <= i < 4 ->
  if i <? positions t then exists x, read_chord (mark_text (AChord c a t i) ++ rest) = Ok x /\ id_of_mark (AChord c a t i) x
  else read_chord (mark_text (AChord c a t i) ++ rest) = Raise ValueError.
Proof.
  intros Hc Ht Hi.
  assert (G : all_chords (fun c a t i => negb (readable t) ||
     match read_chord (mark_text (AChord c a t i) ++ rest) with
     | Ok x => (i <? positions t) && triple_eqb (get_chord_from_one_hot_index x TPC true false false NO_REDUCTION)
                 (15 + match letter_fifths c with Some v => v | None => 100 end + acc_fifths a) t i
     | Raise ValueError => negb (i <? positions t)
     | Raise _ => false end) = true) by (vm_compute; reflexivity).
  assert (E := all_chords_spec _ G c a t i Hc Hi). clear G. cbv beta in E. rewrite Ht in E. cbn [negb orb] in E.
  destruct (read_chord (mark_text (AChord c a t i) ++ rest)) as [x|e].
  - apply andb_true_iff in E as [E1 E2]. rewrite E1. exists x. split; [reflexivity|]. apply triple_ok in E2.
    cbn [id_of_mark]. destruct (letter_fifths c) as [v|] eqn:Ev; [|contradiction]. exists (15 + v + acc_fifths a). split; [|exact E2].
    exists v. split; [exact Ev|reflexivity].
  - destruct e; try discriminate E. apply negb_true_iff in E. rewrite E. reflexivity.
Qed.
Lemma read_bad c a t i rest : letter_fifths c <> None -> readable t = false -> 0 <= i < 4 ->
  read_chord (mark_text (AChord c a t i) ++ rest) = Raise TypeError.
Proof.
  intros Hc Ht Hi.
  assert (G : all_chords (fun c a t i => readable t ||
     match read_chord (mark_text (AChord c a t i) ++ rest) with Raise TypeError => true | _ => false end) = true) by (vm_compute; reflexivity).
  assert (E := all_chords_spec _ G c a t i Hc Hi). clear G. cbv beta in E. rewrite Ht in E. cbn [orb] in E.
  destruct (read_chord _) as [x|e]; [discriminate E|]. destruct e; try discriminate E. reflexivity.
Qed.
Lemma read_plain c a t : letter_fifths c <> None -> read_chord (chord_text c a t) = Raise TypeError.
Proof.
  intros Hc. assert (G : all_chords (fun c a t i =>
     match read_chord (chord_text c a t) with Raise TypeError => true | _ => false end) = true) by (vm_compute; reflexivity).
  assert (E := all_chords_spec _ G c a t 0 Hc ltac:(lia)). clear G. cbv beta in E.
  destruct (read_chord _) as [x|e]; [discriminate E|]. destruct e; try discriminate E. reflexivity.
Qed.

(* what each regex says about a mark *)
Definition kinds (s : pystr) : list bool :=
  [contains CHORD_REGEX s; contains KEY_REGEX s; contains CHORD_CHANGE_REGEX s; contains_at_start NO_CHORD_CHANGE_REGEX s;
   contains KEY_CHANGE_REGEX s; contains NO_KEY_CHANGE_REGEX s].
Fixpoint bools_eqb (a b : list bool) : bool :=
  match a, b with [], [] => true | x :: a', y :: b' => Bool.eqb x y && bools_eqb a' b' | _, _ => false end.
Lemma bools_ok : forall a b, bools_eqb a b = true -> a = b.
Proof.
  induction a as [|x a IH]; intros [|y b] H; try discriminate; [reflexivity|]. cbn in H. apply andb_true_iff in H as [H1 H2].
  apply eqb_prop in H1. f_equal; [exact H1|exact (IH b H2)].
Qed.
Lemma kinds_of_mark m : good_mark m ->
  kinds (mark_text m) = [is_chord m; is_key m; is_chord_change m; is_no_chord_change m; is_key_change m; is_no_key_change m].
Proof.
  destruct m as [| | | |c a t i|c a]; try (intros _; vm_compute; reflexivity); intros H; apply bools_ok.
  - assert (G : all_chords (fun c a t i => bools_eqb (kinds (mark_text (AChord c a t i))) [true; false; false; false; false; false]) = true) by (vm_compute; reflexivity).
    destruct H as (H1 & _ & H3). pose proof (positions_le4 t). exact (all_chords_spec _ G c a t i H1 ltac:(lia)).
  - assert (G : all_chords (fun c a t i => bools_eqb (kinds (mark_text (AKey c a))) [false; true; false; false; false; false]) = true) by (vm_compute; reflexivity).
    exact (all_chords_spec _ G c a Maj 0 H ltac:(lia)).
Qed.
Lemma key_good c a : letter_fifths c <> None -> exists x, key_of (mark_text (AKey c a)) = Ok x /\ id_of_mark (AKey c a) x.
Proof.
  intros Hc.
  assert (G : all_chords (fun c a _ _ => match key_of (mark_text (AKey c a)) with
     | Ok x => match get_key_from_one_hot_index x TPC false with
               | Ok (p, m) => (p =? 15 + match letter_fifths c with Some v => v | None => 100 end + acc_fifths a)
                              && match m with MINOR => char_is_lower c | MAJOR => negb (char_is_lower c) end
               | Raise _ => false end
     | Raise _ => false end) = true) by (vm_compute; reflexivity).
  assert (E := all_chords_spec _ G c a Maj 0 Hc ltac:(lia)). clear G. cbv beta in E.
  destruct (key_of (mark_text (AKey c a))) as [x|e]; [|discriminate E]. exists x. split; [reflexivity|].
  destruct (letter_fifths c) as [v|] eqn:Ev; [|contradiction]. exists (15 + v + acc_fifths a). split; [exists v; split; [exact Ev|reflexivity]|].
  destruct (get_key_from_one_hot_index x TPC false) as [[p m]|]; [|discriminate E]. apply andb_true_iff in E as [E1 E2].
  f_equal. f_equal; [lia|]. destruct m, (char_is_lower c); try reflexivity; discriminate E2.
Qed.

(* lists of marks *)
Lemma filter_written (k : pystr -> bool) (k' : mark -> bool) ms : (forall m, In m ms -> k (mark_text (snd m)) = k' (snd m)) ->
  filter (fun r : pos * pystr => k (snd r)) (written ms) = written (filter (fun m => k' (snd m)) ms).
Proof.
  induction ms as [|m ms IH]; intros H; [reflexivity|]. cbn [written map filter snd]. rewrite (H m (or_introl eq_refl)).
  fold (written ms). rewrite IH by (intros m' Hm; apply H; right; exact Hm). destruct (k' (snd m)); reflexivity.
Qed.
Lemma map_fst_written ms : map fst (written ms) = map fst ms.
Proof. unfold written. rewrite map_map. reflexivity. Qed.
Lemma mapM_labels (f : pos * pystr -> res (pos * Z)) ms :
  (forall m, In m ms -> exists x, f (fst m, mark_text (snd m)) = Ok (fst m, x) /\ id_of_mark (snd m) x) ->
  exists l, mapM f (written ms) = Ok l /\ Forall2 (fun m x => fst x = fst m /\ id_of_mark (snd m) (snd x)) ms l.
Proof.
  induction ms as [|m ms IH]; intros H; [exists []; split; [reflexivity|constructor]|].
  destruct (H m (or_introl eq_refl)) as (x & Ex & Hx). destruct IH as (l & El & Hl); [intros m' Hm; apply H; right; exact Hm|].
  exists ((fst m, x) :: l). cbn [written map mapM]. rewrite Ex. cbn [bind]. fold (written ms). rewrite El. cbn [bind].
  split; [reflexivity|]. constructor; [split; [reflexivity|exact Hx]|exact Hl].
Qed.
Lemma written_app a b : written a ++ written b = written (a ++ b).
Proof. unfold written. symmetry. apply map_app. Qed.

Lemma extract_marks a b : Forall good_mark (map snd a) -> Forall good_mark (map snd b) ->
  exists chords keys, extract_forces (written a) (written b)
    = Ok (at_marks is_chord_change (a ++ b), at_marks is_no_chord_change (a ++ b),
          at_marks is_key_change (a ++ b), at_marks is_no_key_change (a ++ b), chords, keys)
    /\ labels_of is_chord (a ++ b) chords /\ labels_of is_key (a ++ b) keys.
Proof.
  intros Ha Hb. assert (Hg : forall m, In m (a ++ b) -> good_mark (snd m)).
  { intros m Hm. apply in_app_iff in Hm as [Hm|Hm]; [rewrite Forall_forall in Ha; apply Ha|rewrite Forall_forall in Hb; apply Hb]; apply in_map; exact Hm. }
  clear Ha Hb. unfold extract_forces. rewrite written_app. set (ms := a ++ b) in *. clearbody ms. clear a b.
  assert (K : forall m, In m ms -> kinds (mark_text (snd m)) = [is_chord (snd m); is_key (snd m); is_chord_change (snd m);
     is_no_chord_change (snd m); is_key_change (snd m); is_no_key_change (snd m)]) by (intros m Hm; apply kinds_of_mark, Hg, Hm).
  unfold kinds in K.
  rewrite (filter_written (contains CHORD_REGEX) is_chord) by (intros m Hm; specialize (K m Hm); congruence).
  rewrite (filter_written (contains KEY_REGEX) is_key) by (intros m Hm; specialize (K m Hm); congruence).
  unfold marked.
  rewrite (filter_written (contains CHORD_CHANGE_REGEX) is_chord_change) by (intros m Hm; specialize (K m Hm); congruence).
  rewrite (filter_written (contains_at_start NO_CHORD_CHANGE_REGEX) is_no_chord_change) by (intros m Hm; specialize (K m Hm); congruence).
  rewrite (filter_written (contains KEY_CHANGE_REGEX) is_key_change) by (intros m Hm; specialize (K m Hm); congruence).
  rewrite (filter_written (contains NO_KEY_CHANGE_REGEX) is_no_key_change) by (intros m Hm; specialize (K m Hm); congruence).
  rewrite !map_fst_written.
  destruct (mapM_labels (fun r => match search CHORD_REGEX (snd r) with
                                | Some c => let! x := chord_of c in Ok (fst r, x)
                                | None => Raise TypeError end) (filter (fun m => is_chord (snd m)) ms)) as (cs & Ec & Hc).
  { intros m Hm. apply filter_In in Hm as [Hm Hk]. specialize (Hg m Hm). destruct m as [p m]. cbn [fst snd] in *. destruct m; try discriminate.
    destruct Hg as (H1 & H2 & H3). pose proof (positions_le4 t). pose proof (read_good letter a t inv [] H1 H2 ltac:(lia)) as R.
    replace (inv <? positions t) with true in R by lia. rewrite app_nil_r in R. destruct R as (x & Ex & Hx). exists x. split; [|exact Hx].
    unfold read_chord in Ex. destruct (search CHORD_REGEX _); [|discriminate]. rewrite Ex. reflexivity. }
  destruct (mapM_labels (fun r => let! x := key_of (snd r) in Ok (fst r, x)) (filter (fun m => is_key (snd m)) ms)) as (ks & Ek & Hk).
  { intros m Hm. apply filter_In in Hm as [Hm Hk]. specialize (Hg m Hm). destruct m as [p m]. cbn [fst snd] in *. destruct m; try discriminate.
    destruct (key_good letter a Hg) as (x & Ex & Hx). exists x. rewrite Ex. split; [reflexivity|exact Hx]. }
  rewrite Ec. cbn [bind]. rewrite Ek. cbn [bind]. exists cs, ks. split; [reflexivity|]. split; [exact Hc|exact Hk].
Qed.

(* ---- positions ---- *)
Lemma pos_eqb_iff a b : pos_eqb a b = true <-> same_pos a b.
Proof. unfold pos_eqb, same_pos. rewrite andb_true_iff, Z.eqb_eq, Qeq_bool_iff. tauto. Qed.
Lemma same_not_before a b : same_pos a b -> ~ before a b /\ ~ before b a.
Proof. unfold same_pos, before. intros [H1 H2]. split; intros [H|[_ H]]; try lia; lra. Qed.
Lemma convert_one onsets p : never_back onsets ->
  exists k, bisect_left pos_lt onsets p 0 = Ok k /\ (k <= List.length onsets)%nat
    /\ (forall i a, (i < k)%nat -> nth_error onsets i = Some a -> before a p)
    /\ (forall i a, (k <= i)%nat -> nth_error onsets i = Some a -> ~ before a p).
Proof.
  intros H. destruct (bisect_left_spec pos_lt onsets p 0) as (k & E & L & H1 & H2); [|lia|].
  - intros i j a b Hij Ha Hb Hlt. apply pos_lt_iff in Hlt. apply pos_lt_iff. specialize (H i j a b Hij Ha Hb).
    unfold before in *. destruct (Z.lt_trichotomy (fst a) (fst b)) as [G|[G|G]].
    + destruct Hlt as [K|[K1 K2]]; left; lia.
    + destruct Hlt as [K|[K1 K2]]; [left; lia|right]. split; [lia|]. destruct (Qlt_le_dec (snd b) (snd a)) as [Q|Q]; [exfalso; apply H; right; split; [lia|exact Q]|]. lra.
    + exfalso. apply H. left. exact G.
  - exists k. split; [exact E|]. split; [lia|]. split.
    + intros i a Hi Ha. apply pos_lt_iff. apply (H1 i); [lia|exact Ha].
    + intros i a Hi Ha. apply pos_lt_false. exact (H2 i a Hi Ha).
Qed.
