From Coq Require Import String Ascii.
From Verif Require Import Model_Strings Spec_Music Proof_Base.
From Coq Require Import List.
Import ListNotations.
Ltac Zify.zify_post_hook ::= Z.div_mod_to_equations.
Open Scope Z_scope.

Lemma str_eqb_eq a b : str_eqb a b = true <-> a = b.
Proof.
  revert b; induction a as [|x a IH]; destruct b as [|y b]; simpl; split; intros H;
    try reflexivity; try discriminate.
  - apply andb_true_iff in H as [H1 H2]. apply Ascii.eqb_eq in H1. apply IH in H2. congruence.
  - injection H as -> ->. rewrite Ascii.eqb_refl. apply IH; reflexivity.
Qed.

Lemma str_eqb_refl a : str_eqb a a = true.
Proof. apply str_eqb_eq; reflexivity. Qed.

Lemma str_eqb_neq a b : a <> b -> str_eqb a b = false.
Proof. intros H. destruct (str_eqb a b) eqn:E; [apply str_eqb_eq in E; contradiction|reflexivity]. Qed.

(* --- accidental stripping ------------------------------------------------ *)

Definition flat_stop (r : pystr) : Prop := r = L"b" \/ exists c t, r = c :: t /\ c <> "b"%char.
Definition sharp_stop (r : pystr) : Prop := exists c t, r = c :: t /\ c <> "#"%char.

Lemma strip_flats_repeat f r adj :
  flat_stop r -> strip_flats (repeat "b"%char f ++ r) adj = Ok (adj - Z.of_nat f, r).
Proof.
  intros Hr. revert adj; induction f as [|f IH]; intros adj.
  - simpl. destruct Hr as [->|(c & t & -> & Hc)]; simpl.
    + do 2 f_equal; lia.
    + rewrite (proj2 (Ascii.eqb_neq _ _) Hc). simpl. do 2 f_equal; lia.
  - cbn [repeat app strip_flats]. rewrite Ascii.eqb_refl.
    rewrite str_eqb_neq.
    + simpl. rewrite IH. do 2 f_equal; lia.
    + intros E. apply app_eq_nil in E as [_ E]. subst r.
      destruct Hr as [Hr|(c & t & Hr & _)]; discriminate.
Qed.

Lemma strip_flats_inv s : s <> [] -> exists f r, s = repeat "b"%char f ++ r /\ flat_stop r.
Proof.
  induction s as [|c s IH]; intros H; [congruence|].
  destruct (Ascii.ascii_dec c "b") as [->|Hc].
  - destruct s as [|d s].
    + exists 0%nat, (L"b"). split; [reflexivity|left; reflexivity].
    + destruct IH as (f & r & E & Hr); [discriminate|].
      exists (S f), r. split; [simpl; congruence|exact Hr].
  - exists 0%nat, (c :: s). split; [reflexivity|right; eauto].
Qed.

Lemma strip_sharps_repeat k r adj :
  sharp_stop r -> strip_sharps (repeat "#"%char k ++ r) adj = Ok (adj + Z.of_nat k, r).
Proof.
  intros (c & t & -> & Hc). revert adj; induction k as [|k IH]; intros adj.
  - simpl. rewrite (proj2 (Ascii.eqb_neq _ _) Hc). do 2 f_equal; lia.
  - cbn [repeat app strip_sharps]. rewrite Ascii.eqb_refl, IH. do 2 f_equal; lia.
Qed.

Lemma strip_sharps_all k adj : strip_sharps (repeat "#"%char k) adj = Raise IndexError.
Proof. revert adj; induction k; intros adj; [reflexivity|simpl; apply IHk]. Qed.

Lemma strip_sharps_inv s :
  (exists k, s = repeat "#"%char k) \/
  (exists k r, s = repeat "#"%char k ++ r /\ sharp_stop r).
Proof.
  induction s as [|c s IH]; [left; exists 0%nat; reflexivity|].
  destruct (Ascii.ascii_dec c "#") as [->|Hc].
  - destruct IH as [[k ->]|(k & r & -> & Hr)].
    + left; exists (S k); reflexivity.
    + right; exists (S k), r; split; [reflexivity|exact Hr].
  - right; exists 0%nat, (c :: s); split; [reflexivity|]. exists c, s; auto.
Qed.

(* Complete description of the front version. *)
Definition front_split (s : pystr) (flats sharps : nat) (r : pystr) : Prop :=
  s = repeat "b"%char flats ++ repeat "#"%char sharps ++ r
  /\ sharp_stop r
  /\ (sharps = 0%nat -> flat_stop r).

Lemma front_adjust_ok s f k r :
  front_split s f k r ->
  get_accidental_adjustment s true = Ok (Z.of_nat k - Z.of_nat f, r).
Proof.
  intros (-> & Hs & Hf). unfold get_accidental_adjustment.
  rewrite strip_flats_repeat.
  - cbn [bind]. rewrite strip_sharps_repeat by exact Hs. do 2 f_equal; lia.
  - destruct k as [|k]; [apply Hf; reflexivity|].
    right. exists "#"%char, (repeat "#"%char k ++ r). split; [reflexivity|discriminate].
Qed.

Lemma front_adjust_inv s a r :
  get_accidental_adjustment s true = Ok (a, r) ->
  exists f k, front_split s f k r /\ a = Z.of_nat k - Z.of_nat f.
Proof.
  intros H. destruct s as [|c s]; [discriminate|].
  destruct (strip_flats_inv (c :: s)) as (f & r1 & E & Hr1); [discriminate|].
  unfold get_accidental_adjustment in H. rewrite E, strip_flats_repeat in H by exact Hr1.
  cbn [bind] in H.
  destruct (strip_sharps_inv r1) as [[k ->]|(k & r2 & -> & Hr2)].
  - rewrite strip_sharps_all in H; discriminate.
  - rewrite strip_sharps_repeat in H by exact Hr2. injection H as <- <-.
    exists f, k. split; [|lia]. split; [exact E|split; [exact Hr2|]].
    intros ->. exact Hr1.
Qed.

Lemma front_adjust_error s e :
  get_accidental_adjustment s true = Raise e ->
  e = IndexError /\ exists f k, s = repeat "b"%char f ++ repeat "#"%char k /\ (f = 0%nat \/ k <> 0%nat).
Proof.
  intros H. destruct s as [|c s].
  - simpl in H. injection H as <-. split; [reflexivity|]. exists 0%nat, 0%nat; auto.
  - destruct (strip_flats_inv (c :: s)) as (f & r1 & E & Hr1); [discriminate|].
    unfold get_accidental_adjustment in H. rewrite E, strip_flats_repeat in H by exact Hr1.
    cbn [bind] in H.
    destruct (strip_sharps_inv r1) as [[k ->]|(k & r2 & -> & Hr2)].
    + rewrite strip_sharps_all in H. injection H as <-. split; [reflexivity|].
      exists f, k. split; [exact E|]. right. intros ->.
      destruct Hr1 as [Hr1|(c' & t & Hr1 & _)]; discriminate.
    + rewrite strip_sharps_repeat in H by exact Hr2. discriminate.
Qed.

Lemma back_adjust_rev s :
  get_accidental_adjustment s false =
  match get_accidental_adjustment (rev s) true with
  | Ok (a, r) => Ok (a, rev r)
  | Raise e => Raise e
  end.
Proof.
  unfold get_accidental_adjustment.
  destruct (strip_flats (rev s) 0) as [[a s1]|e]; simpl; [|reflexivity].
  destruct (strip_sharps s1 a) as [[a2 s2]|e]; reflexivity.
Qed.

Lemma rev_repeat {A} (x : A) n : rev (repeat x n) = repeat x n.
Proof.
  induction n; simpl; [reflexivity|]. rewrite IHn. 
  clear. induction n; simpl; [reflexivity|congruence].
Qed.

(* --- pitches from strings ------------------------------------------------ *)

Lemma letter_not_sharp c v : letter_fifths c = Some v -> c <> "#"%char.
Proof. intros H ->. discriminate H. Qed.

Lemma letter_cases c v : letter_fifths c = Some v ->
  In (c, v) [("F",-1);("f",-1);("C",0);("c",0);("G",1);("g",1);("D",2);("d",2);
             ("A",3);("a",3);("E",4);("e",4);("B",5);("b",5)]%char.
Proof.
  destruct c as [b0 b1 b2 b3 b4 b5 b6 b7].
  destruct b0, b1, b2, b3, b4, b5, b6, b7; simpl; intros H; try discriminate H;
    injection H as <-; repeat (try (left; reflexivity); right).
Qed.

Lemma stp_lookup_tpc c v :
  letter_fifths c = Some v -> dict_get (STRING_TO_PITCH TPC) [c] = Ok (15 + v).
Proof.
  intros H; apply letter_cases in H; simpl In in H.
  repeat (destruct H as [H|H]; [injection H as <- <-; reflexivity|]); contradiction.
Qed.

Lemma stp_lookup_midi c v :
  letter_fifths c = Some v -> dict_get (STRING_TO_PITCH MIDI) [c] = Ok ((7 * v) mod 12).
Proof.
  intros H; apply letter_cases in H; simpl In in H.
  repeat (destruct H as [H|H]; [injection H as <- <-; reflexivity|]); contradiction.
Qed.

Lemma stp_lookup_inv pt s v :
  dict_get (STRING_TO_PITCH pt) s = Ok v -> exists c w, s = [c] /\ letter_fifths c = Some w.
Proof.
  unfold dict_get. intros H.
  assert (exists c, In c (["A";"B";"C";"D";"E";"F";"G";"a";"b";"c";"d";"e";"f";"g"]%char) /\ s = [c]).
  { destruct pt; unfold STRING_TO_PITCH in H; cbn [str_lookup] in H;
    repeat match type of H with
    | context [str_eqb s (L ?x)] =>
        destruct (str_eqb s (L x)) eqn:E;
        [apply str_eqb_eq in E; subst s; eexists; split; [|reflexivity]; simpl; tauto|]; clear E
    end; discriminate. }
  destruct H0 as (c & Hc & ->). simpl in Hc.
  exists c. repeat (destruct Hc as [<-|Hc]; [eexists; split; reflexivity|]). contradiction.
Qed.

Lemma split_on_nosep sep s : ~ In sep s -> split_on sep s = [s].
Proof.
  induction s as [|c s IH]; simpl; intros H; [reflexivity|].
  destruct (Ascii.eqb c sep) eqn:E.
  - apply Ascii.eqb_eq in E; subst; tauto.
  - rewrite IH by tauto. reflexivity.
Qed.

Lemma spelling_back c v sharps flats :
  letter_fifths c = Some v ->
  get_accidental_adjustment (spelling c sharps flats) false
  = Ok (Z.of_nat sharps - Z.of_nat flats, [c]).
Proof.
  intros Hc. rewrite back_adjust_rev.
  rewrite (front_adjust_ok _ flats sharps [c]); [reflexivity|].
  split; [|split].
  - unfold spelling. cbn [rev]. rewrite rev_app_distr, !rev_repeat, <- app_assoc. reflexivity.
  - exists c, []; split; [reflexivity|eapply letter_not_sharp; eauto].
  - intros ->. destruct (Ascii.ascii_dec c "b") as [->|Hb]; [left; reflexivity|].
    right; exists c, []; auto.
Qed.

Theorem tpc_spelling c v sharps flats :
  letter_fifths c = Some v ->
  get_pitch_from_string (spelling c sharps flats) TPC =
  let p := 15 + v + 7 * (Z.of_nat sharps - Z.of_nat flats) in
  if (0 <=? p) && (p <? 35) then Ok p else Raise ValueError.
Proof.
  intros Hc. unfold get_pitch_from_string. rewrite (spelling_back c v) by exact Hc. cbn [bind].
  rewrite (stp_lookup_tpc c v Hc). cbn [bind]. cbn zeta.
  change (ACCIDENTAL_ADJUSTMENT TPC) with 7. change (NUM_PITCHES TPC) with 35.
  destruct ((_ <? 0) || _) eqn:E; destruct ((0 <=? _) && _) eqn:E2; try lia.
  - reflexivity.
  - f_equal; lia.
Qed.

Lemma spelling_no_slash c v sharps flats :
  letter_fifths c = Some v -> ~ In "/"%char (spelling c sharps flats).
Proof.
  intros Hc H. unfold spelling in H. destruct H as [H|H].
  - subst. discriminate.
  - apply in_app_iff in H as [H|H]; apply repeat_spec in H; discriminate.
Qed.

Theorem midi_spelling c v sharps flats :
  letter_fifths c = Some v ->
  get_pitch_from_string (spelling c sharps flats) MIDI =
  Ok ((7 * v + Z.of_nat sharps - Z.of_nat flats) mod 12).
Proof.
  intros Hc. unfold get_pitch_from_string, midi_first_spelling.
  rewrite split_on_nosep by (eapply spelling_no_slash; eauto). cbn [hd].
  rewrite (spelling_back c v) by exact Hc. cbn [bind].
  rewrite (stp_lookup_midi c v Hc). cbn [bind].
  change (ACCIDENTAL_ADJUSTMENT MIDI) with 1. change (NUM_PITCHES MIDI) with 12.
  f_equal. lia.
Qed.

(* every accepted TPC string is such a spelling *)
Theorem tpc_accepted_is_spelling s p :
  get_pitch_from_string s TPC = Ok p ->
  exists c v sharps flats, letter_fifths c = Some v /\ s = spelling c sharps flats
    /\ p = 15 + v + 7 * (Z.of_nat sharps - Z.of_nat flats) /\ 0 <= p < 35.
Proof.
  intros H. unfold get_pitch_from_string in H.
  apply bind_ok in H as ([a r] & Ea & H).
  apply bind_ok in H as (v & Ev & H).
  destruct (stp_lookup_inv _ _ _ Ev) as (c & w & -> & Hc).
  rewrite (stp_lookup_tpc c w Hc) in Ev. apply Ok_inj in Ev. subst v.
  rewrite back_adjust_rev in Ea.
  destruct (get_accidental_adjustment (rev s) true) as [[a' r']|] eqn:E; [|discriminate].
  injection Ea as -> Er.
  apply front_adjust_inv in E as (f & k & (Es & _ & _) & ->).
  assert (r' = [c]) as -> by (rewrite <- (rev_involutive r'), Er; reflexivity).
  exists c, w, k, f. split; [exact Hc|].
  change (ACCIDENTAL_ADJUSTMENT TPC) with 7 in H. change (NUM_PITCHES TPC) with 35 in H.
  destruct ((_ <? 0) || _) eqn:E; [discriminate|]. apply Ok_inj in H. subst p.
  split; [|lia].
  rewrite <- (rev_involutive s), Es, !rev_app_distr, !rev_repeat. simpl.
  unfold spelling. reflexivity.
Qed.

(* --- pitch strings -------------------------------------------------------- *)

Lemma raise_pitch_spec fuel p acc :
  Z.max 0 (14 - p) <= Z.of_nat fuel * 7 ->
  exists k, 0 <= k /\ raise_pitch fuel p acc = Ok (p + 7 * k, acc - k)
    /\ (p < 14 -> 14 <= p + 7 * k <= 20) /\ (14 <= p -> k = 0).
Proof.
  revert p acc; induction fuel as [|fuel IH]; intros p acc Hf; cbn [raise_pitch].
  - destruct (p <? 14) eqn:E; [lia|]. exists 0.
    split; [lia|]. split; [apply Ok_pair; lia|lia].
  - destruct (p <? 14) eqn:E.
    + destruct (IH (p + 7) (acc - 1)) as (k & Hk & Ek & H1 & H2); [lia|].
      exists (k + 1). split; [lia|]. split.
      * rewrite Ek. apply Ok_pair; lia.
      * split; [|lia]. intros _. destruct (Z_lt_le_dec (p + 7) 14); [specialize (H1 l); lia|specialize (H2 l); lia].
    + exists 0. split; [lia|]. split; [apply Ok_pair; lia|lia].
Qed.

Lemma lower_pitch_spec fuel p acc :
  Z.max 0 (p - 20) <= Z.of_nat fuel * 7 ->
  exists k, 0 <= k /\ lower_pitch fuel p acc = Ok (p - 7 * k, acc + k)
    /\ (20 < p -> 14 <= p - 7 * k <= 20) /\ (p <= 20 -> k = 0).
Proof.
  revert p acc; induction fuel as [|fuel IH]; intros p acc Hf; cbn [lower_pitch].
  - destruct (20 <? p) eqn:E; [lia|]. exists 0.
    split; [lia|]. split; [apply Ok_pair; lia|lia].
  - destruct (20 <? p) eqn:E.
    + destruct (IH (p - 7) (acc + 1)) as (k & Hk & Ek & H1 & H2); [lia|].
      exists (k + 1). split; [lia|]. split.
      * rewrite Ek. apply Ok_pair; lia.
      * split; [|lia]. intros _. destruct (Z_lt_le_dec 20 (p - 7)); [specialize (H1 l); lia|specialize (H2 l); lia].
    + exists 0. split; [lia|]. split; [apply Ok_pair; lia|lia].
Qed.

Lemma natural_letter q : 14 <= q <= 20 ->
  exists c, PITCH_TO_STRING_TPC q = Ok [c] /\ letter_fifths c = Some (q - 15).
Proof.
  intros H.
  assert (q = 14 \/ q = 15 \/ q = 16 \/ q = 17 \/ q = 18 \/ q = 19 \/ q = 20) as Hq by lia.
  repeat (destruct Hq as [Hq|Hq]; [subst q; eexists; split; reflexivity|]).
  subst q; eexists; split; reflexivity.
Qed.

(* get_pitch_string is total on the integers and spells the pitch *)
Theorem tpc_string_spells p :
  exists c v sharps flats,
    get_pitch_string p TPC = Ok (spelling c sharps flats)
    /\ letter_fifths c = Some v
    /\ p = 15 + v + 7 * (Z.of_nat sharps - Z.of_nat flats)
    /\ (sharps = 0%nat \/ flats = 0%nat).
Proof.
  unfold get_pitch_string. set (fuel := Z.to_nat (Z.abs p + 14)).
  destruct (raise_pitch_spec fuel p 0) as (k1 & Hk1 & E1 & A1 & B1); [unfold fuel; lia|].
  rewrite E1. cbn [bind].
  destruct (lower_pitch_spec fuel (p + 7 * k1) (0 - k1)) as (k2 & Hk2 & E2 & A2 & B2);
    [unfold fuel; lia|].
  rewrite E2. cbn [bind].
  assert (Hq : 14 <= p + 7 * k1 - 7 * k2 <= 20) by lia.
  destruct (natural_letter _ Hq) as (c & Ec & Hc). rewrite Ec. cbn [bind].
  exists c, (p + 7 * k1 - 7 * k2 - 15), (Z.to_nat k2), (Z.to_nat k1).
  split; [|split; [exact Hc|split; [lia|lia]]].
  f_equal. unfold spelling.
  destruct (0 - k1 + k2 <? 0) eqn:E.
  - assert (k2 = 0) by lia. subst k2. cbn [app]. f_equal. simpl.
    unfold str_times. f_equal. lia.
  - assert (k1 = 0) by lia. subst k1. cbn [app]. f_equal. simpl. rewrite app_nil_r.
    unfold str_times. reflexivity.
Qed.

Theorem tpc_roundtrip p :
  exists s, get_pitch_string p TPC = Ok s /\
    get_pitch_from_string s TPC = if (0 <=? p) && (p <? 35) then Ok p else Raise ValueError.
Proof.
  destruct (tpc_string_spells p) as (c & v & sh & fl & E & Hc & Ep & _).
  exists (spelling c sh fl). split; [exact E|]. rewrite (tpc_spelling c v) by exact Hc.
  cbn zeta. rewrite <- Ep. reflexivity.
Qed.

Theorem tpc_to_midi p :
  convert_pitch p TPC MIDI = Ok ((7 * (p - 15)) mod 12).
Proof.
  unfold convert_pitch; cbn [pt_eqb].
  destruct (tpc_string_spells p) as (c & v & sh & fl & E & Hc & Ep & _).
  rewrite E. cbn [bind]. rewrite (midi_spelling c v) by exact Hc. f_equal. lia.
Qed.

Lemma twelve p : 0 <= p < 12 ->
  p = 0 \/ p = 1 \/ p = 2 \/ p = 3 \/ p = 4 \/ p = 5 \/ p = 6 \/ p = 7 \/ p = 8 \/ p = 9 \/ p = 10 \/ p = 11.
Proof. lia. Qed.

Theorem midi_roundtrip p :
  exists s, get_pitch_string p MIDI = Ok s /\ get_pitch_from_string s MIDI = Ok (p mod 12).
Proof.
  unfold get_pitch_string. change (NUM_PITCHES MIDI) with 12.
  assert (H : 0 <= p mod 12 < 12) by lia. generalize dependent (p mod 12). intros q Hq.
  apply twelve in Hq.
  repeat (destruct Hq as [->|Hq]; [eexists; split; reflexivity|]). subst; eexists; split; reflexivity.
Qed.

(* --- scale degrees -------------------------------------------------------- *)

Lemma flats_loop_spec fuel lo i n :
  Z.max 0 (lo - i) <= Z.of_nat fuel * 7 ->
  exists k, 0 <= k /\ flats_loop fuel lo i n = Ok (i + 7 * k, n + k)
    /\ (i < lo -> lo <= i + 7 * k < lo + 7) /\ (lo <= i -> k = 0).
Proof.
  revert i n; induction fuel as [|fuel IH]; intros i n Hf; cbn [flats_loop].
  - destruct (i <? lo) eqn:E; [lia|]. exists 0.
    split; [lia|]. split; [apply Ok_pair; lia|lia].
  - destruct (i <? lo) eqn:E.
    + destruct (IH (i + 7) (n + 1)) as (k & Hk & Ek & H1 & H2); [lia|].
      exists (k + 1). split; [lia|]. split.
      * rewrite Ek. apply Ok_pair; lia.
      * split; [|lia]. intros _. destruct (Z_lt_le_dec (i + 7) lo); [specialize (H1 l); lia|specialize (H2 l); lia].
    + exists 0. split; [lia|]. split; [apply Ok_pair; lia|lia].
Qed.

Lemma sharps_loop_spec fuel hi i n :
  Z.max 0 (i - hi) <= Z.of_nat fuel * 7 ->
  exists k, 0 <= k /\ sharps_loop fuel hi i n = Ok (i - 7 * k, n + k)
    /\ (hi < i -> hi - 7 < i - 7 * k <= hi) /\ (i <= hi -> k = 0).
Proof.
  revert i n; induction fuel as [|fuel IH]; intros i n Hf; cbn [sharps_loop].
  - destruct (hi <? i) eqn:E; [lia|]. exists 0.
    split; [lia|]. split; [apply Ok_pair; lia|lia].
  - destruct (hi <? i) eqn:E.
    + destruct (IH (i - 7) (n + 1)) as (k & Hk & Ek & H1 & H2); [lia|].
      exists (k + 1). split; [lia|]. split.
      * rewrite Ek. apply Ok_pair; lia.
      * split; [|lia]. intros _. destruct (Z_lt_le_dec hi (i - 7)); [specialize (H1 l); lia|specialize (H2 l); lia].
    + exists 0. split; [lia|]. split; [apply Ok_pair; lia|lia].
Qed.

(* the roman numeral strings are not accidentals *)
Lemma roman_head d lower : 1 <= d <= 7 ->
  exists c t, list_ascii_of_string (roman d lower) = c :: t /\ c <> "b"%char /\ c <> "#"%char
   /\ c <> "/"%char /\ ~ In "/"%char t.
Proof.
  intros H.
  assert (d = 1 \/ d = 2 \/ d = 3 \/ d = 4 \/ d = 5 \/ d = 6 \/ d = 7) as Hd by lia.
  destruct lower; repeat (destruct Hd as [->|Hd]; [do 2 eexists; split; [reflexivity|]; repeat split; try discriminate; simpl; intuition discriminate|]);
  subst d; do 2 eexists; split; try reflexivity; repeat split; try discriminate; simpl; intuition discriminate.
Qed.

Lemma numeral_front n :
  numeral_ok n = true ->
  get_accidental_adjustment (numeral_text n) true
  = Ok (n_acc n, list_ascii_of_string (roman (n_degree n) (n_minor n))).
Proof.
  intros H. unfold numeral_ok in H.
  destruct (roman_head (n_degree n) (n_minor n)) as (c & t & E & Hb & Hs & _); [lia|].
  unfold numeral_text. rewrite E.
  destruct (n_acc n <? 0) eqn:En.
  - rewrite (front_adjust_ok _ (Z.to_nat (- n_acc n)) 0 (c :: t)).
    + do 2 f_equal. lia.
    + split; [reflexivity|]. split; [exists c, t; auto|]. intros _. right; exists c, t; auto.
  - rewrite (front_adjust_ok _ 0 (Z.to_nat (n_acc n)) (c :: t)).
    + do 2 f_equal. lia.
    + split; [reflexivity|]. split; [exists c, t; auto|]. intros _. right; exists c, t; auto.
Qed.

Lemma degree_lookup d lower : 1 <= d <= 7 ->
  dict_get SCALE_DEGREE_TO_NUMBER (list_ascii_of_string (roman d lower)) = Ok d.
Proof.
  intros H.
  assert (d = 1 \/ d = 2 \/ d = 3 \/ d = 4 \/ d = 5 \/ d = 6 \/ d = 7) as Hd by lia.
  destruct lower; repeat (destruct Hd as [->|Hd]; [reflexivity|]); subst d; reflexivity.
Qed.

Lemma scale_nth m pt d : 1 <= d <= 7 ->
  py_nth (SCALE_INTERVALS m pt) d =
  Ok (match pt with TPC => degree_fifths m d | MIDI => (7 * degree_fifths m d) mod 12 end).
Proof.
  intros H.
  assert (d = 1 \/ d = 2 \/ d = 3 \/ d = 4 \/ d = 5 \/ d = 6 \/ d = 7) as Hd by lia.
  destruct m, pt; repeat (destruct Hd as [->|Hd]; [reflexivity|]); subst d; reflexivity.
Qed.

Theorem numeral_interval n m pt :
  numeral_ok n = true ->
  get_interval_from_numeral (numeral_text n) m pt =
  Ok (match pt with TPC => numeral_fifths m n | MIDI => numeral_semitones m n end).
Proof.
  intros H. unfold get_interval_from_numeral, get_interval_from_scale_degree.
  rewrite numeral_front by exact H. cbn [bind].
  unfold numeral_ok in H. rewrite degree_lookup by lia. cbn [bind].
  rewrite scale_nth by lia. cbn [bind]. f_equal.
  destruct pt; unfold numeral_fifths, numeral_semitones.
  - change (ACCIDENTAL_ADJUSTMENT TPC) with 7. lia.
  - change (ACCIDENTAL_ADJUSTMENT MIDI) with 1. lia.
Qed.

Lemma tpc_degree_found m i :
  (match m with MAJOR => -1 <= i <= 5 | MINOR => -4 <= i <= 2 end) ->
  exists k d, z_index i (SCALE_INTERVALS m TPC) = Ok k
    /\ NUMBER_TO_SCALE_DEGREE k = Ok (list_ascii_of_string (roman d false))
    /\ 1 <= d <= 7 /\ degree_fifths m d = i.
Proof.
  intros H. destruct m.
  - assert (Hi : i = -1 \/ i = 0 \/ i = 1 \/ i = 2 \/ i = 3 \/ i = 4 \/ i = 5) by lia.
    repeat (destruct Hi as [->|Hi]); try subst i; eexists;
    [exists 4|exists 1|exists 5|exists 2|exists 6|exists 3|exists 7]; repeat split; reflexivity || lia.
  - assert (Hi : i = -4 \/ i = -3 \/ i = -2 \/ i = -1 \/ i = 0 \/ i = 1 \/ i = 2) by lia.
    repeat (destruct Hi as [->|Hi]); try subst i; eexists;
    [exists 6|exists 3|exists 7|exists 4|exists 1|exists 5|exists 2]; repeat split; reflexivity || lia.
Qed.

Theorem scale_degree_tpc i m :
  exists n, get_scale_degree_from_interval i m TPC = Ok (numeral_text n)
    /\ numeral_ok n = true /\ n_minor n = false /\ numeral_fifths m n = i.
Proof.
  unfold get_scale_degree_from_interval. set (fuel := Z.to_nat (Z.abs i + 14)).
  set (lo := zmin_list (SCALE_INTERVALS m TPC)). set (hi := zmax_list (SCALE_INTERVALS m TPC)).
  assert (Hlo : lo = match m with MAJOR => -1 | MINOR => -4 end) by (destruct m; reflexivity).
  assert (Hhi : hi = match m with MAJOR => 5 | MINOR => 2 end) by (destruct m; reflexivity).
  assert (Hw : hi = lo + 6) by (destruct m; lia).
  assert (Hb : -4 <= lo <= -1) by (destruct m; lia).
  destruct (flats_loop_spec fuel lo i 0) as (k1 & Hk1 & E1 & A1 & B1); [unfold fuel; lia|].
  rewrite E1. cbn [bind].
  destruct (sharps_loop_spec fuel hi (i + 7 * k1) 0) as (k2 & Hk2 & E2 & A2 & B2);
    [unfold fuel; lia|].
  rewrite E2. cbn [bind].
  assert (Hq : lo <= i + 7 * k1 - 7 * k2 <= hi) by lia.
  destruct (tpc_degree_found m (i + 7 * k1 - 7 * k2)) as (k & d & Ek & Ed & Hd & Ef);
    [destruct m; lia|].
  rewrite Ek. cbn [bind]. rewrite Ed. cbn [bind].
  exists {| n_acc := k2 - k1; n_degree := d; n_minor := false |}.
  split; [|split; [unfold numeral_ok; cbn [n_degree]; lia|split; [reflexivity|]]].
  - f_equal. unfold numeral_text. cbn [n_acc n_degree n_minor].
    destruct (k2 - k1 <? 0) eqn:E.
    + assert (k2 = 0) by lia. subst. unfold str_times. simpl Z.to_nat. cbn [repeat app].
      f_equal. f_equal. lia.
    + assert (k1 = 0) by lia. subst. unfold str_times.
      replace (Z.to_nat (0 + 0)) with 0%nat by lia. cbn [repeat app]. f_equal. f_equal. lia.
  - unfold numeral_fifths. cbn [n_acc n_degree]. lia.
Qed.

Theorem degree_roundtrip_tpc i m :
  exists s, get_scale_degree_from_interval i m TPC = Ok s
    /\ get_interval_from_scale_degree s true m TPC = Ok i.
Proof.
  destruct (scale_degree_tpc i m) as (n & E & Hok & _ & Hi).
  exists (numeral_text n). split; [exact E|].
  change (get_interval_from_numeral (numeral_text n) m TPC = Ok i).
  rewrite numeral_interval by exact Hok. congruence.
Qed.

Theorem degree_roundtrip_midi i m :
  exists s, get_scale_degree_from_interval i m MIDI = Ok s
    /\ get_interval_from_scale_degree s true m MIDI = Ok (i mod 12).
Proof.
  unfold get_scale_degree_from_interval. change (NUM_PITCHES MIDI) with 12.
  assert (H : 0 <= i mod 12 < 12) by lia. generalize dependent (i mod 12). intros q Hq.
  apply twelve in Hq. destruct m;
  repeat (destruct Hq as [->|Hq]; [eexists; split; reflexivity|]); subst; eexists; split; reflexivity.
Qed.

(* --- applied keys ---------------------------------------------------------- *)

Lemma numeral_no_slash n : numeral_ok n = true -> ~ In "/"%char (numeral_text n).
Proof.
  intros H. unfold numeral_ok in H.
  destruct (roman_head (n_degree n) (n_minor n)) as (c & t & E & Hb & Hs & Hc & Ht); [lia|].
  unfold numeral_text. rewrite E. intros Hin. apply in_app_iff in Hin as [Hin|Hin].
  - destruct (n_acc n <? 0); apply repeat_spec in Hin; discriminate.
  - destruct Hin as [Hin|Hin]; [congruence|contradiction].
Qed.

Lemma split_on_app sep a b : ~ In sep a -> split_on sep (a ++ sep :: b) = a :: split_on sep b.
Proof.
  induction a as [|c a IH]; intros H.
  - simpl. rewrite Ascii.eqb_refl. reflexivity.
  - cbn [app split_on]. destruct (Ascii.eqb c sep) eqn:E.
    + apply Ascii.eqb_eq in E. subst. simpl in H. tauto.
    + rewrite IH by (simpl in H; tauto). reflexivity.
Qed.

Lemma split_path path : path <> [] -> forallb numeral_ok path = true ->
  split_on "/" (path_text path) = map numeral_text path.
Proof.
  induction path as [|n path IH]; intros Hne Hok; [congruence|].
  cbn [forallb] in Hok. apply andb_true_iff in Hok as [Hn Hok].
  destruct path as [|n2 path].
  - simpl. apply split_on_nosep, numeral_no_slash, Hn.
  - change (path_text (n :: n2 :: path)) with (numeral_text n ++ "/"%char :: path_text (n2 :: path)).
    rewrite split_on_app by (apply numeral_no_slash, Hn).
    rewrite IH by (auto; discriminate). reflexivity.
Qed.

Lemma numeral_last n : numeral_ok n = true ->
  exists c, py_nth (numeral_text n) (-1) = Ok c /\ char_is_lower c = n_minor n.
Proof.
  intros H. unfold numeral_ok in H.
  assert (K : forall pre post c, post <> [] -> last post "x"%char = c ->
     py_nth (pre ++ post) (-1) = Ok c).
  { intros pre post c Hne El. unfold py_nth. cbn [Z.ltb Z.compare].
    rewrite zlen_app. assert (1 <= zlen post) by (destruct post; [congruence|rewrite zlen_cons; pose proof (zlen_nonneg post); lia]).
    pose proof (zlen_nonneg pre).
    destruct ((-1 + (zlen pre + zlen post) <? 0) || _) eqn:E; [lia|].
    rewrite nth_error_app2 by (unfold zlen in *; lia).
    destruct (exists_last Hne) as (l & x & ->). rewrite last_last in El. subst x.
    rewrite nth_error_app2; unfold zlen in *; rewrite app_length in *; simpl length in *; [|lia].
    replace (_ - length l)%nat with 0%nat by lia. reflexivity. }
  unfold numeral_text.
  assert (n_degree n = 1 \/ n_degree n = 2 \/ n_degree n = 3 \/ n_degree n = 4 \/ n_degree n = 5
    \/ n_degree n = 6 \/ n_degree n = 7) as Hd by lia.
  eexists; split; [apply K; [|reflexivity]|].
  - intros E. destruct (roman_head (n_degree n) (n_minor n)) as (c & t & E' & _); [lia|].
    rewrite E' in E. discriminate.
  - repeat (destruct Hd as [Hd|Hd]; [rewrite Hd; destruct (n_minor n); reflexivity|]).
    rewrite Hd; destruct (n_minor n); reflexivity.
Qed.

Lemma relative_key_step_spec pt n k :
  numeral_ok n = true ->
  relative_key_step pt k (numeral_text n) =
  match apply_numeral pt n k with Some k' => Ok k' | None => Raise ValueError end.
Proof.
  intros H. destruct k as [tonic mode]. unfold relative_key_step.
  rewrite numeral_interval by exact H. cbn [bind].
  destruct (numeral_last n H) as (c & E & El). rewrite E. cbn [bind]. rewrite El.
  unfold apply_numeral, transpose_pitch. destruct pt.
  - change (NUM_PITCHES TPC) with 35.
    destruct ((_ <? 0) || _) eqn:E1; destruct ((0 <=? _) && _) eqn:E2; try lia; reflexivity.
  - reflexivity.
Qed.

Lemma foldM_app {A B} (f : A -> B -> res A) l r a :
  foldM f (l ++ r) a = let! a' := foldM f l a in foldM f r a'.
Proof. revert a; induction l; intros a0; simpl; [reflexivity|]. destruct (f a0 a); simpl; auto. Qed.

Theorem decode_relative_keys_spec pt path tonic mode :
  path <> [] -> forallb numeral_ok path = true ->
  decode_relative_keys (path_text path) tonic mode pt =
  match resolve_path pt path (tonic, mode) with Some k => Ok k | None => Raise ValueError end.
Proof.
  intros Hne Hok. unfold decode_relative_keys. rewrite split_path by assumption.
  clear Hne. induction path as [|n path IH]; [reflexivity|].
  cbn [forallb] in Hok. apply andb_true_iff in Hok as [Hn Hok].
  cbn [map rev]. rewrite foldM_app, IH by exact Hok.
  cbn [resolve_path]. destruct (resolve_path pt path (tonic, mode)) as [k|]; [|reflexivity].
  cbn [bind foldM]. rewrite relative_key_step_spec by exact Hn.
  destruct (apply_numeral pt n k); reflexivity.
Qed.

Lemma decode_relative_keys_empty tonic mode pt :
  decode_relative_keys [] tonic mode pt = Raise IndexError.
Proof. reflexivity. Qed.
