From Coq Require Import String Ascii.
From Verif Require Import Model_Strings Spec_Music Spec_Text Proof_Base Proof_Codec Proof_Strings.
From Coq Require Import List.
Import ListNotations.
Ltac Zify.zify_post_hook ::= Z.div_mod_to_equations.
Open Scope Z_scope.

Definition in_pitch_range (pt : pitch_type) (p : Z) : Prop := 0 <= p < pitch_count pt.

Lemma transpose_pitch_eq pt p i :
  transpose_pitch p i pt =
  match pt with
  | MIDI => Ok ((p + i) mod 12)
  | TPC => if (0 <=? p + i) && (p + i <? 35) then Ok (p + i) else Raise ValueError
  end.
Proof.
  destruct pt; [|reflexivity]. unfold transpose_pitch. change (NUM_PITCHES TPC) with 35.
  destruct (_ || _) eqn:E; destruct (_ && _) eqn:E2; try lia; reflexivity.
Qed.

Theorem transpose_compose pt p a b q :
  transpose_pitch p a pt = Ok q ->
  transpose_pitch q b pt = transpose_pitch p (a + b) pt.
Proof.
  rewrite !transpose_pitch_eq. destruct pt.
  - destruct (_ && _) eqn:E; [|discriminate]. intros H; apply Ok_inj in H; subst q.
    rewrite Z.add_assoc. reflexivity.
  - intros H; apply Ok_inj in H; subst q. f_equal. lia.
Qed.

Theorem transpose_zero pt p : in_pitch_range pt p -> transpose_pitch p 0 pt = Ok p.
Proof.
  unfold in_pitch_range; rewrite transpose_pitch_eq; destruct pt; cbn [pitch_count]; intros H.
  - destruct (_ && _) eqn:E; [f_equal; lia|lia].
  - f_equal; lia.
Qed.

Theorem transpose_undo pt p a q :
  in_pitch_range pt p -> transpose_pitch p a pt = Ok q -> transpose_pitch q (- a) pt = Ok p.
Proof.
  intros Hp H. rewrite (transpose_compose pt p a (- a) q H).
  replace (a + - a) with 0 by lia. apply transpose_zero, Hp.
Qed.

Theorem transpose_midi_octave p a k l :
  transpose_pitch (p + 12 * k) (a + 12 * l) MIDI = transpose_pitch p a MIDI.
Proof. rewrite !transpose_pitch_eq. f_equal. lia. Qed.

Theorem transpose_in_range pt p a q : transpose_pitch p a pt = Ok q -> in_pitch_range pt q.
Proof.
  unfold in_pitch_range; rewrite transpose_pitch_eq; destruct pt; cbn [pitch_count].
  - destruct (_ && _) eqn:E; [|discriminate]. intros H; apply Ok_inj in H. lia.
  - intros H; apply Ok_inj in H. lia.
Qed.

(* --- vectors -------------------------------------------------------------- *)
Lemma nth_skipn {A} (l : list A) k n d : nth n (skipn k l) d = nth (k + n) l d.
Proof. revert l; induction k; intros l; [reflexivity|]. destruct l; [destruct n; reflexivity|apply IHk]. Qed.

Lemma nth_firstn {A} (l : list A) k n d : (n < k)%nat -> nth n (firstn k l) d = nth n l d.
Proof.
  revert l n; induction k; intros l n H; [lia|].
  destruct l; [reflexivity|]. destruct n; [reflexivity|]. simpl. apply IHk. lia.
Qed.

Lemma nth_repeat_z n k (d : Z) : nth k (repeat d n) d = d.
Proof. revert k; induction n; destruct k; simpl; auto. Qed.

Theorem transpose_vector_spec pt v interval :
  exists w, transpose_chord_vector v interval pt = Ok w
    /\ length w = length v
    /\ forall p, 0 <= p < zlen v -> nth (Z.to_nat p) w 0 = moved pt v interval p.
Proof.
  destruct pt.
  - unfold transpose_chord_vector, moved. fold (zlen v).
    pose proof (zlen_nonneg v) as Hn.
    destruct (0 <? interval) eqn:E1; [|destruct (interval <? 0) eqn:E2].
    + assert (Ek : py_bound (zlen v) interval = Z.min (zlen v) interval).
      { unfold py_bound. destruct (interval <? 0) eqn:?; lia. }
      assert (Es : py_slice v 0 (- interval) = firstn (Z.to_nat (zlen v - interval)) v).
      { unfold py_slice, py_bound. change (0 <? 0) with false. cbn iota.
        destruct (- interval <? 0) eqn:?; [|lia].
        replace (Z.to_nat (Z.max 0 (Z.min (zlen v) 0))) with 0%nat by lia.
        rewrite skipn_O. f_equal. lia. }
      rewrite Ek, Es.
      assert (El : zlen (firstn (Z.to_nat (zlen v - interval)) v) = Z.max 0 (zlen v - interval)).
      { unfold zlen in *. rewrite firstn_length. lia. }
      rewrite El.
      destruct (Z.max 0 (zlen v - interval) =? zlen v - Z.min (zlen v) interval) eqn:E3; [|lia].
      eexists. split; [reflexivity|]. split.
      * rewrite app_length, repeat_length. unfold zlen in *. lia.
      * intros p Hp. destruct (0 <=? p - interval) eqn:E4.
        -- rewrite app_nth2 by (rewrite repeat_length; lia). rewrite repeat_length.
           rewrite nth_firstn by lia. destruct (p - interval <? zlen v) eqn:E5; [|lia].
           cbn [andb]. f_equal. lia.
        -- cbn [andb]. rewrite app_nth1 by (rewrite repeat_length; lia). apply nth_repeat_z.
    + assert (Ek : py_bound (zlen v) interval = Z.max 0 (zlen v + interval)).
      { unfold py_bound. rewrite E2. lia. }
      assert (Es : py_slice v (- interval) (zlen v) = skipn (Z.to_nat (- interval)) v).
      { rewrite py_slice_spec by lia. apply firstn_all2. rewrite skipn_length. unfold zlen. lia. }
      rewrite Ek, Es.
      assert (El : zlen (skipn (Z.to_nat (- interval)) v) = Z.max 0 (zlen v + interval)).
      { unfold zlen in *. rewrite skipn_length. lia. }
      rewrite El, Z.eqb_refl.
      eexists. split; [reflexivity|]. split.
      * rewrite app_length, repeat_length. unfold zlen in *. lia.
      * intros p Hp. destruct ((0 <=? p - interval) && (p - interval <? zlen v)) eqn:E4.
        -- rewrite app_nth1 by (unfold zlen in *; lia). rewrite nth_skipn. f_equal. lia.
        -- rewrite app_nth2 by (unfold zlen in *; lia). apply nth_repeat_z.
    + assert (interval = 0) by lia. subst. exists v. split; [reflexivity|]. split; [reflexivity|].
      intros p Hp. destruct ((0 <=? p - 0) && (p - 0 <? zlen v)) eqn:E4; [|lia]. f_equal. lia.
  - unfold transpose_chord_vector, moved, np_roll. fold (zlen v).
    destruct v as [|x v']; [exists []; split; [reflexivity|split; [reflexivity|unfold zlen; simpl; lia]]|].
    set (v := x :: v') in *.
    assert (Hn : 0 < zlen v) by (unfold v; rewrite zlen_cons; pose proof (zlen_nonneg v'); lia).
    eexists. split; [reflexivity|].
    set (s := (- interval) mod zlen v).
    assert (Hs : 0 <= s < zlen v) by (unfold s; apply Z.mod_pos_bound; lia).
    split.
    + rewrite app_length, skipn_length, firstn_length. unfold zlen in *. lia.
    + intros p Hp.
      assert (Em : (p - interval) mod zlen v = (p + s) mod zlen v).
      { unfold s. rewrite Z.add_mod_idemp_r by lia. f_equal; lia. }
      rewrite Em.
      destruct (Z_lt_le_dec (p + s) (zlen v)).
      * rewrite (Z.mod_small (p + s)) by lia.
        rewrite app_nth1 by (rewrite skipn_length; unfold zlen in *; lia).
        rewrite nth_skipn. f_equal. lia.
      * replace ((p + s) mod zlen v) with (p + s - zlen v).
        2: { replace (p + s) with ((p + s - zlen v) + 1 * zlen v) by lia.
             rewrite Z.mod_add by lia. rewrite Z.mod_small by lia. lia. }
        rewrite app_nth2 by (rewrite skipn_length; unfold zlen in *; lia).
        rewrite skipn_length. rewrite nth_firstn by (unfold zlen in *; lia).
        f_equal. unfold zlen in *. lia.
Qed.

(* the presence vector of a chord *)
Definition base_vector (t : chord_type) (pt : pitch_type) : list Z :=
  map (fun p => if existsb (Z.eqb p) (CHORD_PITCHES pt t) then 1 else 0)
      (zrange 0 (NUM_PITCHES pt)).

Lemma base_vector_eq t pt :
  set_ones (repeat 0 (Z.to_nat (NUM_PITCHES pt))) (CHORD_PITCHES pt t) = Ok (base_vector t pt).
Proof. destruct t, pt; vm_compute; reflexivity. Qed.

Lemma base_vector_nth t pt p : 0 <= p < pitch_count pt ->
  nth (Z.to_nat p) (base_vector t pt) 0 = if existsb (Z.eqb p) (CHORD_PITCHES pt t) then 1 else 0.
Proof.
  intros H. unfold base_vector.
  assert (E : nth_error (map (fun p => if existsb (Z.eqb p) (CHORD_PITCHES pt t) then 1 else 0)
      (zrange 0 (NUM_PITCHES pt))) (Z.to_nat p)
      = Some (if existsb (Z.eqb p) (CHORD_PITCHES pt t) then 1 else 0)).
  { rewrite nth_error_map, nth_error_zrange by (destruct pt; cbn [NUM_PITCHES pitch_count] in *; lia).
    cbn [option_map]. replace (0 + Z.of_nat (Z.to_nat p)) with p by lia. reflexivity. }
  apply nth_error_nth. exact E.
Qed.

Lemma chord_pitches_tpc t : CHORD_PITCHES TPC t = map (fun f => 15 + f) (chord_fifths t).
Proof. destruct t; reflexivity. Qed.
Lemma chord_pitches_midi t :
  forallb (fun p => Bool.eqb (existsb (Z.eqb p) (CHORD_PITCHES MIDI t))
                        (existsb (fun f => p =? (7 * f) mod 12) (chord_fifths t))) (zrange 0 12) = true.
Proof. destruct t; vm_compute; reflexivity. Qed.

Definition member_bit (b : bool) : Z := if b then 1 else 0.

Theorem chord_vector_spec t pt root :
  exists w, get_vector_from_chord_type t pt (Some root) = Ok w
    /\ zlen w = pitch_count pt
    /\ forall p, 0 <= p < pitch_count pt ->
       (nth (Z.to_nat p) w 0 = 1 /\
          exists f, In f (chord_fifths t) /\
             match pt with TPC => p = root + f /\ 0 <= 15 + f < 35
                         | MIDI => p = (root + 7 * f) mod 12 end)
       \/ (nth (Z.to_nat p) w 0 = 0 /\
          forall f, In f (chord_fifths t) ->
             match pt with TPC => p <> root + f | MIDI => p <> (root + 7 * f) mod 12 end).
Proof.
  unfold get_vector_from_chord_type. rewrite base_vector_eq. cbn [bind].
  destruct (transpose_vector_spec pt (base_vector t pt) (root - C_of pt)) as (w & Ew & Hl & Hw).
  assert (Hb : zlen (base_vector t pt) = pitch_count pt).
  { unfold base_vector. rewrite zlen_map, zlen_zrange; destruct pt; cbn; lia. }
  exists w. split; [exact Ew|]. split; [unfold zlen in *; lia|].
  intros p Hp. rewrite Hw by lia. unfold moved. fold (zlen (base_vector t pt)). rewrite Hb.
  assert (Hf : forall f, In f (chord_fifths t) -> -9 <= f <= 8).
  { destruct t; cbn; intuition lia. }
  destruct pt; cbn [pitch_count C_of] in *; unfold TPC_C in *.
  - destruct ((0 <=? p - (root - 15)) && (p - (root - 15) <? 35)) eqn:E.
    + rewrite base_vector_nth by (cbn; lia).
      rewrite chord_pitches_tpc.
      destruct (existsb _ _) eqn:Ex.
      * left. split; [reflexivity|]. apply existsb_exists in Ex as (q & Hq & Eq).
        apply in_map_iff in Hq as (f & <- & Hin). exists f. split; [exact Hin|].
        apply Hf in Hin. lia.
      * right. split; [reflexivity|]. intros f Hin Heq.
        assert (existsb (Z.eqb (p - (root - 15))) (map (fun f => 15 + f) (chord_fifths t)) = true).
        { apply existsb_exists. exists (15 + f). split; [apply in_map; exact Hin|lia]. }
        congruence.
    + right. split; [reflexivity|]. intros f Hin Heq. apply Hf in Hin. lia.
  - rewrite base_vector_nth by (cbn; lia).
    pose proof (chord_pitches_midi t) as K. rewrite forallb_forall in K.
    set (q := (p - (root - 0)) mod 12).
    assert (Hq : 0 <= q < 12) by (unfold q; lia).
    specialize (K q ltac:(apply in_zrange; lia)). apply eqb_prop in K. rewrite K. clear K.
    destruct (existsb (fun f => q =? _) _) eqn:Ex.
    + left. split; [reflexivity|]. apply existsb_exists in Ex as (f & Hin & Eq).
      exists f. split; [exact Hin|]. unfold q in *. lia.
    + right. split; [reflexivity|]. intros f Hin Heq.
      assert (existsb (fun f => q =? (7 * f) mod 12) (chord_fifths t) = true).
      { apply existsb_exists. exists f. split; [exact Hin|]. unfold q. lia. }
      congruence.
Qed.

(* bass notes *)
Theorem bass_note_spec t root inv pt modulo :
  get_bass_note t root inv pt modulo =
  let n := positions t in
  let i := if modulo then inv mod n else inv in
  match nth_error (chord_fifths t) (Z.to_nat (if i <? 0 then i + n else i)) with
  | Some f =>
      if (i <? - n) || (n <=? i) then Raise IndexError
      else match pt with
           | MIDI => Ok ((root + 7 * f) mod 12)
           | TPC => if (0 <=? root + f) && (root + f <? 35) then Ok (root + f) else Raise ValueError
           end
  | None => Raise IndexError
  end.
Proof.
  assert (Hn : zlen (CHORD_PITCHES pt t) = positions t) by (destruct t, pt; reflexivity).
  assert (Hf : zlen (chord_fifths t) = positions t) by (destruct t; reflexivity).
  assert (Hp : 3 <= positions t <= 4) by (destruct t; cbn; lia).
  unfold get_bass_note. cbv zeta. rewrite Hn.
  set (i := if modulo then inv mod positions t else inv). clearbody i.
  unfold py_nth. rewrite Hn.
  set (j := if i <? 0 then i + positions t else i).
  destruct ((j <? 0) || (positions t <=? j)) eqn:E.
  - cbn [bind]. assert (Hi : (i <? - positions t) || (positions t <=? i) = true).
    { unfold j in *. destruct (i <? 0) eqn:?; lia. }
    rewrite Hi. destruct (nth_error (chord_fifths t) _); reflexivity.
  - assert (Hi : (i <? - positions t) || (positions t <=? i) = false).
    { unfold j in *. destruct (i <? 0) eqn:?; lia. }
    rewrite Hi. clear Hi. clearbody j.
    assert (K : forall k, (k < Z.to_nat (positions t))%nat ->
       exists f c, nth_error (chord_fifths t) k = Some f /\ nth_error (CHORD_PITCHES pt t) k = Some c
        /\ match pt with TPC => c = 15 + f | MIDI => (c - 7 * f) mod 12 = 0 end).
    { intros k Hk.
      assert (k = 0 \/ k = 1 \/ k = 2 \/ k = 3)%nat as Hc by lia.
      destruct t; cbn in Hk; destruct pt;
      (destruct Hc as [->|[->|[->| ->]]]; try (exfalso; lia); (do 2 eexists; split; [reflexivity|split; reflexivity])). }
    destruct (K (Z.to_nat j)) as (f & c & Ef & Ec & Hc); [lia|].
    rewrite Ef, Ec. cbn [bind]. rewrite transpose_pitch_eq.
    destruct pt; cbn [C_of]; unfold TPC_C.
    + subst c. replace (15 + f + (root - 15)) with (root + f) by lia. reflexivity.
    + f_equal. lia.
Qed.

(* --- absolute / relative -------------------------------------------------------- *)

Theorem a2r_spec pitch tonic pt kc pad :
  absolute_to_relative pitch tonic pt kc pad =
  let pad := pad && negb kc in
  let lo := lowest_root pt true pad in
  let r := relative_pitch pt pitch tonic in
  if (lo <=? r) && (r <? lo + root_count pt true pad) then Ok (r - lo) else Raise ValueError.
Proof.
  destruct pt; cbn [relative_pitch].
  - unfold absolute_to_relative.
    unfold MIN_KEY_CHANGE_INTERVAL_TPC, MIN_RELATIVE_TPC, MAX_KEY_CHANGE_INTERVAL_TPC,
      MAX_RELATIVE_TPC, RELATIVE_TPC_EXTRA.
    destruct kc, pad; cbn [andb negb lowest_root root_count];
      (destruct (_ || _) eqn:E; destruct (_ && _) eqn:E2; try lia; reflexivity).
  - cbn [absolute_to_relative]. rewrite transpose_pitch_eq. cbn [lowest_root root_count].
    cbv zeta. destruct (_ && _) eqn:E; [f_equal|]; lia.
Qed.

Theorem a2r_range pitch tonic pt kc pad r :
  absolute_to_relative pitch tonic pt kc pad = Ok r ->
  0 <= r < root_count pt true (pad && negb kc).
Proof.
  rewrite a2r_spec. cbv zeta. destruct (_ && (_ <? _)) eqn:E; [|discriminate].
  intros H; apply Ok_inj in H. lia.
Qed.

Theorem a2r_injective p q tonic pt kc pad r :
  in_pitch_range pt p -> in_pitch_range pt q ->
  absolute_to_relative p tonic pt kc pad = Ok r ->
  absolute_to_relative q tonic pt kc pad = Ok r -> p = q.
Proof.
  unfold in_pitch_range. rewrite !a2r_spec. cbv zeta. intros Hp Hq.
  destruct (_ && (_ <? _)) eqn:E; [|discriminate]. intros H; apply Ok_inj in H.
  destruct (_ && (relative_pitch pt q tonic <? _)) eqn:E2; [|discriminate]. intros H2; apply Ok_inj in H2.
  destruct pt; cbn [relative_pitch pitch_count] in *; lia.
Qed.

Theorem a2r_transpose p tonic a pt kc pad :
  absolute_to_relative (p + a) (tonic + a) pt kc pad = absolute_to_relative p tonic pt kc pad.
Proof.
  rewrite !a2r_spec. replace (relative_pitch pt (p + a) (tonic + a)) with (relative_pitch pt p tonic);
    [reflexivity|]. destruct pt; cbn [relative_pitch]; [lia|f_equal; lia].
Qed.

(* --- conversion ------------------------------------------------------------------ *)
Theorem convert_collision p q a b :
  convert_pitch p TPC MIDI = Ok a -> convert_pitch q TPC MIDI = Ok b ->
  (a = b <-> (p - q) mod 12 = 0).
Proof.
  rewrite !tpc_to_midi. intros Ha Hb. apply Ok_inj in Ha, Hb. subst. lia.
Qed.

Theorem midi_to_tpc_white p : 0 <= p < 12 ->
  (white_key p = true -> exists q, convert_pitch p MIDI TPC = Ok q /\ 0 <= q < 35
      /\ convert_pitch q TPC MIDI = Ok p)
  /\ (white_key p = false -> convert_pitch p MIDI TPC = Raise KeyError).
Proof.
  intros H. apply twelve in H.
  assert (K : forall q, (exists r, convert_pitch q MIDI TPC = Ok r /\ 0 <= r < 35
      /\ convert_pitch r TPC MIDI = Ok q) -> white_key q = true ->
     (white_key q = true -> exists r, convert_pitch q MIDI TPC = Ok r /\ 0 <= r < 35
      /\ convert_pitch r TPC MIDI = Ok q)
  /\ (white_key q = false -> convert_pitch q MIDI TPC = Raise KeyError)).
  { intros q Hq Hw. split; [auto|congruence]. }
  assert (K2 : forall q, convert_pitch q MIDI TPC = Raise KeyError -> white_key q = false ->
     (white_key q = true -> exists r, convert_pitch q MIDI TPC = Ok r /\ 0 <= r < 35
      /\ convert_pitch r TPC MIDI = Ok q)
  /\ (white_key q = false -> convert_pitch q MIDI TPC = Raise KeyError)).
  { intros q Hq Hw. split; [congruence|auto]. }
  repeat (destruct H as [->|H];
    [first [apply K2; vm_compute; reflexivity
           |apply K; [eexists; split; [vm_compute; reflexivity|split; [lia|vm_compute; reflexivity]]|reflexivity]]|]).
  subst. apply K; [eexists; split; [vm_compute; reflexivity|split; [lia|vm_compute; reflexivity]]|reflexivity].
Qed.

(* --- change strings --------------------------------------------------------------- *)
Lemma first_digit_spec s k :
  match first_digit s k with
  | Ok (j, c) => exists pre post, s = pre ++ c :: post /\ j = k + zlen pre /\ char_is_digit c = true
                   /\ Forall (fun d => char_is_digit d = false) pre
  | Raise e => e = IndexError /\ Forall (fun d => char_is_digit d = false) s
  end.
Proof.
  revert k; induction s as [|c s IH]; intros k; cbn [first_digit]; [auto|].
  destruct (char_is_digit c) eqn:E.
  - exists [], s. repeat split; auto. unfold zlen; simpl; lia.
  - specialize (IH (k + 1)). destruct (first_digit s (k + 1)) as [[j d]|e].
    + destruct IH as (pre & post & -> & -> & Hd & F). exists (c :: pre), post.
      repeat split; auto. rewrite zlen_cons; lia.
    + destruct IH as [-> F]. auto.
Qed.

Lemma firstn_app_exact {A} (l r : list A) : firstn (length l) (l ++ r) = l.
Proof. rewrite firstn_app, firstn_all, Nat.sub_diag. simpl. apply app_nil_r. Qed.

Lemma split_changes_loop_spec fuel s : (length s <= fuel)%nat ->
  match split_changes_loop fuel s with
  | Ok toks => concat toks = s /\ Forall change_token toks
  | Raise e => e = IndexError /\ exists good rest, s = good ++ rest /\ rest <> []
                 /\ Forall (fun d => char_is_digit d = false) rest
  end.
Proof.
  revert s; induction fuel as [|fuel IH]; intros s Hs.
  - destruct s; [|simpl in Hs; lia]. simpl. auto.
  - destruct s as [|c0 s0]; [simpl; auto|]. set (s := c0 :: s0) in *.
    cbn [split_changes_loop]. unfold get_first_change_length. unfold s at 1.
    pose proof (first_digit_spec s 0) as F.
    destruct (first_digit s 0) as [[j c]|e].
    2: { cbn [bind]. destruct F as [-> F]. split; [reflexivity|]. exists [], s. repeat split; auto.
         unfold s; discriminate. }
    destruct F as (pre & post & Es & Ej & Hc & F). cbn [bind].
    set (n := if Ascii.eqb c "1" then j + 2 else j + 1).
    assert (Hn : n = zlen pre + (if Ascii.eqb c "1" then 2 else 1)).
    { unfold n. destruct (Ascii.eqb c "1"); lia. }
    pose proof (zlen_nonneg pre) as Hpre.
    assert (Hpos : 0 < n) by (destruct (Ascii.eqb c "1"); lia). clearbody n.
    destruct (n =? 0) eqn:E0; [lia|].
    rewrite py_slice_full_prefix by lia.
    assert (Er : py_slice s n (zlen s) = skipn (Z.to_nat n) s).
    { rewrite py_slice_spec by (pose proof (zlen_nonneg s); lia). apply firstn_all2. rewrite skipn_length. unfold zlen. lia. }
    rewrite Er.
    specialize (IH (skipn (Z.to_nat n) s)).
    assert (Hlen : (length (skipn (Z.to_nat n) s) <= fuel)%nat) by (rewrite skipn_length; lia).
    specialize (IH Hlen).
    assert (Htok : change_token (firstn (Z.to_nat n) s)).
    { exists pre, c. split; [exact F|]. split; [exact Hc|]. rewrite Es.
      destruct (Ascii.eqb c "1") eqn:E1.
      - right. split; [apply Ascii.eqb_eq; exact E1|].
        destruct post as [|x post].
        + left. apply firstn_all2. rewrite app_length; simpl. unfold zlen in *; lia.
        + right. exists x. replace (Z.to_nat n) with (length (pre ++ [c; x])).
          2: { rewrite app_length; simpl. unfold zlen in *; lia. }
          replace (pre ++ c :: x :: post) with ((pre ++ [c; x]) ++ post) by (rewrite <- app_assoc; reflexivity).
          apply firstn_app_exact.
      - left. split; [apply Ascii.eqb_neq; exact E1|].
        replace (Z.to_nat n) with (length (pre ++ [c])).
        2: { rewrite app_length; simpl. unfold zlen in *; lia. }
        replace (pre ++ c :: post) with ((pre ++ [c]) ++ post) by (rewrite <- app_assoc; reflexivity).
        apply firstn_app_exact. }
    destruct (split_changes_loop fuel (skipn (Z.to_nat n) s)) as [toks|e].
    + cbn [bind]. destruct IH as [IH1 IH2]. split.
      * cbn [concat]. rewrite IH1. apply firstn_skipn.
      * constructor; assumption.
    + cbn [bind]. destruct IH as [-> (good & rest & Eg & Hr & Hd)]. split; [reflexivity|].
      exists (firstn (Z.to_nat n) s ++ good), rest. rewrite <- app_assoc, <- Eg, firstn_skipn. auto.
Qed.

Theorem split_changes_spec s :
  match split_changes_into_list s with
  | Ok toks => concat toks = s /\ Forall change_token toks
  | Raise e => e = IndexError /\ exists good rest, s = good ++ rest /\ rest <> []
                 /\ Forall (fun d => char_is_digit d = false) rest
  end.
Proof. apply split_changes_loop_spec. lia. Qed.
