(* C103: vectors of chords and changes of key can be read. *)
From Verif Require Import Model_Decode Model_Dataset Spec_Music Spec_Dataset Spec_Decode Proof_Base Proof_Codec Proof_Vectors Proof_Dataset Proof_KeyItems Proof_Widths Proof_Paths Prop_Vectors Prop_Items.
From Coq Require Import List Lia.
Import ListNotations.
Open Scope Z_scope.

(* the vector of an interval by its index, or of none *)
Definition change_at (pt : pitch_type) (i : option Z) (m : key_mode) : res (list Z) :=
  let v := repeat 0 (Z.to_nat (get_key_change_vector_length pt false)) in
  let! v := match i with Some i => py_upd v i 1 | None => Ok v end in
  py_upd v (-2 + mode_value m) 1.
Definition reads (pt : pitch_type) (i : option Z) (m : key_mode) (t : Z) : bool :=
  match change_at pt i m with
  | Ok v => match decode_key_change_vector v with
            | Ok k => (dk_tonic k =? t) && match dk_modes k with [m'] => (mode_value m' =? mode_value m) | _ => false end &&
                      match dk_pt k, pt with TPC, TPC | MIDI, MIDI => true | _, _ => false end
            | Raise _ => false
            end
  | Raise _ => false
  end.
Lemma reads_ok pt i m t : reads pt i m t = true -> exists v, change_at pt i m = Ok v /\
  decode_key_change_vector v = Ok {| dk_tonic := t; dk_modes := [m]; dk_pt := pt |}.
Proof.
  unfold reads. destruct (change_at pt i m) as [v|]; [|discriminate]. destruct (decode_key_change_vector v) as [[t' ms p]|] eqn:E; [|discriminate]. cbn [dk_tonic dk_modes dk_pt].
  intros H. apply andb_prop in H as [H H3]. apply andb_prop in H as [H1 H2]. apply Z.eqb_eq in H1 as ->. exists v. split; [reflexivity|]. rewrite E.
  destruct ms as [|m' [|]]; try discriminate. assert (m' = m) as -> by (destruct m', m; (reflexivity || discriminate)). destruct p, pt; (reflexivity || discriminate).
Qed.
Lemma reads_all : (forall i m, 0 <= i < 29 -> reads TPC (Some i) m (i - 14) = true) /\ (forall i m, 0 <= i < 12 -> reads MIDI (Some i) m i = true).
Proof.
  assert (A : forallb (fun i => reads TPC (Some i) MAJOR (i - 14) && reads TPC (Some i) MINOR (i - 14)) (zrange 0 29) = true) by (vm_compute; reflexivity).
  assert (B : forallb (fun i => reads MIDI (Some i) MAJOR i && reads MIDI (Some i) MINOR i) (zrange 0 12) = true) by (vm_compute; reflexivity).
  rewrite forallb_forall in A, B. split; intros i m H.
  - assert (K := A i ltac:(apply in_zrange; lia)). apply andb_prop in K as [K1 K2]. now destruct m.
  - assert (K := B i ltac:(apply in_zrange; lia)). apply andb_prop in K as [K1 K2]. now destruct m.
Qed.
Lemma vector_at pt tonic next m : key_change_vector pt tonic next m =
  change_at pt (match absolute_to_relative next tonic pt true false with Ok i => Some i | Raise _ => None end) m.
Proof.
  unfold key_change_vector, change_at. destruct (absolute_to_relative next tonic pt true false) as [i|e] eqn:E; [reflexivity|].
  unfold absolute_to_relative in E. destruct pt; [|discriminate]. cbn [negb andb] in E. destruct (_ || _); [|discriminate]. injection E as <-. reflexivity.
Qed.
Lemma key_read pt tonic next m : near pt tonic next -> exists v, key_change_vector pt tonic next m = Ok v /\
  decode_key_change_vector v = Ok (change_read pt tonic next m).
Proof.
  intros N. rewrite vector_at. destruct reads_all as [A B]. unfold change_read, absolute_to_relative. destruct pt.
  - specialize (N eq_refl). cbn [negb andb]. unfold MIN_KEY_CHANGE_INTERVAL_TPC, MAX_KEY_CHANGE_INTERVAL_TPC.
    replace ((next - tonic <? -14) || (15 <=? next - tonic)) with false by lia. specialize (A (next - tonic - -14) m ltac:(lia)).
    apply reads_ok in A as (v & E1 & E2). exists v. split; [exact E1|]. rewrite E2. cbn [relative_pitch]. do 2 f_equal. lia.
  - unfold transpose_pitch. cbn [bind]. specialize (B ((next + - tonic) mod 12) m ltac:(apply Z.mod_pos_bound; lia)).
    apply reads_ok in B as (v & E1 & E2). exists v. split; [exact E1|]. rewrite E2. reflexivity.
Qed.
(* The vector of a change of key that has a place in it is read as its interval and mode. *)
Theorem C103_key pt tonic next m v : near pt tonic next -> key_change_vector pt tonic next m = Ok v ->
  decode_key_change_vector v = Ok (change_read pt tonic next m).
Proof. intros N H. destruct (key_read pt tonic next m N) as (w & E & D). rewrite E in H. apply Ok_inj in H as <-. exact D. Qed.
Print Assumptions C103_key.
(* False: a change of key outside the vectors is refused.  It is read as one of 15 fifths to a major key, or one of
   16 fifths to a minor key. *)
Theorem C103_far_refuted tonic next m : ~ near TPC tonic next -> exists v, key_change_vector TPC tonic next m = Ok v /\
  decode_key_change_vector v = Ok {| dk_tonic := match m with MAJOR => 15 | MINOR => 16 end; dk_modes := [m]; dk_pt := TPC |}.
Proof.
  intros N. rewrite vector_at. unfold absolute_to_relative, near in *. cbn [negb andb]. unfold MIN_KEY_CHANGE_INTERVAL_TPC, MAX_KEY_CHANGE_INTERVAL_TPC.
  replace ((next - tonic <? -14) || (15 <=? next - tonic)) with true by lia.
  assert (R : reads TPC None m (match m with MAJOR => 15 | MINOR => 16 end) = true) by (destruct m; vm_compute; reflexivity).
  exact (reads_ok _ _ _ _ R).
Qed.
Print Assumptions C103_far_refuted.

(* the parts of a row *)
Lemma row_read c pad v k f rt tt pt : readable pt c -> to_vec c None pad NO_REDUCTION = Ok v -> zlen k = get_key_change_vector_length pt false ->
  rt = Some pt \/ (rt = None /\ tt = Some pt) ->
  decode_chord_and_key_change_vector (v ++ k ++ [f]) rt tt pad =
    if f =? 0 then if 0 <? zsum k then Raise ValueError else Ok (chord_read c, None)
    else let! key := decode_key_change_vector k in Ok (chord_read c, Some key).
Proof.
  intros (Hp & R1 & R2 & R3) Hv Hk Ht. destruct (to_vec_decode c None pad NO_REDUCTION v None Hv R1 R2 R3 (or_introl eq_refl)) as (D & Lv & _). rewrite Hp in Lv.
  assert (Lt : zlen (v ++ k ++ [f]) = zlen v + zlen k + 1) by (unfold zlen; rewrite !app_length; cbn [length]; lia).
  unfold decode_chord_and_key_change_vector.
  assert (E : match rt, tt with None, None => Raise ValueError | Some rt, _ => Ok (get_chord_vector_length rt false true true pad NO_REDUCTION)
              | None, Some kt => Ok (zlen (v ++ k ++ [f]) - 1 - get_key_change_vector_length kt false) end = Ok (zlen v)).
  { destruct Ht as [->|[-> ->]]; [now rewrite Lv|]. f_equal. rewrite Lt. lia. }
  rewrite E. cbn [bind]. change (py_slice (v ++ k ++ [f]) 0 (zlen v)) with (py_slice ([] ++ v ++ (k ++ [f])) 0 (zlen v)).
  rewrite (slice_app [] v (k ++ [f]) 0 (zlen v)) by reflexivity.
  rewrite D. cbn [bind]. rewrite app_assoc at 1.
  assert (La : py_nth ((v ++ k) ++ [f]) (-1) = Ok f).
  { unfold py_nth. change (-1 <? 0) with true. cbn [bind]. cbv iota zeta. rewrite <- app_assoc, Lt. pose proof (zlen_nonneg v). pose proof (zlen_nonneg k).
    replace ((-1 + (zlen v + zlen k + 1) <? 0) || (zlen v + zlen k + 1 <=? -1 + (zlen v + zlen k + 1))) with false by lia.
    rewrite app_assoc. rewrite nth_error_app2 by (rewrite app_length; unfold zlen; lia).
    replace (Z.to_nat (-1 + (zlen v + zlen k + 1)) - length (v ++ k))%nat with 0%nat by (rewrite app_length; unfold zlen; lia). reflexivity. }
  rewrite La. cbn [bind]. 
  replace (py_slice (v ++ k ++ [f]) (zlen v) (-1)) with (py_slice (v ++ k ++ [f]) (zlen v) (zlen v + zlen k)).
  2: { unfold py_slice. cbv zeta. do 2 f_equal. f_equal. unfold py_bound. rewrite Lt. pose proof (zlen_nonneg v). pose proof (zlen_nonneg k).
       replace (zlen v + zlen k <? 0) with false by lia. change (-1 <? 0) with true. cbv iota zeta. lia. }
  rewrite (slice_app v k [f] (zlen v) (zlen v + zlen k)) by reflexivity. reflexivity.
Qed.

Lemma removelast_nth {A} (l : list A) : forall j, (S j < length l)%nat -> nth_error (removelast l) j = nth_error l j.
Proof.
  induction l as [|x [|y l] IH]; intros j H; [cbn in H; lia|cbn in H; lia|]. change (removelast (x :: y :: l)) with (x :: removelast (y :: l)).
  destruct j as [|j]; [reflexivity|]. cbn [nth_error]. apply IH. cbn [length] in *. lia.
Qed.
Lemma combine_nth {A B} (l : list A) : forall (l' : list B) j x y, nth_error (combine l l') j = Some (x, y) -> nth_error l j = Some x /\ nth_error l' j = Some y.
Proof.
  induction l as [|a l IH]; intros [|b l'] [|j] x y H; try discriminate; cbn in *; [injection H as -> ->; auto|auto].
Qed.
Lemma section_at keys changes n j prev key a b : nth_error (sections keys changes n) j = Some (prev, key, (a, b)) ->
  nth_error keys j = Some key /\ nth_error changes j = Some a /\ nth_error (tl changes ++ [n]) j = Some b /\
  match j with O => prev = None | S i => exists q, nth_error keys i = Some q /\ prev = Some q end.
Proof.
  unfold sections. intros H. apply combine_nth in H as [H1 H2]. apply combine_nth in H1 as [H0 H1]. apply combine_nth in H2 as [H2 H3].
  split; [exact H1|]. split; [exact H2|]. split; [exact H3|]. destruct j as [|i]; cbn [nth_error] in H0; [now injection H0|].
  assert (S i < length keys)%nat by (apply nth_error_Some; congruence). rewrite nth_error_map, removelast_nth in H0 by assumption.
  destruct (nth_error keys i) as [q|]; [|discriminate]. cbn [option_map] in H0. injection H0 as <-. exists q. split; reflexivity.
Qed.
Lemma concat_nth {A} (rs : list (list A)) : forall j r k, nth_error rs j = Some r -> (k < length r)%nat ->
  nth_error (concat rs) (length (concat (firstn j rs)) + k) = nth_error r k.
Proof.
  induction rs as [|x rs IH]; intros [|j] r k H K; try discriminate; cbn [nth_error firstn concat] in *.
  - injection H as ->. cbn [length plus]. now rewrite nth_error_app1.
  - rewrite app_length, <- Nat.add_assoc, nth_error_app2 by lia. replace (length x + (length (concat (firstn j rs)) + k) - length x)%nat with (length (concat (firstn j rs)) + k)%nat by lia.
    now apply IH.
Qed.
Lemma firstn_step {A} (l : list A) : forall j x, nth_error l j = Some x -> firstn (S j) l = firstn j l ++ [x].
Proof. induction l as [|a l IH]; intros [|j] x H; try discriminate; cbn [nth_error] in H; [injection H as ->; reflexivity|]. cbn [firstn app]. f_equal. now apply IH. Qed.

(* Every row of the chord sequences and key sequences of a piece can be read: its chord, and the change to its key
   if it is the first chord of another key than the first. *)
Theorem C103_rows pad p rows rt tt j a b i c r : valid_piece p -> Forall (readable (dp_pt p)) (dp_chords p) -> piece_rows pad p = Ok rows ->
  rt = Some (dp_pt p) \/ (rt = None /\ tt = Some (dp_pt p)) ->
  nth_error (dp_changes p) j = Some a -> nth_error (tl (dp_changes p) ++ [length (dp_chords p)]) j = Some b -> (a <= i < b)%nat ->
  nth_error (dp_chords p) i = Some c -> nth_error rows i = Some r ->
  (i <> a \/ j = 0%nat -> decode_chord_and_key_change_vector r rt tt pad = Ok (chord_read c, None)) /\
  forall h q key, i = a -> j = S h -> nth_error (dp_keys p) h = Some q -> nth_error (dp_keys p) j = Some key -> near (dp_pt p) (fst q) (fst key) ->
    decode_chord_and_key_change_vector r rt tt pad = Ok (chord_read c, Some (change_read (dp_pt p) (fst q) (fst key) (snd key))).
Proof.
  intros (V1 & V2 & V3 & V4) Rd H Ht Ha Hb Hi Hc Hr. unfold piece_rows in H. destruct (dp_keys p) as [|k0 ks] eqn:Ek; [discriminate|]. rewrite <- Ek in *.
  apply bind_ok in H as (rs & Ers & H). assert (Er : rows = concat rs) by (destruct rs; [discriminate|apply Ok_inj in H; congruence]). clear H. subst rows.
  apply mapM_forall2 in Ers. assert (Ls : length (sections (dp_keys p) (dp_changes p) (length (dp_chords p))) = length (dp_keys p)).
  { apply sections_length; [rewrite Ek; discriminate|exact V1]. }
  assert (Hend : forall m x, nth_error (tl (dp_changes p) ++ [length (dp_chords p)]) m = Some x -> (x <= length (dp_chords p))%nat).
  { intros m x Hx. destruct (Nat.lt_ge_cases m (length (tl (dp_changes p)))) as [K|K].
    - rewrite nth_error_app1 in Hx by exact K. destruct (dp_changes p) as [|c0 cs] eqn:Ec; [destruct m; discriminate|]. cbn [tl] in *. specialize (V4 (S m) x Hx). lia.
    - rewrite nth_error_app2 in Hx by exact K. destruct (m - length (tl (dp_changes p)))%nat as [|m']; [injection Hx as <-; lia|destruct m'; discriminate]. }
  assert (Off : forall m x, nth_error (dp_changes p) m = Some x -> length (concat (firstn m rs)) = x).
  { induction m as [|m IH]; intros x Hx; [rewrite V2 in Hx; injection Hx as <-; reflexivity|].
    assert (Hm : (S m < length (dp_changes p))%nat) by (apply nth_error_Some; congruence).
    destruct (nth_error (dp_changes p) m) as [y|] eqn:Ey; [|apply nth_error_None in Ey; lia]. specialize (IH y eq_refl).
    destruct (nth_error (sections (dp_keys p) (dp_changes p) (length (dp_chords p))) m) as [s|] eqn:Es; [|apply nth_error_None in Es; lia].
    destruct (forall2_nth _ _ _ Ers m s Es) as (rm & Erm & Hs). destruct s as [[prev key] [a' b']]. apply section_at in Es as (_ & Ea & Eb & _).
    rewrite Ey in Ea. injection Ea as <-. rewrite (firstn_step rs m rm Erm), concat_app, app_length, IH. cbn [concat]. rewrite app_nil_r.
    assert (Hb' : b' = x). { destruct (dp_changes p) as [|c0 cs]; [discriminate|]. cbn [tl nth_error length] in *. rewrite nth_error_app1 in Eb by lia. congruence. }
    subst b'. rewrite (section_rows_length _ _ _ _ _ _ _ _ Hs), between_length by exact (Hend _ _ Eb). specialize (V3 m y x Ey Hx). lia. }
  destruct (nth_error (sections (dp_keys p) (dp_changes p) (length (dp_chords p))) j) as [s|] eqn:Es.
  2: { apply nth_error_None in Es. assert (j < length (dp_changes p))%nat by (apply nth_error_Some; congruence). lia. }
  destruct (forall2_nth _ _ _ Ers j s Es) as (rj & Erj & Hs). destruct s as [[prev key] [a' b']]. apply section_at in Es as (Ekey & Ea & Eb & Eprev).
  rewrite Ha in Ea. injection Ea as <-. rewrite Hb in Eb. injection Eb as <-.
  assert (Lj := section_rows_length _ _ _ _ _ _ _ _ Hs). rewrite between_length in Lj by exact (Hend _ _ Hb).
  assert (Hr' : nth_error rj (i - a) = Some r).
  { rewrite <- (concat_nth rs j rj (i - a) Erj) by lia. rewrite (Off j a Ha). replace (a + (i - a))%nat with i by lia. exact Hr. }
  assert (Rc : readable (dp_pt p) c) by (rewrite Forall_forall in Rd; apply Rd; exact (nth_error_In _ _ Hc)).
  unfold section_rows in Hs. apply bind_ok in Hs as (vs & Ev & Hs). apply mapM_forall2 in Ev.
  assert (Hbt : forall k, (k < b - a)%nat -> nth_error (between (dp_chords p) a b) k = nth_error (dp_chords p) (a + k)).
  { intros k K. unfold between. rewrite Proof_Paths.nth_error_firstn_lt by exact K. apply Proof_Paths.nth_error_skipn'. }
  destruct (forall2_nth _ _ _ Ev (i - a) c) as (v & Hv & Ec); [rewrite Hbt by lia; replace (a + (i - a))%nat with i by lia; exact Hc|].
  assert (Zb : forall w, w ++ zeros (1 + get_key_change_vector_length (dp_pt p) false) = w ++ zeros (get_key_change_vector_length (dp_pt p) false) ++ [0]).
  { intros w. f_equal. destruct (dp_pt p); reflexivity. }
  assert (Blank : forall w, to_vec c None pad NO_REDUCTION = Ok w -> decode_chord_and_key_change_vector (w ++ zeros (1 + get_key_change_vector_length (dp_pt p) false)) rt tt pad = Ok (chord_read c, None)).
  { intros w Ew. rewrite Zb. rewrite (row_read c pad w _ 0 rt tt (dp_pt p) Rc Ew); [|destruct (dp_pt p); reflexivity|exact Ht]. destruct (dp_pt p); reflexivity. }
  destruct vs as [|v0 vs]; [discriminate|]. apply bind_ok in Hs as (kv & Ekv & Hs). apply Ok_inj in Hs. subst rj.
  destruct (i - a)%nat as [|d] eqn:Ed; cbn [nth_error] in Hr', Hv.
  - injection Hr' as <-. injection Hv as ->. assert (i = a) as -> by lia. split.
    + intros [N|Ej]; [congruence|]. subst j. cbn in Eprev. subst prev. apply Ok_inj in Ekv. subst kv. exact (Blank v Ec).
    + intros h q key' _ -> Eq Ekey' Nr. cbn in Eprev. destruct Eprev as (q' & Eq' & ->). rewrite Eq in Eq'. injection Eq' as <-. rewrite Ekey in Ekey'. injection Ekey' as <-.
      apply bind_ok in Ekv as (w & Ew & Ekv). apply Ok_inj in Ekv. subst kv. rewrite (row_read c pad v w 1 rt tt (dp_pt p) Rc Ec (key_change_len _ _ _ _ _ Ew) Ht).
      cbn [Z.eqb]. rewrite (C103_key _ _ _ _ _ Nr Ew). reflexivity.
  - rewrite nth_error_map, Hv in Hr'. cbn [option_map] in Hr'. injection Hr' as <-. split; [intros _; exact (Blank v Ec)|]. intros; lia.
Qed.
Print Assumptions C103_rows.

(* the first piece of C43: four chords with a modulation to the dominant *)
Example C103_ex : exists rows r, valid_piece piece43a /\ Forall (readable MIDI) (dp_chords piece43a) /\ piece_rows false piece43a = Ok rows /\
  nth_error rows 2 = Some r /\
  decode_chord_and_key_change_vector r None (Some MIDI) false =
    Ok ({| d_root := 0; d_bass := 0; d_mode := MAJOR; d_type := Maj; d_inv := 0; d_onset_level := 0; d_offset_level := 0; d_pt := MIDI |},
        Some {| dk_tonic := 7; dk_modes := [MAJOR]; dk_pt := MIDI |}).
Proof.
  eexists. eexists. split.
  { split; [reflexivity|]. split; [reflexivity|]. split.
    - intros [|[|[|?]]] x y Hx Hy; try discriminate. injection Hx as <-. injection Hy as <-. lia.
    - intros [|[|[|?]]] x Hx; try discriminate; injection Hx as <-; cbn; lia. }
  split; [repeat constructor; cbn; lia|]. split; [vm_compute; reflexivity|]. split; [reflexivity|]. vm_compute. reflexivity.
Qed.
(* from F sharp to G flat, and from C sharp to F flat minor *)
Example C103_far_ex : near TPC 6 (-6) /\ ~ near TPC 7 (-8) /\
  exists v, key_change_vector TPC 7 (-8) MINOR = Ok v /\ option_map dk_tonic (match decode_key_change_vector v with Ok k => Some k | Raise _ => None end) = Some 16.
Proof. split; [intros _; lia|]. split; [intros N; specialize (N eq_refl); lia|]. eexists. split; vm_compute; reflexivity. Qed.
