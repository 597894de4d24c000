(* Lemmas for the runs of the annotation script. *)
From Coq Require Import QArith String Ascii Permutation.
From Verif Require Import Model_Strings Model_Rhythm Model_Piece Model_Output Model_Tables Model_Infer Model_Models Model_Annotate
  Spec_Music Spec_Piece Spec_Search Spec_Ranges Spec_Total Spec_Models Spec_Infer Spec_Eval Spec_Annotate
  Proof_Base Proof_Search Proof_Paths Proof_Infer Proof_Total Proof_Found Proof_Models Proof_Script
  Prop_Pitch Prop_Ranges Prop_Search Prop_Total Prop_Infer Prop_Models Prop_Eval.
From Coq Require Import List Lia.
Import ListNotations.
Close Scope Q_scope.
Open Scope Z_scope.

(* ---- without forces ---- *)
Notation plain_in w ds := {| probs := n_change w; change_log := map (n_log w) (n_change w); no_change_log := map (n_log_not w) (n_change w);
  Model_Ranges.durs := ds; forced_c := repeat (-1) (length ds); forced_k := repeat (-1) (length ds) |}.
Notation plain_piece ds lv := {| p_forced_c := repeat (-1) (length ds); p_forced_k := repeat (-1) (length ds); p_durs := ds; p_levels := lv |}.
Lemma harmony_plain g cfg w o ds lv : get_harmony g cfg w o ds lv no_forces =
  (let! (y, rejoins) := get_chord_ranges cfg (plain_in w ds) in
   let (ranges, logs) := y : list (nat * nat) * list Z in
   beam_search g o (plain_piece ds lv) ranges logs rejoins (n_classify w ranges)).
Proof. reflexivity. Qed.

(* ---- the labels of a result are known ---- *)
Lemma steps_rderived g o pd rs s : (forall r, In r rs -> (r_start r < r_end r <= length (p_durs pd))%nat) -> rderived g o pd rs s ->
  forall p f, In (p, f) (steps_of s) -> rderived g o pd rs f.
Proof.
  intros Hr. remember (sdepth s) as d eqn:Ed. revert s Ed. induction d as [d IH] using lt_wf_ind. intros s -> Hs p f Hin.
  rewrite steps_of_eq in Hin. destruct (st_prev s) as [q|] eqn:Eq; [|contradiction]. apply in_app_iff in Hin as [Hin|[E|[]]].
  - destruct (rderived_linked g o pd rs Hr s Hs ltac:(congruence)) as (q' & Hq & Hl). assert (q' = q) by (apply lk_prev in Hl; congruence). subst q'.
    apply (IH (sdepth q)) with (s := q) (p := p); auto. rewrite (sdepth_eq s), Eq. lia.
  - apply pair_equal_spec in E as [_ <-]. exact Hs.
Qed.
Lemma key_cuts_incl g o pd rs s : path g o pd rs s -> incl (snd (get_keys s)) (snd (get_chords s)).
Proof.
  induction 1 as [s Hi|p f Hp IH Hl].
  - rewrite get_keys_eq, get_chords_eq. destruct Hi as (keys & k & t & m & _ & _ & _ & ->). cbn. intros x Hx. exact Hx.
  - rewrite get_keys_eq, get_chords_eq, (lk_prev _ _ _ _ _ _ Hl). destruct (get_keys p) as [keys kc], (get_chords p) as [chords cc]. cbn [snd] in IH.
    assert (A : incl (kc ++ [st_change f]) (cc ++ [st_change f])) by (intros x Hx; apply in_app_iff in Hx; apply in_app_iff; destruct Hx; auto).
    destruct (rev keys) as [|k r]; [exact A|]. destruct (st_key f =? k); [|exact A]. cbn [snd]. intros x Hx. apply A.
    unfold set_last in Hx. apply in_app_iff in Hx as [Hx|Hx]; apply in_app_iff; [left|right; exact Hx].
    clear -Hx. induction kc as [|y kc IHk]; [contradiction|]. cbn [removelast] in Hx. destruct kc as [|z kc]; [contradiction|]. destruct Hx as [Hx|Hx]; [left; exact Hx|right; exact (IHk Hx)].
Qed.

Lemma steps_derived g o pd rs s : (forall r, In r rs -> (r_start r < r_end r <= length (p_durs pd))%nat) -> derived g o pd rs s ->
  forall p f, In (p, f) (steps_of s) -> f = s \/ rderived g o pd rs f.
Proof.
  intros Hr Hd p f Hin. rewrite steps_of_eq in Hin. destruct (st_prev s) as [q|] eqn:Eq; [|contradiction]. apply in_app_iff in Hin as [Hin|[E|[]]].
  - right. destruct (derived_linked g o pd rs Hr s Hd) as [Hi|(q' & Hq & Hl)].
    + destruct Hi as (ks & k' & tonic & mode & _ & _ & _ & ->). discriminate.
    + assert (q' = q) by (apply lk_prev in Hl; congruence). subst q'. exact (steps_rderived g o pd rs q Hr Hq p f Hin).
  - apply pair_equal_spec in E as [_ <-]. left. reflexivity.
Qed.
Lemma result_made g o pd crs logs rj cl s : searchable g o pd crs cl -> beam_search g o pd crs logs rj cl = Ok (Some s) ->
  exists rs, (forall r, In r rs -> made g o crs cl r) /\ derived g o pd rs s.
Proof.
  intros Hs H. assert (Hb := sb_beam _ _ _ _ _ (sb_base _ _ _ _ _ Hs)). unfold beam_search in H. apply bind_ok in H as (rs & Ers & H). apply bind_ok in H as (sr & Esr & H).
  assert (Hmade : forall r, In r rs -> made g o crs cl r).
  { destruct (ranges_total g o pd crs logs rj cl Hs) as (rs' & E' & M). rewrite Ers in E'. apply Ok_inj in E'. subst rs'. exact M. }
  apply bind_ok in H as (b & Eb & H). apply hget_nth in Eb. apply bind_ok in H as (top & Etop & H).
  destruct top as [x|]; [|apply Ok_inj in H; discriminate]. apply bind_ok in H as (s' & Es' & H). apply Ok_inj in H. injection H as ->.
  exists rs. split; [exact Hmade|]. destruct (run_search_inv g o pd rs (in_ranges _ _ _ _ _ Hs rs Hmade) Hb sr Esr) as [HL HS HD].
  apply HD. apply hget_nth in Es'. exact (nth_error_In _ _ Es').
Qed.

Lemma result_labels g o pd crs logs rj cl s : searchable g o pd crs cl -> beam_search g o pd crs logs rj cl = Ok (Some s) ->
  Forall (fun c => exists e, c = Some e /\ 0 <= e < chord_count (g_cpt g)) (fst (get_chords s))
  /\ Forall (fun k => 0 <= k < key_count (g_kpt g)) (fst (get_keys s))
  /\ incl (snd (get_keys s)) (snd (get_chords s)).
Proof.
  intros H E. assert (Hb := sb_beam _ _ _ _ _ (sb_base _ _ _ _ _ H)). assert (Hr := sb_ranges _ _ _ _ _ (sb_base _ _ _ _ _ H)).
  destruct (result_made _ _ _ _ _ _ _ _ H E) as (rs & Hmade & Hd).
  assert (Hp : path g o pd rs s) by (apply derived_path; [exact (in_ranges _ _ _ _ _ H rs Hmade)|exact Hd]).
  assert (Hs : forall p f, In (p, f) (steps_of s) -> sound g f).
  { destruct (sb_base _ _ _ _ _ H) as [sb1 sb2 sb3 sb4 sb5 sb6 sb7 sb8 sb9 sb10 sb11 sb12 sb13]. intros p f Hin.
    assert (A := in_forced_c _ _ _ _ _ H). assert (B := in_ranges _ _ _ _ _ H rs Hmade). assert (C := in_rows _ _ _ _ _ H rs Hmade).
    assert (D := in_order _ _ _ _ _ H rs Hmade). assert (P := in_play _ _ _ _ _ H rs Hmade).
    destruct (steps_derived g o pd rs s B Hd p f Hin) as [-> |Hf]; [eapply derived_sound|eapply rderived_sound]; eassumption. }
  split; [|split; [|exact (key_cuts_incl _ _ _ _ _ Hp)]].
  - assert (Hc := path_chord_steps _ _ _ _ _ Hp). assert (Hc2 := path_chords _ _ _ _ _ Hp). destruct (get_chords s) as [chords cuts]. cbn [fst].
    destruct Hc2 as ((L1 & _) & Hz & _). apply Forall_forall. intros c Hin. destruct (Hz c Hin) as (e & ->). exists e. split; [reflexivity|].
    destruct (In_nth_error _ _ Hin) as (k & Ek). assert (k < length chords)%nat by (apply nth_error_Some; congruence).
    destruct (nth_error cuts k) as [a|] eqn:Ea; [|apply nth_error_None in Ea; lia]. destruct (nth_error cuts (S k)) as [b|] eqn:Eb; [|apply nth_error_None in Eb; lia].
    destruct (Hc k _ a b Ek Ea Eb) as (p & f & Hst & _ & _ & Ef). exact (proj1 (so_chord _ _ (Hs p f Hst) e Ef)).
  - assert (Hc := path_keys _ _ _ _ _ Hp). destruct (get_keys s) as [keys cuts]. cbn [fst]. destruct Hc as ((L1 & L2 & L3 & L4) & _ & _ & Hl).
    apply Forall_forall. intros c Hin. destruct (In_nth_error _ _ Hin) as (k & Ek). assert (k < length keys)%nat by (apply nth_error_Some; congruence).
    destruct (nth_error cuts k) as [a|] eqn:Ea; [|apply nth_error_None in Ea; lia]. destruct (nth_error cuts (S k)) as [b|] eqn:Eb; [|apply nth_error_None in Eb; lia].
    destruct (proj1 (Hl a c)) as (p & f & Hst & _ & ->); [exists k, a, b; assert (a < b)%nat by exact (L4 k a b Ea Eb); repeat (split; [assumption|]); lia|].
    exact (so_key _ _ (Hs p f Hst)).
Qed.

(* every position lies in a segment *)
Lemma segment_at {A} (labels : list A) cuts n : segmentation labels cuts n -> forall i, (i < n)%nat -> exists c, labelled labels cuts i c.
Proof.
  intros (L1 & L2 & L3 & L4) i Hi.
  assert (H : forall k, (k <= length labels)%nat -> forall a, nth_error cuts k = Some a -> (i < a)%nat -> exists c, labelled labels cuts i c).
  { induction k as [|k IH]; intros Hk a Ea Hlt; [rewrite L2 in Ea; injection Ea as <-; lia|].
    destruct (nth_error cuts k) as [b|] eqn:Eb; [|apply nth_error_None in Eb; lia].
    destruct (Nat.lt_ge_cases i b) as [Hb|Hb]; [exact (IH ltac:(lia) b eq_refl Hb)|].
    destruct (nth_error labels k) as [c|] eqn:Ec; [|apply nth_error_None in Ec; lia].
    exists c, k, b, a. repeat split; assumption. }
  exact (H _ (le_n _) _ L3 Hi).
Qed.

(* ---- ranges leading from onset to onset ---- *)
Lemma next_onset (P : nat -> bool) n : forall d s, (n - s <= d)%nat -> (s < n)%nat ->
  exists e, (s < e <= n)%nat /\ (forall i, (s < i < e)%nat -> P i = false) /\ ((e < n)%nat -> P e = true).
Proof.
  induction d as [|d IH]; intros s Hd Hs; [lia|]. destruct (Nat.eq_dec (S s) n) as [E|E]; [exists n; split; [lia|]; split; intros; lia|].
  destruct (P (S s)) eqn:Ep; [exists (S s); split; [lia|]; split; [intros; lia|auto]|].
  destruct (IH (S s) ltac:(lia) ltac:(lia)) as (e & H1 & H2 & H3). exists e. split; [lia|]. split; [|exact H3].
  intros i Hi. destruct (Nat.eq_dec i (S s)) as [->|Hne]; [exact Ep|apply H2; lia].
Qed.
Lemma span_last (ds : list Z) : forall s k, (s + k < length ds)%nat -> (forall i, (s <= i < s + k)%nat -> nth i ds 0 = 0) ->
  zsum (firstn (S k) (skipn s ds)) = nth (s + k) ds 0.
Proof.
  intros s k. revert s. induction k as [|k IH]; intros s Hl H.
  - destruct (skipn s ds) as [|d r] eqn:E; [apply (f_equal (@length Z)) in E; rewrite skipn_length in E; cbn in E; lia|].
    rewrite Nat.add_0_r, <- (firstn_skipn s ds), E. rewrite app_nth2; rewrite firstn_length_le by lia; [|lia]. rewrite Nat.sub_diag. cbn. lia.
  - assert (E : skipn s ds = nth s ds 0 :: skipn (S s) ds).
    { clear -Hl. revert s Hl. induction ds as [|d r IHd]; intros s Hl; [cbn in Hl; lia|]. destruct s; [reflexivity|]. cbn [skipn nth]. apply IHd. cbn [length] in Hl. lia. }
    rewrite E. change (zsum (firstn (S (S k)) (nth s ds 0 :: skipn (S s) ds))) with (nth s ds 0 + zsum (firstn (S k) (skipn (S s) ds))).
    rewrite IH by (try lia; intros i Hi; apply H; lia). rewrite H by lia. replace (S s + k)%nat with (s + S k)%nat by lia. lia.
Qed.
Lemma stepwise cfg a rs logs rj : well_shaped a -> min_change cfg <= max_no_change cfg -> get_chord_ranges cfg a = Ok (rs, logs, rj) ->
  forced_c a = repeat (-1) (length (probs a)) -> forced_k a = repeat (-1) (length (probs a)) ->
  (forall i, onset_at a i -> min_change cfg <= nth i (probs a) 0) ->
  (forall d, In d (Model_Ranges.durs a) -> 0 <= d <= max_length cfg) -> 2 * nth 0 (Model_Ranges.durs a) 0 <= max_length cfg ->
  Spec_Total.covered rs 0 (length (probs a)).
Proof.
  intros Hw Hc Er Fc Fk Hp Hd H0. assert (Ld : length (Model_Ranges.durs a) = length (probs a)) by apply Hw.
  set (n := length (probs a)) in *.
  assert (one : forall s e, one_label a (forced_c a) s e /\ one_label a (forced_k a) s e).
  { intros s e. rewrite Fc, Fk. split; intros i k _ _ _ _ Hi _; exfalso; apply Hi, nth_repeat. }
  assert (H : forall d s, (n - s <= d)%nat -> (s <= n)%nat -> (s = 0 \/ exists s', In (s', s) rs)%nat -> Spec_Total.covered rs 0 s -> Spec_Total.covered rs 0 n).
  { induction d as [|d IH]; intros s Hm Hs Hr Hcov; [replace n with s by lia; exact Hcov|]. destruct (Nat.eq_dec s n) as [E|E]; [rewrite <- E; exact Hcov|].
    destruct (next_onset (fun i => negb (nth (i - 1) (Model_Ranges.durs a) 0 =? 0)) n (n - s) s (le_n _) ltac:(lia)) as (e & He & Hin & Hlast).
    assert (Hz : forall i, (s < i < e)%nat -> nth (i - 1) (Model_Ranges.durs a) 0 = 0).
    { intros i Hi. apply Hin in Hi. apply negb_false_iff, Z.eqb_eq in Hi. exact Hi. }
    assert (Hadm : admissible cfg a s e).
    { split; [exact He|]. split.
      { intros Hlt. assert (On : onset_at a e) by (split; [fold n; lia|]; apply Hlast in Hlt; apply negb_true_iff, Z.eqb_neq in Hlt; exact Hlt).
        split; [exact On|]. exact (Hp e On). }
      split; [intros i [_ On] Hi; exfalso; apply On, Hz; exact Hi|]. split; [apply one|]. split; [apply one|].
      intros i [Hi1 On] Hi. assert (i = e) by (destruct (Nat.eq_dec i e); [assumption|exfalso; apply On, Hz; lia]). subst i. fold n in Hi1.
      assert (Hsp : span a s e = nth (e - 1) (Model_Ranges.durs a) 0).
      { unfold span. replace (e - s)%nat with (S (e - 1 - s)) by lia. rewrite span_last; [f_equal; lia|lia|].
        intros i Hi2. specialize (Hz (S i) ltac:(lia)). replace (S i - 1)%nat with i in Hz by lia. exact Hz. }
      assert (Hb : 0 <= nth (e - 1) (Model_Ranges.durs a) 0 <= max_length cfg) by (apply Hd, nth_In; lia).
      unfold counted. rewrite Hsp. destruct (s =? 0)%nat eqn:Es; [|lia]. apply Nat.eqb_eq in Es. subst s.
      destruct (Nat.eq_dec e 1) as [->|Hne]; [cbn [Nat.sub] in *; lia|]. assert (Z1 := Hz 1%nat ltac:(lia)). cbn [Nat.sub] in Z1. lia. }
    assert (Hi : In (s, e) rs).
    { apply (C26_exact cfg a rs logs rj Hw Hc Er). split; [|exact Hadm]. destruct Hr as [Hr|(s' & Hr)]; [left; exact Hr|right]. exists s'. split; [exact Hr|]. fold n. lia. }
    apply (IH e); [lia|lia|right; exists s; exact Hi|]. exact (covered_more _ _ _ _ Hcov Hi). }
  apply (H n 0%nat); [lia|lia|left; reflexivity|constructor].
Qed.

(* ---- a piece the model can work on ---- *)
Section Works.
Variables (models : list (pystr * component)) (p : params) (j : joint) (scale dscale : Q -> Z).
Hypothesis Hj : HarmonicInferenceModel models p = Ok j.
Hypothesis Hkind : one_kind j.
Hypothesis Hfull : full_models j.
Hypothesis Hbeam : 1 <= beam_size p.
Hypothesis Hbranch : 1 <= max_chord_branching_factor p.
Hypothesis Hscale : forall a b, (a <= b)%Q -> scale a <= scale b.
Hypothesis Hinv : cs_out_inv (j_csm j) = true -> forall t, positions t <= positions (cs_out_red (j_csm j) t).
Variables (w : networks) (o : oracle) (lv : list Z) (x : subject).
Hypothesis W : workable scale dscale j w o lv x.
Notation cfg := (ranges_cfg_of scale dscale j).
Notation ds := (map dscale (sj_durs x)).
Notation g := (cfg_of scale j).

Lemma works_params : j_params j = p.
Proof. destruct (C96_object _ _ _ Hj) as (_ & _ & _ & _ & _ & E & _). exact E. Qed.
Lemma works_cfg : min_change cfg <= max_no_change cfg.
Proof.
  cbn [ranges_cfg_of min_change max_no_change]. assert (E := works_params). assert (H := Hj).
  apply joint_made in H as (? & ? & ? & ? & ? & ? & _ & _ & [Hle _] & _). apply Hscale. rewrite E. exact Hle.
Qed.
Lemma works_notes : length (sj_durs x) = length (p_notes (sj_piece x)).
Proof.
  destruct (wk_durs _ _ _ _ _ _ _ W) as (last & ms & E). unfold get_duration_cache in E. apply mapM_ok, Forall2_len in E. rewrite combine_length, map_length in E.
  destruct (p_notes (sj_piece x)) as [|n0 ns]; [cbn in E |- *; lia|]. cbn [map tl] in E. rewrite app_length, map_length in E. cbn [length] in *. lia.
Qed.
Lemma works_some : sj_durs x <> [].
Proof. intros E. assert (L0 := works_notes). rewrite E in L0. apply (wk_notes _ _ _ _ _ _ _ W). now apply length_zero_iff_nil. Qed.
Lemma works_shaped : well_shaped (plain_in w ds).
Proof.
  assert (L0 := wk_change _ _ _ _ _ _ _ W). unfold well_shaped. cbn [probs change_log no_change_log Model_Ranges.durs forced_c forced_k].
  rewrite !repeat_length, !map_length. repeat split; congruence.
Qed.
Lemma works_ranges : exists rs logs rj, get_chord_ranges cfg (plain_in w ds) = Ok (rs, logs, rj)
  /\ length logs = length rs /\ length rj = length rs /\ valid_ranges rs (length ds).
Proof.
  destruct (C25_succeeds cfg (plain_in w ds) works_shaped works_cfg) as (rs & logs & rj & E & L1 & L2).
  { cbn [probs]. intros E. assert (L0 := wk_change _ _ _ _ _ _ _ W). rewrite E in L0. apply works_some. now apply length_zero_iff_nil. }
  exists rs, logs, rj. split; [exact E|]. split; [exact L1|]. split; [exact L2|].
  destruct (C25_tiles _ _ _ _ _ works_shaped works_cfg E) as (_ & H & _). intros a b Hab. destruct (H a b Hab) as (H1 & _). cbn [probs] in H1.
  rewrite (wk_change _ _ _ _ _ _ _ W) in H1. rewrite map_length. exact H1.
Qed.
Lemma works_searchable rs : valid_ranges rs (length ds) -> searchable g o (plain_piece ds lv) rs (n_classify w rs).
Proof.
  intros V. destruct (C96_object _ _ _ Hj) as (_ & _ & _ & Hc & _). assert (Ep := works_params).
  constructor.
  - apply (C96_well_formed _ _ _ scale _ _ _ _ Hj Hkind Hfull (wk_outputs _ _ _ _ _ _ _ W rs)); try assumption.
    constructor; cbn [p_durs p_levels p_forced_k p_forced_c]; rewrite ?map_length, ?repeat_length.
    + intros E. apply works_some. destruct (sj_durs x); [reflexivity|discriminate].
    + exact (wk_levels _ _ _ _ _ _ _ W).
    + split; [reflexivity|]. intros k Hk. left. exact (repeat_spec _ _ _ Hk).
    + intros k Hk. left. exact (repeat_spec _ _ _ Hk).
    + rewrite map_length in V. exact V.
    + exact (wk_sort _ _ _ _ _ _ _ W).
  - exact Hinv.
  - intros c Ht. cbn [cfg_of g_cpt]. rewrite Hc. destruct Ht as [[Hc2 Hc1]|(row & rank & Hr & Hl & En)].
    + cbn [p_forced_c] in Hc1. apply repeat_spec in Hc1. contradiction.
    + exact (wk_bass _ _ _ _ _ _ _ W rs row rank c Hr Hl En).
Qed.

Notation infer1 := (get_harmony g cfg w o ds lv no_forces).
Lemma works_returns : exists r, infer1 = Ok r.
Proof.
  rewrite harmony_plain. destruct works_ranges as (rs & logs & rj & -> & _ & _ & V). cbn [bind].
  exact (C75_returns _ _ _ _ logs rj _ (works_searchable rs V)).
Qed.

Lemma works_table s : infer1 = Ok (Some s) -> exists rows, get_annotation (sj_piece x) (sj_durs x) s (cs_out (j_csm j)) (ks_out (j_ksm j)) = Ok rows
  /\ analysis (cs_out (j_csm j)) (ks_out (j_ksm j)) x rows.
Proof.
  intros E. assert (Hinf : inferred g cfg w o ds lv no_forces s).
  { split; [cbn; rewrite works_params; exact Hbeam|]. split; [exact works_cfg|]. split; [rewrite map_length; exact (wk_change _ _ _ _ _ _ _ W)|].
    split; [split; [intros c []|intros a b y []]|exact E]. }
  assert (Hon := C70_onsets _ _ _ _ _ _ _ _ Hinf). rewrite harmony_plain in E. destruct works_ranges as (rs & logs & rj & Er & _ & _ & V). rewrite Er in E. cbn [bind] in E.
  assert (Hs := works_searchable rs V). destruct (result_labels _ _ _ _ _ _ _ _ Hs E) as (Lc & Lk & Hincl).
  destruct (C96_object _ _ _ Hj) as (_ & _ & _ & Hc & Hk & _). cbn [cfg_of g_cpt g_kpt] in Lc, Lk. rewrite Hc in Lc. rewrite Hk in Lk.
  set (rt := cs_out (j_csm j)) in *. set (tt0 := ks_out (j_ksm j)) in *.
  assert (Lc' : Forall (fun c => exists e, c = Some e /\ 0 <= e < get_chord_vector_length rt true false true false NO_REDUCTION) (fst (get_chords s))).
  { replace (get_chord_vector_length rt true false true false NO_REDUCTION) with (chord_count rt) by (destruct rt; vm_compute; reflexivity). exact Lc. }
  destruct (C41_defined (sj_piece x) (sj_durs x) s rt tt0 Lc' Lk) as (rows & Erows). exists rows. split; [exact Erows|].
  assert (Sc := C29_chords _ _ (plain_piece ds lv) _ _ _ _ _ (proj1 Hinf) V E). assert (Sk := C29_keys _ _ (plain_piece ds lv) _ _ _ _ _ (proj1 Hinf) V E).
  cbn [p_durs] in Sc, Sk. destruct (wk_durs _ _ _ _ _ _ _ W) as (last & ms & Ed).
  assert (Nn := works_notes). assert (Nd : length ds = length (p_notes (sj_piece x))) by (rewrite map_length; exact Nn).
  destruct (C41_lossless _ _ _ _ _ _ _ _ Erows Ed (wk_order _ _ _ _ _ _ _ W)) as (cl & kl & Ecl & Ekl & Hread).
  { destruct (get_chords s). rewrite <- Nd. tauto. }
  { destruct (get_keys s). rewrite <- Nd. tauto. }
  destruct (C05_chord_labels_aligned rt true false None false NO_REDUCTION) as (cl' & Ecl' & Lcl & _). rewrite Ecl in Ecl'. apply Ok_inj in Ecl'. subst cl'.
  destruct (C05_key_labels_aligned tt0 false None) as (kl' & Ekl' & Lkl & _). rewrite Ekl in Ekl'. apply Ok_inj in Ekl'. subst kl'.
  destruct (get_chords s) as [chords cc], (get_keys s) as [keys kc]. cbn [fst snd] in *. destruct Sc as (Sc & _ & Nc). destruct Sk as (Sk & Nk & _).
  destruct Hon as (_ & Hon). rewrite Nd in Sc, Sk, Hon. clear E Hinf Er V Hs Lc'.
  set (un := fun c : option Z => match c with Some e => e | None => -1 end).
  assert (Hun : forall k e, nth_error (map un chords) k = Some e -> nth_error chords k = Some (Some e)).
  { intros k e H. rewrite nth_error_map in H. destruct (nth_error chords k) as [c|] eqn:Ec; [|discriminate]. cbn in H.
    rewrite Forall_forall in Lc. destruct (Lc c (nth_error_In _ _ Ec)) as (e' & -> & _). cbn in H. injection H as <-. reflexivity. }
  exists cl, kl, (map un chords), cc, keys, kc. split; [exact Ecl|]. split; [exact Ekl|]. split.
  { unfold segmentation in *. rewrite map_length. exact Sc. }
  split; [exact Sk|]. split.
  { intros k a b Ha Hb Eab. apply (Nc k (Some a) (Some b)); [exact (Hun _ _ Ha)|exact (Hun _ _ Hb)|congruence]. }
  split; [exact Nk|]. split.
  { intros i Hi Hlt. assert (Hi' : In i cc) by (apply in_app_iff in Hi as [Hi|Hi]; [exact Hi|exact (Hincl i Hi)]).
    assert (Hz := Hon i Hi' Hlt). assert (Hin : In (nth (i - 1) (sj_durs x) 0%Q) (sj_durs x)) by (apply nth_In; lia).
    intros D. apply Hz. apply (wk_scaled _ _ _ _ _ _ _ W _ Hin) in D. etransitivity; [|exact D]. rewrite (nth_indep ds 0 (dscale 0%Q)) by (rewrite map_length; lia). apply map_nth. }
  intros i n Hn. assert (Hi : (i < length (p_notes (sj_piece x)))%nat) by (apply nth_error_Some; congruence).
  destruct (segment_at _ _ _ Sc i Hi) as (c & Hce). destruct (segment_at _ _ _ Sk i Hi) as (f & Hf).
  assert (He : exists e, c = Some e /\ 0 <= e < chord_count rt).
  { destruct Hce as (k & a & b & H1 & _). rewrite Forall_forall in Lc. exact (Lc c (nth_error_In _ _ H1)). }
  destruct He as (e & -> & He).
  assert (Hfb : 0 <= f < key_count tt0). { destruct Hf as (k & a & b & H1 & _). rewrite Forall_forall in Lk. exact (Lk f (nth_error_In _ _ H1)). }
  assert (Hct : exists chord, nth_error cl (Z.to_nat e) = Some chord).
  { destruct (nth_error cl (Z.to_nat e)) eqn:E1; [eauto|]. apply nth_error_None in E1. exfalso.
    replace (get_chord_vector_length rt true false true false NO_REDUCTION) with (chord_count rt) in Lcl by (destruct rt; vm_compute; reflexivity). unfold zlen in Lcl. lia. }
  assert (Hkt : exists key, nth_error kl (Z.to_nat f) = Some key).
  { destruct (nth_error kl (Z.to_nat f)) eqn:E1; [eauto|]. apply nth_error_None in E1. exfalso. change (2 * pitch_count tt0) with (key_count tt0) in Lkl. unfold zlen in Lkl. lia. }
  destruct Hct as (chord & Hct), Hkt as (key & Hkt). exists e, f, chord, key. split.
  { destruct Hce as (k & a & b & H1 & H2). exists k, a, b. split; [|exact H2]. rewrite nth_error_map, H1. reflexivity. }
  split; [exact Hf|]. split; [lia|]. split; [lia|]. split; [exact Hct|]. split; [exact Hkt|]. intros D.
  assert (Hd : nth_error (sj_durs x) i = Some (nth i (sj_durs x) 0%Q)) by (apply nth_error_nth'; lia).
  destruct (Hread i n _ e f Hn Hd D) as (chord' & key' & H1 & H2 & H3 & H4); try lia; try assumption.
  rewrite Hct in H1. rewrite Hkt in H2. apply Some_inj in H1, H2. subst chord' key'. split; assumption.
Qed.

Lemma works_found : cs_out (j_csm j) = MIDI -> divisible scale dscale j w x -> exists s, infer1 = Ok (Some s).
Proof.
  intros Hm (D1 & D2 & D3). rewrite harmony_plain. destruct works_ranges as (rs & logs & rj & Er & L1 & L2 & V). rewrite Er. cbn [bind].
  destruct (C96_object _ _ _ Hj) as (_ & _ & _ & Hc & _). assert (Ep := works_params).
  assert (Lw : length (n_change w) = length ds) by (rewrite map_length; exact (wk_change _ _ _ _ _ _ _ W)).
  apply (C76_found_partial _ _ (plain_piece ds lv) rs logs rj _ (works_searchable rs V)); try assumption.
  - cbn. rewrite Hc. exact Hm.
  - cbn. rewrite Ep. assert (H := Hj). apply joint_made in H as (? & ? & ? & ? & ? & ? & _ & _ & [_ Hle] & _). apply Hscale. exact Hle.
  - exact (wk_classify _ _ _ _ _ _ _ W rs).
  - cbn [p_durs]. rewrite <- Lw. change (length (n_change w)) with (length (probs (plain_in w ds))).
    apply (stepwise cfg (plain_in w ds) rs logs rj works_shaped works_cfg Er).
    + cbn [forced_c probs]. rewrite Lw. reflexivity.
    + cbn [forced_k probs]. rewrite Lw. reflexivity.
    + intros i [H1 H2]. cbn [probs Model_Ranges.durs] in *. rewrite Lw in H1. exact (D1 i H1 H2).
    + exact D2.
    + exact D3.
Qed.
End Works.
