(* C99, from the models on: a run of the evaluation script with models that the constructor accepts. *)
From Coq Require Import QArith Qround String Ascii Permutation.
From Verif Require Import Model_Strings Model_Rhythm Model_Piece Model_Runs Model_Output Model_Tables Model_Log Model_Infer Model_Models Model_Script Model_Annotate
  Spec_Music Spec_Piece Spec_Search Spec_Ranges Spec_Total Spec_Models Spec_Infer Spec_Eval Spec_Output Spec_Runs Spec_Annotate Spec_Script
  Proof_Base Proof_Script Proof_Models Proof_Annotate Prop_Eval Prop_Output Prop_Total Prop_Models Prop_Piece Prop_Script Prop_Annotate.
From Coq Require Import List Lia.
Import ListNotations.
Close Scope Q_scope.
Open Scope Z_scope.

Lemma works_labels models p j scale dscale : HarmonicInferenceModel models p = Ok j -> one_kind j -> full_models j ->
  1 <= beam_size p -> 1 <= max_chord_branching_factor p -> (forall a b, (a <= b)%Q -> scale a <= scale b) ->
  (cs_out_inv (j_csm j) = true -> forall t, positions t <= positions (cs_out_red (j_csm j) t)) ->
  forall w o lv x, workable scale dscale j w o lv x -> forall s,
  get_harmony (cfg_of scale j) (ranges_cfg_of scale dscale j) w o (map dscale (sj_durs x)) lv no_forces = Ok (Some s) ->
  Forall (fun c => exists e, c = Some e /\ 0 <= e < chord_count (cs_out (j_csm j))) (fst (get_chords s)) /\
  Forall (fun k => 0 <= k < key_count (ks_out (j_ksm j))) (fst (get_keys s)).
Proof.
  intros Hj Hk Hf Hb Hm Hs Hi w o lv x W s E. rewrite harmony_plain in E.
  destruct (works_ranges models p j scale dscale Hj Hs w o lv x W) as (rs & logs & rj & Er & _ & _ & V). rewrite Er in E. cbn [bind] in E.
  assert (Sb := works_searchable models p j scale dscale Hj Hk Hf Hb Hm Hi w o lv x W rs V). destruct (result_labels _ _ _ _ _ _ _ _ Sb E) as (Lc & Lk & _).
  destruct (C96_object _ _ _ Hj) as (_ & _ & _ & Ec & Ek & _). cbn [cfg_of g_cpt g_kpt] in Lc, Lk. rewrite Ec in Lc. rewrite Ek in Lk. split; assumption.
Qed.

(* Models of spelled pitches that the constructor accepts and that distinguish what they are about, and annotated
   pieces they can work on: a run without forces comes to its end, verbose or not.  Each piece has no result, or its
   accuracies, in their order, and its tables. *)
Theorem C99_model models p j scale dscale nets orc levels said text_of infer verbose state_lines table_lines dir l :
  HarmonicInferenceModel models p = Ok j -> one_kind j -> full_models j -> 1 <= beam_size p -> 1 <= max_chord_branching_factor p ->
  (forall a b, (a <= b)%Q -> scale a <= scale b) ->
  (cs_out_inv (j_csm j) = true -> forall t, positions t <= positions (cs_out_red (j_csm j) t)) ->
  CHORD_OUTPUT_TYPE j = TPC ->
  (forall x, In x l -> workable scale dscale j (nets x) (orc x) (levels x) x) ->
  (forall x, In x l -> sj_annotated x = true /\ ~ (total (sj_durs x) == 0)%Q /\ Forall (fun d => 0 <= d)%Q (sj_durs x) /\
     exists ts red ui ur us note_rows rows, get_score_piece ts red ui ur us note_rows rows = Ok (sj_piece x) /\
       Forall (fun k => 0 <= k_rel k < 35) (p_keys (sj_piece x))) ->
  (forall x, infer x [] = (said x, infer_with scale dscale j nets orc levels x)) ->
  exists es ws,
    run_pieces text_of infer (CHORD_OUTPUT_TYPE j) (KEY_OUTPUT_TYPE j) verbose state_lines table_lines [] [] dir l = (es, None) /\
    Forall2 (fun x w =>
      match w with
      | NoResult => infer_with scale dscale j nets orc levels x = Ok None
      | Result accs t => exists s, infer_with scale dscale j nets orc levels x = Ok (Some s) /\
          measured (CHORD_OUTPUT_TYPE j) (KEY_OUTPUT_TYPE j) x s accs /\ graded accs /\
          tabled (CHORD_OUTPUT_TYPE j) (KEY_OUTPUT_TYPE j) x s t
      end) l ws /\
    files_written es = evaluate_files dir (combine (map sj_name l) (map tables_of ws)).
Proof.
  intros Hj Hk Hf Hb Hm Hs Hi Ht Hw Hl Hinf. destruct (C96_object _ _ _ Hj) as (_ & _ & _ & Ec & Ek & _).
  assert (Kt : KEY_OUTPUT_TYPE j = TPC) by (rewrite Ek, (ok_keys _ Hk), <- Ec; exact Ht).
  assert (Ch : forall n, choose_forces [] [] n = Ok []) by (intros [n|]; reflexivity).
  assert (R : exists es, run_pieces text_of infer TPC TPC verbose state_lines table_lines [] [] dir l = (es, None)).
  { set (inf2 := fun (x : subject) (f : list (pystr * force)) => (said x, infer_with scale dscale j nets orc levels x)).
    destruct (C99_defined text_of inf2 verbose state_lines table_lines [] [] dir l) as (es & E).
    - intros key [].
    - intros x Hx. destruct (Hl x Hx) as (A & T & _ & ts & red & ui & ur & us & nr & rows & G & K). split; [exact A|]. split; [exact T|].
      exists ts, red, ui, ur, us, nr, rows. split; [exact G|]. split; [exact (wk_notes _ _ _ _ _ _ _ (Hw x Hx))|exact K].
    - intros x f Hx. destruct (works_returns models p j scale dscale Hj Hk Hf Hb Hm Hs Hi _ _ _ x (Hw x Hx)) as (r & Er). exists (said x), r. split.
      + unfold inf2, infer_with. now rewrite Er.
      + intros s ->. destruct (works_labels models p j scale dscale Hj Hk Hf Hb Hm Hs Hi _ _ _ x (Hw x Hx) s Er) as [Lc Lk].
        rewrite <- Ec, Ht in Lc. rewrite <- Ek, Kt in Lk. split; [exact Lc|exact Lk].
    - exists es. rewrite <- E. clear -Hinf Ch. induction l as [|x r IH]; [reflexivity|]. cbn [run_pieces].
      assert (P : run_piece text_of infer TPC TPC verbose state_lines table_lines [] [] dir x = run_piece text_of inf2 TPC TPC verbose state_lines table_lines [] [] dir x).
      { unfold run_piece. rewrite Ch. cbn [after]. rewrite Hinf. reflexivity. }
      rewrite P, IH. reflexivity. }
  destruct R as (es & E). rewrite Ht, Kt. destruct (C99_run _ _ _ _ _ _ _ _ _ _ _ _ E) as (ws & F & Ef). exists es, ws. split; [exact E|]. split; [|exact Ef].
  clear E Ef. induction F as [|x w r ws A F IH]; [constructor|]. constructor; [|apply IH; intros y Hy; [apply Hw|apply Hl]; right; exact Hy].
  destruct A as (f & sd & o & Hc & Hio & A). rewrite Ch in Hc. apply Ok_inj in Hc. subst f. rewrite Hinf in Hio. apply pair_equal_spec in Hio as [_ Hio].
  destruct w as [|accs t]; [subst o; exact Hio|]. destruct A as (s & -> & An & Ms & Tb). exists s. split; [exact Hio|]. split; [exact Ms|]. split; [|exact Tb].
  destruct (Hl x (or_introl eq_refl)) as (_ & _ & D & _).
  exact (measured_graded TPC TPC x s accs (works_notes j scale dscale _ _ _ x (Hw x (or_introl eq_refl))) D Ms).
Qed.
Print Assumptions C99_model.

(* ---- a case meeting the hypotheses: six notes of a loaded score (C40_example), models of spelled pitches ---- *)
Definition loaded_piece : subject := Subject (Some (L"0: corpus/a.tsv")) true p1 durs1.
Definition loaded_nets : networks :=
  {| n_change := [0; 0; 90; 90; 0; 90]; n_one := 100; n_log := fun z => z - 100; n_log_not := fun z => - z; n_classify := fun rs => rowst TPC (length rs);
     n_inv := true; n_red := NO_REDUCTION |}.
Example C99_model_ex : exists j, HarmonicInferenceModel (the_models TPC TPC TPC true false) default_params = Ok j
  /\ one_kind j /\ full_models j /\ CHORD_OUTPUT_TYPE j = TPC
  /\ (cs_out_inv (j_csm j) = true -> forall t, positions t <= positions (cs_out_red (j_csm j) t))
  /\ workable in_percent in_eighths j loaded_nets (ot TPC NO_REDUCTION) [3; 3; 2; 3; 2; 3; 2] loaded_piece
  /\ (sj_annotated loaded_piece = true /\ ~ (total (sj_durs loaded_piece) == 0)%Q /\ Forall (fun d => 0 <= d)%Q (sj_durs loaded_piece) /\
     exists ts red ui ur us note_rows rows, get_score_piece ts red ui ur us note_rows rows = Ok (sj_piece loaded_piece) /\
       Forall (fun k => 0 <= k_rel k < 35) (p_keys (sj_piece loaded_piece))).
Proof.
  destruct (the_joint TPC TPC TPC true false) as (j & H & E1 & E2 & E3 & E4 & E5 & E6). exists j. split; [exact H|].
  split; [constructor; congruence|]. split; [apply (the_full _ _ _ _ _ H); discriminate|].
  apply joint_made in H as (cc & ct & cs & kt & ks & ic & (L1 & L2 & L3 & L4 & L5 & L6) & _ & _ & ->).
  cbn in L1, L3, L5, L6. apply Some_inj in L1, L3, L5, L6. injection L1 as <-. injection L3 as <-. injection L5 as <-. injection L6 as <-.
  split; [reflexivity|]. split; [intros _ t; destruct t; cbn; lia|]. split.
  - constructor.
    + discriminate.
    + exists (2, 1%Q), [mkM 0 1 0 (NextMc 1); mkM 1 1 0 (NextMc 2); mkM 2 1 0 NextNone]. vm_compute. reflexivity.
    + vm_compute. intuition discriminate.
    + intros d Hd. repeat (destruct Hd as [<-|Hd]; [vm_compute; intuition discriminate|]). destruct Hd.
    + reflexivity.
    + intros rs. apply repeat_length.
    + intros rs. constructor; cbn [j_ccm j_csm j_ksm j_icm].
      * intros row Hr. apply repeat_spec in Hr. subst row. vm_compute. reflexivity.
      * intros st l i. vm_compute. reflexivity.
      * intros st l i. vm_compute. reflexivity.
      * intros []; vm_compute; reflexivity.
    + split; [reflexivity|]. intros l Hl. repeat (destruct Hl as [<-|Hl]; [lia|]). destruct Hl.
    + intros l. reflexivity.
    + intros rs row rank c Hr Hl E. apply repeat_spec in Hr. subst row. cbn in Hl. intros _ root t inv f E' Ef.
      destruct rank as [|[|[|[|[|rank]]]]]; [..|lia]; vm_compute in E; injection E as <-; vm_compute in E'; injection E' as <- <- <-; injection Ef as <-; lia.
  - split; [reflexivity|]. split; [vm_compute; discriminate|]. split; [repeat (apply Forall_cons; [vm_compute; discriminate|]); apply Forall_nil|].
    exists ts44, (fun t => t), true, false, false, notes1, rows1. split; [vm_compute; reflexivity|]. vm_compute. repeat (apply Forall_cons; [split; [discriminate|reflexivity]|]). apply Forall_nil.
Qed.
