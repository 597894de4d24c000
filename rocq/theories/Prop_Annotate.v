(* C100: a run of the annotation script over a list of pieces, from the models to the tables. *)
From Coq Require Import QArith Qround String Ascii Permutation.
From Verif Require Import Model_Strings Model_Rhythm Model_Piece Model_Output Model_Tables Model_Log Model_Infer Model_Models Model_Annotate
  Spec_Music Spec_Piece Spec_Search Spec_Ranges Spec_Total Spec_Models Spec_Infer Spec_Eval Spec_Output Spec_Annotate
  Proof_Base Proof_Script Proof_Annotate Prop_Eval Prop_Output Prop_Total Prop_Models Proof_Models.
From Coq Require Import List Lia.
Import ListNotations.
Close Scope Q_scope.
Open Scope Z_scope.

Notation annotate infer rt tt verbose state_lines table_lines dir l :=
  (annotate_subjects infer rt tt verbose state_lines table_lines dir l).

Lemma files_annotation verbose table_lines dir x rows :
  files_written (write_annotation verbose table_lines dir x rows) = annotate_piece dir (sj_name x) (Some (TAnnotation rows)).
Proof.
  unfold write_annotation, annotate_piece. destruct (sj_name x); [destruct dir|]; [reflexivity| |]; destruct verbose; try apply files_of_lines; reflexivity.
Qed.
Lemma files_start x said : files_written ((match sj_name x with None => [] | Some name => [info (L"Running piece " ++ name)] end) ++ map Line said) = [].
Proof. rewrite files_app, files_of_lines. destruct (sj_name x); reflexivity. Qed.
Lemma subject_done infer rt tt verbose sl tl dir x es : annotate_subject infer rt tt verbose sl tl dir x = (es, None) ->
  exists w, answered infer rt tt x w /\ files_written es = annotate_piece dir (sj_name x) (option_map TAnnotation w).
Proof.
  unfold annotate_subject. destruct (infer x) as [said r] eqn:Ei. intros H. apply after_done in H as (o & es1 & -> & H & ->). rewrite files_app, files_start. cbn [app].
  destruct o as [s|].
  - apply after_done in H as (entries & es2 & Hl & H & ->). apply after_done in H as (rows & es3 & Hr & H & ->). apply pair_equal_spec in H as [<- _].
    exists (Some rows). split; [exists s; rewrite Ei; split; [reflexivity|exact Hr]|]. cbn [app]. rewrite files_app, files_annotation.
    replace (files_written (if verbose then map Line (sl entries) else [])) with (@nil (fpath * table)) by (destruct verbose; [symmetry; apply files_of_lines|reflexivity]).
    reflexivity.
  - apply pair_equal_spec in H as [<- _]. exists None. split; [cbn; rewrite Ei; reflexivity|]. destruct (sj_name x), dir; reflexivity.
Qed.
Lemma subject_stops infer rt tt verbose sl tl dir x es e : annotate_subject infer rt tt verbose sl tl dir x = (es, Some e) -> files_written es = [].
Proof.
  unfold annotate_subject. destruct (infer x) as [said r] eqn:Ei. unfold after at 1. destruct r as [o|e0]; [|intros H; apply pair_equal_spec in H as [<- _]; apply files_start].
  assert (G : forall es1 e1, match o with None => ([info (L"Returned None")], None) | Some s =>
      after [] (if verbose then if sj_annotated x then log_state (sj_piece x) (sj_durs x) s rt tt else Raise TypeError else Ok []) (fun entries =>
      after (if verbose then map Line (sl entries) else []) (get_annotation (sj_piece x) (sj_durs x) s rt tt) (fun rows => (write_annotation verbose tl dir x rows, None)))
      end = (es1, Some e1) -> files_written es1 = []).
  { intros es1 e1. destruct o as [s|]; [|discriminate]. unfold after.
    destruct (if verbose then if sj_annotated x then log_state (sj_piece x) (sj_durs x) s rt tt else Raise TypeError else Ok []) as [entries|]; [|intros H; apply pair_equal_spec in H as [<- _]; reflexivity].
    destruct (get_annotation _ _ _ _ _); intros H; apply pair_equal_spec in H as [<- H]; [discriminate|]. destruct verbose; [apply files_of_lines|reflexivity]. }
  match goal with |- context [let (_, _) := ?m in _] => destruct m as [es1 e1] eqn:Em end. intros H. apply pair_equal_spec in H as [<- ->].
  rewrite files_app, files_start. exact (G es1 e eq_refl).
Qed.

(* A run that comes to its end: each piece has its table, or no result, and these tables are what is written. *)
Theorem C100_run infer rt tt verbose state_lines table_lines dir l : forall es,
  annotate infer rt tt verbose state_lines table_lines dir l = (es, None) ->
  exists ws, Forall2 (answered infer rt tt) l ws /\
    files_written es = annotate_files dir (combine (map sj_name l) (map (option_map TAnnotation) ws)).
Proof.
  induction l as [|x l IH]; intros es H; cbn [annotate_subjects] in H.
  - apply pair_equal_spec in H as [<- _]. exists []. split; [constructor|reflexivity].
  - destruct (annotate_subject infer rt tt verbose state_lines table_lines dir x) as [es1 [e|]] eqn:E1; [apply pair_equal_spec in H as [_ H]; discriminate|].
    destruct (annotate infer rt tt verbose state_lines table_lines dir l) as [es2 e2] eqn:E2. apply pair_equal_spec in H as [<- ->].
    destruct (IH _ eq_refl) as (ws & F & E). destruct (subject_done _ _ _ _ _ _ _ _ _ E1) as (w & A & Ew).
    exists (w :: ws). split; [constructor; assumption|]. rewrite files_app, Ew, E. reflexivity.
Qed.
Print Assumptions C100_run.

(* The log of such a run: with --verbose it has the lines about the state of every result; every file is announced. *)
Theorem C100_logged infer rt tt verbose state_lines table_lines dir l : forall es,
  annotate infer rt tt verbose state_lines table_lines dir l = (es, None) ->
  (forall x said s, In x l -> infer x = (said, Ok (Some s)) -> incl said (log_lines es) /\
     (verbose = true -> exists entries, log_state (sj_piece x) (sj_durs x) s rt tt = Ok entries /\ incl (state_lines entries) (log_lines es))) /\
  (forall p t, In (File p t) es -> In (info (L"Labels TSV written out to " ++ Model_Output.path_text p)) es).
Proof.
  induction l as [|x l IH]; intros es H; cbn [annotate_subjects] in H.
  - apply pair_equal_spec in H as [<- _]. split; [intros x said s []|intros p t []].
  - destruct (annotate_subject infer rt tt verbose state_lines table_lines dir x) as [es1 [e|]] eqn:E1; [apply pair_equal_spec in H as [_ H]; discriminate|].
    destruct (annotate infer rt tt verbose state_lines table_lines dir l) as [es2 e2] eqn:E2. apply pair_equal_spec in H as [<- ->].
    destruct (IH es2 eq_refl) as [I1 I2]. unfold annotate_subject in E1. destruct (infer x) as [said r] eqn:Ei.
    apply after_done in E1 as (o & es3 & -> & H & ->). split.
    + intros y said' s [<-|Iy] Ey.
      * rewrite Ei in Ey. apply pair_equal_spec in Ey as [<- Ey]. apply Ok_inj in Ey. subst o.
        apply after_done in H as (entries & es4 & Hl & H & ->). apply after_done in H as (rows & es5 & Hr & H & ->).
        rewrite !log_app, log_of_lines. split; [intros z Z; rewrite !in_app_iff; auto|]. intros ->. exists entries.
        destruct (sj_annotated x); [|discriminate]. split; [exact Hl|]. rewrite log_of_lines. intros z Z. rewrite !in_app_iff. auto.
      * destruct (I1 y said' s Iy Ey) as [J1 J2]. rewrite log_app. split; [intros z Z; apply in_app_iff; auto|].
        intros V. destruct (J2 V) as (entries & J3 & J4). exists entries. split; [exact J3|]. intros z Z. apply in_app_iff. auto.
    + intros p t J. apply in_app_iff in J as [J|J]; [|apply in_app_iff; right; exact (I2 p t J)]. apply in_app_iff. left.
      assert (NL : forall ls, ~ In (File p t) (map Line ls)). { intros ls K. apply in_map_iff in K as (z & Z & _). discriminate. }
      apply in_app_iff in J as [J|J].
      { exfalso. apply in_app_iff in J as [J|J]; [|exact (NL _ J)]. destruct (sj_name x); [destruct J as [J|[]]; discriminate|destruct J]. }
      apply in_app_iff. right. destruct o as [s|].
      2:{ apply pair_equal_spec in H as [<- _]. destruct J as [J|[]]. discriminate. }
      apply after_done in H as (entries & es4 & Hl & H & ->). apply after_done in H as (rows & es5 & Hr & H & ->). apply pair_equal_spec in H as [<- _].
      cbn [app] in *. apply in_app_iff in J as [J|J]; [exfalso; destruct verbose; [exact (NL _ J)|destruct J]|]. apply in_app_iff. right.
      unfold write_annotation in *. destruct (annotate_piece _ _ _) as [|w ws].
      * exfalso. destruct verbose; [exact (NL _ J)|destruct J].
      * apply in_flat_map in J as (y & Iy & [J|[J|[]]]); [|discriminate]. injection J as <- <-. apply in_flat_map. exists y. split; [exact Iy|]. right. left. reflexivity.
Qed.
Print Assumptions C100_logged.

(* If the pieces are named as their scores are, and the names without directories differ (C90), the table of each
   piece is in its file at the end. *)
Theorem C100_files infer rt tt verbose state_lines table_lines dir ext (named : list (filed unit)) l es :
  well_named_flat ext named -> map sj_name l = map (fun y => Some (score_name (f_id y) (f_dirs y ++ [f_base y ++ ext]))) named ->
  annotate infer rt tt verbose state_lines table_lines (Some dir) l = (es, None) ->
  exists ws, Forall2 (answered infer rt tt) l ws /\
  forall p t, file_content (files_written es) p = Some t <->
    exists i y rows, nth_error named i = Some y /\ nth_error ws i = Some (Some rows) /\ t = TAnnotation rows /\ p = below dir [] (f_base y ++ L".tsv").
Proof.
  intros W Hn H. destruct (C100_run _ _ _ _ _ _ _ _ _ H) as (ws & F & E). exists ws. split; [exact F|].
  assert (Ln : List.length named = List.length ws).
  { apply (f_equal (@List.length _)) in Hn. rewrite !map_length in Hn. rewrite <- Hn. exact (Forall2_len _ _ _ F). }
  set (fl := map (fun yw : filed unit * option annotation => Filed table (f_id (fst yw)) (f_dirs (fst yw)) (f_base (fst yw)) (option_map TAnnotation (snd yw))) (combine named ws)).
  assert (Ef : combine (map sj_name l) (map (option_map TAnnotation) ws) = named_scores ext fl).
  { rewrite Hn. unfold fl, named_scores. clear -Ln. revert ws Ln. induction named as [|y named IH]; intros [|w ws] Ln; try discriminate; [reflexivity|].
    cbn [combine map fst snd f_id f_dirs f_base f_out]. f_equal. apply IH. cbn in Ln. lia. }
  assert (Nth : forall i x, nth_error fl i = Some x <-> exists y w, nth_error named i = Some y /\ nth_error ws i = Some w
     /\ x = Filed table (f_id y) (f_dirs y) (f_base y) (option_map TAnnotation w)).
  { unfold fl. clear. revert ws. induction named as [|a named IH]; intros ws i x.
    - cbn. split; [destruct i; discriminate|intros (y & w & Hy & _); destruct i; discriminate].
    - destruct ws as [|b ws]; [cbn; split; [destruct i; discriminate|intros (y & w & _ & Hw & _); destruct i; discriminate]|].
      destruct i as [|i]; [|exact (IH ws i x)]. cbn. split.
      + intros Hx. apply Some_inj in Hx. subst x. exists a, b. repeat split.
      + intros (y & w & Hy & Hw & ->). apply Some_inj in Hy, Hw. subst. reflexivity. }
  assert (Wf : well_named_flat ext fl).
  { destruct W as (W1 & W2 & W3). split; [exact W1|]. split.
    - intros x I. destruct (In_nth_error _ _ I) as (i & Hi). destruct (proj1 (Nth i x) Hi) as (y & w & Hy & _ & ->). cbn. apply W2. exact (nth_error_In _ _ Hy).
    - intros i k x x' Hi Hk. destruct (proj1 (Nth i x) Hi) as (y & w & Hy & _ & ->). destruct (proj1 (Nth k x') Hk) as (y' & w' & Hy' & _ & ->). cbn. exact (W3 i k y y' Hy Hy'). }
  rewrite E, Ef. intros p t. rewrite (C90_annotate dir ext fl Wf). split.
  - intros (x & I & Ho & ->). destruct (In_nth_error _ _ I) as (i & Hi). destruct (proj1 (Nth i x) Hi) as (y & w & Hy & Hw & ->). cbn in Ho |- *.
    destruct w as [rows|]; [|discriminate]. exists i, y, rows. apply Some_inj in Ho. auto.
  - intros (i & y & rows & Hy & Hw & -> & ->). eexists. split; [apply (nth_error_In _ i); apply Nth; exists y, (Some rows); split; [exact Hy|split; [exact Hw|reflexivity]]|].
    split; reflexivity.
Qed.
Print Assumptions C100_files.

(* A run that stops at a piece has written the tables of the pieces before it, and nothing else. *)
Theorem C100_stops infer rt tt verbose state_lines table_lines dir l : forall es e,
  annotate infer rt tt verbose state_lines table_lines dir l = (es, Some e) ->
  exists done_ x rest es1 ws, l = done_ ++ x :: rest /\
    snd (annotate_subject infer rt tt verbose state_lines table_lines dir x) = Some e /\
    annotate infer rt tt verbose state_lines table_lines dir done_ = (es1, None) /\ Forall2 (answered infer rt tt) done_ ws /\
    files_written es = annotate_files dir (combine (map sj_name done_) (map (option_map TAnnotation) ws)).
Proof.
  induction l as [|x l IH]; intros es e H; cbn [annotate_subjects] in H; [discriminate|].
  destruct (annotate_subject infer rt tt verbose state_lines table_lines dir x) as [es1 [e1|]] eqn:E1.
  - apply pair_equal_spec in H as [<- H]. apply Some_inj in H. subst e1. exists [], x, l, [], []. split; [reflexivity|]. rewrite E1. split; [reflexivity|].
    split; [reflexivity|]. split; [constructor|]. exact (subject_stops _ _ _ _ _ _ _ _ _ _ E1).
  - destruct (annotate infer rt tt verbose state_lines table_lines dir l) as [es2 e2] eqn:E2. apply pair_equal_spec in H as [<- ->].
    destruct (IH _ _ eq_refl) as (done_ & y & rest & es3 & ws & -> & Hy & Hd & F & E). destruct (subject_done _ _ _ _ _ _ _ _ _ E1) as (w & A & Ew).
    exists (x :: done_), y, rest, (es1 ++ es3), (w :: ws). split; [reflexivity|]. split; [exact Hy|]. split; [cbn [annotate_subjects]; rewrite E1, Hd; reflexivity|].
    split; [constructor; assumption|]. rewrite files_app, Ew, E. reflexivity.
Qed.
Print Assumptions C100_stops.

(* Models that the constructor accepts and that distinguish what they are about, and pieces they can work on: the run
   comes to its end, and each piece has no result, or a table that is an analysis of it. *)
Theorem C100_model models p j scale dscale nets orc levels said state_lines table_lines dir l :
  HarmonicInferenceModel models p = Ok j -> one_kind j -> full_models j -> 1 <= beam_size p -> 1 <= max_chord_branching_factor p ->
  (forall a b, (a <= b)%Q -> scale a <= scale b) ->
  (cs_out_inv (j_csm j) = true -> forall t, positions t <= positions (cs_out_red (j_csm j) t)) ->
  (forall x, In x l -> workable scale dscale j (nets x) (orc x) (levels x) x) ->
  let infer x := (said x, infer_with scale dscale j nets orc levels x) in
  exists es ws, annotate infer (CHORD_OUTPUT_TYPE j) (KEY_OUTPUT_TYPE j) false state_lines table_lines dir l = (es, None) /\
    Forall2 (fun x w => answered infer (CHORD_OUTPUT_TYPE j) (KEY_OUTPUT_TYPE j) x w /\
      match w with None => True | Some rows => analysis (CHORD_OUTPUT_TYPE j) (KEY_OUTPUT_TYPE j) x rows end) l ws /\
    files_written es = annotate_files dir (combine (map sj_name l) (map (option_map TAnnotation) ws)).
Proof.
  intros Hj Hk Hf Hb Hm Hs Hi Hw infer. destruct (C96_object _ _ _ Hj) as (_ & _ & _ & Ec & Ek & _). rewrite Ec, Ek.
  set (rt := cs_out (j_csm j)). set (tt0 := ks_out (j_ksm j)).
  assert (One : forall x, In x l -> exists es, annotate_subject infer rt tt0 false state_lines table_lines dir x = (es, None)).
  { intros x Hx. unfold annotate_subject, infer, infer_with. destruct (works_returns _ _ _ scale dscale Hj Hk Hf Hb Hm Hs Hi _ _ _ x (Hw x Hx)) as (r & Er). rewrite Er.
    unfold after. destruct r as [s|]; [|eexists; reflexivity].
    destruct (works_table _ _ _ scale dscale Hj Hk Hf Hb Hm Hs Hi _ _ _ x (Hw x Hx) s Er) as (rows & Hr & _). fold rt tt0 in Hr. rewrite Hr. eexists. reflexivity. }
  assert (All : exists es, annotate infer rt tt0 false state_lines table_lines dir l = (es, None)).
  { clear Hw. induction l as [|x r IH]; [eexists; reflexivity|]. cbn [annotate_subjects]. destruct (One x (or_introl eq_refl)) as (es1 & ->).
    destruct (IH (fun y Hy => One y (or_intror Hy))) as (es2 & ->). eexists. reflexivity. }
  destruct All as (es & E). destruct (C100_run _ _ _ _ _ _ _ _ _ E) as (ws & F & Ew). exists es, ws. split; [exact E|]. split; [|exact Ew].
  clear E Ew One. induction F as [|x w r ws A F IH]; [constructor|]. constructor; [|apply IH; intros y Hy; apply Hw; right; exact Hy].
  split; [exact A|]. destruct w as [rows|]; [|exact I]. destruct A as (s & Es & Hr). cbn in Es.
  destruct (works_table _ _ _ scale dscale Hj Hk Hf Hb Hm Hs Hi _ _ _ x (Hw x (or_introl eq_refl)) s Es) as (rows' & Hr' & An). fold rt tt0 in Hr', An.
  rewrite Hr in Hr'. apply Ok_inj in Hr'. subst rows'. exact An.
Qed.
Print Assumptions C100_model.

(* With pitches in semitones, a chord change allowed at every onset and no note longer than the longest chord, every
   piece has a table. *)
Theorem C100_found models p j scale dscale nets orc levels said state_lines table_lines dir l :
  HarmonicInferenceModel models p = Ok j -> one_kind j -> full_models j -> 1 <= beam_size p -> 1 <= max_chord_branching_factor p ->
  (forall a b, (a <= b)%Q -> scale a <= scale b) ->
  (cs_out_inv (j_csm j) = true -> forall t, positions t <= positions (cs_out_red (j_csm j) t)) ->
  CHORD_OUTPUT_TYPE j = MIDI ->
  (forall x, In x l -> workable scale dscale j (nets x) (orc x) (levels x) x /\ divisible scale dscale j (nets x) x) ->
  let infer x := (said x, infer_with scale dscale j nets orc levels x) in
  exists es tables, annotate infer (CHORD_OUTPUT_TYPE j) (KEY_OUTPUT_TYPE j) false state_lines table_lines dir l = (es, None) /\
    Forall2 (analysis (CHORD_OUTPUT_TYPE j) (KEY_OUTPUT_TYPE j)) l tables /\
    files_written es = annotate_files dir (combine (map sj_name l) (map (fun rows => Some (TAnnotation rows)) tables)).
Proof.
  intros Hj Hk Hf Hb Hm Hs Hi Ht Hw infer.
  destruct (C100_model models p j scale dscale nets orc levels said state_lines table_lines dir l Hj Hk Hf Hb Hm Hs Hi (fun x Hx => proj1 (Hw x Hx))) as (es & ws & E & F & Ef).
  fold infer in E, F. destruct (C96_object _ _ _ Hj) as (_ & _ & _ & Ec & _).
  assert (G : exists tables, ws = map Some tables /\ Forall2 (analysis (CHORD_OUTPUT_TYPE j) (KEY_OUTPUT_TYPE j)) l tables).
  { clear E Ef. induction F as [|x w r ws [A B] F IH]; [exists []; split; [reflexivity|constructor]|].
    destruct (IH (fun y Hy => Hw y (or_intror Hy))) as (tables & -> & Ft). destruct w as [rows|]; [exists (rows :: tables); split; [reflexivity|constructor; assumption]|].
    exfalso. destruct (Hw x (or_introl eq_refl)) as [W D]. rewrite Ec in Ht.
    destruct (works_found _ _ _ scale dscale Hj Hk Hf Hb Hm Hs Hi _ _ _ x W Ht D) as (s & Es). change (infer_with scale dscale j nets orc levels x = Ok None) in A. unfold infer_with in A. rewrite Es in A. discriminate. }
  destruct G as (tables & -> & Ft). exists es, tables. split; [exact E|]. split; [exact Ft|]. rewrite Ef, map_map. reflexivity.
Qed.
Print Assumptions C100_found.

(* --verbose needs the annotations of the score: a piece without them stops the run as soon as it has a result. *)
Theorem C100_verbose_refuted infer rt tt state_lines table_lines dir x l s :
  sj_annotated x = false -> snd (infer x) = Ok (Some s) ->
  snd (annotate infer rt tt true state_lines table_lines dir (x :: l)) = Some TypeError /\
  files_written (fst (annotate infer rt tt true state_lines table_lines dir (x :: l))) = [].
Proof.
  intros Ha Hr. cbn [annotate_subjects].
  assert (E : exists es, annotate_subject infer rt tt true state_lines table_lines dir x = (es, Some TypeError)).
  { unfold annotate_subject. destruct (infer x) as [said r]. cbn [snd] in Hr. subst r. rewrite Ha. eexists. reflexivity. }
  destruct E as (es & E). rewrite E. split; [reflexivity|]. exact (subject_stops _ _ _ _ _ _ _ _ _ _ E).
Qed.
Print Assumptions C100_verbose_refuted.

(* ---- a case meeting the hypotheses: two notes together and one after them, in one measure ---- *)
Definition chord_note (pitch : Z) (at_ : Q) : note := mkNote pitch 4 (0, at_) 3 (1 # 2) (0, (at_ + (1 # 2))%Q) 3 TPC.
Definition small_piece : subject :=
  Subject (Some (L"0: corpus/a.mscx")) false (mkPiece [chord_note 15 0; chord_note 19 0; chord_note 16 (1 # 2)] [] [] [] [] []) [0; 1 # 2; 1 # 2]%Q.
Definition in_percent (q : Q) : Z := Qfloor (q * 100).
Definition in_eighths (q : Q) : Z := Qfloor (q * 8).
Definition small_nets : networks :=
  {| n_change := [0; 0; 90]; n_one := 100; n_log := fun z => z - 100; n_log_not := fun z => - z; n_classify := fun rs => rowst MIDI (length rs);
     n_inv := true; n_red := NO_REDUCTION |}.
Example C100_ex : exists j, HarmonicInferenceModel (the_models MIDI MIDI MIDI true false) default_params = Ok j
  /\ one_kind j /\ full_models j /\ 1 <= beam_size default_params /\ 1 <= max_chord_branching_factor default_params
  /\ (forall a b, (a <= b)%Q -> in_percent a <= in_percent b)
  /\ (cs_out_inv (j_csm j) = true -> forall t, positions t <= positions (cs_out_red (j_csm j) t))
  /\ CHORD_OUTPUT_TYPE j = MIDI
  /\ workable in_percent in_eighths j small_nets (ot MIDI NO_REDUCTION) [3; 3; 2; 3] small_piece
  /\ divisible in_percent in_eighths j small_nets small_piece
  /\ well_named_flat (L".mscx") [Filed unit 0 [L"corpus"] (L"a") None].
Proof.
  destruct (the_joint MIDI MIDI MIDI true false) as (j & H & E1 & E2 & E3 & E4 & E5 & E6). exists j. split; [exact H|].
  split; [constructor; congruence|]. split; [apply (the_full _ _ _ _ _ H); discriminate|]. split; [cbn; lia|]. split; [cbn; lia|]. split.
  { intros a b Hab. apply Qfloor_resp_le. apply Qmult_le_compat_r; [exact Hab|discriminate]. }
  apply joint_made in H as (cc & ct & cs & kt & ks & ic & (L1 & L2 & L3 & L4 & L5 & L6) & _ & _ & ->).
  cbn in L1, L3, L5, L6. apply Some_inj in L1, L3, L5, L6. injection L1 as <-. injection L3 as <-. injection L5 as <-. injection L6 as <-.
  split; [intros _ t; destruct t; cbn; lia|]. split; [reflexivity|]. split; [|split].
  - constructor.
    + discriminate.
    + exists (0, 1%Q), [mkM 0 1 0 NextNone]. vm_compute. reflexivity.
    + vm_compute. intuition discriminate.
    + intros d [<-|[<-|[<-|[]]]]; vm_compute; intuition discriminate.
    + reflexivity.
    + intros rs. apply repeat_length.
    + intros rs. constructor; cbn [j_ccm j_csm j_ksm j_icm].
      * intros row Hr. apply repeat_spec in Hr. subst row. vm_compute. reflexivity.
      * intros st l i. vm_compute. reflexivity.
      * intros st l i. vm_compute. reflexivity.
      * intros []; vm_compute; reflexivity.
    + split; [reflexivity|]. intros l [<-|[<-|[<-|[<-|[]]]]]; lia.
    + intros l. reflexivity.
    + intros rs row rank c _ _ _ Hpt. discriminate.
  - split; [|split].
    + intros [|[|[|i]]] Hi; cbn in Hi; try lia; vm_compute; intuition discriminate.
    + intros d [<-|[<-|[<-|[]]]]; vm_compute; intuition discriminate.
    + vm_compute. discriminate.
  - split; [exists (L"mscx"); repeat split; try discriminate; intros H; cbn in H; repeat (destruct H as [H|H]; [discriminate H|]); destruct H|]. split.
    + intros x [<-|[]]. split; [repeat (apply Forall_cons; [comp|]); apply Forall_nil|split; [comp|discriminate]].
    + intros [|i] [|k] x y E F; cbn in E, F; try (destruct i; discriminate E); try (destruct k; discriminate F). reflexivity.
Qed.
(* two pieces, the first without result; then the same with --verbose *)
Definition some_harmony (x : subject) : list pystr * res (option state) :=
  ([], Ok (if substring_of (L"a.mscx") (match sj_name x with Some n => n | None => [] end) then None else Some s1)).
Definition two_pieces : list subject := [Subject (Some (L"0: corpus/a.mscx")) false p1 durs1; Subject (Some (L"1: corpus/b.mscx")) false p1 durs1].
Example C100_example :
  (let (es, e) := annotate some_harmony TPC TPC false (fun _ => []) (fun _ => []) (Some (parse_path (L"out"))) two_pieces in
   e = None /\ map (fun y => (Model_Output.path_text (fst y), match snd y with TAnnotation rows => map fst rows | _ => [] end)) (files_written es) =
     [(L"out/b.tsv", [L"C:KeyMode.MAJOR"; L"C:M, inv:0"; L"G:Mm7, inv:1"; L"G:KeyMode.MAJOR"; L"G:M, inv:0"])]) /\
  (let (es, e) := annotate some_harmony TPC TPC true (fun _ => []) (fun _ => []) (Some (parse_path (L"out"))) two_pieces in
   e = Some TypeError /\ files_written es = []).
Proof. vm_compute. repeat split. Qed.
