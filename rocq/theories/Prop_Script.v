(* C99: a run of the evaluation script over a list of pieces, and the averages of its log. *)
From Coq Require Import QArith Qabs String Ascii Lqa.
From Verif Require Import Model_Strings Model_Rhythm Model_Piece Model_Runs Model_Output Model_Tables Model_Log Model_Eval Model_Script
  Spec_Prior Spec_Piece Spec_Eval Spec_Output Spec_Runs Spec_Script
  Proof_Base Proof_Strings Proof_Prior Proof_Runs Prop_Runs Prop_Eval Prop_Tables Prop_Log Proof_Output Prop_Output Proof_Script.
From Coq Require Import List Lia.
Import ListNotations.
Close Scope Q_scope.
Open Scope Z_scope.

(* A run that comes to its end: each piece has its accuracies and tables (or no result), and the files written are
   those of the pieces with a result. *)
Theorem C99_run text_of infer rt tt verbose state_lines table_lines order forces dir l es :
  run_pieces text_of infer rt tt verbose state_lines table_lines order forces dir l = (es, None) ->
  exists ws, Forall2 (fared infer rt tt order forces) l ws /\
    files_written es = evaluate_files dir (combine (map sj_name l) (map tables_of ws)).
Proof.
  intros H. apply run_done in H as (ws & ess & F & -> & A & Ln). exists ws. split; [exact F|]. clear F.
  revert ess ws A Ln. induction l as [|x l IH]; intros ess ws A Ln; destruct ess as [|es ess]; try discriminate; cbn [combine] in A; inversion A as [|? w ? ws' A1 A2]; subst; [reflexivity|].
  cbn [concat map combine]. rewrite files_app, (IH ess ws' A2 ltac:(cbn in Ln; lia)). cbn [fst snd] in A1. rewrite (files_account _ _ _ _ _ _ _ _ _ _ _ A1). reflexivity.
Qed.
Print Assumptions C99_run.

(* The log of such a run: with --verbose it has the lines about the state of every result; every file is announced,
   each with its kind. *)
Theorem C99_logged text_of infer rt tt verbose state_lines table_lines order forces dir l : forall es,
  run_pieces text_of infer rt tt verbose state_lines table_lines order forces dir l = (es, None) ->
  (forall x f said s, In x l -> choose_forces order forces (sj_name x) = Ok f -> infer x f = (said, Ok (Some s)) ->
     incl said (log_lines es) /\
     (verbose = true -> exists entries, log_state (sj_piece x) (sj_durs x) s rt tt = Ok entries /\ incl (state_lines entries) (log_lines es))) /\
  (forall p t, In (File p t) es -> exists kind, In (info (kind ++ L" TSV written out to " ++ path_text p)) es /\
     match t with TLabels _ => kind = L"Labels" | TResults _ => kind = L"Results" \/ kind = L"MIDI results" | _ => False end).
Proof.
  induction l as [|x l IH]; intros es H; cbn [run_pieces] in H.
  - apply pair_equal_spec in H as [<- _]. split; [intros x f said s []|intros p t []].
  - destruct (run_piece text_of infer rt tt verbose state_lines table_lines order forces dir x) as [es1 [e|]] eqn:E1; [apply pair_equal_spec in H as [_ H]; discriminate|].
    destruct (run_pieces text_of infer rt tt verbose state_lines table_lines order forces dir l) as [es2 e2] eqn:E2. apply pair_equal_spec in H as [<- ->].
    destruct (IH es2 eq_refl) as [I1 I2]. destruct (run_piece_done _ _ _ _ _ _ _ _ _ _ _ _ E1) as (w & F & A).
    split.
    + intros y f said s [<-|Iy] Ef Ey.
      * clear F A. unfold run_piece in E1. apply after_done in E1 as (f' & es3 & Ef' & H & ->). rewrite Ef in Ef'. apply Ok_inj in Ef'. subst f'.
        rewrite Ey in H. apply after_done in H as (o & es4 & Eo & H & ->). apply Ok_inj in Eo. subst o.
        unfold measure in H. destruct (sj_annotated x) eqn:An; cbn [negb] in H.
        2:{ apply after_done in H as (u & es5 & _ & H & _). unfold make_tables in H. rewrite An in H. apply after_done in H as (l0 & es6 & _ & H & _).
            apply after_done in H as (y & es7 & Hx & _). discriminate. }
        apply after_done in H as ([[[[a b] c] d] e] & es5 & Hc & H & ->). apply after_done in H as ([k t] & es6 & Hk & H & ->).
        apply after_done in H as (j & es7 & Hj & H & ->). apply after_done in H as (u & es8 & _ & H & ->).
        unfold make_tables in H. rewrite An in H. apply after_done in H as (entries & es9 & He & H & ->).
        apply after_done in H as ([labels tb] & es10 & Ht & H & ->).
        rewrite !log_app, !log_of_lines. split; [intros z Z; rewrite !in_app_iff; tauto|]. intros ->. exists entries. split; [exact He|].
        rewrite log_of_lines. intros z Z. rewrite !in_app_iff. tauto.
      * destruct (I1 y f said s Iy Ef Ey) as [J1 J2]. rewrite log_app. split; [intros z Z; apply in_app_iff; auto|].
        intros V. destruct (J2 V) as (entries & J3 & J4). exists entries. split; [exact J3|]. intros z Z. apply in_app_iff. auto.
    + intros p t J. apply in_app_iff in J as [J|J].
      2:{ destruct (I2 p t J) as (kind & K1 & K2). exists kind. split; [apply in_app_iff; right; exact K1|exact K2]. }
      assert (NL : forall ls, ~ In (File p t) (map Line ls)). { intros ls K. apply in_map_iff in K as (z & Z & _). discriminate. }
      assert (NO : ~ In (File p t) (opening order x)).
      { unfold opening. destruct (sj_name x); [|intros []]. destruct (find _ _); intros K; repeat (destruct K as [K|K]; [discriminate|]); destruct K. }
      destruct A as (f & said & Ef & Es & A). destruct w as [|accs tb].
      { exfalso. subst es1. apply in_app_iff in J as [J|J]; [exact (NO J)|]. apply in_app_iff in J as [J|[J|[]]]; [exact (NL _ J)|discriminate]. }
      destruct A as (labels & entries & ->). rewrite !in_app_iff in J. destruct J as [J|[J|[J|[J|J]]]].
      * exfalso. exact (NO J).
      * exfalso. exact (NL _ J).
      * exfalso. apply in_map_iff in J as (z & Z & _). discriminate.
      * exfalso. destruct verbose; [exact (NL _ J)|destruct J].
      * destruct F as (f0 & said0 & o & _ & _ & s & _ & _ & _ & lb & rs & md & _ & _ & _ & ->).
        unfold write_tables, evaluate_piece in *. destruct (sj_name x) as [n|]; [destruct dir as [d|]|].
        -- cbn [combine flat_map app fst snd t_results t_midi t_labels] in *.
           destruct J as [J|[J|[J|[J|[J|[J|[]]]]]]]; try discriminate; injection J as <- <-.
           ++ exists (L"Results"). split; [|left; reflexivity]. rewrite !in_app_iff. left. do 4 right. right. left. reflexivity.
           ++ exists (L"MIDI results"). split; [|right; reflexivity]. rewrite !in_app_iff. left. do 4 right. do 3 right. left. reflexivity.
           ++ exists (L"Labels"). split; [|reflexivity]. rewrite !in_app_iff. left. do 4 right. do 5 right. left. reflexivity.
        -- exfalso. destruct verbose; [exact (NL _ J)|destruct J].
        -- exfalso. destruct verbose; [exact (NL _ J)|destruct J].
Qed.
Print Assumptions C99_logged.

(* If the pieces are named as their scores are, and the names can be told apart (C90), the tables of each piece are in
   its files at the end. *)
Theorem C99_files text_of infer rt tt verbose state_lines table_lines order forces dir ext (named : list (filed unit)) l es :
  well_named ext named -> map sj_name l = map (fun y => Some (score_name (f_id y) (f_dirs y ++ [f_base y ++ ext]))) named ->
  run_pieces text_of infer rt tt verbose state_lines table_lines order forces (Some dir) l = (es, None) ->
  exists ws, Forall2 (fared infer rt tt order forces) l ws /\
  forall i y accs t, nth_error named i = Some y -> nth_error ws i = Some (Result accs t) ->
    file_content (files_written es) (below dir (f_dirs y) (f_base y ++ ext)) = Some (t_labels t) /\
    file_content (files_written es) (below dir (f_dirs y) (f_base y ++ L"_results.tsv")) = Some (t_results t) /\
    file_content (files_written es) (below dir (f_dirs y) (f_base y ++ L"_results_midi.tsv")) = Some (t_midi t).
Proof.
  intros W Hn H. destruct (C99_run _ _ _ _ _ _ _ _ _ _ _ _ H) as (ws & F & E). exists ws. split; [exact F|].
  assert (Ln : List.length named = List.length ws).
  { apply (f_equal (@List.length _)) in Hn. rewrite !map_length in Hn. rewrite <- Hn. exact (Forall2_len _ _ _ F). }
  set (fl := map (fun yw : filed unit * fate => Filed (tables table) (f_id (fst yw)) (f_dirs (fst yw)) (f_base (fst yw)) (tables_of (snd yw))) (combine named ws)).
  assert (Ef : combine (map sj_name l) (map tables_of ws) = named_scores ext fl).
  { rewrite Hn. unfold fl, named_scores. clear -Ln. revert ws Ln. induction named as [|y named IH]; intros [|w ws] Ln; try discriminate; [reflexivity|].
    cbn [combine map fst snd f_id f_dirs f_base f_out]. f_equal. apply IH. cbn in Ln. lia. }
  assert (Nth : forall i x, nth_error fl i = Some x -> exists y, nth_error named i = Some y /\ f_dirs x = f_dirs y /\ f_base x = f_base y).
  { intros i x Hx. unfold fl in Hx. rewrite nth_error_map in Hx. destruct (nth_error (combine named ws) i) as [[y w]|] eqn:Ec; [|discriminate].
    apply Some_inj in Hx. subst x. exists y. split; [|split; reflexivity]. clear -Ec. revert ws i Ec. induction named as [|a named IH]; intros [|b ws] [|i] Ec; try discriminate; cbn in *; [congruence|exact (IH _ _ Ec)]. }
  assert (Wf : well_named ext fl).
  { destruct W as (W1 & W2 & W3 & W4). split; [exact W1|]. split; [|split].
    - intros x I. destruct (In_nth_error _ _ I) as (i & Hi). destruct (Nth i x Hi) as (y & Hy & -> & ->). apply W2. exact (nth_error_In _ _ Hy).
    - intros i j x x' Hi Hj. destruct (Nth i x Hi) as (y & Hy & -> & ->). destruct (Nth j x' Hj) as (y' & Hy' & -> & ->). apply W3; assumption.
    - intros Ex x x' I I'. destruct (In_nth_error _ _ I) as (i & Hi). destruct (In_nth_error _ _ I') as (j & Hj).
      destruct (Nth i x Hi) as (y & Hy & -> & ->). destruct (Nth j x' Hj) as (y' & Hy' & -> & ->). apply (W4 Ex); eapply nth_error_In; eassumption. }
  rewrite E, Ef. intros i y accs t Hy Hw.
  assert (I : In (Filed (tables table) (f_id y) (f_dirs y) (f_base y) (Some t)) fl).
  { unfold fl. apply in_map_iff. exists (y, Result accs t). split; [reflexivity|]. clear -Hy Hw. revert named ws Hy Hw.
    induction i as [|i IH]; intros [|a named] [|b ws] Hy Hw; try discriminate; cbn in *; [left; congruence|right; exact (IH _ _ Hy Hw)]. }
  repeat split; apply (C90_evaluate dir ext fl Wf); eexists; exists t; (split; [exact I|]); (split; [reflexivity|]); cbn [f_dirs f_base]; auto.
Qed.
Print Assumptions C99_files.

(* ---- averages ---- *)
Lemma sum_close eps a b : Forall2 (fun r q => (Qabs (r - q) <= eps)%Q) a b -> (Qabs (sum_of a - sum_of b) <= inject_Z (Z.of_nat (List.length b)) * eps)%Q.
Proof.
  induction 1 as [|r q a b H F IH]; [change (0 <= 0 * eps)%Q; lra|]. cbn [sum_of fold_right List.length] in *. fold (sum_of a) in *. fold (sum_of b) in *.
  setoid_replace (r + sum_of a - (q + sum_of b))%Q with ((r - q) + (sum_of a - sum_of b))%Q by ring.
  eapply Qle_trans; [apply Qabs_triangle|]. rewrite Nat2Z.inj_succ, <- Z.add_1_r, inject_Z_plus. change (inject_Z 1) with 1%Q. lra.
Qed.
Lemma length_pos {A} (a : A) l : (0 < inject_Z (Z.of_nat (List.length (a :: l))))%Q.
Proof. change 0%Q with (inject_Z 0). rewrite <- Zlt_Qlt. cbn [List.length]. lia. Qed.
Lemma average_close eps a b : Forall2 (fun r q => (Qabs (r - q) <= eps)%Q) a b -> b <> [] -> (Qabs (average a - average b) <= eps)%Q.
Proof.
  intros F N. pose proof (sum_close eps a b F) as S1. assert (Ln : List.length a = List.length b) by (clear -F; induction F; cbn; lia).
  unfold average. rewrite Ln. destruct b as [|x b]; [contradiction|]. pose proof (length_pos x b) as P. set (n := inject_Z _) in *.
  setoid_replace (sum_of a / n - sum_of (x :: b) / n)%Q with ((sum_of a - sum_of (x :: b)) * / n)%Q by (field; lra).
  rewrite Qabs_Qmult, (Qabs_pos (/ n)) by (apply Qinv_le_0_compat; lra).
  apply Qle_shift_div_r; [exact P|]. rewrite Qmult_comm. exact S1.
Qed.
Lemma column_app i a b : column i (a ++ b) = column i a ++ column i b.
Proof. unfold column, found. now rewrite flat_map_app, map_app. Qed.

(* The averages of its log are those of the accuracies of the pieces with a result, up to the precision of the texts;
   there is none if no piece has a result. *)
Theorem C99_average text_of infer rt tt verbose state_lines table_lines order forces dir l es float_of eps :
  run_pieces text_of infer rt tt verbose state_lines table_lines order forces dir l = (es, None) ->
  reads_back eps float_of text_of ->
  (forall x f, silent (fst (infer x f))) -> (forall entries, silent (state_lines entries)) -> (forall labels, silent (table_lines labels)) ->
  (forall key, In key order -> ~ In "="%char key) -> (forall x n, In x l -> sj_name x = Some n -> ~ In "="%char n) ->
  (forall p t, In (File p t) es -> ~ In "="%char (path_text p)) ->
  exists ws d, Forall2 (fared infer rt tt order forces) l ws /\ average_results float_of (log_lines es) (L" = ") = Ok d /\
  forall i n, nth_error accuracy_names i = Some n ->
    match column i ws with
    | [] => str_lookup (L"INFO:root:" ++ n) d = None
    | qs => exists a, str_lookup (L"INFO:root:" ++ n) d = Some a /\ (Qabs (a - average qs) <= eps)%Q
    end.
Proof.
  intros H Hb Hi Hs Ht Ho Hn Hp. apply run_done in H as (ws & ess & F & -> & A & Ln).
  assert (B : exists blocks, log_lines (concat ess) = log_of blocks /\ Forall (good_piece float_of) blocks /\
     forall i, (i < 8)%nat -> Forall2 (fun r q => (Qabs (r - q) <= eps)%Q)
       (flat_map (fun p => match nth_error (snd p) i with Some (t, q) => [q] | None => [] end) blocks) (column i ws)).
  { revert ess ws F A Ln Hn Hp. induction l as [|x l IH]; intros ess ws F A Ln Hn Hp; destruct ess as [|es ess]; try discriminate.
    - inversion F; subst. exists []. split; [reflexivity|]. split; [constructor|]. intros i _. constructor.
    - inversion F as [|? w ? ws' F1 F2]; subst. cbn [combine] in A. inversion A as [|? ? ? ? A1 A2]; subst. cbn [fst snd] in A1.
      destruct (IH ess ws' F2 A2 ltac:(cbn in Ln; lia) (fun x' n' I => Hn x' n' (or_intror I)) (fun p t I => Hp p t (proj2 (in_app_iff _ _ _) (or_intror I)))) as (bs & E & G & C).
      destruct (account_blocks _ _ _ _ _ _ _ _ float_of eps Hb Hi Hs Ht Ho x es w A1 (fun n' => Hn x n' (or_introl eq_refl)) (fun p t I => Hp p t (proj2 (in_app_iff _ _ _) (or_introl I)))) as (b & E1 & G1 & C1).
      exists (b ++ bs). split; [cbn [concat]; rewrite log_app, log_of_app, E1, E; reflexivity|]. split; [apply Forall_app; now split|].
      intros i Hi8. rewrite flat_map_app. change (w :: ws') with ([w] ++ ws'). rewrite column_app. apply Forall2_app; [apply C1; [exact Hi8|]|now apply C].
      destruct w as [|accs t]; [exact I|]. destruct F1 as (? & ? & ? & _ & _ & s & _ & _ & M & _). unfold measured in M. apply Forall2_len in M. cbn in M. lia. }
  destruct B as (blocks & E & G & C). rewrite E.
  destruct (C86_log float_of blocks 0 (L"Chord accuracy") G eq_refl) as (d & Ed & _). exists ws, d. split; [exact F|]. split; [exact Ed|].
  intros i n En. assert (i < 8)%nat by (change 8%nat with (List.length accuracy_names); apply nth_error_Some; congruence).
  specialize (C i ltac:(assumption)). destruct (C86_log float_of blocks i n G En) as (d' & Ed' & L). rewrite Ed in Ed'. apply Ok_inj in Ed'. subst d'. rewrite L. clear L.
  set (rs := flat_map _ blocks) in *. destruct (column i ws) as [|q qs]; inversion C as [|r ? rs' ? C1 C2]; subst; [reflexivity|].
  exists (average (r :: rs')). split; [reflexivity|]. apply average_close; [constructor; assumption|discriminate].
Qed.
Print Assumptions C99_average.

(* ---- grades ---- *)
Lemma no_to_any (red : reduction) t u : NO_REDUCTION t = NO_REDUCTION u -> red t = red u.
Proof. intros H. f_equal. exact H. Qed.
Lemma measured_graded rt tt x s accs : List.length (sj_durs x) = List.length (p_notes (sj_piece x)) -> Forall (fun d => 0 <= d)%Q (sj_durs x) ->
  measured rt tt x s accs -> graded accs.
Proof.
  intros L F M. unfold measured in M. destruct x as [nm an p durs]; cbn [sj_piece sj_durs] in *.
  repeat match goal with M : Forall2 _ (_ :: _) _ |- _ => inversion M; clear M; subst end.
  match goal with M : Forall2 _ [] _ |- _ => inversion M; clear M; subst end.
  match goal with |- graded [?a; ?b; ?c; ?d; ?e; ?k; ?t; ?f] => rename a into qa, b into qb, c into qc, d into qd, e into qe, k into qk, t into qt, f into qf end.
  destruct (C40_bounds p durs s L F) as (B1 & B2 & B3).
  assert (X : forall ui red ui' red' a b, (ui' = true -> ui = true) -> (forall t u, red t = red u -> red' t = red' u) ->
     evaluate_chords p durs s rt ui red = Ok a -> evaluate_chords p durs s rt ui' red' = Ok b -> (a <= b)%Q).
  { intros ui red ui' red' a b U R Ha Hb. destruct (C40_lenient_chords p durs s rt ui red ui' red' a L F U R Ha) as (b' & Hb' & Le). congruence. }
  match goal with H : evaluate_jointly _ _ _ _ _ _ _ _ = Ok _ |- _ => pose proof (proj1 (B3 _ _ _ _ _ _ H)); destruct (C40_joint_least _ _ _ _ _ _ _ _ _ L F H) as (b' & c' & J1 & J2 & J3 & J4) end.
  match goal with H : evaluate_keys _ _ _ _ false = Ok qk |- _ => destruct (C40_lenient_keys p durs s tt qk L F H) as (t' & K1 & K2) end.
  assert (b' = qa) by congruence. assert (c' = qk) by congruence. assert (t' = qt) by congruence. subst b' c' t'.
  unfold graded. repeat split; try assumption; try (eapply X; try eassumption; try discriminate; try reflexivity; try (intros; reflexivity); try (intros t u; apply no_to_any); try (intros t u E; exact E); fail).
  - match goal with H : evaluate_chords _ _ _ _ _ _ = Ok qe |- _ => exact (proj2 (B1 _ _ _ _ H)) end.
  - match goal with H : evaluate_keys _ _ _ _ true = Ok qt |- _ => exact (proj2 (B2 _ _ _ H)) end.
Qed.
Lemma average_le a b : Forall2 Qle a b -> b <> [] -> (average a <= average b)%Q.
Proof.
  intros F N. assert (Ln : List.length a = List.length b) by (clear -F; induction F; cbn; lia).
  assert (S1 : (sum_of a <= sum_of b)%Q) by (clear -F; induction F as [|x y a b H F IH]; cbn [sum_of fold_right]; [lra|]; fold (sum_of a) in *; fold (sum_of b) in *; lra).
  unfold average. rewrite Ln. destruct b as [|x b]; [contradiction|]. pose proof (length_pos x b) as P. set (n := inject_Z _) in *.
  unfold Qdiv. apply Qmult_le_compat_r; [exact S1|]. apply Qinv_le_0_compat. lra.
Qed.
Lemma average_const c l : l <> [] -> (average (map (fun _ : list Q => c) l) == c)%Q.
Proof.
  intros N. unfold average. rewrite map_length. destruct l as [|x l]; [contradiction|]. pose proof (length_pos x l) as P.
  assert (S1 : forall l, (sum_of (map (fun _ : list Q => c) l) == inject_Z (Z.of_nat (List.length l)) * c)%Q).
  { clear. induction l as [|y l IH]; [change (0 == 0 * c)%Q; ring|]. cbn [map sum_of fold_right List.length]. fold (sum_of (map (fun _ : list Q => c) l)). rewrite IH, Nat2Z.inj_succ, <- Z.add_1_r, inject_Z_plus.
    change (inject_Z 1) with 1%Q. ring. }
  rewrite S1. set (n := inject_Z _) in *. field. lra.
Qed.

(* The stricter the question the lower the accuracy, for each piece and on average. *)
Theorem C99_graded infer rt tt order forces l ws :
  (forall x, In x l -> List.length (sj_durs x) = List.length (p_notes (sj_piece x)) /\ Forall (fun d => 0 <= d)%Q (sj_durs x)) ->
  Forall2 (fared infer rt tt order forces) l ws ->
  Forall graded (found ws) /\ (found ws <> [] -> graded (map (fun i => average (column i ws)) (seq 0 8))).
Proof.
  intros H F. assert (G : Forall graded (found ws)).
  { revert H. induction F as [|x w l ws F1 F2 IH]; intros H; [constructor|]. unfold found. cbn [flat_map]. apply Forall_app. split.
    - destruct w as [|accs t]; constructor; [|constructor]. destruct F1 as (? & ? & ? & _ & _ & s & _ & _ & M & _). destruct (H x (or_introl eq_refl)) as [H1 H2].
      exact (measured_graded rt tt x s accs H1 H2 M).
    - apply IH. intros y I. apply H. now right. }
  split; [exact G|]. intros N. unfold column. generalize dependent (found ws). clear. intros fs G N.
  assert (LE : forall f g, (forall a, graded a -> (f a <= g a)%Q) -> (average (map f fs) <= average (map g fs))%Q).
  { intros f g Hfg. apply average_le; [|destruct fs; [contradiction|discriminate]]. clear N. induction G as [|a fs Ga G IH]; constructor; auto. }
  assert (B : forall a, graded a -> (0 <= nth 7 a 0 /\ nth 7 a 0 <= nth 0 a 0 /\ nth 0 a 0 <= nth 1 a 0 /\ nth 1 a 0 <= nth 3 a 0 /\ nth 3 a 0 <= nth 4 a 0 /\ nth 4 a 0 <= 1 /\
     nth 0 a 0 <= nth 2 a 0 /\ nth 2 a 0 <= nth 3 a 0 /\ nth 7 a 0 <= nth 5 a 0 /\ nth 5 a 0 <= nth 6 a 0 /\ nth 6 a 0 <= 1)%Q).
  { intros a Ha. do 8 (destruct a as [|? a]; [destruct Ha|]). destruct a; [|destruct Ha]. exact Ha. }
  cbn [seq map graded].
  repeat apply conj; try (apply LE; intros a Ha; pose proof (B a Ha); tauto).
  - rewrite <- (average_const 0 fs N). apply LE. intros a Ha. pose proof (B a Ha). tauto.
  - rewrite <- (average_const 1 fs N) at 1. apply LE. intros a Ha. pose proof (B a Ha). tauto.
  - rewrite <- (average_const 1 fs N) at 1. apply LE. intros a Ha. pose proof (B a Ha). tauto.
Qed.
Print Assumptions C99_graded.

(* Annotated pieces from the corpus, with forces for the names used and a model with spelled pitches: the run comes to
   its end. *)
Theorem C99_defined text_of infer verbose state_lines table_lines order forces dir l :
  (forall key, In key order -> exists f, str_lookup key forces = Some f) ->
  (forall x, In x l -> sj_annotated x = true /\ ~ (total (sj_durs x) == 0)%Q /\
     exists ts red ui ur us note_rows rows, get_score_piece ts red ui ur us note_rows rows = Ok (sj_piece x) /\
       p_notes (sj_piece x) <> [] /\ Forall (fun k => 0 <= k_rel k < 35) (p_keys (sj_piece x))) ->
  (forall x f, In x l -> exists said o, infer x f = (said, Ok o) /\ forall s, o = Some s ->
     Forall (fun c => exists e, c = Some e /\ 0 <= e < 1540) (fst (get_chords s)) /\ Forall (fun k => 0 <= k < 70) (fst (get_keys s))) ->
  exists es, run_pieces text_of infer TPC TPC verbose state_lines table_lines order forces dir l = (es, None).
Proof.
  intros Ho. induction l as [|x l IH]; intros Hl Hi; [exists []; reflexivity|]. cbn [run_pieces].
  assert (R : exists es, run_piece text_of infer TPC TPC verbose state_lines table_lines order forces dir x = (es, None)).
  { destruct (Hl x (or_introl eq_refl)) as (An & Td & ts & red & ui & ur & us & nr & rows & Hp & Nn & Hk). unfold run_piece.
    assert (Cf : exists f, choose_forces order forces (sj_name x) = Ok f).
    { unfold choose_forces. destruct (sj_name x) as [n|]; [|eexists; reflexivity]. destruct (find _ order) as [key|] eqn:Ef; [|eexists; reflexivity].
      destruct (Ho key (proj1 (find_some _ _ Ef))) as (f & Hf). exists f. unfold dict_get. now rewrite Hf. }
    destruct Cf as (f & ->). cbn [after]. destruct (Hi x f (or_introl eq_refl)) as (said & o & -> & Hs). destruct o as [s|]; [|eexists; reflexivity].
    destruct (Hs s eq_refl) as [Hc Hkk]. cbn [after]. unfold measure. rewrite An. cbn [negb].
    assert (D : forall ui red to, (exists a, evaluate_chords (sj_piece x) (sj_durs x) s TPC ui red = Ok a) /\ (exists b, evaluate_keys (sj_piece x) (sj_durs x) s TPC to = Ok b) /\
       exists c, evaluate_jointly (sj_piece x) (sj_durs x) s TPC TPC ui red to = Ok c).
    { intros ui' red' to'. destruct (C40_defined _ _ _ _ _ _ _ _ (sj_durs x) s Hp Hk Td Hc Hkk ui' red' to') as (a & b & c & Ha & Hb & Hj). split; [exists a; exact Ha|split; [exists b; exact Hb|exists c; exact Hj]]. }
    destruct (proj1 (D true NO_REDUCTION true)) as (a & ->). destruct (proj1 (D false NO_REDUCTION true)) as (b & ->). destruct (proj1 (D true TRIAD_REDUCTION true)) as (c & ->).
    destruct (proj1 (D false TRIAD_REDUCTION true)) as (d & ->). destruct (proj1 (D false ALL_ONE_TYPE_REDUCTION true)) as (e & ->).
    destruct (proj1 (proj2 (D true NO_REDUCTION false))) as (k & ->). destruct (proj1 (proj2 (D true NO_REDUCTION true))) as (t & ->).
    destruct (proj2 (proj2 (D true NO_REDUCTION false))) as (j & ->). cbn [bind after].
    unfold make_tables. rewrite An. destruct (C73_defined _ _ _ _ _ _ _ _ (sj_durs x) s Hp Hk Hc Hkk) as (lb & ->). cbn [bind].
    destruct (C71_defined _ _ _ _ _ _ _ _ (sj_durs x) s TPC TPC TPC TPC Hp Hk ltac:(intros [E _]; discriminate E) ltac:(intros [E _]; discriminate E) Hc Hkk) as (r1 & ->).
    destruct (C71_defined _ _ _ _ _ _ _ _ (sj_durs x) s TPC TPC MIDI MIDI Hp Hk ltac:(intros [E _]; discriminate E) ltac:(intros [E _]; discriminate E) Hc Hkk) as (r2 & ->).
    cbn [bind]. destruct (C94_defined _ _ _ _ _ _ _ _ (sj_durs x) s Hp Nn Hk Hc Hkk) as ((lines & Hlines) & _). rewrite Hlines.
    destruct verbose; cbn [after]; eexists; reflexivity. }
  destruct R as (es & ->). destruct (IH (fun y I => Hl y (or_intror I)) (fun y f I => Hi y f (or_intror I))) as (es' & ->). eexists. reflexivity.
Qed.
Print Assumptions C99_defined.

(* If the evaluation of a piece raises, the run ends: nothing is written for it or for the pieces after it. *)
Theorem C99_stops text_of infer rt tt verbose state_lines table_lines order forces dir l1 x l2 es1 es2 e :
  run_pieces text_of infer rt tt verbose state_lines table_lines order forces dir l1 = (es1, None) ->
  run_piece text_of infer rt tt verbose state_lines table_lines order forces dir x = (es2, Some e) ->
  run_pieces text_of infer rt tt verbose state_lines table_lines order forces dir (l1 ++ x :: l2) = (es1 ++ es2, Some e) /\
  files_written (es1 ++ es2) = files_written es1.
Proof.
  intros H1 H2. split.
  - revert es1 H1. induction l1 as [|y l1 IH]; intros es1 H1; cbn [run_pieces app] in *.
    + apply pair_equal_spec in H1 as [<- _]. now rewrite H2.
    + destruct (run_piece _ _ _ _ _ _ _ _ _ _ y) as [es [e0|]]; [discriminate|]. destruct (run_pieces _ _ _ _ _ _ _ _ _ _ l1) as [es' e'].
      apply pair_equal_spec in H1 as [<- ->]. rewrite (IH es' eq_refl), app_assoc. reflexivity.
  - rewrite files_app, (files_stop _ _ _ _ _ _ _ _ _ _ _ _ _ H2). apply app_nil_r.
Qed.
Print Assumptions C99_stops.

(* False: pieces without annotations are annotated and left out of the accuracies.  Their accuracies are announced as
   unknown, then the tables are made from chords that are None: the run ends. *)
Theorem C99_unannotated_refuted text_of infer rt tt verbose state_lines table_lines order forces dir x f said s :
  sj_annotated x = false -> choose_forces order forces (sj_name x) = Ok f -> infer x f = (said, Ok (Some s)) ->
  exists es, run_piece text_of infer rt tt verbose state_lines table_lines order forces dir x = (es, Some TypeError) /\
    In (info (L"Cannot compute accuracy. Ground truth unknown.")) es /\ files_written es = [].
Proof.
  intros An Hf Hi. assert (E : exists es, run_piece text_of infer rt tt verbose state_lines table_lines order forces dir x = (es, Some TypeError) /\
    In (info (L"Cannot compute accuracy. Ground truth unknown.")) es).
  { unfold run_piece. rewrite Hf. cbn [after]. rewrite Hi. cbn [after]. unfold measure. rewrite An. cbn [negb after]. unfold make_tables. rewrite An.
    destruct verbose; cbn [after]; eexists; (split; [reflexivity|]); rewrite !in_app_iff; right; right; left; now left. }
  destruct E as (es & E & I). exists es. split; [exact E|]. split; [exact I|]. exact (files_stop _ _ _ _ _ _ _ _ _ _ _ _ _ E).
Qed.
Print Assumptions C99_unannotated_refuted.

(* False: the averages are over all pieces of the run.  A piece without a result changes nothing in them. *)
Theorem C99_no_result_refuted text_of infer rt tt verbose state_lines table_lines order forces dir x l es f said float_of :
  choose_forces order forces (sj_name x) = Ok f -> infer x f = (said, Ok None) -> silent said ->
  (forall key, In key order -> ~ In "="%char key) -> (forall n, sj_name x = Some n -> ~ In "="%char n) ->
  run_pieces text_of infer rt tt verbose state_lines table_lines order forces dir l = (es, None) ->
  exists es', run_pieces text_of infer rt tt verbose state_lines table_lines order forces dir (x :: l) = (es', None) /\
    average_results float_of (log_lines es') (L" = ") = average_results float_of (log_lines es) (L" = ").
Proof.
  intros Hf Hi Hs Ho Hn H. eexists. split.
  - cbn [run_pieces]. unfold run_piece. rewrite Hf. cbn [after]. rewrite Hi. cbn [after]. rewrite H. reflexivity.
  - change (match sj_name x with Some name => _ | None => _ end) with (opening order x).
    assert (S1 : silent (log_lines (opening order x ++ map Line said ++ [info (L"Returned None")]))).
    { rewrite !log_app, log_of_lines. apply silent_app; [now apply silent_opening|]. apply silent_app; [exact Hs|]. apply silent_info. plain. }
    rewrite log_app. generalize dependent (log_lines (opening order x ++ map Line said ++ [info (L"Returned None")])). intros ls S1.
    unfold average_results. assert (E : foldM (average_line float_of (L" = ")) (ls ++ log_lines es) [] = foldM (average_line float_of (L" = ")) (log_lines es) []); [|now rewrite E].
    induction ls as [|line ls IH]; [reflexivity|]. cbn [app foldM].
    destruct (line_cases float_of (L" = ") ltac:(discriminate) [] line) as [(k & v & Sy & _)|[_ ->]]; [elim (S1 line k v (or_introl eq_refl) Sy)|].
    cbn [bind]. apply IH. intros line' k v I. apply S1. now right.
Qed.
Print Assumptions C99_no_result_refuted.

(* False: the averages of a verbose log are those of the accuracies.  Each count of states is taken as an accuracy of
   its own. *)
Theorem C99_verbose_refuted float_of lines d n m value :
  average_results float_of lines (L" = ") = Ok d -> In (states_line n m value) lines -> ~ In "="%char value ->
  exists a, str_lookup (L"DEBUG:root:    Correct key states accuracy: " ++ z_to_str n ++ L" / " ++ z_to_str m) d = Some a.
Proof.
  intros H I N. set (key := L"DEBUG:root:    Correct key states accuracy: " ++ z_to_str n ++ L" / " ++ z_to_str m).
  assert (Nz : forall z, ~ In "="%char (z_to_str z)).
  { intros z J. pose proof (Proof_Labels.z_to_str_chars z) as F. rewrite Forall_forall in F. specialize (F _ J). vm_compute in F. intuition discriminate. }
  assert (S1 : line_says (L" = ") (states_line n m value) key (value ++ [newline])).
  { apply line_says_cut. exists key. unfold states_line. split; [|split; [|split]].
    - replace (L"DEBUG:root:    Correct key states accuracy: " ++ z_to_str n ++ L" / " ++ z_to_str m ++ L" = " ++ value ++ [newline])
        with (key ++ L" = " ++ value ++ [newline]) by (unfold key; rewrite <- !app_assoc; reflexivity).
      apply first_by_equals. unfold key. apply no_equals; [plain|]. apply no_equals; [apply Nz|]. apply no_equals; [plain|apply Nz].
    - intros (a & b & E). assert (J : In "="%char (value ++ [newline])) by (rewrite E, !in_app_iff; right; left; right; now left).
      apply in_app_iff in J as [J|[J|[]]]; [contradiction|discriminate].
    - apply trimmed_strip. exists [], []. split; [now rewrite app_nil_r|]. split; [constructor|]. split; [constructor|]. split.
      + intros c r E. unfold key in E. change (L"DEBUG:root:    Correct key states accuracy: ") with ("D"%char :: L"EBUG:root:    Correct key states accuracy: ") in E. cbn [app] in E.
        assert (c = "D"%char) by congruence. subst c. vm_compute. intuition discriminate.
      + intros r c E. assert (J : In c (z_to_str m)).
        { unfold key in E. destruct (exists_last (Proof_Labels.z_to_str_nonempty m)) as (u & y & Ey). rewrite Ey in E |- *.
          rewrite !app_assoc in E. apply app_inj_tail in E as [_ <-]. apply in_app_iff. right. now left. }
        pose proof (Proof_Labels.z_to_str_chars m) as F. rewrite Forall_forall in F. specialize (F _ J). intros B. apply is_space_blank in B.
        destruct F as [F| ->]; [|vm_compute in B; discriminate]. destruct (digit_char_inv c F) as (dg & Hd & ->). destruct (digit_char_facts dg Hd) as (_ & _ & X). congruence.
    - exists (L"DEBUG:root:    Correct key states "), (L": " ++ z_to_str n ++ L" / " ++ z_to_str m). reflexivity. }
  destruct (C86_average float_of (L" = ") lines d ltac:(discriminate) H key) as (qs & R & _ & K). destruct qs as [|q qs].
  - exfalso. clear -R I S1. remember (@nil Q) as none eqn:En. revert En. induction R as [|line v q lines qs S2 Fq R IH|line lines qs N R IH]; intros E; [destruct I|discriminate|].
    destruct I as [-> |I]; [exact (N _ S1)|exact (IH I E)].
  - exists (average (q :: qs)). exact K.
Qed.
Print Assumptions C99_verbose_refuted.

(* False: --average gives the averages of the file.  If --log names the same file, it is emptied before it is read. *)
Theorem C99_log_refuted float_of fs output log : run_average float_of fs output (Some log) (join_path output log) = Ok [].
Proof.
  unfold run_average. replace (fpath_eqb (join_path output log) (join_path output log)) with true; [reflexivity|].
  symmetry. unfold fpath_eqb. rewrite Nat.eqb_refl. cbn [andb]. induction (p_parts (join_path output log)) as [|w r IH]; [reflexivity|]. now rewrite str_eqb_refl.
Qed.
Print Assumptions C99_log_refuted.

(* a run over two pieces: the second has no result *)
Definition example_text (q : Q) : pystr := if Qeq_bool q 1 then L"1.0" else if Qeq_bool q (1 # 2) then L"0.5" else L"0.6666666666666666".
Definition example_number (s : pystr) : option Q :=
  if str_eqb s (L"1.0" ++ [newline]) then Some 1%Q else if str_eqb s (L"0.5" ++ [newline]) then Some (1 # 2)%Q
  else if str_eqb s (L"0.6666666666666666" ++ [newline]) then Some (2 # 3)%Q else None.
Definition example_infer (x : subject) (f : list (pystr * force)) : list pystr * res (option state) :=
  ([L"INFO:root:Classifying chords" ++ [newline]], Ok (if substring_of (L"a.tsv") (match sj_name x with Some n => n | None => [] end) then Some s1 else None)).
Definition example_pieces : list subject := [Subject (Some (L"0: corpus/a.tsv")) true p1 durs1; Subject (Some (L"1: corpus/b.tsv")) true p1 durs1].
Definition example_run := run_pieces example_text example_infer TPC TPC false (fun _ => []) (fun _ => []) [] [] (Some (parse_path (L"out"))) example_pieces.
Example C99_example : exists es d, example_run = (es, None) /\
  average_results example_number (log_lines es) (L" = ") = Ok d /\
  map (fun n => option_map Qred (str_lookup (L"INFO:root:" ++ n) d)) accuracy_names =
    [Some (1 # 2); Some (2 # 3); Some (1 # 2); Some (2 # 3); Some (2 # 3); Some 1; Some 1; Some (1 # 2)]%Q /\
  map (fun y => path_text (fst y)) (files_written es) = [L"out/corpus/a_results.tsv"; L"out/corpus/a_results_midi.tsv"; L"out/corpus/a.tsv"] /\
  map (fun y => path_text (fst y)) (files_written (fst (run_pieces example_text example_infer TPC TPC false (fun _ => []) (fun _ => []) [] [] (Some (parse_path (L"out")))
    [Subject (Some (L"0: corpus/a.tsv")) false p1 durs1]))) = [].
Proof. do 2 eexists. split; [vm_compute; reflexivity|]. split; [vm_compute; reflexivity|]. split; [vm_compute; reflexivity|]. split; vm_compute; reflexivity. Qed.
