(* Lemmas for the runs of the evaluation script. *)
From Coq Require Import QArith Qabs String Ascii Lqa.
From Verif Require Import Model_Strings Model_Piece Model_Runs Model_Output Model_Tables Model_Eval Model_Script Spec_Prior Spec_Runs Spec_Script
  Proof_Base Proof_Strings Proof_Prior Proof_Runs Prop_Runs.
From Coq Require Import List Lia.
Import ListNotations.
Close Scope Q_scope.
Open Scope Z_scope.

Lemma after_done {A} es r (k : A -> progress) out : after es r k = (out, None) -> exists a es', r = Ok a /\ k a = (es', None) /\ out = es ++ es'.
Proof.
  unfold after. destruct r as [a|]; [|discriminate]. destruct (k a) as [es' e] eqn:E. intros H. injection H as <- ->. exists a, es'. repeat split. exact E.
Qed.
Lemma log_app a b : log_lines (a ++ b) = log_lines a ++ log_lines b.
Proof. apply flat_map_app. Qed.
Lemma files_app a b : files_written (a ++ b) = files_written a ++ files_written b.
Proof. apply flat_map_app. Qed.
Lemma log_of_lines l : log_lines (map Line l) = l.
Proof. induction l as [|t l IH]; [reflexivity|]. cbn [map]. change (t :: log_lines (map Line l) = t :: l). now rewrite IH. Qed.
Lemma files_of_lines l : files_written (map Line l) = [].
Proof. induction l as [|t l IH]; [reflexivity|exact IH]. Qed.
Lemma silent_app a b : silent a -> silent b -> silent (a ++ b).
Proof. intros A B line k v I. apply in_app_iff in I as [I|I]; [now apply A|now apply B]. Qed.
Lemma silent_nil : silent [].
Proof. intros line k v []. Qed.
Lemma silent_info t : ~ In "="%char t -> silent (log_lines [info t]).
Proof.
  intros N line k v [<-|[]] (a & E & _). unfold info in E. assert (I : In "="%char (L"INFO:root:" ++ t ++ [ascii_of_nat 10])).
  { rewrite E, !in_app_iff. right. left. right. now left. }
  apply in_app_iff in I as [I|I]; [cbn in I; repeat (destruct I as [I|I]; [discriminate|]); exact I|].
  apply in_app_iff in I as [I|[I|[]]]; [contradiction|discriminate].
Qed.
Lemma no_equals a b : ~ In "="%char a -> ~ In "="%char b -> ~ In "="%char (a ++ b).
Proof. intros A B I. apply in_app_iff in I as [I|I]; contradiction. Qed.
Ltac plain := let I := fresh in intros I; cbn in I; repeat (destruct I as [I|I]; [discriminate|]); exact I.

Section Runs.
Variable text_of : Q -> pystr.
Variable infer : subject -> list (pystr * force) -> list pystr * res (option state).
Variables root_type tonic_type : pitch_type.
Variable verbose : bool.
Variable state_lines : list Model_Log.log_line -> list pystr.
Variable table_lines : list label_row_out -> list pystr.
Variable order : list pystr.
Variable forces : list (pystr * list (pystr * force)).
Variable dir : option fpath.
Notation run_piece := (run_piece text_of infer root_type tonic_type verbose state_lines table_lines order forces dir).
Notation run_pieces := (run_pieces text_of infer root_type tonic_type verbose state_lines table_lines order forces dir).
Notation write_tables := (write_tables verbose table_lines dir).
Notation fared := (fared infer root_type tonic_type order forces).
Notation values accs := (map (fun y => value_line text_of (fst y) (snd y)) (combine accuracy_names accs)).

Definition opening (x : subject) : list event :=
  match sj_name x with
  | None => []
  | Some name => info (L"Running piece " ++ name)
                 :: match find (fun key => substring_of key name) order with
                    | Some key => [info (L"Using forces with key " ++ key)]
                    | None => []
                    end
  end.
(* what a piece adds to a run that goes on *)
Definition account (x : subject) (es : list event) (w : fate) : Prop :=
  exists f said, choose_forces order forces (sj_name x) = Ok f /\ fst (infer x f) = said /\
  match w with
  | NoResult => es = opening x ++ map Line said ++ [info (L"Returned None")]
  | Result accs t => exists labels entries,
      es = opening x ++ map Line said ++ values accs ++ (if verbose then map Line (state_lines entries) else []) ++ write_tables x labels t
  end.
Lemma run_piece_done x es : run_piece x = (es, None) -> exists w, fared x w /\ account x es w.
Proof.
  unfold Model_Script.run_piece. intros H. apply after_done in H as (f & es1 & Hf & H & ->).
  destruct (infer x f) as [said r] eqn:Ei. apply after_done in H as (o & es2 & -> & H & ->).
  destruct o as [s|].
  2:{ apply pair_equal_spec in H as [<- _]. exists NoResult. split; [exists f, said, None; auto|]. exists f, said. split; [exact Hf|]. rewrite Ei. auto. }
  unfold measure in H. destruct (sj_annotated x) eqn:An; cbn [negb] in H.
  2:{ apply after_done in H as (u & es3 & _ & H & _). unfold make_tables in H. rewrite An in H. apply after_done in H as (l & es4 & _ & H & _).
      apply after_done in H as (y & es5 & Hx & _). discriminate. }
  apply after_done in H as ([[[[a b] c] d] e] & es3 & Hc & H & ->). apply after_done in H as ([k t] & es4 & Hk & H & ->).
  apply after_done in H as (j & es5 & Hj & H & ->). apply after_done in H as (u & es6 & _ & H & ->).
  unfold make_tables in H. rewrite An in H. apply after_done in H as (entries & es7 & He & H & ->).
  apply after_done in H as ([labels tb] & es8 & Ht & H & ->). apply pair_equal_spec in H as [<- _].
  exists (Result [a; b; c; d; e; k; t; j] tb). split.
  - exists f, said, (Some s). split; [exact Hf|]. split; [exact Ei|]. exists s. split; [reflexivity|]. split; [exact An|]. split.
    + repeat (apply bind_ok in Hc as (? & ? & Hc)). apply Ok_inj in Hc. repeat (apply bind_ok in Hk as (? & ? & Hk)). apply Ok_inj in Hk.
      repeat rewrite pair_equal_spec in Hc. repeat rewrite pair_equal_spec in Hk. destruct Hc as ((((-> & ->) & ->) & ->) & ->). destruct Hk as (-> & ->).
      unfold measured. repeat (apply Forall2_cons; [assumption|]). constructor.
    + apply bind_ok in Ht as (lb & T1 & Ht). apply bind_ok in Ht as (rs & T2 & Ht). apply bind_ok in Ht as (md & T3 & Ht). apply Ok_inj in Ht.
      apply pair_equal_spec in Ht as [-> <-]. exists labels, rs, md. auto.
  - exists f, said. split; [exact Hf|]. rewrite Ei. split; [reflexivity|]. exists labels, entries. reflexivity.
Qed.
Lemma run_done l : forall es, run_pieces l = (es, None) -> exists ws ess, Forall2 fared l ws /\ es = concat ess /\
  Forall2 (fun xe w => account (fst xe) (snd xe) w) (combine l ess) ws /\ List.length ess = List.length l.
Proof.
  induction l as [|x l IH]; intros es H; cbn [Model_Script.run_pieces] in H.
  - apply pair_equal_spec in H as [<- _]. exists [], []. repeat split; constructor.
  - destruct (run_piece x) as [es1 [e|]] eqn:E1; [discriminate|]. destruct (run_pieces l) as [es2 e2] eqn:E2. apply pair_equal_spec in H as [<- ->].
    destruct (run_piece_done x es1 E1) as (w & F & A). destruct (IH es2 eq_refl) as (ws & ess & Fs & -> & As & Ln).
    exists (w :: ws), (es1 :: ess). split; [now constructor|]. split; [reflexivity|]. split; [|cbn; lia]. cbn [combine]. now constructor.
Qed.

(* ---- files ---- *)
Lemma files_opening x : files_written (opening x) = [].
Proof. unfold opening. destruct (sj_name x) as [n|]; [|reflexivity]. destruct (find _ _); reflexivity. Qed.
Lemma files_values accs : forall names, files_written (map (fun y => value_line text_of (fst y) (snd y)) (combine names accs)) = [].
Proof. induction accs as [|a accs IH]; intros [|n names]; try reflexivity. exact (IH names). Qed.
Lemma files_tables x labels t : files_written (write_tables x labels t) = evaluate_piece dir (sj_name x) (Some t).
Proof.
  unfold Model_Script.write_tables, evaluate_piece. destruct (sj_name x); [destruct dir|]; [reflexivity| |]; destruct verbose; try apply files_of_lines; reflexivity.
Qed.
Lemma files_account x es w : account x es w -> files_written es = evaluate_piece dir (sj_name x) (tables_of w).
Proof.
  intros (f & said & _ & _ & H). destruct w as [|accs t].
  - subst es. rewrite !files_app, files_opening, files_of_lines. reflexivity.
  - destruct H as (labels & entries & ->). rewrite !files_app, files_opening, files_of_lines, files_values, files_tables.
    destruct verbose; [rewrite files_of_lines|]; reflexivity.
Qed.
Lemma files_stop x es e : run_piece x = (es, Some e) -> files_written es = [].
Proof.
  assert (G : forall A a (r : res A) k, files_written a = [] -> (forall v es e, k v = (es, Some e) -> files_written es = []) ->
     forall es e, after a r k = (es, Some e) -> files_written es = []).
  { intros A a r k Ha Hk es' e' H. unfold after in H. destruct r as [v|e0]; [|apply pair_equal_spec in H as [<- _]; exact Ha].
    destruct (k v) as [es1 e1] eqn:E. apply pair_equal_spec in H as [<- ->]. rewrite files_app, Ha. exact (Hk v es1 e' E). }
  assert (T : forall s es e, make_tables root_type tonic_type verbose state_lines x s (fun '(labels, t) => (write_tables x labels t, None)) = (es, Some e) -> files_written es = []).
  { intros s. unfold make_tables. apply G; [reflexivity|]. intros entries. apply G; [destruct verbose; [apply files_of_lines|reflexivity]|]. intros [lb tb] es' e' H. discriminate. }
  unfold Model_Script.run_piece. revert es e. apply G; [exact (files_opening x)|]. intros f. destruct (infer x f) as [said r]. apply G; [apply files_of_lines|].
  intros [s|]; [|discriminate]. unfold measure. destruct (negb (sj_annotated x)); [apply G; [reflexivity|intros _; exact (T s)]|].
  apply G; [reflexivity|]. intros [[[[a b] c] d] e]. apply G; [reflexivity|]. intros [k t]. apply G; [reflexivity|]. intros j. apply G; [reflexivity|]. intros _. exact (T s).
Qed.

(* ---- the log ---- *)
Variable float_of : pystr -> option Q.
Variable eps : Q.
Hypothesis Hback : reads_back eps float_of text_of.
Hypothesis Hinfer : forall x f, silent (fst (infer x f)).
Hypothesis Hstate : forall entries, silent (state_lines entries).
Hypothesis Htable : forall labels, silent (table_lines labels).
Hypothesis Horder : forall key, In key order -> ~ In "="%char key.

Lemma values_block accs : exists res, log_lines (values accs) = map (fun x => Spec_Runs.log_line (fst x) (fst (snd x))) (combine accuracy_names res) /\
  (forall t q, In (t, q) res -> ~ In "="%char t /\ float_of (t ++ [newline]) = Some q) /\
  Forall2 (fun r q => (Qabs (snd r - q) <= eps)%Q) res accs.
Proof.
  generalize accuracy_names as names. induction accs as [|a accs IH]; intros names.
  - exists []. split; [destruct names; reflexivity|]. split; [intros t q []|constructor].
  - destruct (Hback a) as (Na & a' & Fa & Da). destruct (IH (tl names)) as (res & E & G & F).
    exists ((text_of a, a') :: res). split; [|split; [|constructor; assumption]].
    + destruct names as [|n names]; [reflexivity|]. cbn [combine map fst snd tl] in *. cbn [log_lines flat_map value_line info app].
      rewrite <- E. unfold Spec_Runs.log_line. rewrite <- !app_assoc. reflexivity.
    + intros t q [H|H]; [injection H as <- <-; auto|exact (G t q H)].
Qed.
Lemma silent_opening x : (forall n, sj_name x = Some n -> ~ In "="%char n) -> silent (log_lines (opening x)).
Proof.
  intros Hn. unfold opening. destruct (sj_name x) as [n|]; [|exact silent_nil]. specialize (Hn n eq_refl).
  match goal with |- silent (log_lines (?a :: ?b)) => change (a :: b) with ([a] ++ b) end.
  rewrite log_app. apply silent_app.
  - apply silent_info, no_equals; [plain|exact Hn].
  - destruct (find (fun key => substring_of key n) order) as [key|] eqn:E; [|exact silent_nil].
    apply silent_info, no_equals; [plain|]. apply Horder. exact (proj1 (find_some _ _ E)).
Qed.
Lemma silent_tables x labels t : (forall p u, In (File p u) (write_tables x labels t) -> ~ In "="%char (path_text p)) ->
  silent (log_lines (write_tables x labels t)).
Proof.
  unfold Model_Script.write_tables. destruct (evaluate_piece dir (sj_name x) (Some t)) as [|y ys].
  - intros _. destruct verbose; [rewrite log_of_lines; apply Htable|exact silent_nil].
  - generalize (y :: ys). clear y ys. intros ws H. 
    assert (G : forall names ws, (forall n, In n names -> ~ In "="%char n) -> (forall p u, In (File p u)
       (flat_map (fun y : pystr * (fpath * table) => [File (fst (snd y)) (snd (snd y)); info (fst y ++ L" TSV written out to " ++ path_text (fst (snd y)))]) (combine names ws)) -> ~ In "="%char (path_text p)) ->
       silent (log_lines (flat_map (fun y : pystr * (fpath * table) => [File (fst (snd y)) (snd (snd y)); info (fst y ++ L" TSV written out to " ++ path_text (fst (snd y)))]) (combine names ws)))).
    { clear ws H. induction names as [|n names IH]; intros ws Hn H; [exact silent_nil|]. destruct ws as [|[p u] ws]; [exact silent_nil|].
      cbn [combine flat_map]. rewrite log_app. apply silent_app.
      - cbn [fst snd]. change (silent (log_lines [info (n ++ L" TSV written out to " ++ path_text p)])). apply silent_info.
        apply no_equals; [apply Hn; now left|]. apply no_equals; [plain|]. apply (H p u). now left.
      - apply IH; [intros m Hm; apply Hn; now right|]. intros p' u' I. apply (H p' u'). cbn [combine flat_map]. apply in_app_iff. now right. }
    apply G; [|exact H]. intros n Hn. cbn [In] in Hn. repeat (destruct Hn as [<-|Hn]; [plain|]). destruct Hn.
Qed.
Lemma log_of_app a b : log_of (a ++ b) = log_of a ++ log_of b.
Proof. apply flat_map_app. Qed.
Lemma account_blocks x es w : account x es w -> (forall n, sj_name x = Some n -> ~ In "="%char n) ->
  (forall p u, In (File p u) es -> ~ In "="%char (path_text p)) ->
  exists blocks, log_lines es = log_of blocks /\ Forall (good_piece float_of) blocks /\
  forall i, (i < 8)%nat -> (match w with Result accs _ => List.length accs = 8%nat | NoResult => True end) ->
    Forall2 (fun r q => (Qabs (r - q) <= eps)%Q)
      (flat_map (fun p => match nth_error (snd p) i with Some (t, q) => [q] | None => [] end) blocks) (column i [w]).
Proof.
  intros (f & said & _ & Es & H) Hn Hp. assert (Sd : silent said) by (subst said; apply Hinfer). destruct w as [|accs t].
  - exists [(log_lines es, [])]. subst es. split; [unfold log_of; cbn [flat_map fst snd]; now rewrite combine_nil, !app_nil_r|]. split.
    + constructor; [|constructor]. split; [|intros t q []]. cbn [fst]. rewrite !log_app, log_of_lines. apply silent_app; [now apply silent_opening|].
      apply silent_app; [exact Sd|]. apply silent_info. plain.
    + intros i _ _. cbn [flat_map snd]. destruct i; constructor.
  - destruct H as (labels & entries & ->). destruct (values_block accs) as (res & E & G & F).
    set (post := (if verbose then map Line (state_lines entries) else []) ++ write_tables x labels t) in *.
    exists [(log_lines (opening x ++ map Line said), res); (log_lines post, [])]. split; [|split].
    + unfold log_of. cbn [flat_map fst snd]. rewrite combine_nil. cbn [map]. rewrite !app_nil_r, <- E, !log_app, <- !app_assoc. reflexivity.
    + constructor; [|constructor; [|constructor]]; (split; [|try (intros ? ? []); try exact G]); cbn [fst].
      * rewrite log_app, log_of_lines. apply silent_app; [now apply silent_opening|exact Sd].
      * unfold post. rewrite log_app. apply silent_app; [destruct verbose; [rewrite log_of_lines; apply Hstate|exact silent_nil]|].
        apply silent_tables. intros p u I. apply (Hp p u). rewrite !in_app_iff. right. right. right. unfold post. apply in_app_iff. now right.
    + intros i Hi L8. unfold column, found. cbn [flat_map snd app map]. destruct (nth_error res i) as [[tx q']|] eqn:Er.
      * cbn [app]. replace (match nth_error (@nil (list ascii * Q)) i with Some (_, q) => [q] | None => [] end) with (@nil Q) by (destruct i; reflexivity).
        constructor; [|constructor].
        clear -F Er. revert i Er. induction F as [|r q rs qs H F IH]; intros i Er; [destruct i; discriminate|]. destruct i as [|i]; cbn in Er |- *.
        { injection Er as ->. exact H. } { exact (IH i Er). }
      * apply nth_error_None in Er. assert (List.length res = List.length accs) by (clear -F; induction F; cbn; lia). lia.
Qed.
End Runs.
