(* C102: the data written by create_ml_course_data.py. *)
From Coq Require Import String Ascii.
From Verif Require Import Model_Strings Model_Piece Model_Runs Model_Output Model_Course Spec_Course Proof_Base Proof_Strings Proof_Output Proof_Checkpoints Proof_Scores Prop_Piece Prop_Eval.
From Coq Require Import List Lia.
Import ListNotations.
Open Scope Z_scope.

Lemma keys_stop composer p fs : exists e, write_keys composer p fs = (open_append fs (join_path key_dir (parse_path (composer ++ L".csv"))), Some e).
Proof.
  unfold write_keys. destruct (mapM key_symbol (p_keys p)) as [ks|e]; [|exists e; reflexivity]. cbn [bind].
  destruct (py_nth (p_keys p) 0) as [k|e]; [|exists e; reflexivity]. exists TypeError. reflexivity.
Qed.
Lemma open_in fs p f : In f (open_append fs p) -> In f fs \/ snd f = [].
Proof. unfold open_append. destruct (existsb _ _); [auto|]. intros I. apply in_app_iff in I as [I|[<-|[]]]; auto. Qed.
Lemma files_in composer pieces : forall fs fs' e, course_files composer pieces fs = (fs', e) -> forall f, In f fs' -> In f fs \/ snd f = [].
Proof.
  induction pieces as [|[p|] r IH]; intros fs fs' e H f I; cbn [course_files] in H.
  - apply pair_equal_spec in H as [<- _]. now left.
  - destruct (keys_stop composer p fs) as (e' & E). rewrite E in H. apply pair_equal_spec in H as [<- _]. exact (open_in _ _ _ I).
  - exact (IH _ _ _ H f I).
Qed.
Lemma composers_in files l : forall fs fs' e, course_composers files l fs = (fs', e) -> forall f, In f fs' -> In f fs \/ snd f = [].
Proof.
  induction l as [|c r IH]; intros fs fs' e H f I; cbn [course_composers] in H.
  - apply pair_equal_spec in H as [<- _]. now left.
  - destruct (course_files c _ fs) as [fs1 [e1|]] eqn:E.
    + apply pair_equal_spec in H as [<- _]. exact (files_in _ _ _ _ _ E f I).
    + destruct (IH _ _ _ H f I) as [J|J]; [|now right]. exact (files_in _ _ _ _ _ E f J).
Qed.

Lemma parts_eq dir : forall p r, parts_after dir p = Some r -> p = dir ++ r.
Proof.
  induction dir as [|v d IH]; intros p r H; [cbn in H; now injection H|]. destruct p as [|w p]; [discriminate|]. cbn [parts_after] in H.
  destruct (str_eqb v w) eqn:E; [|discriminate]. apply str_eqb_eq in E as ->. cbn [app]. f_equal. exact (IH _ _ H).
Qed.
Lemma tree_in fs dir f : In f (remove_tree fs dir) <-> In f fs /\ forall q, fst f <> FPath (p_root dir) (p_parts dir ++ q).
Proof.
  unfold remove_tree. rewrite filter_In. split; intros [I H]; (split; [exact I|]).
  - intros q E. rewrite E in H. rewrite relative_app in H. discriminate.
  - destruct (relative_to (fst f) dir) as [q|e] eqn:E; [|reflexivity]. exfalso. unfold relative_to in E. destruct (p_root (fst f) =? p_root dir)%nat eqn:R; [|discriminate].
    apply Nat.eqb_eq in R. destruct (parts_after (p_parts dir) (p_parts (fst f))) as [r|] eqn:A; [|discriminate]. apply (H r).
    rewrite <- R, <- (parts_eq _ _ _ A). now destruct (fst f).
Qed.
Lemma old_in fs f : In f (remove_tree (remove_tree fs chord_dir) key_dir) <-> In f fs /\ ~ data_file (fst f).
Proof.
  rewrite !tree_in. split.
  - intros [[I H1] H2]. split; [exact I|]. intros (q & [E|E]); [exact (H1 q E)|exact (H2 q E)].
  - intros [I H]. split; [split; [exact I|]|]; intros q E; apply H; exists q; [left|right]; exact E.
Qed.

(* False: the script writes data.  Whatever the corpus, all that it writes are empty files, and what was in the two
   directories is gone. *)
Theorem C102_data_refuted files fs fs' e : create_course_data files fs = (fs', e) -> forall p text, In (p, text) fs' ->
  text = [] \/ (In (p, text) fs /\ ~ data_file p).
Proof.
  unfold create_course_data. set (old := remove_tree _ key_dir). intros H p text I.
  assert (O : forall f, In f old -> In f fs /\ ~ data_file (fst f)) by (intros f J; apply old_in; exact J).
  destruct (course_composers files _ old) as [fs1 [e1|]] eqn:E.
  - apply pair_equal_spec in H as [<- _]. destruct (composers_in _ _ _ _ _ E _ I) as [J|J]; [right; exact (O _ J)|left; exact J].
  - apply pair_equal_spec in H as [<- _].
    assert (W : forall names fs2, In (p, text) (fold_left (fun fs name => write_text fs (join_path base_dir (FPath 0 [name])) []) names fs2) -> In (p, text) fs2 \/ text = []).
    { induction names as [|n names IH]; intros fs2 J; [now left|]. cbn [fold_left] in J. destruct (IH _ J) as [K|K]; [|now right].
      unfold write_text in K. apply in_app_iff in K as [K|[K|[]]]; [apply filter_In in K; left; apply K|]. apply pair_equal_spec in K as [_ <-]. now right. }
    destruct (W _ _ I) as [J|J]; [|now left]. destruct (composers_in _ _ _ _ _ E _ J) as [K|K]; [right; exact (O _ K)|left; exact K].
Qed.
Print Assumptions C102_data_refuted.

Lemma open_kept fs p f : In f fs -> In f (open_append fs p).
Proof. unfold open_append. destruct (existsb _ _); [auto|]. intros I. apply in_app_iff. now left. Qed.
Lemma files_kept composer pieces : forall fs fs' e, course_files composer pieces fs = (fs', e) -> forall f, In f fs -> In f fs'.
Proof.
  induction pieces as [|[p|] r IH]; intros fs fs' e H f I; cbn [course_files] in H.
  - apply pair_equal_spec in H as [<- _]. exact I.
  - destruct (keys_stop composer p fs) as (e' & E). rewrite E in H. apply pair_equal_spec in H as [<- _]. now apply open_kept.
  - exact (IH _ _ _ H f I).
Qed.
Lemma composers_kept files l : forall fs fs' e, course_composers files l fs = (fs', e) -> forall f, In f fs -> In f fs'.
Proof.
  induction l as [|c r IH]; intros fs fs' e H f I; cbn [course_composers] in H.
  - apply pair_equal_spec in H as [<- _]. exact I.
  - destruct (course_files c _ fs) as [fs1 [e1|]] eqn:E.
    + apply pair_equal_spec in H as [<- _]. exact (files_kept _ _ _ _ _ E f I).
    + exact (IH _ _ _ H f (files_kept _ _ _ _ _ E f I)).
Qed.
(* All other files are kept as they are. *)
Theorem C102_kept files fs fs' e p text : create_course_data files fs = (fs', e) -> In (p, text) fs -> ~ data_file p -> ~ In p vocabularies -> In (p, text) fs'.
Proof.
  unfold create_course_data. intros H I D V. assert (O : In (p, text) (remove_tree (remove_tree fs chord_dir) key_dir)) by (apply old_in; split; assumption).
  destruct (course_composers files _ _) as [fs1 [e1|]] eqn:E; assert (K := composers_kept _ _ _ _ _ E _ O); apply pair_equal_spec in H as [<- _]; [exact K|]. clear -K V.
  assert (W : forall names fs2, (forall n, In n names -> p <> FPath 0 [L"ML_course_data"; n]) -> In (p, text) fs2 ->
     In (p, text) (fold_left (fun fs name => write_text fs (join_path base_dir (FPath 0 [name])) []) names fs2)).
  { induction names as [|n names IH]; intros fs2 N J; [exact J|]. cbn [fold_left]. apply IH; [intros n' I; apply N; now right|].
    unfold write_text. apply in_app_iff. left. apply filter_In. split; [exact J|]. cbn [fst]. destruct (fpath_eqb p (join_path base_dir (FPath 0 [n]))) eqn:Eq; [|reflexivity].
    apply fpath_eqb_eq in Eq. destruct (N n (or_introl eq_refl) Eq). }
  apply W; [|exact K]. intros n I ->. apply V. unfold vocabularies. apply in_map_iff. exists n. split; [reflexivity|exact I].
Qed.
Print Assumptions C102_kept.

Lemma lstrip_suffix s : exists a, s = a ++ lstrip s.
Proof. induction s as [|c r (a & IH)]; [exists []; reflexivity|]. cbn [lstrip]. destruct (is_space c); [exists (c :: a); cbn; now f_equal|exists []; reflexivity]. Qed.
Lemma split_head sep s : exists r, s = hd [] (split_on sep s) ++ r.
Proof.
  induction s as [|c s (r & IH)]; [exists []; reflexivity|]. cbn [split_on]. destruct (Ascii.eqb c sep); [exists (c :: s); reflexivity|].
  destruct (split_on sep s) as [|w ws] eqn:E; [now apply split_on_nonempty in E|]. cbn [hd] in *. exists r. cbn [app]. now f_equal.
Qed.
Lemma own_composer name : (forall c r, name = c :: r -> is_space c = false) -> is_prefix (strip (hd [] (split_on "-" name))) name = true.
Proof.
  intros H. destruct (split_head "-" name) as (r & E). set (w := hd [] (split_on "-" name)) in *.
  assert (L1 : lstrip w = w). { destruct w as [|c w']; [reflexivity|]. cbn [lstrip]. rewrite (H c (w' ++ r)); [reflexivity|]. rewrite E at 1. reflexivity. }
  unfold strip. rewrite L1. destruct (lstrip_suffix (rev w)) as (a & Ea). apply is_prefix_iff. exists (rev a ++ r). rewrite E at 1.
  rewrite app_assoc, <- rev_app_distr, <- Ea, rev_involutive. reflexivity.
Qed.
(* A corpus with one piece that can be made: the script ends with an exception. *)
Theorem C102_stops_refuted files fs name p : In (name, Some p) files -> (forall c r, name = c :: r -> is_space c = false) ->
  exists e, snd (create_course_data files fs) = Some e.
Proof.
  intros I H. unfold create_course_data. set (old := remove_tree _ key_dir). clearbody old.
  assert (C : In (strip (hd [] (split_on "-" name))) (composers (map fst files))).
  { unfold composers. apply sorted_in, nodup_In, in_map_iff. exists name. split; [reflexivity|]. apply in_map_iff. exists (name, Some p). split; [reflexivity|exact I]. }
  assert (R : exists fs' e, course_composers files (composers (map fst files)) old = (fs', Some e)).
  { revert old. induction (composers (map fst files)) as [|c r IH]; intros old; [destruct C|]. cbn [course_composers].
    destruct (course_files c _ old) as [fs1 [e1|]] eqn:E; [eexists; eexists; reflexivity|]. destruct C as [->|C]; [|exact (IH C fs1)]. exfalso.
    assert (J : In (Some p) (map snd (filter (fun f => is_prefix (strip (hd [] (split_on "-" name))) (fst f)) files))).
    { apply in_map_iff. exists (name, Some p). split; [reflexivity|]. apply filter_In. split; [exact I|]. cbn [fst]. now apply own_composer. }
    clear -E J. revert old fs1 E. induction (map snd _) as [|o l IH]; intros old fs1 E; [destruct J|]. cbn [course_files] in E. destruct o as [q|].
    - destruct (keys_stop (strip (hd [] (split_on "-" name))) q old) as (e & K). rewrite K in E. discriminate.
    - destruct J as [J|J]; [discriminate|]. exact (IH J old fs1 E). }
  destruct R as (fs' & e & ->). exists e. reflexivity.
Qed.
Print Assumptions C102_stops_refuted.

(* Only without any piece does it come to its end: with six empty vocabularies. *)
Theorem C102_empty files fs : Forall (fun f => snd f = None) files ->
  snd (create_course_data files fs) = None /\
  forall p, In p vocabularies -> In (p, []) (fst (create_course_data files fs)).
Proof.
  intros F. unfold create_course_data. set (old := remove_tree _ key_dir). clearbody old.
  assert (E : course_composers files (composers (map fst files)) old = (old, None)).
  { induction (composers (map fst files)) as [|c r IH]; [reflexivity|]. cbn [course_composers].
    assert (K : course_files c (map snd (filter (fun f => is_prefix c (fst f)) files)) old = (old, None)).
    { clear IH. induction F as [|f l Hf F IH]; [reflexivity|]. cbn [filter]. destruct (is_prefix c (fst f)); [|exact IH]. cbn [map course_files]. rewrite Hf. exact IH. }
    rewrite K. exact IH. }
  rewrite E. split; [reflexivity|]. intros p I. unfold vocabularies in I. apply in_map_iff in I as (name & <- & I). cbn [fst].
  assert (W : forall names fs2, (In name names \/ In (join_path base_dir (FPath 0 [name]), []) fs2) ->
     In (join_path base_dir (FPath 0 [name]), []) (fold_left (fun fs name => write_text fs (join_path base_dir (FPath 0 [name])) []) names fs2)).
  { induction names as [|n names IH]; intros fs2 [J|J]; [destruct J|exact J| |]; cbn [fold_left]; apply IH.
    - destruct J as [->|J]; [right; apply in_app_iff; right; now left|now left].
    - right. unfold write_text. apply in_app_iff. destruct (fpath_eqb (join_path base_dir (FPath 0 [name])) (join_path base_dir (FPath 0 [n]))) eqn:Eq.
      + right. left. apply fpath_eqb_eq in Eq. now rewrite Eq.
      + left. apply filter_In. split; [exact J|]. cbn [fst]. now rewrite Eq. }
  apply W. left. exact I.
Qed.
Print Assumptions C102_empty.

(* a corpus of three files; the second can be made into a piece *)
Example C102_example :
  create_course_data [(L"Corelli - op. 1", None); (L"ABC - quartets", Some p1); (L"WFBach", Some p1)]
    [(parse_path (L"ML_course_data/key/ABC.csv"), L"I:MAJOR"); (parse_path (L"ML_course_data/readme.txt"), L"hello")] =
  ([(parse_path (L"ML_course_data/readme.txt"), L"hello"); (parse_path (L"ML_course_data/key/ABC.csv"), [])], Some TypeError).
Proof. vm_compute. reflexivity. Qed.
