(* C101: the labels of every file in the output directory are written onto the score with the same name. *)
From Coq Require Import String Ascii.
From Verif Require Import Model_Output Model_Scores Spec_Output Spec_Checkpoints Spec_Scores
  Proof_Base Proof_Strings Proof_Output Proof_Checkpoints Prop_Output Proof_Scores.
From Coq Require Import List Lia.
Import ListNotations.
Open Scope Z_scope.

(* The files of labels are those whose names end with .tsv, at any depth, but not hidden ones.  For each there is one
   attempt, in the order of the texts of the paths, with the directory of annotations that has the same name; an
   exception ends an attempt and not the run. *)
Theorem C101_run fails fs dir annotations : file_system fs -> (p_root dir <= 2)%nat -> Forall entry (p_parts dir) -> plain_text (path_text dir) ->
  exists files ess, write_tsvs_to_scores fails fs dir annotations = Ok (concat ess) /\
    Forall2 (attempt fails dir annotations) files ess /\ NoDup files /\
    (forall f, In f files <-> In (place dir f) fs /\ Forall visible (fst f) /\ visible (snd f)) /\
    forall i j f g, (i < j)%nat -> nth_error files i = Some f -> nth_error files j = Some g ->
      before (path_text (place dir f)) (path_text (place dir g)).
Proof.
  intros Hfs Hr Hd Hp. assert (Hg : exists found, glob_tsv fs dir = Ok found).
  { unfold glob_tsv. apply magic_plain in Hp. rewrite Hp. eexists. reflexivity. }
  destruct Hg as (found & Eg). assert (Hin := glob_in fs dir found Hfs Eg). assert (ND := sorted_nodup _ (glob_nodup fs dir found Hfs Eg)).
  assert (Asc := sorted_asc found).
  assert (Hs : forall t, In t (str_sorted found) <-> exists f, In (place dir f) fs /\ Forall visible (fst f) /\ visible (snd f) /\ t = path_text (place dir f)).
  { intros t. rewrite sorted_in. apply Hin. }
  unfold write_tsvs_to_scores. rewrite Eg. cbn [bind]. clear Eg Hin. generalize dependent (str_sorted found). clear found. intros l ND Asc Hs.
  assert (Ent : forall f, In (place dir f) fs -> Forall entry (p_parts dir ++ fst f ++ [snd f ++ L".tsv"])).
  { intros f I. destruct (proj2 Hfs _ I) as [_ E]. exact E. }
  assert (Inj : forall f g, In (place dir f) fs -> In (place dir g) fs -> path_text (place dir f) = path_text (place dir g) -> f = g).
  { intros f g If Ig E. apply text_inj in E; try exact Hr; try (cbn [place below p_parts]; intros X; apply (f_equal (@List.length _)) in X; rewrite !app_length in X; cbn in X; lia);
      try (apply Ent; assumption). unfold place in E. apply below_eq in E as [E1 E2]. apply app_inv_tail in E2. destruct f, g; cbn in *; congruence. }
  assert (Ex : exists files, l = map (fun f => path_text (place dir f)) files /\ forall f, In f files -> In (place dir f) fs /\ Forall visible (fst f) /\ visible (snd f)).
  { assert (S1 : forall t, In t l -> exists f, In (place dir f) fs /\ Forall visible (fst f) /\ visible (snd f) /\ t = path_text (place dir f)) by (intros t; apply Hs).
    clear -S1. induction l as [|t l IH]; [exists []; split; [reflexivity|intros f []]|]. destruct (S1 t (or_introl eq_refl)) as (f & A & B & C & ->).
    destruct (IH (fun u I => S1 u (or_intror I))) as (files & -> & H). exists (f :: files). split; [reflexivity|]. intros g [<-|I]; [repeat split; assumption|exact (H g I)]. }
  destruct Ex as (files & -> & Hf).
  assert (Em : exists ess, mapM (write_score fails dir annotations) (map (fun f => path_text (place dir f)) files) = Ok ess /\ Forall2 (attempt fails dir annotations) files ess).
  { clear ND Asc Hs. induction files as [|f files IH]; [exists []; split; [reflexivity|constructor]|]. destruct (IH (fun g I => Hf g (or_intror I))) as (ess & Em & F).
    destruct (Hf f (or_introl eq_refl)) as (A & _ & (c & r & Eb & _)). destruct (write_score_spec fails dir annotations f Hr (Ent f A)) as (es & Ew & At); [rewrite Eb; discriminate|].
    exists (es :: ess). cbn [map mapM]. rewrite Ew. cbn [bind]. rewrite Em. split; [reflexivity|constructor; assumption]. }
  destruct Em as (ess & -> & F). exists files, ess. split; [reflexivity|]. split; [exact F|]. split; [exact (NoDup_map_inv _ _ ND)|]. split.
  - intros f. split; [apply Hf|]. intros (A & B & C). assert (I : In (path_text (place dir f)) (map (fun f => path_text (place dir f)) files)) by (apply Hs; exists f; repeat split; assumption).
    apply in_map_iff in I as (g & E & Ig). replace f with g; [exact Ig|]. apply Inj; [apply Hf; exact Ig|exact A|exact E].
  - clear -Asc. revert Asc. induction files as [|h files IH]; intros Asc i j f g Hij Ei Ej; [destruct i; discriminate|]. cbn [map asc] in Asc. destruct Asc as [A1 A2].
    destruct j as [|j]; [lia|]. cbn in Ej. destruct i as [|i].
    + cbn in Ei. apply Some_inj in Ei. subst h. apply str_leb_iff, A1. apply in_map_iff. exists g. split; [reflexivity|]. exact (nth_error_In _ _ Ej).
    + exact (IH A2 i j f g ltac:(lia) Ei Ej).
Qed.
Print Assumptions C101_run.

(* The score with the name of the file, and the file, are found by the expression. *)
Theorem C101_own base ext : Forall (fun c => ordinary c \/ c = "."%char) base -> ~ In (ascii_of_nat 10) base -> (ext = L"mscx" \/ ext = L"tsv") ->
  searched base (base ++ "."%char :: ext).
Proof.
  intros F N He. exists [], base, ext, []. rewrite app_nil_r. split; [reflexivity|]. split; [exact He|]. clear F. induction base as [|c r IH]; constructor.
  - destruct (Ascii.eqb c "."); [intros ->; apply N; now left|reflexivity].
  - apply IH. intros I. apply N. now right.
Qed.
Print Assumptions C101_own.
(* For a name without dots: exactly the files that have this name, or one that ends with it, before .mscx or .tsv. *)
Theorem C101_searched base name : Forall ordinary base ->
  (searched base name <-> exists pre ext post, name = pre ++ base ++ "."%char :: ext ++ post /\ (ext = L"mscx" \/ ext = L"tsv")).
Proof.
  intros F. assert (E : forall m, Forall2 (fun c d => if Ascii.eqb c "." then d <> ascii_of_nat 10 else c = d) base m <-> m = base).
  { induction F as [|c r Hc F IH]; intros m.
    - split; [intros H; now inversion H|intros ->; constructor].
    - assert (Ec : Ascii.eqb c "." = false) by (apply Ascii.eqb_neq; intros ->; apply Hc; right; left; reflexivity). split.
      + intros H. inversion H as [|? d ? m' H1 H2]; subst. rewrite Ec in H1. subst d. f_equal. now apply IH.
      + intros ->. constructor; [rewrite Ec; reflexivity|now apply IH]. }
  split.
  - intros (pre & m & ext & post & -> & He & H). apply E in H. subst m. exists pre, ext, post. split; [reflexivity|exact He].
  - intros (pre & ext & post & -> & He). exists pre, base, ext, post. split; [reflexivity|]. split; [exact He|]. now apply E.
Qed.
Print Assumptions C101_searched.
(* False: one score per file.  The scores whose names end with the name of the piece are found as well. *)
Theorem C101_suffix_refuted base pre : Forall ordinary base -> searched base (pre ++ base ++ L".mscx").
Proof. intros F. apply C101_searched; [exact F|]. exists pre, (L"mscx"), []. split; [reflexivity|now left]. Qed.
Print Assumptions C101_suffix_refuted.
(* False also because a dot in the name stands for any character. *)
Theorem C101_dot_refuted a b c : Forall ordinary (a ++ b) -> c <> ascii_of_nat 10 -> searched (a ++ "."%char :: b) (a ++ c :: b ++ L".mscx").
Proof.
  intros F N. exists [], (a ++ c :: b), (L"mscx"), []. split; [rewrite <- !app_assoc; reflexivity|]. split; [now left|].
  apply Forall_app in F as [Fa Fb]. assert (K : forall l, Forall ordinary l -> Forall2 (fun c d => if Ascii.eqb c "." then d <> ascii_of_nat 10 else c = d) l l).
  { induction 1 as [|d r Hd _ IH]; constructor; [|exact IH]. replace (Ascii.eqb d ".") with false; [reflexivity|]. symmetry. apply Ascii.eqb_neq. intros ->. apply Hd. right. left. reflexivity. }
  apply Forall2_app; [exact (K a Fa)|]. constructor; [exact N|exact (K b Fb)].
Qed.
Print Assumptions C101_dot_refuted.

Lemma component_entry w : component w -> entry w.
Proof. apply component_part. Qed.
(* After a run of the evaluation script on pieces from tables (C90), with nothing else in the output directory: there is an attempt
   for the labels of each piece, and two more, for its results. *)
Theorem C101_evaluate {T} dir (l : list (filed (tables T))) fs : well_named (L".tsv") l ->
  (forall p, In p fs <-> exists c, file_content (evaluate_files (Some dir) (named_scores (L".tsv") l)) p = Some c) ->
  (forall x, In x l -> Forall visible (f_dirs x) /\ visible (f_base x)) ->
  forall f, (In (place dir f) fs /\ Forall visible (fst f) /\ visible (snd f)) <->
    exists x t, In x l /\ f_out x = Some t /\ fst f = f_dirs x /\
      (snd f = f_base x \/ snd f = f_base x ++ L"_results" \/ snd f = f_base x ++ L"_results_midi").
Proof.
  intros W Hfs Hv f. rewrite Hfs.
  assert (V : forall b s, visible b -> visible (b ++ s)) by (intros b s (c & r & -> & H); exists c, (r ++ s); split; [reflexivity|exact H]).
  split.
  - intros ((c & H) & _ & _). apply (C90_evaluate dir _ l W) in H as (x & t & Hx & Ht & H). exists x, t. split; [exact Hx|]. split; [exact Ht|]. unfold place in H.
    destruct H as [[H _]|[[H _]|[H _]]]; apply below_eq in H as [H1 H2]; (split; [exact H1|]).
    + left. now apply app_inv_tail in H2.
    + right. left. change (L"_results.tsv") with (L"_results" ++ L".tsv") in H2. rewrite app_assoc in H2. now apply app_inv_tail in H2.
    + right. right. change (L"_results_midi.tsv") with (L"_results_midi" ++ L".tsv") in H2. rewrite app_assoc in H2. now apply app_inv_tail in H2.
  - intros (x & t & Hx & Ht & Ed & Eb). destruct (Hv x Hx) as [V1 V2]. split; [|split].
    + destruct Eb as [Eb|[Eb|Eb]]; eexists; apply (C90_evaluate dir _ l W); exists x, t; (split; [exact Hx|]); (split; [exact Ht|]); unfold place; rewrite Ed, Eb.
      * left. split; reflexivity.
      * right. left. rewrite <- app_assoc. split; reflexivity.
      * right. right. rewrite <- app_assoc. split; reflexivity.
    + rewrite Ed. exact V1.
    + destruct Eb as [E0|[E0|E0]]; rewrite E0; auto.
Qed.
Print Assumptions C101_evaluate.
(* False for scores: their labels are under the name of the score (C90_score_refuted), and only the results are tried. *)
Theorem C101_scores_refuted {T} dir (l : list (filed (tables T))) fs : well_named (L".mxl") l ->
  (forall p, In p fs <-> exists c, file_content (evaluate_files (Some dir) (named_scores (L".mxl") l)) p = Some c) ->
  forall f, In (place dir f) fs -> exists x, In x l /\ fst f = f_dirs x /\ (snd f = f_base x ++ L"_results" \/ snd f = f_base x ++ L"_results_midi").
Proof.
  intros W Hfs f H. apply Hfs in H as (c & H). apply (C90_evaluate dir _ l W) in H as (x & t & Hx & Ht & H). exists x. split; [exact Hx|]. unfold place in H.
  destruct H as [[H _]|[[H _]|[H _]]]; apply below_eq in H as [H1 H2].
  - apply tail_eq in H2 as [_ H2]; [discriminate|reflexivity].
  - split; [exact H1|]. left. change (L"_results.tsv") with (L"_results" ++ L".tsv") in H2. rewrite app_assoc in H2. now apply app_inv_tail in H2.
  - split; [exact H1|]. right. change (L"_results_midi.tsv") with (L"_results_midi" ++ L".tsv") in H2. rewrite app_assoc in H2. now apply app_inv_tail in H2.
Qed.
Print Assumptions C101_scores_refuted.
(* After a run of the annotation script: an attempt for each piece, but always in the directory of annotations itself,
   whatever the directories of the piece. *)
Theorem C101_annotate_refuted {T} dir ext (l : list (filed T)) fs fails annotations : well_named_flat ext l ->
  (forall p, In p fs <-> exists c, file_content (annotate_files (Some dir) (named_scores ext l)) p = Some c) ->
  forall f, In (place dir f) fs -> fst f = [] /\ (exists x, In x l /\ snd f = f_base x) /\
    forall es d re, attempt fails dir annotations f es -> In (Op (Parse d re)) es -> d = path_text annotations.
Proof.
  intros W Hfs f H. apply Hfs in H as (c & H). apply (C90_annotate dir ext l W) in H as (x & Hx & Ho & H). unfold place in H. apply below_eq in H as [H1 H2]. apply app_inv_tail in H2.
  split; [exact H1|]. split; [exists x; split; [exact Hx|exact H2]|]. intros es d re (k & Hk & _ & H) I.
  assert (I' : In (Op (Parse d re)) (map Op [Compile (snd f ++ L"\.(mscx|tsv)"); Parse (path_text (inside annotations (fst f))) (snd f ++ L"\.(mscx|tsv)")])).
  { destruct H as [[_ E0]|(_ & _ & E0)]; subst es.
    - apply in_app_iff in I as [I|[I|[]]]; [|discriminate]. apply in_map_iff in I as (o & E & I). apply in_map_iff. exists o. split; [exact E|].
      injection E as ->. do 7 (destruct k as [|k]; [cbn [firstn In] in I; cbn [In]; intuition discriminate|]). lia.
    - cbn [map In] in I |- *. intuition discriminate. }
  cbn [map In] in I'. destruct I' as [E|[E|[]]]; [discriminate|]. injection E as <- _. rewrite H1. unfold inside. rewrite app_nil_r. now destruct annotations.
Qed.
Print Assumptions C101_annotate_refuted.

(* ---- examples: hidden files and others are passed over; the second attempt is ended by an exception ---- *)
Definition ex_fs : list fpath := map parse_path
  [L"out"; L"out/ABC"; L"out/ABC/n02.tsv"; L"out/ABC/n01.tsv"; L"out/ABC/n01.mscx"; L"out/.git/x.tsv"; L"out/ABC/.tsv"; L"other/n03.tsv"; L"out/top.v2.tsv"].
Example C101_ex : file_system ex_fs /\ plain_text (path_text (parse_path (L"out"))) /\ Forall entry (p_parts (parse_path (L"out"))).
Proof.
  split; [|split].
  - split.
    + vm_compute. repeat constructor; cbn [In]; intuition discriminate.
    + intros p I. vm_compute in I. repeat (destruct I as [<-|I]; [split; [cbn; lia|]; cbn [p_parts]; repeat (apply Forall_cons; [comp|]); apply Forall_nil|]). destruct I.
  - comp.
  - vm_compute. repeat (apply Forall_cons; [comp|]); apply Forall_nil.
Qed.
Example C101_example :
  match write_tsvs_to_scores (fun ops => match ops with [Compile re; Parse _ _] => str_eqb re (L"n02\.(mscx|tsv)") | _ => false end)
      ex_fs (parse_path (L"out")) (parse_path (L"/data/annotations/")) with
  | Ok es => flat_map (fun e => match e with Op (Parse d re) => [d; re] | Op (Store d _ _) => [d] | Message m => [m] | _ => [] end) es =
      [L"/data/annotations/ABC"; L"n01\.(mscx|tsv)"; L"out/ABC"; L"/data/annotations/ABC"; L"n02\.(mscx|tsv)"; L"Error writing score out to out/ABC";
       L"/data/annotations"; L"top.v2\.(mscx|tsv)"; L"out"]
  | Raise _ => False
  end.
Proof. vm_compute. reflexivity. Qed.
