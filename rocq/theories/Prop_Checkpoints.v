(* C93: every model is loaded from the checkpoint that was asked for: the path given, the default
   place below --checkpoint, or the given version in it; among several, the last in dictionary order. *)
From Coq Require Import String Ascii.
From Verif Require Import Model_Checkpoints Spec_Checkpoints Proof_Base Proof_Strings Proof_Output Proof_Checkpoints.
From Coq Require Import List Lia.
Import ListNotations.
Open Scope Z_scope.

Local Opaque z_to_str.
Lemma tail_version name v : known name ->
  replace_go (L"_*") (L"_" ++ z_to_str v) (L"/" ++ name ++ L"/lightning_logs/version_*/checkpoints/*.ckpt") 0
  = L"/" ++ name ++ L"/lightning_logs/version_" ++ z_to_str v ++ L"/checkpoints/*.ckpt".
Proof. intros [<-|[<-|[<-|[<-|[<-|[]]]]]]; reflexivity. Qed.
Lemma tail_default dir name : known name ->
  str_replace (L"`--checkpoint`") dir (default_checkpoint name) = default_pattern dir name.
Proof.
  intros K. unfold str_replace, default_checkpoint, default_pattern. rewrite <- ?app_assoc.
  destruct K as [<-|[<-|[<-|[<-|[<-|[]]]]]];
    (lazymatch goal with |- replace_go ?o ?n ?s 0 = _ => change s with (o ++ skipn (List.length o) s) end;
     rewrite replace_match by discriminate; reflexivity).
Qed.

(* the pattern that is searched for *)
Theorem C93_pattern : forall dir name arg version, known name -> ~ within (L"_*") dir ->
  asked_pattern dir name arg version (checkpoint_pattern dir name arg version).
Proof.
  intros dir name arg version K W. unfold checkpoint_pattern. cbn zeta. rewrite tail_default by exact K. destruct version as [v|]; cbn [asked_pattern].
  - rewrite orb_true_r. unfold str_replace, default_pattern, version_pattern. rewrite replace_app.
    + now rewrite tail_version by exact K.
    + intros a1 a2 E N. apply not_true_iff_false. rewrite is_prefix_iff. intros (r & H). destruct a2 as [|x [|y a2]]; [now elim N| |].
      * discriminate H.
      * injection H as -> -> _. apply W. exists a1, a2. exact E.
  - rewrite orb_false_r. split.
    + intros ->. assert (E : str_eqb (L"`--checkpoint`/" ++ name ++ L"/lightning_logs/version_*/checkpoints/*.ckpt") (default_checkpoint name) = true)
        by (apply str_eqb_eq; reflexivity). now rewrite E.
    + intros N. destruct (str_eqb arg (default_checkpoint name)) eqn:E; [|reflexivity]. apply str_eqb_eq in E. now elim N.
Qed.
Print Assumptions C93_pattern.

Section Loading.
Context {C M : Type}.
Variable glob : pystr -> list pystr.
Variable load : C -> pystr -> option M.
Variables (dir : pystr) (arg : pystr -> pystr) (version : pystr -> option Z).
Hypothesis (W : ~ within (L"_*") dir).

Lemma first_class_some cs ckpt m : first_class load cs ckpt = Some m -> first_that_loads load cs ckpt m.
Proof.
  induction cs as [|c cs IH]; intros H; cbn [first_class] in H; [discriminate H|]. destruct (load c ckpt) as [m'|] eqn:E.
  - apply Some_inj in H. subst m'. exists [], c, cs. repeat split; [exact E|intros ? []].
  - destruct (IH H) as (b & d & a & -> & F & B). exists (c :: b), d, a. repeat split; [exact F|]. intros c' [<-|K]; [exact E|now apply B].
Qed.
Lemma first_class_none cs ckpt : first_class load cs ckpt = None -> forall c, In c cs -> load c ckpt = None.
Proof.
  induction cs as [|c cs IH]; intros H d K; [destruct K|]. cbn [first_class] in H. destruct (load c ckpt) eqn:E; [discriminate H|].
  destruct K as [<-|K]; [exact E|now apply IH].
Qed.
Lemma str_eqb_false a b : a <> b -> str_eqb a b = false.
Proof. intros N. apply not_true_iff_false. rewrite str_eqb_eq. exact N. Qed.

Lemma loop_cases cs : (forall e, In e (neural cs) -> known (fst e)) -> forall acc,
  match load_loop glob load dir arg version cs acc with
  | Ok (Models ms) => exists front, ms = acc ++ front /\ Forall2 (loaded_as_asked glob load dir arg version) (neural cs) front
  | Ok (Exit code) => code = 2 /\ exists done e rest front p, neural cs = done ++ e :: rest /\
      Forall2 (loaded_as_asked glob load dir arg version) done front /\
      asked_pattern dir (fst e) (arg (fst e)) (version (fst e)) p /\ glob p = []
  | Raise x => x = AssertionError /\ exists done e rest front p ckpt, neural cs = done ++ e :: rest /\
      Forall2 (loaded_as_asked glob load dir arg version) done front /\
      asked_pattern dir (fst e) (arg (fst e)) (version (fst e)) p /\ greatest (glob p) ckpt /\
      forall c, In c (snd e) -> load c ckpt = None
  end.
Proof.
  induction cs as [|(name, classes) cs IH]; intros K acc; cbn [load_loop].
  - exists []. split; [now rewrite app_nil_r|constructor].
  - unfold neural in *. cbn [filter fst] in *. destruct (str_eqb name (L"icm")) eqn:E; cbn [negb] in *; [now apply IH|].
    set (p := checkpoint_pattern dir name (arg name) (version name)).
    assert (P : asked_pattern dir name (arg name) (version name) p) by (apply C93_pattern; [apply (K (name, classes)); now left|exact W]).
    destruct (choose_checkpoint glob p) as [ckpt|] eqn:Ch.
    + apply choose_greatest in Ch. destruct (first_class load classes ckpt) as [m|] eqn:Fc.
      * apply first_class_some in Fc.
        assert (Hd : loaded_as_asked glob load dir arg version (name, classes) (name, m)) by (split; [reflexivity|exists p, ckpt; repeat split; try exact Fc; try exact P; apply Ch]).
        specialize (IH (fun e H => K e (or_intror H)) (acc ++ [(name, m)])).
        destruct (load_loop glob load dir arg version cs (acc ++ [(name, m)])) as [[code|ms]|x].
        -- destruct IH as (-> & done & e & rest & front & q & -> & F & A & G). split; [reflexivity|].
           exists ((name, classes) :: done), e, rest, ((name, m) :: front), q. repeat split; [|exact A|exact G]. constructor; assumption.
        -- destruct IH as (front & -> & F). exists ((name, m) :: front). split; [now rewrite <- app_assoc|]. constructor; assumption.
        -- destruct IH as (-> & done & e & rest & front & q & ck & -> & F & A & G & N). split; [reflexivity|].
           exists ((name, classes) :: done), e, rest, ((name, m) :: front), q, ck. split; [reflexivity|]. split; [constructor; assumption|]. split; [exact A|]. split; [exact G|exact N].
      * split; [reflexivity|]. exists [], (name, classes), (filter (fun e => negb (str_eqb (fst e) (L"icm"))) cs), [], p, ckpt.
        split; [reflexivity|]. split; [constructor|]. split; [exact P|]. split; [exact Ch|]. now apply first_class_none.
    + apply choose_none in Ch. split; [reflexivity|]. exists [], (name, classes), (filter (fun e => negb (str_eqb (fst e) (L"icm"))) cs), [], p.
      split; [reflexivity|]. split; [constructor|]. split; [exact P|exact Ch].
Qed.
End Loading.

(* the initial chord model's file *)
Lemma icm_default dir : str_replace (L"`--checkpoint`") dir default_icm = dir ++ L"/icm/initial_chord_prior.json".
Proof.
  unfold str_replace. change default_icm with (L"`--checkpoint`" ++ L"/icm/initial_chord_prior.json"). rewrite replace_match by discriminate. reflexivity.
Qed.
Lemma icm_other dir j : ~ within (L"`--checkpoint`") j -> str_replace (L"`--checkpoint`") dir j = j.
Proof. intros N. apply replace_none. intros a b E. apply N. now exists a, b. Qed.

(* every model that is returned is the one asked for, under its name, with icm as the last *)
Theorem C93_models : forall C M (glob : pystr -> list pystr) (load : C -> pystr -> option M) dir arg version icm_json load_icm classes ms,
  ~ within (L"_*") dir -> (forall e, In e (neural classes) -> known (fst e)) ->
  load_models_from_argparse glob load dir arg version icm_json load_icm classes = Ok (Models ms) ->
  exists front m path, ms = front ++ [(L"icm", m)] /\
    Forall2 (loaded_as_asked glob load dir arg version) (neural classes) front /\ load_icm path = Ok m /\
    (icm_json = L"`--checkpoint`/icm/initial_chord_prior.json" -> path = dir ++ L"/icm/initial_chord_prior.json") /\
    (~ within (L"`--checkpoint`") icm_json -> path = icm_json).
Proof.
  intros C M glob load dir arg version icm_json load_icm classes ms W K H. unfold load_models_from_argparse in H.
  assert (A := loop_cases glob load dir arg version W classes K []).
  destruct (load_loop glob load dir arg version classes []) as [[code|l]|x]; cbn [bind] in H; [discriminate H| |discriminate H].
  destruct A as (front & -> & F). destruct (load_icm _) as [m|x] eqn:I; cbn [bind] in H; [|discriminate H].
  apply Ok_inj in H. injection H as <-. exists front, m, (str_replace (L"`--checkpoint`") dir icm_json).
  split; [reflexivity|]. split; [exact F|]. split; [exact I|]. split; [intros ->; apply icm_default|apply icm_other].
Qed.
Print Assumptions C93_models.

(* the program ends with 2 exactly at the first model for which nothing is found *)
Theorem C93_exit : forall C M (glob : pystr -> list pystr) (load : C -> pystr -> option M) dir arg version icm_json load_icm classes code,
  ~ within (L"_*") dir -> (forall e, In e (neural classes) -> known (fst e)) ->
  load_models_from_argparse glob load dir arg version icm_json load_icm classes = Ok (Exit code) ->
  code = 2 /\ exists done e rest front p, neural classes = done ++ e :: rest /\
    Forall2 (loaded_as_asked glob load dir arg version) done front /\
    asked_pattern dir (fst e) (arg (fst e)) (version (fst e)) p /\ glob p = [].
Proof.
  intros C M glob load dir arg version icm_json load_icm classes code W K H. unfold load_models_from_argparse in H.
  assert (A := loop_cases glob load dir arg version W classes K []).
  destruct (load_loop glob load dir arg version classes []) as [[c|l]|x]; cbn [bind] in H.
  - apply Ok_inj in H. injection H as <-. exact A.
  - destruct (load_icm _); discriminate H.
  - discriminate H.
Qed.
Print Assumptions C93_exit.

(* and everything is loaded when every search finds something and its last checkpoint is accepted *)
Theorem C93_complete : forall C M (glob : pystr -> list pystr) (load : C -> pystr -> option M) dir arg version icm_json load_icm classes,
  ~ within (L"_*") dir -> (forall e, In e (neural classes) -> known (fst e)) ->
  (forall e p, In e (neural classes) -> asked_pattern dir (fst e) (arg (fst e)) (version (fst e)) p ->
     glob p <> [] /\ forall ckpt, greatest (glob p) ckpt -> exists c m, In c (snd e) /\ load c ckpt = Some m) ->
  (forall path, exists m, load_icm path = Ok m) ->
  exists ms, load_models_from_argparse glob load dir arg version icm_json load_icm classes = Ok (Models ms).
Proof.
  intros C M glob load dir arg version icm_json load_icm classes W K H Hi. unfold load_models_from_argparse.
  assert (A := loop_cases glob load dir arg version W classes K []).
  destruct (load_loop glob load dir arg version classes []) as [[c|l]|x]; cbn [bind].
  - destruct A as (_ & done & e & rest & front & p & E & _ & P & G). elim (proj1 (H e p ltac:(rewrite E; apply in_or_app; right; now left) P) G).
  - destruct (Hi (str_replace (L"`--checkpoint`") dir icm_json)) as (m & ->). cbn [bind]. now eexists.
  - destruct A as (_ & done & e & rest & front & p & ck & E & _ & P & G & N).
    destruct (proj2 (H e p ltac:(rewrite E; apply in_or_app; right; now left) P) ck G) as (c & m & I & Hl). rewrite (N c I) in Hl. discriminate Hl.
Qed.
Print Assumptions C93_complete.

(* among version numbers of the same number of digits the greatest number is chosen *)
Theorem C93_latest : forall glob p c pre post v v', choose_checkpoint glob p = Some c ->
  c = pre ++ v ++ post -> In (pre ++ v' ++ post) (glob p) -> digits v -> digits v' -> List.length v' = List.length v ->
  digits_value v' <= digits_value v.
Proof.
  intros glob p c pre post v v' H -> I Dv Dv' E. apply choose_greatest in H. destruct H as (_ & G). specialize (G _ I). apply str_leb_iff in G.
  now apply order_value in G.
Qed.
Print Assumptions C93_latest.

(* but version 9 is chosen although there is a version 10: texts are compared, not numbers *)
Theorem C93_latest_refuted : forall glob p pre post,
  glob p = [pre ++ L"10" ++ post; pre ++ L"9" ++ post] -> choose_checkpoint glob p = Some (pre ++ L"9" ++ post).
Proof.
  intros glob p pre post E. unfold choose_checkpoint. rewrite E. cbn [str_sorted fold_right str_insert].
  assert (B : str_leb (pre ++ L"10" ++ post) (pre ++ L"9" ++ post) = true).
  { clear E. induction pre as [|c pre IH]; [reflexivity|]. cbn [app str_leb]. rewrite Nat.ltb_irrefl. exact IH. }
  rewrite B. reflexivity.
Qed.
Print Assumptions C93_latest_refuted.

(* a checkpoint path that is given is ignored when a version is given, too *)
Theorem C93_ignored : forall dir name arg v, known name -> ~ within (L"_*") dir ->
  checkpoint_pattern dir name arg (Some v) = version_pattern dir name v.
Proof. intros dir name arg v K W. exact (C93_pattern dir name arg (Some v) K W). Qed.
Print Assumptions C93_ignored.

(* and with "_*" in the directory the version is written there, too *)
Theorem C93_pattern_refuted :
  checkpoint_pattern (L"/out/run_*") (L"ccm") [] (Some 3) = L"/out/run_3/ccm/lightning_logs/version_3/checkpoints/*.ckpt".
Proof. vm_compute. reflexivity. Qed.
Print Assumptions C93_pattern_refuted.

(* two models, one with two checkpoints and a second class *)
Local Transparent z_to_str.
Definition ex_glob (p : pystr) : list pystr :=
  if str_eqb p (L"cp/ccm/lightning_logs/version_*/checkpoints/*.ckpt")
  then [L"cp/ccm/lightning_logs/version_1/checkpoints/a.ckpt"; L"cp/ccm/lightning_logs/version_0/checkpoints/a.ckpt"]
  else if str_eqb p (L"cp/csm/lightning_logs/version_4/checkpoints/*.ckpt") then [L"cp/csm/lightning_logs/version_4/checkpoints/b.ckpt"]
  else [].
Definition ex_load (c : Z) (p : pystr) : option (Z * pystr) := if c =? 1 then None else Some (c, p).
Example C93_models_example :
  load_models_from_argparse ex_glob ex_load (L"cp") default_checkpoint
    (fun n => if str_eqb n (L"csm") then Some 4 else None) default_icm (fun p => Ok (7, p))
    [(L"ccm", [0]); (L"csm", [1; 2]); (L"icm", [5])]
  = Ok (Models [(L"ccm", (0, L"cp/ccm/lightning_logs/version_1/checkpoints/a.ckpt"));
                (L"csm", (2, L"cp/csm/lightning_logs/version_4/checkpoints/b.ckpt"));
                (L"icm", (7, L"cp/icm/initial_chord_prior.json"))]).
Proof. vm_compute. reflexivity. Qed.
Example C93_exit_example :
  load_models_from_argparse ex_glob ex_load (L"cp") default_checkpoint
    (fun n => if str_eqb n (L"csm") then Some 5 else None) default_icm (fun p => Ok (7, p))
    [(L"ccm", [0]); (L"csm", [1; 2]); (L"icm", [5])] = Ok (Exit 2).
Proof. vm_compute. reflexivity. Qed.
Example C93_example_dir : ~ within (L"_*") (L"cp").
Proof. intros (a & b & E). destruct a as [|x [|y [|z a]]]; discriminate E. Qed.
