(* Lemmas for C110. *)
From Coq Require Import String Ascii QArith Permutation.
From Verif Require Import PyBase Proof_Base Proof_Strings Model_Checkpoints Model_Prior Model_Debug Spec_Published Proof_Checkpoints Prop_Checkpoints Proof_Prior Proof_Models.
From Coq Require Import List Lia. Import ListNotations.
Close Scope Q_scope.
Open Scope Z_scope.

Lemma chosen_some glob p : glob p <> [] -> exists c, choose_checkpoint glob p = Some c /\ greatest (glob p) c.
Proof.
  intros H. destruct (choose_checkpoint glob p) as [c|] eqn:E; [exists c; split; [reflexivity|apply choose_greatest, E]|].
  exfalso. unfold choose_checkpoint in E. destruct (str_sorted (glob p)) as [|x [|y l]] eqn:S; [|discriminate E|discriminate E].
  destruct (glob p) as [|x l]; [now elim H|]. assert (I : In x (str_sorted (x :: l))) by (apply sorted_in; now left). rewrite S in I. destruct I.
Qed.
Lemma leb_prefix p a b : str_leb (p ++ a) (p ++ b) = str_leb a b.
Proof. induction p as [|c p IH]; [reflexivity|]. cbn [app str_leb]. rewrite Nat.ltb_irrefl. exact IH. Qed.

Section Files.
Variables (dir : pystr) (glob : pystr -> list pystr) (load : model_class -> pystr -> option component) (file : pystr -> Z -> pystr).
Hypothesis P : published_files dir glob load file.

Lemma chosen_default name : known name ->
  choose_checkpoint glob (default_pattern dir name)
  = Some (checkpoint_file dir name (last (versions name) 0) (file name (last (versions name) 0))).
Proof.
  intros K. assert (A := pub_all _ _ _ _ P name K).
  destruct (chosen_some glob (default_pattern dir name)) as (c & E & I & G).
  { intros N. rewrite N in A. apply Permutation_nil in A. unfold versions in A. destruct (str_eqb name (L"csm")); discriminate A. }
  rewrite E. f_equal. apply (Permutation_in c A) in I.
  assert (G2 : forall v, In v (versions name) -> str_leb (checkpoint_file dir name v (file name v)) c = true).
  { intros v Hv. apply str_leb_iff, G, (Permutation_in _ (Permutation_sym A)), in_map_iff. exists v. split; [reflexivity|exact Hv]. }
  unfold versions in *. destruct (str_eqb name (L"csm")); cbn [last] in *.
  - destruct I as [<-|[<-|[<-|[]]]]; [exfalso|exfalso|reflexivity]; specialize (G2 2 (or_intror (or_intror (or_introl eq_refl))));
      unfold checkpoint_file in G2; rewrite !leb_prefix in G2; vm_compute in G2; discriminate G2.
  - destruct I as [<-|[]]. reflexivity.
Qed.
Lemma chosen_version name v : known name -> In v (versions name) ->
  choose_checkpoint glob (version_pattern dir name v) = Some (checkpoint_file dir name v (file name v)).
Proof. intros K I. unfold choose_checkpoint. rewrite (pub_one _ _ _ _ P name v K I). reflexivity. Qed.

(* the pattern for a name and perhaps a version *)
Lemma pattern_default name : known name -> checkpoint_pattern dir name (default_checkpoint name) None = default_pattern dir name.
Proof.
  intros K. apply (C93_pattern dir name (default_checkpoint name) None K (pub_dir _ _ _ _ P)).
  destruct K as [<-|[<-|[<-|[<-|[<-|[]]]]]]; reflexivity.
Qed.
Lemma pattern_version name v : known name -> checkpoint_pattern dir name (default_checkpoint name) (Some v) = version_pattern dir name v.
Proof. intros K. exact (C93_pattern dir name (default_checkpoint name) (Some v) K (pub_dir _ _ _ _ P)). Qed.

Lemma file_icm : str_replace (L"`--checkpoint`") dir (L"`--checkpoint`/icm/initial_chord_prior.json") = dir ++ L"/icm/initial_chord_prior.json".
Proof.
  unfold str_replace. lazymatch goal with |- replace_go ?o ?n ?s 0 = _ => change s with (o ++ skipn (List.length o) s) end.
  rewrite replace_match by discriminate. reflexivity.
Qed.

(* one step of the loop *)
Lemma step_loop version name c cs m v r ms :
  known name -> In (name, c :: cs) MODEL_CLASSES -> stored name v = Some m ->
  choose_checkpoint glob (checkpoint_pattern dir name (default_checkpoint name) (version name)) = Some (checkpoint_file dir name v (file name v)) ->
  load_loop glob load dir default_checkpoint version ((name, c :: cs) :: r) ms
  = load_loop glob load dir default_checkpoint version r (ms ++ [(name, m)]).
Proof.
  intros K I S E. cbn [load_loop]. assert (N : str_eqb name (L"icm") = false) by (destruct K as [<-|[<-|[<-|[<-|[<-|[]]]]]]; reflexivity).
  rewrite N, E. cbn [first_class]. rewrite (pub_load _ _ _ _ P name c cs v m I S). reflexivity.
Qed.

Definition opened (cs : component) (ic : icm) : list (pystr * component) :=
  [(L"ccm", Ccm (mkCcm PScore TPC TPC true NO_REDUCTION)); (L"ctm", Ctm (mkCtm PScore TPC)); (L"csm", cs);
   (L"ktm", Ktm (mkKtm TPC TPC true NO_REDUCTION)); (L"ksm", Ksm (mkKsm TPC TPC TPC true NO_REDUCTION)); (L"icm", Icm ic)].

Lemma loop_all csm_version m : (csm_version = None \/ exists v, csm_version = Some v /\ In v [0; 1; 2]) ->
  stored (L"csm") (used_version csm_version) = Some m ->
  load_loop glob load dir default_checkpoint (fun name => if str_eqb name (L"csm") then csm_version else None) MODEL_CLASSES []
  = Ok (Models (removelast (opened m (mkIcm TPC [] [] true NO_REDUCTION)))).
Proof.
  intros Hv Hm. set (version := fun name => if str_eqb name (L"csm") then csm_version else None). unfold MODEL_CLASSES at 1.
  assert (K : forall name, In name [L"ccm"; L"ctm"; L"csm"; L"ktm"; L"ksm"] -> known name) by (intros name I; exact I).
  rewrite (step_loop version (L"ccm") SimpleCcm [] (Ccm (mkCcm PScore TPC TPC true NO_REDUCTION)) 0);
    [|apply K; cbn; auto|now left|reflexivity|].
  2:{ change (version (L"ccm")) with (@None Z). rewrite pattern_default by (apply K; cbn; auto). rewrite chosen_default by (apply K; cbn; auto). reflexivity. }
  rewrite (step_loop version (L"ctm") SimpleCtm [] (Ctm (mkCtm PScore TPC)) 0);
    [|apply K; cbn; auto|right; now left|reflexivity|].
  2:{ change (version (L"ctm")) with (@None Z). rewrite pattern_default by (apply K; cbn; auto). rewrite chosen_default by (apply K; cbn; auto). reflexivity. }
  rewrite (step_loop version (L"csm") SimpleCsm [PitchBasedCsm] m (used_version csm_version));
    [|apply K; cbn; auto|right; right; now left|exact Hm|].
  2:{ change (version (L"csm")) with csm_version. destruct Hv as [->|(v & -> & Hv)].
      - rewrite pattern_default by (apply K; cbn; auto). rewrite chosen_default by (apply K; cbn; auto). reflexivity.
      - rewrite pattern_version by (apply K; cbn; auto). rewrite chosen_version; [reflexivity|apply K; cbn; auto|exact Hv]. }
  rewrite (step_loop version (L"ktm") SimpleKtm [] (Ktm (mkKtm TPC TPC true NO_REDUCTION)) 0);
    [|apply K; cbn; auto|right; right; right; now left|reflexivity|].
  2:{ change (version (L"ktm")) with (@None Z). rewrite pattern_default by (apply K; cbn; auto). rewrite chosen_default by (apply K; cbn; auto). reflexivity. }
  rewrite (step_loop version (L"ksm") SimpleKsm [] (Ksm (mkKsm TPC TPC TPC true NO_REDUCTION)) 0);
    [|apply K; cbn; auto 6|right; right; right; right; now left|reflexivity|].
  2:{ change (version (L"ksm")) with (@None Z). rewrite pattern_default by (apply K; cbn; auto 6). rewrite chosen_default by (apply K; cbn; auto 6). reflexivity. }
  reflexivity.
Qed.
(* any other version: no file *)
Lemma loop_none v : ~ In v [0; 1; 2] ->
  load_loop glob load dir default_checkpoint (fun name => if str_eqb name (L"csm") then Some v else None) MODEL_CLASSES [] = Ok (Exit 2).
Proof.
  intros Hv. set (version := fun name => if str_eqb name (L"csm") then Some v else None). unfold MODEL_CLASSES at 1.
  assert (K : forall name, In name [L"ccm"; L"ctm"; L"csm"; L"ktm"; L"ksm"] -> known name) by (intros name I; exact I).
  rewrite (step_loop version (L"ccm") SimpleCcm [] (Ccm (mkCcm PScore TPC TPC true NO_REDUCTION)) 0);
    [|apply K; cbn; auto|now left|reflexivity|].
  2:{ change (version (L"ccm")) with (@None Z). rewrite pattern_default by (apply K; cbn; auto). rewrite chosen_default by (apply K; cbn; auto). reflexivity. }
  rewrite (step_loop version (L"ctm") SimpleCtm [] (Ctm (mkCtm PScore TPC)) 0);
    [|apply K; cbn; auto|right; now left|reflexivity|].
  2:{ change (version (L"ctm")) with (@None Z). rewrite pattern_default by (apply K; cbn; auto). rewrite chosen_default by (apply K; cbn; auto). reflexivity. }
  cbn [load_loop]. change (str_eqb (L"csm") (L"icm")) with false. cbv iota. change (version (L"csm")) with (Some v).
  rewrite pattern_version by (apply K; cbn; auto). unfold choose_checkpoint. rewrite (pub_none _ _ _ _ P (L"csm") v); [reflexivity|apply K; cbn; auto|exact Hv].
Qed.
End Files.

(* ---- the initial chord model ---- *)
Lemma icm_opened fields major minor : published_icm fields major minor ->
  exists ic, open_icm fields = Ok ic /\ icm_pt ic = TPC /\ icm_major ic = major /\ icm_minor ic = minor
   /\ (fields = icm_best major minor -> icm_inversions ic = false /\ forall t, icm_reduction ic t = triad_of t)
   /\ (fields = icm_fh major minor -> icm_inversions ic = true /\ forall t, icm_reduction ic t = t).
Proof.
  intros [[->| ->] _ _].
  - exists (mkIcm TPC major minor false (fun t => reduction_of stored_triads t)). split.
    + unfold open_icm. lazymatch goal with |- bind ?x _ = _ => assert (E : x = Ok
        [(L"pitch_type", KPitch TPC); (L"inversions_present", KJson (JBool true)); (L"reduction_present", KJson JNull);
         (L"use_inversions", KJson (JBool false)); (L"reduction", KReduction stored_triads);
         (L"major", KJson (JList (map JNum major))); (L"minor", KJson (JList (map JNum minor)))]) by reflexivity; rewrite E end.
      cbn [bind]. unfold SimpleInitialChordModel, as_numbers, dict_get. cbn -[mapM as_reduction]. rewrite !numbers_read. cbn [bind]. reflexivity.
    + cbn. repeat split; try reflexivity; try discriminate. intros []; reflexivity.
  - exists (mkIcm TPC major minor true (fun t => t)). split.
    + unfold open_icm. lazymatch goal with |- bind ?x _ = _ => assert (E : x = Ok
        [(L"inversions_present", KJson (JBool true)); (L"reduction_present", KJson JNull); (L"pitch_type", KPitch TPC);
         (L"major", KJson (JList (map JNum major))); (L"minor", KJson (JList (map JNum minor)))]) by reflexivity; rewrite E end.
      cbn [bind]. unfold SimpleInitialChordModel, as_numbers, dict_get. cbn -[mapM as_reduction]. rewrite !numbers_read. cbn [bind]. reflexivity.
    + cbn. repeat split; try reflexivity; try discriminate.
Qed.

(* ---- the vocabulary of triads without inversions ---- *)
Lemma types_of_ext (r1 r2 : reduction) : (forall t, r1 t = r2 t) -> reduced_types r1 = reduced_types r2.
Proof. intros H. unfold reduced_types. apply filter_ext. intros t. induction all_chord_types as [|u l IH]; [reflexivity|]. cbn [existsb]. now rewrite H, IH. Qed.
Lemma index_ext (r1 r2 : reduction) t root pt inv ui rel pad : (forall t, r1 t = r2 t) ->
  get_chord_one_hot_index t root pt inv ui rel pad r1 = get_chord_one_hot_index t root pt inv ui rel pad r2.
Proof. intros H. unfold get_chord_one_hot_index. now rewrite (types_of_ext _ _ H), H. Qed.

Definition debug_check (x : chord_type * Z * Z) : bool :=
  let '(t, root, inv) := x in
  match get_chord_one_hot_index t root TPC inv true true false NO_REDUCTION with
  | Raise _ => true
  | Ok i => match get_chord_one_hot_index t root TPC inv false true false triad_of with
            | Raise _ => false
            | Ok d => (0 <=? d) && (d <? get_chord_vector_length TPC true true true false NO_REDUCTION) && ((i =? 0) || negb (d =? i))
            end
  end.
Lemma debug_checked : forallb debug_check (list_prod (list_prod all_chord_types (zrange 0 29)) (zrange 0 4)) = true.
Proof. vm_compute. reflexivity. Qed.
Lemma debug_index red t root inv i : (forall t, red t = triad_of t) ->
  get_chord_one_hot_index t root TPC inv true true false NO_REDUCTION = Ok i -> i <> 0 ->
  exists d, get_chord_one_hot_index t root TPC inv false true false red = Ok d
  /\ 0 <= d < get_chord_vector_length TPC true true true false NO_REDUCTION /\ d <> i.
Proof.
  intros Hr Hi Hn. rewrite (index_ext _ _ _ _ _ _ _ _ _ Hr).
  assert (B : 0 <= root < 29 /\ 0 <= inv < 4).
  { unfold get_chord_one_hot_index in Hi. apply bind_ok in Hi as (k & _ & Hi). cbv zeta in Hi.
    destruct ((root <? 0) || (encode_num_pitches TPC true false <=? root)) eqn:A1; [discriminate|]. cbn [andb] in Hi.
    destruct ((inv <? 0) || (get_chord_inversion_count (NO_REDUCTION t) <=? inv)) eqn:A2; [discriminate|].
    change (encode_num_pitches TPC true false) with 29 in A1. apply orb_false_elim in A1 as [A1 A1'], A2 as [A2 A2'].
    apply Z.ltb_ge in A1, A2. apply Z.leb_gt in A1', A2'. assert (get_chord_inversion_count (NO_REDUCTION t) <= 4) by (destruct t; vm_compute; discriminate). lia. }
  assert (C := debug_checked). rewrite forallb_forall in C. specialize (C (t, root, inv)).
  assert (I : In (t, root, inv) (list_prod (list_prod all_chord_types (zrange 0 29)) (zrange 0 4))).
  { apply in_prod; [apply in_prod|]; [destruct t; cbn; auto 20|apply in_zrange; lia|apply in_zrange; lia]. }
  specialize (C I). unfold debug_check in C. rewrite Hi in C.
  destruct (get_chord_one_hot_index t root TPC inv false true false triad_of) as [d|]; [|discriminate]. exists d. split; [reflexivity|].
  apply andb_prop in C as [C1 C3]. apply andb_prop in C1 as [C1 C2]. apply Z.leb_le in C1. apply Z.ltb_lt in C2. split; [lia|].
  apply orb_prop in C3 as [C3|C3]; [apply Z.eqb_eq in C3; contradiction|]. apply negb_true_iff, Z.eqb_neq in C3. exact C3.
Qed.
