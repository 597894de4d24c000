(* Property C95: the data files. *)
From Coq Require Import String Ascii QArith Qabs Lqa Permutation Lia.
From Verif Require Import Proof_Base Proof_Strings Spec_Dataset Prop_Dataset Spec_Load Prop_Load Model_Create Spec_Create Proof_Create.
From Coq Require Import List.
Import ListNotations.
Close Scope Q_scope.
Open Scope Z_scope.

Lemma NoDup_app_remove_disjoint {A} (a b : list A) x : NoDup (a ++ b) -> In x a -> ~ In x b.
Proof.
  intros N I J. induction a as [|y a IH]; [destruct I|]. cbn in N. inversion N as [|? ? Hn N2]; subst. destruct I as [->|I]; [|now apply IH].
  apply Hn. apply in_or_app. now right.
Qed.
(* ---- C95: every file has the data of its own split ---- *)
(* The files used are divided into three parts.  Either the constructor of a dataset raises for one of
   them, and so does the script; or afterwards, for every part that is not empty, the pickle file has its
   pieces and the file of every class has the dataset made of just these pieces, and their ids.  No
   other file is changed. *)
Theorem C95_files : forall (P D Dat : Type) fadd fmul fdiv (to_dict : P -> D) (build : dataset_class -> list P -> res Dat) r l fs,
  good_run fadd fmul fdiv r l ->
  exists parts, divided l parts /\
  ((exists c k part e, nth_error parts k = Some part /\ part <> [] /\ build c (map snd part) = Raise e
      /\ create_h5_data fadd fmul fdiv to_dict build r fs = Raise e)
   \/ exists fs', create_h5_data fadd fmul fdiv to_dict build r fs = Ok (Finished fs')
        /\ written to_dict build (r_seed r) parts fs fs').
Proof. intros. now apply create_spec. Qed.
Print Assumptions C95_files.

(* With exact arithmetic the conditions on the proportions are that none is negative and not all are 0. *)
Theorem C95_exact : forall (P : Type) (r : @run P) n,
  Forall (fun s => 0 <= s)%Q (proportions r) -> (0 < fold_left Qplus (proportions r) 0)%Q ->
  good_proportions Qplus Qmult Qdiv r n.
Proof.
  intros P r n H0 H1. set (ps := proportions r) in *.
  assert (All : forall l, (0 < fold_left Qplus l 0)%Q -> (fold_left Qplus (map (fun s => s / fold_left Qplus l 0) l) 0 == 1)%Q).
  { intros l Hl. assert (Hne : (~ fold_left Qplus l 0 == 0)%Q) by lra.
    assert (H := fold_div l (length l) _ Hne). rewrite firstn_map in H. rewrite !firstn_all in H. rewrite H. field. exact Hne. }
  unfold good_proportions. cbv zeta. fold ps. split; [exact exact_float|]. split; [exact H0|]. split; [exact H1|].
  pose proof (All ps H1) as A1. split; [rewrite A1; reflexivity|].
  rewrite All by (rewrite A1; reflexivity). rewrite Qmult_1_l. apply Qabs_Qlt_condition. split; lra.
Qed.
Print Assumptions C95_exact.

(* With a negative proportion, or nothing but zeros, the script ends with exit code 1. *)
Theorem C95_exit : forall (P D Dat : Type) fadd fmul fdiv (to_dict : P -> D) (build : dataset_class -> list P -> res Dat) r fs,
  (forall x, fadd x 0%Q == x)%Q ->
  (exists s, In s (proportions r) /\ (s < 0)%Q) \/ proportions r = [0%Q; 0%Q; 0%Q] ->
  create_h5_data fadd fmul fdiv to_dict build r fs = Ok (Exited 1).
Proof.
  intros P D Dat fadd fmul fdiv to_dict build r fs F H. unfold create_h5_data. unfold proportions in H. destruct (r_splits r) as [[a b] c].
  destruct H as [(s & I & H)|H].
  - assert (E : existsb (fun s => negb (Qle_bool 0%Q s)) [a; b; c] = true).
    { apply existsb_exists. exists s. split; [exact I|]. apply negb_true_iff. apply not_true_iff_false. intros E. apply Qle_bool_iff in E. lra. }
    rewrite E. reflexivity.
  - injection H as -> -> ->. cbn [existsb Qle_bool negb orb Z.leb Qnum Qden Z.mul Z.compare]. cbv zeta.
    assert (E : Qeq_bool (fold_left fadd [0%Q; 0%Q; 0%Q] 0%Q) 0%Q = true); [|now rewrite E].
    apply Qeq_bool_iff. cbn [fold_left]. rewrite !F. reflexivity.
Qed.
Print Assumptions C95_exit.

(* Each file used is in the data of exactly one of the splits: in a directory without files of this
   seed, two splits have no id in common, and every id is in some split, with the files of all
   classes. *)
Theorem C95_disjoint : forall (P D Dat : Type) fadd fmul fdiv (to_dict : P -> D) (build : dataset_class -> list P -> res Dat) r l fs fs',
  good_run fadd fmul fdiv r l -> NoDup (map fst l) ->
  (forall split, In split split_names -> has_none fs split (r_seed r)) ->
  create_h5_data fadd fmul fdiv to_dict build r fs = Ok (Finished fs') ->
  (forall split split' c c' d d' ids ids', In split split_names -> In split' split_names ->
     str_lookup (dataset_file c split (r_seed r)) fs' = Some (H5File d ids) ->
     str_lookup (dataset_file c' split' (r_seed r)) fs' = Some (H5File d' ids') ->
     (split = split' -> ids = ids') /\ (split <> split' -> forall i, In i ids -> ~ In i ids'))
  /\ (forall i p, In (i, p) l -> exists split, In split split_names
        /\ forall c, exists d ids, str_lookup (dataset_file c split (r_seed r)) fs' = Some (H5File d ids) /\ In i ids).
Proof.
  intros P D Dat fadd fmul fdiv to_dict build r l fs fs' Hg Hnd Hf Hc.
  destruct (create_spec fadd fmul fdiv to_dict build r l fs Hg) as (parts & [Hl Hp] & [(c & k & part & e & _ & _ & _ & E)|(fs2 & E & W1 & W2)]).
  { rewrite Hc in E. discriminate. }
  rewrite Hc in E. apply Ok_inj in E. injection E as <-.
  assert (Hr : forall split c d ids, In split split_names -> str_lookup (dataset_file c split (r_seed r)) fs' = Some (H5File d ids) ->
    exists k part, nth_error split_names k = Some split /\ nth_error parts k = Some part /\ ids = map fst part).
  { intros split c d ids I E. apply In_nth_error in I as [k Nk].
    destruct (nth_error parts k) as [part|] eqn:Np.
    2:{ apply nth_error_None in Np. rewrite Hl in Np. assert (k < length split_names)%nat by (apply nth_error_Some; congruence). cbn in H. lia. }
    destruct part as [|x part].
    - rewrite W2 in E.
      + destruct (Hf split (nth_error_In _ _ Nk)) as [_ Hn]. rewrite Hn in E. discriminate.
      + intros k' s' p' A B Hne. split; [intros C; symmetry in C; now apply pickle_not_h5 in C|]. intros c' C.
        apply h5_inj in C as (_ & <- & _); [|exact (nth_error_In _ _ Nk)|exact (nth_error_In _ _ A)].
        rewrite <- (split_index _ _ _ Nk A) in B. rewrite Np in B. injection B as <-. now apply Hne.
    - exists k, (x :: part). split; [exact Nk|]. split; [exact Np|].
      destruct (W1 k split _ Nk Np) as [_ Wc]; [discriminate|]. destruct (Wc c) as (d' & _ & E'). rewrite E in E'. now injection E' as _ ->. }
  split.
  - intros split split' c c' d d' ids ids' I I' E E'.
    destruct (Hr _ _ _ _ I E) as (k & part & Nk & Np & ->). destruct (Hr _ _ _ _ I' E') as (k' & part' & Nk' & Np' & ->). split.
    + intros <-. rewrite <- (split_index _ _ _ Nk Nk') in Np'. rewrite Np in Np'. now injection Np' as <-.
    + intros Hne i Hi Hi'. assert (Hk : k <> k') by congruence.
      assert (N : NoDup (concat (map (map fst) parts))).
      { rewrite <- concat_map. apply (Permutation_NoDup (l := map fst l)); [|exact Hnd]. symmetry. now apply Permutation_map. }
      assert (Q1 : nth_error (map (map fst) parts) k = Some (map fst part)) by now rewrite nth_error_map, Np.
      assert (Q2 : nth_error (map (map fst) parts) k' = Some (map fst part')) by now rewrite nth_error_map, Np'.
      revert N Q1 Q2 Hi Hi' Hk. generalize (map (map fst) parts) as L0, (map fst part) as a, (map fst part') as b. clear.
      intros L0. revert k k'. induction L0 as [|x L0 IH]; intros [|k] [|k'] a b N Q1 Q2 Hi Hi' Hk; try discriminate; cbn [concat] in N.
      * now elim Hk.
      * injection Q1 as ->. apply NoDup_app_remove_disjoint with (x := i) in N; [|exact Hi]. apply N, in_concat. exists b. split; [exact (nth_error_In L0 _ Q2)|exact Hi'].
      * injection Q2 as ->. apply NoDup_app_remove_disjoint with (x := i) in N; [|exact Hi']. apply N, in_concat. exists a. split; [exact (nth_error_In L0 _ Q1)|exact Hi].
      * assert (N2 : NoDup (concat L0)) by (clear -N; induction x as [|y x IHx]; [exact N|]; inversion N; auto). exact (IH k k' a b N2 Q1 Q2 Hi Hi' ltac:(congruence)).
  - intros i p I. apply (Permutation_in _ (Permutation_sym Hp)) in I. apply in_concat in I as (part & Ip & I).
    apply In_nth_error in Ip as [k Np].
    assert (Hk : (k < length split_names)%nat) by (cbn; rewrite <- Hl; apply nth_error_Some; congruence).
    destruct (nth_error split_names k) as [split|] eqn:Nk; [|apply nth_error_None in Nk; lia].
    exists split. split; [exact (nth_error_In _ _ Nk)|]. intros c.
    destruct (W1 k split part Nk Np) as [_ Wc]; [now intros ->|]. destruct (Wc c) as (d & _ & E). exists d, (map fst part).
    split; [exact E|]. change i with (fst (i, p)). now apply in_map.
Qed.
Print Assumptions C95_disjoint.

(* Whatever runs there have been, with whatever seeds, corpora and proportions: for a seed and a split
   either there is no file, or the pickle file and the files of all classes come from the same part of
   the same run with this seed, so ids, pieces and datasets belong together. *)
Theorem C95_history : forall (P D Dat : Type) fadd fmul fdiv (to_dict : P -> D) (build : dataset_class -> list P -> res Dat) h fs,
  history fadd fmul fdiv to_dict build h fs -> forall seed split, In split split_names ->
  has_none fs split seed
  \/ exists r l parts k part, In r h /\ r_seed r = seed /\ good_run fadd fmul fdiv r l /\ divided l parts
       /\ nth_error split_names k = Some split /\ nth_error parts k = Some part /\ holds to_dict build fs split seed part.
Proof.
  intros P D Dat fadd fmul fdiv to_dict build h fs H. induction H as [|r l h fs fs' Hh IH Hg Hc]; intros seed split Hs.
  { left. split; reflexivity. }
  destruct (create_spec fadd fmul fdiv to_dict build r l fs Hg) as (parts & Hd & [(c & k & part & e & _ & _ & _ & E)|(fs2 & E & W1 & W2)]).
  { rewrite Hc in E. discriminate. }
  rewrite Hc in E. apply Ok_inj in E. injection E as <-.
  destruct (In_nth_error _ _ Hs) as [k Nk].
  assert (Hcase : (exists part, r_seed r = seed /\ nth_error parts k = Some part /\ part <> []) \/
     (str_lookup (pieces_file split seed) fs' = str_lookup (pieces_file split seed) fs
      /\ forall c, str_lookup (dataset_file c split seed) fs' = str_lookup (dataset_file c split seed) fs)).
  { assert (Hno : ~ (exists part, r_seed r = seed /\ nth_error parts k = Some part /\ part <> []) ->
      forall k' s' p', nth_error split_names k' = Some s' -> nth_error parts k' = Some p' -> p' <> [] -> ~ (split = s' /\ seed = r_seed r)).
    { intros Hn k' s' p' A B C [<- ->]. apply Hn. exists p'. rewrite (split_index _ _ _ Nk A). auto. }
    assert (Hx : exists o, nth_error parts k = o) by (eexists; reflexivity). destruct Hx as [o Np].
    destruct (Z.eq_dec (r_seed r) seed) as [Es|Es]; [destruct o as [[|x part]|]|].
    2:{ left. exists (x :: part). split; [exact Es|]. split; [exact Np|discriminate]. }
    all: right; assert (Hn : ~ (exists part, r_seed r = seed /\ nth_error parts k = Some part /\ part <> [])) by (intros (pt & A & B & C); congruence).
    all: specialize (Hno Hn); split; [|intros c]; apply W2; intros k' s' p' A B C; pose proof (Hno k' s' p' A B C) as Q0; (split; [intros Z0|intros c' Z0]).
    all: try (apply pickle_inj in Z0; [now apply Q0|exact Hs|exact (nth_error_In _ _ A)]).
    all: try (apply h5_inj in Z0 as [_ Z0]; [now apply Q0|exact Hs|exact (nth_error_In _ _ A)]).
    all: try (now apply pickle_not_h5 in Z0); symmetry in Z0; now apply pickle_not_h5 in Z0. }
  destruct Hcase as [(part & Es & Np & Hne)|[Ep Ed]].
  - right. exists r, l, parts, k, part. split; [now left|]. rewrite <- Es. repeat (split; [assumption || reflexivity|]). now apply (W1 k).
  - destruct (IH seed split Hs) as [[N1 N2]|(r' & l' & parts' & k' & part' & I & A & B & C & E & F & H1 & H2)].
    + left. split; [now rewrite Ep|]. intros c. now rewrite Ed.
    + right. exists r', l', parts', k', part'. split; [now right|]. repeat (split; [assumption|]). split; [now rewrite Ep|].
      intros c. destruct (H2 c) as (d & X & Y). exists d. split; [exact X|]. now rewrite Ed.
Qed.
Print Assumptions C95_history.

(* Training reads the datasets of the class of the model, made of the first and of the second part. *)
Theorem C95_train : forall (P D Dat : Type) (to_dict : P -> D) (build : dataset_class -> list P -> res Dat) fs seed part part' model c,
  learns_from model c -> holds to_dict build fs (L"train") seed part -> holds to_dict build fs (L"valid") seed part' ->
  class_of_model model = Some c
  /\ exists t v, build c (map snd part) = Ok t /\ build c (map snd part') = Ok v /\ train_data fs c seed = Some (t, v).
Proof.
  intros P D Dat to_dict build fs seed part part' model c Hm [_ H1] [_ H2]. split.
  - unfold learns_from in Hm. cbn [In] in Hm. repeat (destruct Hm as [Hm|Hm]; [apply pair_equal_spec in Hm as [<- <-]; reflexivity|]). destruct Hm.
  - destruct (H1 c) as (t & B1 & E1). destruct (H2 c) as (v & B2 & E2). exists t, v. split; [exact B1|]. split; [exact B2|].
    unfold train_data. rewrite !name_h5, E1, E2. reflexivity.
Qed.
Print Assumptions C95_train.

Lemma load_part {P D} (to_dict : P -> D) files notes measures chords (part : list (Z * P)) : part <> [] ->
  (forall x, In x part -> In (fst x) files /\ measures (fst x) = true) ->
  load_pieces (Frames files notes measures chords) (Pickle (map (fun x => to_dict (snd x)) part)) (map fst part) None
  = Ok (map (fun x => mkPlan D (fst x) (FromFramesDict (fst x) (to_dict (snd x)))) part).
Proof.
  intros Hne H. rewrite load_pieces_eq. cbn [bind dicts_of loader].
  assert (E : asked_for (Frames files notes measures chords) (map fst part) = map fst part) by (destruct part; [now elim Hne|reflexivity]).
  rewrite E. clear E Hne. induction part as [|x part IH]; [reflexivity|]. cbn [map combine mapM].
  destruct (H x (or_introl eq_refl)) as [I M]. unfold load_frames at 1. rewrite M. cbn [bind].
  assert (Ex : existsb (Z.eqb (fst x)) files = true) by (apply existsb_exists; exists (fst x); split; [exact I|apply Z.eqb_refl]).
  rewrite Ex. cbn [bind]. rewrite IH by (intros y Hy; apply H; now right). reflexivity.
Qed.
(* The initial chord model learns from the pieces of the first part, and the evaluation reads the pieces
   of the second part, or with --test those of the third: each with its own id. *)
Theorem C95_read : forall (P D Dat : Type) (to_dict : P -> D) (build : dataset_class -> list P -> res Dat) fs seed files notes measures chords split part,
  holds to_dict build fs split seed part -> part <> [] ->
  (forall x, In x part -> In (fst x) files /\ measures (fst x) = true) ->
  let plans := map (fun x => mkPlan D (fst x) (FromFramesDict (fst x) (to_dict (snd x)))) part in
  (split = L"train" -> icm_pieces fs (Frames files notes measures chords) seed = Some (Ok plans))
  /\ (split = L"valid" -> test_pieces fs (Frames files notes measures chords) false seed None = Ok plans)
  /\ (split = L"test" -> test_pieces fs (Frames files notes measures chords) true seed None = Ok plans).
Proof.
  intros P D Dat to_dict build fs seed files notes measures chords split part [Hp Hd] Hne H. cbv zeta.
  destruct (Hd ChordTransitionDataset) as (d & _ & E).
  split; [|split]; intros ->.
  - unfold icm_pieces, pickle_at. rewrite name_h5, name_pickle, E, Hp. f_equal. now apply load_part.
  - unfold test_pieces, pickle_at. rewrite name_h5, name_pickle, E, Hp. now apply load_part.
  - unfold test_pieces, pickle_at. rewrite name_h5, name_pickle, E, Hp. now apply load_part.
Qed.
Print Assumptions C95_read.

(* ---- a case ---- *)
Definition ex_build (c : dataset_class) (l : list Z) : res (list Z) := Ok (class_code c :: l).
Definition ex_run (splits : Q * Q * Q) (corpus : list pystr) : @run Z :=
  mkRun (FromDfs [(3, L"bach_chorales"); (5, L"mozart"); (6, L"bach_wtc"); (8, L"bach_solo"); (9, L"beethoven"); (12, L"bach_suites")]
           (fun i => if i =? 8 then None else Some (10 * i))) corpus false 0 splits [2; 0; 1]%nat.
Definition ex_used : list (Z * Z) := [(3, 30); (6, 60); (12, 120)].
Lemma ex_good splits : Forall (fun s => 0 <= s)%Q (proportions (ex_run splits [])) -> (0 < fold_left Qplus (proportions (ex_run splits [])) 0)%Q ->
  good_run Qplus Qmult Qdiv (ex_run splits [L"bach"]) ex_used.
Proof.
  intros H0 H1. split; [|split; [|split]].
  - repeat constructor; intros C; cbn in C; repeat (destruct C as [C|C]; [discriminate C|]); exact C.
  - cbn [used ex_run r_input r_debug].
    assert (B : forall i b, @in_corpus Z (ex_run splits [L"bach"]) (snd (i : Z, L"bach" ++ b))) by (intros i b; right; exists (L"bach"), [], b; split; [now left|reflexivity]).
    assert (N : forall t, contains (L"bach") t = false -> ~ @in_corpus Z (ex_run splits [L"bach"]) t).
    { intros t E [C|(c & a & b & [<-|[]] & E')]; [discriminate C|]. rewrite (proj2 (contains_iff _ _)) in E by (exists a, b; exact E'). discriminate. }
    unfold ex_used. apply select_take; [split; [apply B|split; reflexivity]|].
    apply select_skip; [intros y [C _]; now apply (N (L"mozart"))|].
    apply select_take; [split; [apply B|split; reflexivity]|].
    apply select_skip; [intros y (_ & _ & C); discriminate C|].
    apply select_skip; [intros y [C _]; now apply (N (L"beethoven"))|].
    apply select_take; [split; [apply B|split; reflexivity]|]. constructor.
  - now apply C95_exact.
  - cbn. apply Permutation_sym. apply perm_trans with [0; 2; 1]%nat; [apply perm_skip, perm_swap|apply perm_swap].
Qed.
(* Three of the six files are used: two train, one is for the test, and nothing validates. *)
Example C95_example :
  good_run Qplus Qmult Qdiv (ex_run (2#1, 0, 1#1)%Q [L"bach"]) ex_used /\ NoDup (map fst ex_used) /\
  exists fs, create_h5_data Qplus Qmult Qdiv (fun p : Z => p) ex_build (ex_run (2#1, 0, 1#1)%Q [L"bach"]) [] = Ok (Finished fs)
    /\ holds (fun p : Z => p) ex_build fs (L"train") 0 [(12, 120); (3, 30)]
    /\ holds (fun p : Z => p) ex_build fs (L"test") 0 [(6, 60)]
    /\ has_none fs (L"valid") 0.
Proof.
  split; [apply ex_good; [repeat constructor; cbn; lra|cbn; lra]|]. split; [repeat constructor; cbn; lia|].
  eexists. split; [vm_compute; reflexivity|]. split; [|split].
  - split; [vm_compute; reflexivity|]. intros c. exists (class_code c :: [120; 30]). split; [reflexivity|]. destruct c; vm_compute; reflexivity.
  - split; [vm_compute; reflexivity|]. intros c. exists (class_code c :: [60]). split; [reflexivity|]. destruct c; vm_compute; reflexivity.
  - split; [vm_compute; reflexivity|]. intros c. destruct c; vm_compute; reflexivity.
Qed.

(* ---- what is not so ---- *)
(* A split that is empty writes nothing and removes nothing: after a second run with the same seed, the
   test data are those of the first run, and their pieces are among those the models train on. *)
Theorem C95_stale_refuted : exists fs d d' ids ids' i,
  history Qplus Qmult Qdiv (fun p : Z => p) ex_build [ex_run (1#1, 0, 0)%Q [L"bach"]; ex_run (2#1, 0, 1#1)%Q [L"bach"]] fs
  /\ str_lookup (dataset_file ChordTransitionDataset (L"train") 0) fs = Some (H5File d ids)
  /\ str_lookup (dataset_file ChordTransitionDataset (L"test") 0) fs = Some (H5File d' ids')
  /\ In i ids /\ In i ids'.
Proof.
  assert (G : good_run Qplus Qmult Qdiv (ex_run (2#1, 0, 1#1)%Q [L"bach"]) ex_used) by (apply ex_good; [repeat constructor; cbn; lra|cbn; lra]).
  do 5 eexists. exists 6. split; [|split; [|split; [|split]]].
  - eapply one_more with (l := ex_used); [eapply one_more with (l := ex_used); [apply no_runs|exact G|vm_compute; reflexivity]| |vm_compute; reflexivity].
    apply ex_good; [repeat constructor; cbn; lra|cbn; lra].
  - vm_compute; reflexivity.
  - vm_compute; reflexivity.
  - cbn. auto.
  - cbn. auto.
Qed.
Print Assumptions C95_stale_refuted.

(* Without files for the split, the evaluation does not say so: it ends with an UnboundLocalError. *)
Theorem C95_absent_refuted : forall (D Dat : Type) (fs : list (pystr * @content D Dat)) inp (test : bool) seed,
  has_none fs (if test then L"test" else L"valid") seed ->
  test_pieces fs inp test seed None = Raise UnboundLocalError.
Proof.
  intros D Dat fs inp test seed [Hp Hd]. unfold test_pieces, pickle_at. rewrite name_h5, name_pickle, Hd, Hp.
  rewrite load_pieces_eq. reflexivity.
Qed.
Print Assumptions C95_absent_refuted.
