(* Lemmas about the data files. *)
From Coq Require Import String Ascii QArith Qabs Permutation Lia.
From Verif Require Import Proof_Base Proof_Strings Proof_Labels Proof_Checkpoints Spec_Dataset Prop_Dataset Model_Create Spec_Create.
From Coq Require Import List.
Import ListNotations.
Close Scope Q_scope.
Open Scope Z_scope.

(* ---- names ---- *)
Lemma name_pickle split seed : pickle_name split seed = pieces_file split seed.
Proof. reflexivity. Qed.
Lemma name_h5 c split seed : h5_name c split seed = dataset_file c split seed.
Proof. destruct c; reflexivity. Qed.
Lemma pickle_not_h5 split seed c split' seed' : pieces_file split seed <> dataset_file c split' seed'.
Proof. destruct c; discriminate. Qed.
Local Ltac in_names H := cbn [split_names In] in H; repeat match type of H with _ \/ _ => destruct H as [<-|H] end; try destruct H.
Lemma tail_inj a b (e : pystr) : L"_seed_" ++ z_to_str a ++ e = L"_seed_" ++ z_to_str b ++ e -> a = b.
Proof. intros H. apply app_inv_head in H. apply app_inv_tail in H. exact (z_to_str_inj _ _ H). Qed.
Lemma split_inj s s' a b e : In s split_names -> In s' split_names ->
  s ++ L"_seed_" ++ z_to_str a ++ e = s' ++ L"_seed_" ++ z_to_str b ++ e -> s = s' /\ a = b.
Proof.
  intros H H' E. in_names H; in_names H'; try discriminate E; (split; [reflexivity|]);
    apply app_inv_head in E; exact (tail_inj _ _ _ E).
Qed.
Lemma pickle_inj s s' a b : In s split_names -> In s' split_names -> pieces_file s a = pieces_file s' b -> s = s' /\ a = b.
Proof. intros H H' E. unfold pieces_file in E. apply app_inv_head in E. exact (split_inj _ _ _ _ _ H H' E). Qed.
Lemma h5_inj c c' s s' a b : In s split_names -> In s' split_names -> dataset_file c s a = dataset_file c' s' b -> c = c' /\ s = s' /\ a = b.
Proof.
  intros H H' E. unfold dataset_file in E.
  destruct c, c'; try discriminate E; (split; [reflexivity|]); apply app_inv_head in E; exact (split_inj _ _ _ _ _ H H' E).
Qed.
Lemma split_index k k' s : nth_error split_names k = Some s -> nth_error split_names k' = Some s -> k = k'.
Proof.
  intros H H'. do 3 (destruct k as [|k]; [do 3 (destruct k' as [|k']; [try reflexivity; cbn in H, H'; congruence|]); now destruct k'|]).
  now destruct k.
Qed.

(* ---- the selection ---- *)
Lemma contains_iff c : forall t, contains c t = true <-> exists a b, t = a ++ c ++ b.
Proof.
  induction t as [|x t IH]; cbn [contains].
  - rewrite orb_false_r, is_prefix_iff. split.
    + intros (r & E). now exists [], r.
    + intros (a & b & E). destruct a; [|discriminate]. exists b. exact E.
  - rewrite orb_true_iff, is_prefix_iff, IH. split.
    + intros [(r & E)|(a & b & ->)]; [now exists [], r|now exists (x :: a), b].
    + intros ([|y a] & b & E); [left; exists b; exact E|right]. injection E as -> ->. now exists a, b.
Qed.
Lemma special_iff a : special a = true <-> In a (L".^$*+?{}[]\|()").
Proof.
  unfold special. rewrite existsb_exists. split.
  - intros (b & I & E). apply Ascii.eqb_eq in E. now subst b.
  - intros I. exists a. split; [exact I|apply Ascii.eqb_refl].
Qed.
Section Create.
Context {P D Dat : Type}.
Variables (fadd fmul fdiv : Q -> Q -> Q) (to_dict : P -> D) (build : dataset_class -> list P -> res Dat).

Lemma plain_ok (r : @run P) : plain_corpus r -> existsb (existsb special) (r_corpus r) = false.
Proof.
  intros H. apply not_true_iff_false. intros E. apply existsb_exists in E as (c & Ic & E). apply existsb_exists in E as (a & Ia & E).
  unfold plain_corpus in H. rewrite Forall_forall in H. specialize (H c Ic). rewrite Forall_forall in H. now apply (H a Ia), special_iff.
Qed.
Lemma selects_fun {A B} (R : A -> B -> Prop) (keep : A -> bool) (get : A -> option B) :
  (forall x y, R x y <-> keep x = true /\ get x = Some y) -> forall L l, selects R L l ->
  concat (map (fun x => match get x with Some y => [y] | None => [] end) (filter keep L)) = l.
Proof.
  intros HR L l H. induction H as [|x y L l H HS IH|x L l H HS IH]; [reflexivity| |].
  - apply HR in H as [K G]. cbn [filter]. rewrite K. cbn [map concat]. rewrite G, IH. reflexivity.
  - cbn [filter]. destruct (keep x) eqn:K; [|exact IH]. cbn [map concat].
    destruct (get x) as [y|] eqn:G; [elim (H y); apply HR; auto|exact IH].
Qed.
(* what get_splits is asked for *)
Lemma selected (r : @run P) l : plain_corpus r -> used r l ->
  exists parse files,
    (forall perm splits t, normalise fadd fdiv splits = Ok t ->
       (let! inp := select_input r in split_ids_and_pieces fadd fmul fdiv inp perm splits)
       = get_splits fadd fmul fdiv parse perm splits files)
    /\ (exists inp, select_input r = Ok inp)
    /\ parsed parse files = l.
Proof.
  intros Hp Hu. unfold used in Hu. unfold select_input. destruct (r_input r) as [files parse|scores].
  - set (fl := if r_debug r then firstn 5 files else files) in *.
    set (keep := fun f : Z * pystr => match r_corpus r with [] => true | c => existsb (fun c => contains c (snd f)) c end).
    assert (E : (match r_corpus r with [] => Ok fl | c :: c0 => filter_corpus (c :: c0) fl end) = Ok (filter keep fl)).
    { pose proof (plain_ok r Hp) as S0. unfold keep. destruct (r_corpus r) as [|c cs].
      - f_equal. clear. induction fl; [reflexivity|]. cbn. now rewrite <- IHfl.
      - unfold filter_corpus. rewrite S0. reflexivity. }
    exists parse, (map fst (filter keep fl)). cbv zeta. rewrite E. cbn [bind]. split; [intros; reflexivity|].
    split; [eexists; reflexivity|].
    set (get := fun f : Z * pystr => option_map (fun p => (fst f, p)) (parse (fst f))).
    rewrite <- (selects_fun _ keep get) with (2 := Hu).
    + unfold parsed. rewrite map_map. f_equal. apply map_ext. intros f. unfold get. destruct (parse (fst f)); reflexivity.
    + intros x y. unfold get, in_corpus, keep. assert (K : (r_corpus r = [] \/ (exists c a b, In c (r_corpus r) /\ snd x = a ++ c ++ b))
        <-> match r_corpus r with [] => true | c :: c0 => existsb (fun c => contains c (snd x)) (c :: c0) end = true).
      { destruct (r_corpus r) as [|c cs]; [split; auto|]. rewrite existsb_exists. split.
        - intros [C|(d & a & b & I & E0)]; [discriminate|]. exists d. split; [exact I|]. apply contains_iff. now exists a, b.
        - intros (d & I & C). apply contains_iff in C as (a & b & C). right. now exists d, a, b. }
      rewrite K. split.
      * intros (H1 & H2 & H3). split; [exact H1|]. rewrite H3. cbn. rewrite <- H2. now destruct y.
      * intros (H1 & H2). destruct (parse (fst x)) as [p|] eqn:Ep; [|discriminate]. cbn in H2. injection H2 as <-. auto.
  - destruct Hu as [Hi Hs].
    assert (Em : mapM (fun x => x) scores = Ok (map snd l)).
    { rewrite Hs. clear. induction l as [|x l IH]; [reflexivity|]. cbn [map mapM bind]. rewrite IH. reflexivity. }
    assert (El : zlen (map snd l) = zlen scores) by (rewrite Hs; unfold zlen; now rewrite !map_length).
    exists (fun i => nth_error (map snd l) (Z.to_nat i)), (zrange 0 (zlen (map snd l))). split; [|split].
    + intros perm splits t Ht. cbn [bind split_ids_and_pieces]. rewrite Ht. cbn [bind]. rewrite Em. cbn [bind]. reflexivity.
    + eexists; reflexivity.
    + rewrite El, <- Hi. clear -Hi. unfold parsed. rewrite map_map.
      assert (N : forall k x, nth_error l k = Some x -> nth_error (map snd l) (Z.to_nat (fst x)) = Some (snd x)).
      { intros k x Nk. assert (Fk : nth_error (map fst l) k = Some (fst x)) by now rewrite nth_error_map, Nk.
        rewrite Hi in Fk. assert (Lk : (k < length (zrange 0 (zlen scores)))%nat) by (apply nth_error_Some; congruence).
        rewrite zrange_length in Lk. rewrite nth_error_zrange in Fk by lia. injection Fk as Fk. rewrite <- Fk.
        rewrite ?Z.add_0_l, Nat2Z.id. now rewrite nth_error_map, Nk. }
      assert (G : forall x, In x l -> match nth_error (map snd l) (Z.to_nat (fst x)) with Some p => [(fst x, p)] | None => [] end = [x]).
      { intros x Ix. apply In_nth_error in Ix as [k Nk]. rewrite (N k x Nk). now destruct x. }
      rewrite (map_ext_in _ (fun x => [x]) l G). clear. induction l; [reflexivity|]. cbn. now rewrite IHl.
Qed.

(* ---- the parts ---- *)
Lemma parts_of (parse : Z -> option P) files ids ps : partition_of parse files ids ps ->
  exists parts, ids = map (map fst) parts /\ ps = map (map snd) parts /\ Permutation (concat parts) (parsed parse files).
Proof.
  intros [F Pm].
  assert (H : exists parts, ids = map (map fst) parts /\ ps = map (map snd) parts /\ Forall (Forall (fun x => parse (fst x) = Some (snd x))) parts).
  { clear Pm. induction F as [|is_ pp ids ps Hh F IH]; [now exists []|]. destruct IH as (parts & -> & -> & Fa).
    exists (combine is_ pp :: parts). cbn [map].
    assert (G : map fst (combine is_ pp) = is_ /\ map snd (combine is_ pp) = pp /\ Forall (fun x => parse (fst x) = Some (snd x)) (combine is_ pp)).
    { clear -Hh. induction Hh as [|i p is_ pp E H IH]; [repeat split; constructor|]. destruct IH as (A & B & C). cbn. rewrite A, B.
      repeat split. constructor; [exact E|exact C]. }
    destruct G as (A & B & C). rewrite A, B. repeat split. now constructor. }
  destruct H as (parts & -> & -> & Fa). exists parts. split; [reflexivity|]. split; [reflexivity|].
  set (g := fun i => match parse i with Some p => [(i, p)] | None => [] end).
  assert (E1 : flat_map g (concat (map (map fst) parts)) = concat parts).
  { clear -Fa. induction Fa as [|a parts Ha Fa IH]; [reflexivity|]. cbn [map concat]. rewrite flat_map_app, IH. f_equal.
    clear -Ha. induction Ha as [|x a E H IH]; [reflexivity|]. cbn [map flat_map]. rewrite IH. unfold g. rewrite E. now destruct x. }
  assert (E2 : flat_map g (parsable parse files) = parsed parse files).
  { clear. unfold parsed, parsable. induction files as [|i files IH]; [reflexivity|]. cbn [filter map concat].
    destruct (parse i) as [p|] eqn:E; [cbn [flat_map]; unfold g at 1; rewrite E, IH; reflexivity|exact IH]. }
  rewrite <- E1, <- E2. apply Permutation_flat_map. exact Pm.
Qed.
Lemma good_splits (r : @run P) l : good_run fadd fmul fdiv r l ->
  exists inp parts, select_input r = Ok inp /\ divided l parts
    /\ split_ids_and_pieces fadd fmul fdiv inp (r_perm r) (map (fun s => fdiv s (fold_left fadd (proportions r) 0%Q)) (proportions r))
       = Ok (map (map fst) parts, map (map snd) parts).
Proof.
  intros (Hp & Hu & (Hf & H0 & H1 & H2 & H3) & Hperm). cbv zeta in H2, H3.
  set (norm := map (fun s => fdiv s (fold_left fadd (proportions r) 0%Q)) (proportions r)) in *.
  destruct (selected r l Hp Hu) as (parse & files & Hs & (inp & Ei) & Hl). rewrite Ei in Hs. cbn [bind] in Hs.
  destruct (parsed_split parse files) as [_ Ep]. rewrite Hl in Ep.
  assert (Hlen : length (parsable parse files) = length l) by (rewrite <- Ep; apply map_length).
  destruct (C42_splits fadd fmul fdiv parse (r_perm r) norm files) as (ids & ps & E & Ln & Hpart).
  - exact Hf.
  - rewrite Hlen. exact Hperm.
  - unfold norm. apply Forall_map. eapply Forall_impl; [|exact H0]. cbn. intros s Hs0. now apply Hf.
  - exact H2.
  - cbv zeta. unfold zlen. rewrite Hlen. exact H3.
  - destruct (parts_of _ _ _ _ Hpart) as (parts & -> & -> & Pm). exists inp, parts. split; [exact Ei|]. rewrite Hl in Pm. split.
    + split; [|exact Pm]. rewrite map_length in Ln. rewrite Ln. unfold norm. rewrite map_length. unfold proportions. now destruct (r_splits r) as [[a b] c].
    + unfold normalise in Hs. rewrite <- E. eapply Hs.
      destruct (Qeq_bool (fold_left fadd norm 0%Q) 0%Q) eqn:E0; [|reflexivity]. apply Qeq_bool_eq in E0. rewrite E0 in H2. now elim (Qlt_irrefl 0).
Qed.

(* ---- the datasets ---- *)
Lemma build_all_spec i2 pieces : forall classes i1 m,
  (exists c e, In c classes /\ build c pieces = Raise e /\ build_all build classes i1 i2 pieces m = Raise e)
  \/ exists m', build_all build classes i1 i2 pieces m = Ok m'
       /\ (forall j c, nth_error classes j = Some c -> exists d, build c pieces = Ok d /\ m' (i1 + j)%nat i2 = Some d)
       /\ (forall a b, b <> i2 \/ (a < i1)%nat -> m' a b = m a b).
Proof.
  induction classes as [|c classes IH]; intros i1 m; cbn [build_all].
  - right. exists m. split; [reflexivity|]. split; [intros [|j] c H; discriminate|reflexivity].
  - destruct (build c pieces) as [d|e] eqn:E; cbn [bind]; [|left; exists c, e; cbn; auto].
    set (m1 := fun a b : nat => if ((a =? i1)%nat && (b =? i2)%nat)%bool then Some d else m a b).
    destruct (IH (S i1) m1) as [(c' & e & I & B & R)|(m' & R & M1 & M2)].
    + left. exists c', e. split; [now right|auto].
    + right. exists m'. split; [exact R|]. split.
      * intros [|j] c' N.
        -- injection N as <-. exists d. split; [exact E|]. rewrite Nat.add_0_r. rewrite M2 by lia. unfold m1. now rewrite !Nat.eqb_refl.
        -- destruct (M1 j c' N) as (d' & Bd & Md). exists d'. split; [exact Bd|]. now replace (i1 + S j)%nat with (S i1 + j)%nat by lia.
      * intros a b H. rewrite M2 by lia. unfold m1. destruct (a =? i1)%nat eqn:Ea; [|reflexivity]. apply Nat.eqb_eq in Ea.
        destruct (b =? i2)%nat eqn:Eb; [apply Nat.eqb_eq in Eb; lia|reflexivity].
Qed.
Lemma build_splits_spec : forall sp i2 m,
  (forall a b, (i2 <= b)%nat -> m a b = None) ->
  (exists c k pieces e, nth_error sp k = Some pieces /\ pieces <> [] /\ build c pieces = Raise e /\ build_splits build i2 sp m = Raise e)
  \/ exists m', build_splits build i2 sp m = Ok m'
       /\ (forall k pieces j c, nth_error sp k = Some pieces -> nth_error DATASET_CLASSES j = Some c ->
             (pieces = [] -> m' j (i2 + k)%nat = None)
             /\ (pieces <> [] -> exists d, build c pieces = Ok d /\ m' j (i2 + k)%nat = Some d))
       /\ (forall a b, (b < i2)%nat -> m' a b = m a b).
Proof.
  induction sp as [|pieces sp IH]; intros i2 m Hm; cbn [build_splits].
  { right. exists m. split; [reflexivity|]. split; [intros [|k] pieces j c H; discriminate|reflexivity]. }
  assert (H0 : (exists c e, pieces <> [] /\ build c pieces = Raise e /\
            (match pieces with [] => Ok m | _ => build_all build DATASET_CLASSES 0 i2 pieces m end) = Raise e)
    \/ exists m1, (match pieces with [] => Ok m | _ => build_all build DATASET_CLASSES 0 i2 pieces m end) = Ok m1
         /\ (forall j c, nth_error DATASET_CLASSES j = Some c -> (pieces = [] -> m1 j i2 = None) /\ (pieces <> [] -> exists d, build c pieces = Ok d /\ m1 j i2 = Some d))
         /\ (forall a b, b <> i2 -> m1 a b = m a b)).
  { destruct pieces as [|p pieces].
    - right. exists m. split; [reflexivity|]. split; [|reflexivity]. intros j c _. split; [intros _; apply Hm; lia|congruence].
    - destruct (build_all_spec i2 (p :: pieces) DATASET_CLASSES 0 m) as [(c & e & _ & B & R)|(m1 & R & M1 & M2)].
      + left. exists c, e. split; [discriminate|auto].
      + right. exists m1. split; [exact R|]. split; [|intros a b Hb; apply M2; now left].
        intros j c N. split; [discriminate|intros _; exact (M1 j c N)]. }
  destruct H0 as [(c & e & Hn & B & R)|(m1 & R & M1 & M2)].
  - left. exists c, 0%nat, pieces, e. rewrite R. repeat split; assumption.
  - rewrite R. cbn [bind]. destruct (IH (S i2) m1) as [(c & k & pp & e & N & Hn & B & R')|(m' & R' & M1' & M2')].
    + intros a b Hb. rewrite M2 by lia. apply Hm. lia.
    + left. exists c, (S k), pp, e. repeat split; assumption.
    + right. exists m'. split; [exact R'|]. split.
      * intros [|k] pp j c N Nc.
        -- injection N as <-. rewrite Nat.add_0_r. rewrite M2' by lia. exact (M1 j c Nc).
        -- replace (i2 + S k)%nat with (S i2 + k)%nat by lia. exact (M1' k pp j c N Nc).
      * intros a b Hb. rewrite M2' by lia. apply M2. lia.
Qed.

(* ---- writing ---- *)
Notation dir := (list (pystr * @content D Dat)).
(* the last of several equal writes counts *)
Lemma lookup_app (ws fs : dir) n : str_lookup n (ws ++ fs) = match str_lookup n ws with Some x => Some x | None => str_lookup n fs end.
Proof. induction ws as [|[k v] ws IH]; cbn; [reflexivity|]. now destruct (str_eqb n k). Qed.
Lemma lookup_in (ws fs : dir) n x : In (n, x) ws -> (forall y, In (n, y) ws -> y = x) -> str_lookup n (ws ++ fs) = Some x.
Proof.
  induction ws as [|[k v] ws IH]; intros I H; [destruct I|]. cbn. destruct (str_eqb n k) eqn:E.
  - apply str_eqb_eq in E. subst k. f_equal. apply H. now left.
  - destruct I as [I|I]; [injection I as -> _; now rewrite str_eqb_refl in E|]. apply IH; [exact I|]. intros y Hy. apply H. now right.
Qed.
Lemma lookup_not (ws fs : dir) n : (forall y, ~ In (n, y) ws) -> str_lookup n (ws ++ fs) = str_lookup n fs.
Proof.
  induction ws as [|[k v] ws IH]; intros H; [reflexivity|]. cbn. destruct (str_eqb n k) eqn:E.
  - apply str_eqb_eq in E. subst k. elim (H v). now left.
  - apply IH. intros y Hy. apply (H y). now right.
Qed.
Lemma pickles_spec seed : forall splits (parts : list (list (Z * P))) (fs : dir),
  exists ws, write_pickles to_dict splits (map (map snd) parts) seed fs = ws ++ fs
    /\ forall n x, In (n, x) ws <-> exists k split part, nth_error splits k = Some split /\ nth_error parts k = Some part /\ part <> []
         /\ n = pieces_file split seed /\ x = PklFile (map (fun x => to_dict (snd x)) part).
Proof.
  induction splits as [|split splits IH]; intros parts fs.
  { exists []. split; [reflexivity|]. intros n x. split; [intros []|]. intros ([|k] & s & p & H & _); discriminate. }
  destruct parts as [|part parts].
  { exists []. split; [reflexivity|]. intros n x. split; [intros []|]. intros ([|k] & s & p & _ & H & _); discriminate. }
  cbn [map write_pickles].
  set (fs1 := match map snd part with [] => fs | _ => (pickle_name split seed, PklFile (map to_dict (map snd part))) :: fs end).
  assert (H1 : exists w1, fs1 = w1 ++ fs /\ forall n x, In (n, x) w1 <-> part <> [] /\ n = pieces_file split seed /\ x = PklFile (map (fun x => to_dict (snd x)) part)).
  { subst fs1. destruct part as [|y part].
    - exists []. split; [reflexivity|]. intros n x. split; [intros []|]. intros (H & _). congruence.
    - exists [(pickle_name split seed, PklFile (map to_dict (map snd (y :: part))))]. split; [reflexivity|]. intros n x.
      rewrite map_map. cbn [In]. rewrite pair_equal_spec. split.
      + intros [[<- <-]|[]]. split; [discriminate|auto].
      + intros (_ & -> & ->). left. auto. }
  destruct H1 as (w1 & E1 & I1). destruct (IH parts fs1) as (w2 & E2 & I2). exists (w2 ++ w1). split.
  - rewrite E2, E1. apply app_assoc.
  - intros n x. rewrite in_app_iff, I1, I2. split.
    + intros [(k & s & p & A & B & C)|C]; [exists (S k), s, p; auto|exists 0%nat, split, part; auto].
    + intros ([|k] & s & p & A & B & C); [injection A as <-; injection B as <-; now right|left; now exists k, s, p].
Qed.
Lemma class_spec c (row : nat -> option Dat) (ids : list (list Z)) seed : forall splits i2 (fs : dir),
  (length splits + i2 = length ids)%nat ->
  exists ws, write_class c row ids seed i2 splits fs = Ok (ws ++ fs)
    /\ forall n x, In (n, x) ws <-> exists k split d is_, nth_error splits k = Some split /\ row (i2 + k)%nat = Some d
         /\ nth_error ids (i2 + k) = Some is_ /\ n = dataset_file c split seed /\ x = H5File d is_.
Proof.
  induction splits as [|split splits IH]; intros i2 fs Hl; cbn [write_class].
  { exists []. split; [reflexivity|]. intros n x. split; [intros []|]. intros ([|k] & s & d & i & H & _); discriminate. }
  cbn [length] in Hl.
  destruct (nth_error ids i2) as [is_|] eqn:N; [|apply nth_error_None in N; lia].
  assert (H1 : exists w1, (match row i2 with None => Ok fs | Some d => let! ids0 := py_nth ids (Z.of_nat i2) in Ok ((h5_name c split seed, H5File d ids0) :: fs) end) = Ok (w1 ++ fs)
     /\ forall n x, In (n, x) w1 <-> exists d, row i2 = Some d /\ n = dataset_file c split seed /\ x = H5File d is_).
  { destruct (row i2) as [d|].
    - rewrite (py_nth_pos _ _ is_) by (lia || now rewrite Nat2Z.id). cbn [bind]. eexists [_]. split; [reflexivity|]. intros n x. cbn [In].
      rewrite pair_equal_spec, name_h5. split; [intros [[<- <-]|[]]; exists d; auto|]. intros (d' & E & -> & ->). injection E as <-. left. auto.
    - exists []. split; [reflexivity|]. intros n x. split; [intros []|]. intros (d & E & _). discriminate. }
  destruct H1 as (w1 & E1 & I1). rewrite E1. cbn [bind].
  destruct (IH (S i2) (w1 ++ fs)) as (w2 & E2 & I2); [lia|]. exists (w2 ++ w1). split.
  - rewrite E2. now rewrite app_assoc.
  - intros n x. rewrite in_app_iff, I1, I2. split.
    + intros [(k & s & d & i & A & B & C & E)|(d & A & E)].
      * exists (S k), s, d, i. replace (i2 + S k)%nat with (S i2 + k)%nat by lia. auto.
      * exists 0%nat, split, d, is_. rewrite Nat.add_0_r. auto.
    + intros ([|k] & s & d & i & A & B & C & E).
      * rewrite Nat.add_0_r in B, C. injection A as <-. right. exists d. rewrite N in C. injection C as <-. auto.
      * left. exists k, s, d, i. replace (S i2 + k)%nat with (i2 + S k)%nat by lia. auto.
Qed.
Lemma h5_spec (m : nat -> nat -> option Dat) (ids : list (list Z)) seed : length ids = 3%nat -> forall classes i1 (fs : dir),
  exists ws, write_h5 classes i1 m ids seed fs = Ok (ws ++ fs)
    /\ forall n x, In (n, x) ws <-> exists j c k split d is_, nth_error classes j = Some c /\ nth_error split_names k = Some split
         /\ m (i1 + j)%nat k = Some d /\ nth_error ids k = Some is_ /\ n = dataset_file c split seed /\ x = H5File d is_.
Proof.
  intros Hl. induction classes as [|c classes IH]; intros i1 fs; cbn [write_h5].
  { exists []. split; [reflexivity|]. intros n x. split; [intros []|]. intros ([|j] & c & k & s & d & i & H & _); discriminate. }
  destruct (class_spec c (m i1) ids seed SPLITS 0 fs) as (w1 & E1 & I1); [rewrite Hl; reflexivity|]. rewrite E1. cbn [bind].
  destruct (IH (S i1) (w1 ++ fs)) as (w2 & E2 & I2). exists (w2 ++ w1). split.
  - rewrite E2. now rewrite app_assoc.
  - intros n x. rewrite in_app_iff, I1, I2. split.
    + intros [(j & c' & k & s & d & i & A & B & C & E)|(k & s & d & i & A & B & C & E)].
      * exists (S j), c', k, s, d, i. replace (i1 + S j)%nat with (S i1 + j)%nat by lia. auto.
      * exists 0%nat, c, k, s, d, i. rewrite Nat.add_0_r. auto.
    + intros ([|j] & c' & k & s & d & i & A & B & C & E).
      * rewrite Nat.add_0_r in C. injection A as <-. right. exists k, s, d, i. auto.
      * left. exists j, c', k, s, d, i. replace (S i1 + j)%nat with (i1 + S j)%nat by lia. auto.
Qed.
Lemma class_index c : exists j, nth_error DATASET_CLASSES j = Some c.
Proof. destruct c; [exists 0%nat|exists 1%nat|exists 2%nat|exists 3%nat|exists 4%nat]; reflexivity. Qed.

(* ---- the script ---- *)
Lemma create_spec (r : @run P) l (fs : dir) : good_run fadd fmul fdiv r l ->
  exists parts, divided l parts /\
  ((exists c k part e, nth_error parts k = Some part /\ part <> [] /\ build c (map snd part) = Raise e
      /\ create_h5_data fadd fmul fdiv to_dict build r fs = Raise e)
   \/ exists fs', create_h5_data fadd fmul fdiv to_dict build r fs = Ok (Finished fs')
        /\ written to_dict build (r_seed r) parts fs fs').
Proof.
  intros Hg. destruct (good_splits r l Hg) as (inp & parts & Ei & [Hl3 Hpm] & Es). exists parts. split; [split; assumption|].
  destruct Hg as (_ & _ & (_ & H0 & H1 & _) & _).
  unfold create_h5_data. unfold proportions in *. destruct (r_splits r) as [[s1 s2] s3].
  assert (Eneg : existsb (fun s => negb (Qle_bool 0%Q s)) [s1; s2; s3] = false).
  { apply not_true_iff_false. intros E. apply existsb_exists in E as (s & I & E). rewrite Forall_forall in H0.
    apply H0 in I. apply Qle_bool_iff in I. now rewrite I in E. }
  rewrite Eneg. cbv zeta. destruct (Qeq_bool (fold_left fadd [s1; s2; s3] 0%Q) 0%Q) eqn:E0.
  { apply Qeq_bool_eq in E0. rewrite E0 in H1. now elim (Qlt_irrefl 0). }
  rewrite Ei. cbn [bind]. unfold get_dataset_splits. rewrite Es. cbn [bind].
  replace (firstn _ (map (map snd) parts)) with (map (map snd) parts) by (rewrite firstn_all2; [reflexivity|rewrite !map_length, Hl3; cbn; lia]).
  destruct (build_splits_spec (map (map snd) parts) 0 (fun _ _ => None)) as [(c & k & pp & e & N & Hn & B & R)|(m & R & M & _)].
  - reflexivity.
  - left. rewrite nth_error_map in N. destruct (nth_error parts k) as [part|] eqn:Nk; [|discriminate]. injection N as <-.
    exists c, k, part, e. rewrite R. cbn [bind]. repeat split; try assumption. intros ->. now apply Hn.
  - right. rewrite R. cbn [bind].
    destruct (pickles_spec (r_seed r) SPLITS parts fs) as (w1 & E1 & I1). rewrite E1.
    destruct (h5_spec m (map (map fst) parts) (r_seed r)) with (classes := DATASET_CLASSES) (i1 := 0%nat) (fs := w1 ++ fs) as (w2 & E2 & I2);
      [now rewrite map_length|]. rewrite E2. cbn [bind]. exists (w2 ++ w1 ++ fs). split; [reflexivity|].
    change SPLITS with split_names in I1.
    assert (M' : forall j c k part, nth_error DATASET_CLASSES j = Some c -> nth_error parts k = Some part ->
       (part = [] -> m j k = None) /\ (part <> [] -> exists d, build c (map snd part) = Ok d /\ m j k = Some d)).
    { intros j c k part Nj Nk. destruct (M k (map snd part) j c) as [Ma Mb]; [now rewrite nth_error_map, Nk|exact Nj|]. split.
      - intros ->. apply Ma. reflexivity.
      - intros Hn. apply Mb. intros C. apply map_eq_nil in C. contradiction. }
    clear M R E1 E2. rewrite app_assoc. split.
    + intros k split part Nk Np Hn. split.
      * apply lookup_in; [apply in_or_app; right; apply I1; exists k, split, part; auto|].
        intros y Hy. apply in_app_or in Hy as [Hy|Hy].
        -- apply I2 in Hy as (? & c & ? & ? & ? & ? & _ & _ & _ & _ & E & _). now apply pickle_not_h5 in E.
        -- apply I1 in Hy as (k' & s' & p' & A & B & _ & E & ->).
           apply pickle_inj in E as [E _]; [|exact (nth_error_In _ _ Nk)|exact (nth_error_In _ _ A)]. subst s'.
           rewrite (split_index _ _ _ Nk A) in Np. rewrite B in Np. now injection Np as ->.
      * intros c. destruct (class_index c) as [j Nj]. destruct (M' j c k part Nj Np) as [_ Mb]. destruct (Mb Hn) as (d & Bd & Md).
        exists d. split; [exact Bd|]. apply lookup_in.
        -- apply in_or_app; left. apply I2. exists j, c, k, split, d, (map fst part). rewrite nth_error_map, Np. auto 10.
        -- intros y Hy. apply in_app_or in Hy as [Hy|Hy].
           ++ apply I2 in Hy as (j' & c' & k' & s' & d' & i' & A & B & C & E & F & ->).
              apply h5_inj in F as (-> & -> & _); [|exact (nth_error_In _ _ Nk)|exact (nth_error_In _ _ B)].
              rewrite <- (split_index _ _ _ Nk B) in *. rewrite nth_error_map, Np in E. injection E as <-.
              destruct (M' j' c' k part A Np) as [_ Mb']. destruct (Mb' Hn) as (d2 & Bd2 & Md2). cbn [Nat.add] in C. rewrite Md2 in C. injection C as <-.
              rewrite Bd in Bd2. apply Ok_inj in Bd2. now subst d2.
           ++ apply I1 in Hy as (k' & s' & p' & _ & _ & _ & E & _). symmetry in E. now apply pickle_not_h5 in E.
    + intros name H. apply lookup_not. intros y Hy. apply in_app_or in Hy as [Hy|Hy].
      * apply I2 in Hy as (j & c & k & s & d & i & A & B & C & E & F & _). cbn [Nat.add] in C.
        rewrite nth_error_map in E. destruct (nth_error parts k) as [part|] eqn:Np; [|discriminate].
        destruct (M' j c k part A Np) as [Ma _]. destruct part as [|x part]; [rewrite Ma in C by reflexivity; discriminate|].
        destruct (H k s _ B Np) as [_ Hc]; [discriminate|]. now apply (Hc c).
      * apply I1 in Hy as (k & s & part & A & B & C & E & _). destruct (H k s part A B C) as [Hc _]. contradiction.
Qed.
End Create.
