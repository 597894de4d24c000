(* C52: loading pieces. *)
From Coq Require Import String Ascii.
From Verif Require Import Spec_Dataset Model_Load Spec_Load Proof_Base Proof_Load.
From Coq Require Import List.
Import ListNotations.
Open Scope Z_scope.

Lemma nodup_bound (ids : list Z) n : 0 <= n -> NoDup ids -> (forall i, In i ids -> 0 <= i < n) -> (List.length ids <= Z.to_nat n)%nat.
Proof.
  intros Hn Hd Hb. replace (Z.to_nat n) with (List.length (zrange 0 n)) by (pose proof (zlen_zrange 0 n Hn) as Z; unfold zlen in Z; lia).
  apply NoDup_incl_length; [exact Hd|]. intros i Hi. apply in_zrange. exact (Hb i Hi).
Qed.
Lemma combine_none {D} (ids : list Z) n : (List.length ids <= n)%nat ->
  combine ids (repeat (@None D) n) = map (fun i => (i, None)) ids.
Proof.
  revert n. induction ids as [|i ids IH]; intros n H; [reflexivity|]. destruct n as [|n]; [cbn in H; lia|]. cbn [repeat combine map].
  rewrite IH by (cbn in H; lia). reflexivity.
Qed.
Lemma filter_all {A} (f : A -> bool) l : (forall x, In x l -> f x = true) -> filter f l = l.
Proof.
  induction l as [|x l IH]; intros H; [reflexivity|]. cbn [filter]. rewrite (H x (or_introl eq_refl)). f_equal. apply IH.
  intros y Hy. apply H. right. exact Hy.
Qed.

(* With all annotations present, every piece is made from the score with its id and that score's
   annotation, in the order of the ids. *)
Theorem C52_paired : forall (D : Type) exists_ scores ids,
  Forall well_named scores -> (forall s, In s scores -> labelled exists_ s) ->
  NoDup ids -> (forall i, In i ids -> 0 <= i < zlen scores) -> ids <> [] ->
  exists ps, load_pieces (D := D) (ScoreDir exists_ scores) NoPickle ids None = Ok ps /\
    Forall2 (fun i p => plan_id p = i /\ exists s c, nth_error scores (Z.to_nat i) = Some s /\ label_of s c /\
      exists_ c = true /\ plan_source p = FromXml s (Some c)) ids ps.
Proof.
  intros D ex scores ids Hw Hl Hd Hb Hne. rewrite Forall_forall in Hw. unfold load_pieces. rewrite find_files_eq.
  rewrite (filter_all (fun s => ex (label_csv_path s))) by (intros s Hs; apply labelled_iff; [exact (Hw s Hs)|exact (Hl s Hs)]).
  destruct ids as [|i0 r] eqn:Ei; [contradiction|]. rewrite <- Ei in *. cbn [bind].
  rewrite combine_none by (apply nodup_bound; [unfold zlen; lia|exact Hd|exact Hb]).
  clear Ei Hne Hd i0 r. induction ids as [|i ids IH]; [exists []; split; [reflexivity|constructor]|].
  destruct (IH (fun j Hj => Hb j (or_intror Hj))) as (ps & E & F). clear IH.
  pose proof (Hb i (or_introl eq_refl)) as Bi. destruct (py_nth_in_range _ _ Bi) as (s & Es & Ns).
  pose proof (Hw s (nth_error_In _ _ Ns)) as Ws.
  exists (mkPlan D i (FromXml s (Some (label_csv_path s))) :: ps). split.
  - cbn [map mapM]. rewrite E. unfold load_score at 1. rewrite Es. cbn [bind].
    rewrite (py_nth_pos _ i (Some (label_csv_path s))); [reflexivity|lia|]. rewrite !nth_error_map, Ns. reflexivity.
  - constructor; [|exact F]. split; [reflexivity|]. exists s, (label_csv_path s). split; [exact Ns|]. split; [exact (well_named_label s Ws)|].
    split; [apply labelled_iff; [exact Ws|exact (Hl s (nth_error_In _ _ Ns))]|reflexivity].
Qed.
Print Assumptions C52_paired.

(* The annotations are counted without the gaps: the piece with id k gets the annotation of the
   k-th score that has one, which is a later score as soon as one of the scores 0..k has none. *)
Theorem C52_missing_refuted : forall (D : Type) exists_ scores k ps,
  Forall well_named scores -> 0 <= k < zlen scores ->
  load_pieces (D := D) (ScoreDir exists_ scores) NoPickle [k] None = Ok ps ->
  exists s c k' s', ps = [mkPlan D k (FromXml s (Some c))] /\ nth_error scores (Z.to_nat k) = Some s /\
    nth_error scores k' = Some s' /\ label_of s' c /\ exists_ c = true /\ k <= Z.of_nat k' /\
    (forall j sj, Z.of_nat j <= k -> nth_error scores j = Some sj -> ~ labelled exists_ sj -> k < Z.of_nat k').
Proof.
  intros D ex scores k ps Hw Hb H. rewrite Forall_forall in Hw. unfold load_pieces in H. rewrite find_files_eq in H. cbn [bind] in H.
  set (f := fun s => ex (label_csv_path s)) in *.
  assert (Hz : exists q, Z.to_nat (zlen scores) = S q) by (exists (Z.to_nat (zlen scores) - 1)%nat; lia). destruct Hz as [q Hq].
  rewrite Hq in H. cbn [repeat combine mapM] in H.
  apply bind_ok in H as (p & Hp & H). apply Ok_inj in H. unfold load_score in Hp.
  apply bind_ok in Hp as (s & Hs & Hp). apply bind_ok in Hp as (c & Hc & Hp). apply Ok_inj in Hp.
  destruct (py_nth_in_range _ _ Hb) as (s0 & E0 & N0). rewrite Hs in E0. apply Ok_inj in E0. subst s0.
  destruct (py_nth_ok_inv _ _ _ Hc) as [[_ Nc]|[B _]]; [|lia]. rewrite !nth_error_map in Nc.
  destruct (nth_error (filter f scores) (Z.to_nat k)) as [s'|] eqn:N'; [|discriminate]. cbn in Nc. injection Nc as <-.
  destruct (nth_filter f _ _ _ N') as (k' & Nk & Fk & Lk & Ck).
  exists s, (label_csv_path s'), k', s'. split; [rewrite <- H, <- Hp; reflexivity|]. split; [exact N0|]. split; [exact Nk|].
  split; [exact (well_named_label _ (Hw _ (nth_error_In _ _ Nk)))|]. split; [exact Fk|]. split; [lia|].
  intros j sj Hj Nj Hu.
  assert (Fj : f sj = false).
  { destruct (f sj) eqn:E; [|reflexivity]. exfalso. apply Hu. apply labelled_iff; [exact (Hw _ (nth_error_In _ _ Nj))|exact E]. }
  destruct (Z_lt_le_dec k (Z.of_nat k')) as [L|L]; [exact L|]. exfalso. assert (k' = Z.to_nat k) by lia. subst k'.
  rewrite Nat.sub_diag in Ck.
  assert (j <> Z.to_nat k) by (intros ->; rewrite Nk in Nj; injection Nj as ->; congruence).
  assert (I : In sj (filter (fun y => negb (f y)) (firstn (Z.to_nat k) scores))).
  { apply filter_In. split; [|rewrite Fj; reflexivity]. apply (nth_error_In _ j).
    clear -H0 Hj Nj. revert Nj. assert (j < Z.to_nat k)%nat by lia. generalize dependent (Z.to_nat k). clear. intros n _ H. revert scores j H.
    induction n as [|n IH]; intros [|x l] [|j] H N; try discriminate; try lia; [exact N|]. cbn in *. apply IH; [lia|exact N]. }
  destruct (filter (fun y => negb (f y)) (firstn (Z.to_nat k) scores)); [exact I|discriminate].
Qed.
Print Assumptions C52_missing_refuted.
(* in particular an unannotated score never comes without annotation: it takes one from another
   score, or loading raises *)
Theorem C52_unlabelled_refuted : forall (D : Type) exists_ scores k s,
  Forall well_named scores -> 0 <= k < zlen scores -> nth_error scores (Z.to_nat k) = Some s -> ~ labelled exists_ s ->
  load_pieces (D := D) (ScoreDir exists_ scores) NoPickle [k] None = Raise IndexError \/
  exists c, load_pieces (D := D) (ScoreDir exists_ scores) NoPickle [k] None = Ok [mkPlan D k (FromXml s (Some c))] /\ ~ label_of s c.
Proof.
  intros D ex scores k s Hw Hb Hs Hu.
  destruct (load_pieces (ScoreDir ex scores) NoPickle [k] None) as [ps|e] eqn:E.
  - right. destruct (C52_missing_refuted D ex scores k ps Hw Hb E) as (s1 & c & k' & s' & -> & N1 & N' & L' & E' & _).
    rewrite Hs in N1. injection N1 as <-. exists c. split; [reflexivity|]. intros C. apply Hu. exists c. split; assumption.
  - left. unfold load_pieces in E. rewrite find_files_eq in E. cbn [bind] in E.
    assert (Hz : exists q, Z.to_nat (zlen scores) = S q) by (exists (Z.to_nat (zlen scores) - 1)%nat; lia). destruct Hz as [q Hq].
    rewrite Hq in E. cbn [repeat combine mapM] in E. unfold load_score in E. rewrite (py_nth_pos _ k s) in E by (lia || exact Hs). cbn [bind] in E.
    unfold py_nth in E. destruct (k <? 0) eqn:K; [lia|].
    destruct ((k <? 0) || (zlen (map Some (map label_csv_path (filter (fun s => ex (label_csv_path s)) scores))) <=? k)) eqn:B.
    + cbn [bind] in E. injection E as <-. reflexivity.
    + destruct (nth_error (map Some (map label_csv_path (filter (fun s => ex (label_csv_path s)) scores))) (Z.to_nat k)) as [c|]; cbn [bind] in E; [discriminate E|].
      injection E as <-. reflexivity.
Qed.
Print Assumptions C52_unlabelled_refuted.

(* The ids written by create_h5_data.py count only the annotated scores; with the dictionaries it
   writes, load_pieces takes the measures from the score with that number among all scores. *)
Theorem C52_dataset_ids_refuted : forall (D : Type) exists_ scores k (d : D) ps,
  Forall well_named scores -> 0 <= k < zlen scores ->
  load_pieces (ScoreDir exists_ scores) (Pickle [d]) [k] None = Ok ps ->
  exists s, ps = [mkPlan D k (FromXmlDict s d)] /\ nth_error scores (Z.to_nat k) = Some s /\
  forall s', nth_error (fst (find_annotated exists_ scores)) (Z.to_nat k) = Some s' ->
    exists k', nth_error scores k' = Some s' /\ labelled exists_ s' /\ k <= Z.of_nat k' /\
      (~ labelled exists_ s -> k < Z.of_nat k' /\ s' <> s).
Proof.
  intros D ex scores k d ps Hw Hb H. rewrite Forall_forall in Hw. unfold load_pieces in H. rewrite find_files_eq in H. cbn [bind map combine mapM] in H.
  apply bind_ok in H as (p & Hp & H). apply Ok_inj in H. unfold load_score in Hp. apply bind_ok in Hp as (s & Hs & Hp). apply Ok_inj in Hp.
  destruct (py_nth_in_range _ _ Hb) as (s0 & E0 & N0). rewrite Hs in E0. apply Ok_inj in E0. subst s0.
  exists s. split; [rewrite <- H, <- Hp; reflexivity|]. split; [exact N0|]. intros s' N'. rewrite find_annotated_eq in N'. cbn [fst] in N'.
  destruct (nth_filter _ _ _ _ N') as (k' & Nk & Fk & Lk & Ck). exists k'. split; [exact Nk|].
  assert (Hl : labelled ex s') by (apply labelled_iff; [exact (Hw _ (nth_error_In _ _ Nk))|exact Fk]).
  split; [exact Hl|]. split; [lia|]. intros Hu.
  assert (s' <> s) by (intros ->; contradiction). split; [|assumption].
  destruct (Z_lt_le_dec k (Z.of_nat k')) as [L|L]; [exact L|]. exfalso. assert (k' = Z.to_nat k) by lia. subst k'. congruence.
Qed.
Print Assumptions C52_dataset_ids_refuted.
(* if all scores are annotated, the two countings agree *)
Theorem C52_dataset_ids : forall exists_ scores, Forall well_named scores -> (forall s, In s scores -> labelled exists_ s) ->
  fst (find_annotated exists_ scores) = scores /\ fst (find_files exists_ scores) = scores /\
  Forall2 label_of scores (snd (find_annotated exists_ scores)) /\ snd (find_files exists_ scores) = snd (find_annotated exists_ scores).
Proof.
  intros ex scores Hw Hl. rewrite find_annotated_eq, find_files_eq. cbn [fst snd]. rewrite Forall_forall in Hw.
  rewrite filter_all by (intros s Hs; apply labelled_iff; [exact (Hw s Hs)|exact (Hl s Hs)]).
  split; [reflexivity|]. split; [reflexivity|]. split; [|reflexivity]. clear Hl. induction scores as [|s r IH]; [constructor|].
  cbn [map]. constructor; [exact (well_named_label s (Hw s (or_introl eq_refl)))|]. apply IH. intros x Hx. apply Hw. right. exact Hx.
Qed.
Print Assumptions C52_dataset_ids.

(* The pieces come in the order of the ids, each with the dictionary at the position of its id;
   if no ids are given, all files are loaded. *)
Lemma load_uses {D} xmls csvs nf i (d : option D) p : load_score xmls csvs nf i d = Ok p -> plan_id p = i /\ uses_dict p d.
Proof.
  unfold load_score. destruct d as [d|]; intros H.
  - apply bind_ok in H as (x & _ & H). destruct nf; [discriminate|]. apply Ok_inj in H. subst p. split; reflexivity.
  - apply bind_ok in H as (x & _ & H). apply bind_ok in H as (c & _ & H). destruct nf; [discriminate|]. apply Ok_inj in H. subst p. split; reflexivity.
Qed.
Lemma frames_uses {D} files n m c i (d : option D) p : load_frames files n m c i d = Ok p -> plan_id p = i /\ uses_dict p d.
Proof.
  unfold load_frames. destruct d as [d|]; intros H.
  - do 2 (apply bind_ok in H as (? & _ & H)). apply Ok_inj in H. subst p. repeat split.
  - do 4 (apply bind_ok in H as (? & _ & H)). apply Ok_inj in H. subst p. repeat split.
Qed.
Definition loader {D} (inp : input) : Z -> option D -> res (piece_plan D) :=
  match inp with
  | ScoreDir ex scores => load_score (fst (find_files ex scores)) (map Some (snd (find_files ex scores))) false
  | ScoreFile p is_str => load_score [p] [None] is_str
  | Frames files n m c => load_frames files n m c
  end.
Definition dicts_of {D} (inp : input) (pkl : pickle D) (ids : list Z) : option (list (option D)) :=
  match pkl with
  | Pickle ds => Some (map Some ds)
  | MissingPickle => None
  | NoPickle => Some (repeat None (match inp with ScoreDir _ s => List.length s | ScoreFile _ _ => 1%nat | _ => List.length (asked_for inp ids) end))
  end.
Lemma load_pieces_eq {D} inp (pkl : pickle D) ids spec : load_pieces inp pkl ids spec =
  let! (file_ids, piece_dicts) :=
    match spec with
    | None => Ok (asked_for inp ids, dicts_of inp pkl ids)
    | Some s =>
        match zfind s (asked_for inp ids) with
        | None => Raise ValueError
        | Some k =>
            match dicts_of inp pkl ids with
            | None => Raise UnboundLocalError
            | Some ds =>
                let! i := py_nth (asked_for inp ids) (Z.of_nat k) in
                let! d := py_nth ds (Z.of_nat k) in
                Ok ([i], Some [d])
            end
        end
    end in
  match piece_dicts with
  | None => Raise UnboundLocalError
  | Some ds => mapM (fun '(i, d) => loader inp i d) (combine file_ids ds)
  end.
Proof.
  unfold load_pieces, loader, dicts_of, asked_for, all_files. destruct inp as [ex scores|p b|files n m c].
  - rewrite find_files_eq. cbn [fst snd]. unfold zlen. rewrite Nat2Z.id. reflexivity.
  - reflexivity.
  - destruct ids; unfold zlen; rewrite Nat2Z.id; reflexivity.
Qed.
Lemma loader_uses {D} inp i (d : option D) p : loader inp i d = Ok p -> plan_id p = i /\ uses_dict p d.
Proof. destruct inp as [ex scores|q b|files n m c]; cbn [loader]; [apply load_uses|apply load_uses|apply frames_uses]. Qed.

Theorem C52_order : forall (D : Type) inp (pkl : pickle D) ids ps,
  load_pieces inp pkl ids None = Ok ps ->
  (forall ds, pkl = Pickle ds -> List.length ds = List.length (asked_for inp ids)) ->
  (pkl = NoPickle -> (forall i, In i ids -> In i (all_files inp)) /\ NoDup ids) ->
  exists dicts, Forall2 (fun '(i, d) p => plan_id p = i /\ uses_dict p d) (combine (asked_for inp ids) dicts) ps /\
    List.length dicts = List.length ps /\ map plan_id ps = asked_for inp ids /\
    match pkl with Pickle ds => dicts = map Some ds | MissingPickle => False | NoPickle => Forall (fun d => d = None) dicts end.
Proof.
  intros D inp pkl ids ps H Hp Hn. rewrite load_pieces_eq in H. cbn [bind] in H. destruct (dicts_of inp pkl ids) as [ds|] eqn:Ed; [|discriminate].
  assert (L : (List.length (asked_for inp ids) <= List.length ds)%nat).
  { unfold dicts_of in Ed. destruct pkl as [| |l]; [|discriminate|]; injection Ed as <-.
    - rewrite repeat_length. destruct (Hn eq_refl) as [Hi Hd]. destruct inp as [ex scores|p b|files n m c]; [| |apply le_n].
      + unfold asked_for, all_files. destruct ids as [|i r]; [pose proof (zlen_zrange 0 (zlen scores) ltac:(unfold zlen; lia)); unfold zlen in *; lia|].
        pose proof (nodup_bound (i :: r) (zlen scores) ltac:(unfold zlen; lia) Hd) as B. unfold zlen in B. rewrite Nat2Z.id in B. apply B.
        intros j Hj. apply Hi in Hj. cbn [all_files] in Hj. apply in_zrange in Hj. unfold zlen in Hj. exact Hj.
      + unfold asked_for, all_files. destruct ids as [|i r]; [apply le_n|]. change 1%nat with (List.length [0]). apply NoDup_incl_length; [exact Hd|exact Hi].
    - rewrite map_length, (Hp l eq_refl). apply le_n. }
  assert (G : forall (a : list Z) (b : list (option D)) qs, mapM (fun '(i, d) => loader inp i d) (combine a b) = Ok qs -> (List.length a <= List.length b)%nat ->
     Forall2 (fun '(i, d) p => plan_id p = i /\ uses_dict p d) (combine a b) qs /\ map plan_id qs = a).
  { induction a as [|i a IH]; intros b qs E Lb; [cbn in E; apply Ok_inj in E; subst; split; [constructor|reflexivity]|].
    destruct b as [|d b]; [cbn in Lb; lia|]. cbn [combine mapM] in E. apply bind_ok in E as (p & Ep & E). apply bind_ok in E as (r & Er & E). apply Ok_inj in E. subst qs.
    apply loader_uses in Ep as [Ei Eu]. destruct (IH b r Er ltac:(cbn in Lb; lia)) as [F M]. split; [constructor; [split; assumption|exact F]|].
    cbn [map]. rewrite Ei, M. reflexivity. }
  destruct (G _ _ _ H L) as [F M]. exists (firstn (List.length (asked_for inp ids)) ds).
  assert (C : combine (asked_for inp ids) (firstn (List.length (asked_for inp ids)) ds) = combine (asked_for inp ids) ds).
  { clear. generalize (asked_for inp ids) ds. intros a. induction a as [|x a IH]; intros [|y b]; try reflexivity. cbn. rewrite IH. reflexivity. }
  rewrite C. split; [exact F|]. split.
  - rewrite firstn_length. apply (f_equal (@List.length Z)) in M. rewrite map_length in M. lia.
  - split; [exact M|]. unfold dicts_of in Ed. destruct pkl as [| |l]; [|discriminate|]; injection Ed as <-.
    + apply Forall_forall. intros x Hx. assert (In x (repeat None (match inp with ScoreDir _ s => List.length s | ScoreFile _ _ => 1%nat | Frames _ _ _ _ => List.length (asked_for inp ids) end)))
        by (rewrite <- (firstn_skipn (List.length (asked_for inp ids))); apply in_or_app; left; exact Hx). apply repeat_spec in H0. exact H0.
    + rewrite map_length in *. rewrite firstn_all2; [reflexivity|]. rewrite map_length, (Hp l eq_refl). apply le_n.
Qed.
Print Assumptions C52_order.

(* Asking for one id gives the piece that loading all of them gives for it; an id that is not
   among the ids is refused. *)
Theorem C52_specific : forall (D : Type) inp (pkl : pickle D) ids s,
  (~ In s (asked_for inp ids) -> load_pieces inp pkl ids (Some s) = Raise ValueError) /\
  forall ps, load_pieces inp pkl ids None = Ok ps -> In s (map plan_id ps) ->
    exists k p, load_pieces inp pkl ids (Some s) = Ok [p] /\ nth_error ps k = Some p /\ plan_id p = s /\
      forall j q, (j < k)%nat -> nth_error ps j = Some q -> plan_id q <> s.
Proof.
  intros D inp pkl ids s. split.
  - intros H. rewrite load_pieces_eq. apply zfind_none in H. rewrite H. reflexivity.
  - intros ps H Hs. rewrite load_pieces_eq in *. cbn [bind] in H. destruct (dicts_of inp pkl ids) as [ds|] eqn:Ed; [|discriminate].
    set (all := asked_for inp ids) in *.
    assert (M : forall j q, nth_error ps j = Some q -> exists d, nth_error all j = Some (plan_id q) /\ nth_error ds j = Some d /\ loader inp (plan_id q) d = Ok q).
    { clear -H. revert ds ps H. induction all as [|i a IH]; intros b qs E j q N; [cbn in E; apply Ok_inj in E; subst; destruct j; discriminate|].
      destruct b as [|d b]; [cbn in E; apply Ok_inj in E; subst; destruct j; discriminate|]. cbn [combine mapM] in E. apply bind_ok in E as (p & Ep & E).
      apply bind_ok in E as (r & Er & E). apply Ok_inj in E. subst qs. destruct j as [|j].
      - cbn in N. injection N as ->. destruct (loader_uses _ _ _ _ Ep) as [Ei _]. exists d. rewrite Ei. split; [reflexivity|]. split; [reflexivity|exact Ep].
      - exact (IH b r Er j q N). }
    apply in_map_iff in Hs as (q & Eq & Hq). apply In_nth_error in Hq as [j Nj]. destruct (M j q Nj) as (d & Na & _ & _).
    rewrite Eq in Na. destruct (zfind s all) as [k|] eqn:Ek; [|apply zfind_none in Ek; exfalso; apply Ek; exact (nth_error_In _ _ Na)].
    destruct (zfind_spec _ _ _ Ek) as [Nk Mk].
    assert (Kj : (k <= j)%nat) by (destruct (Nat.lt_ge_cases j k) as [C|C]; [destruct (Mk j C Na)|exact C]).
    assert (Lp : (j < List.length ps)%nat) by (apply nth_error_Some; rewrite Nj; discriminate).
    destruct (nth_error ps k) as [p|] eqn:Np; [|apply nth_error_None in Np; lia].
    destruct (M k p Np) as (dk & Nak & Ndk & Ep). rewrite Nk in Nak. injection Nak as Es.
    exists k, p. rewrite (py_nth_pos _ _ s) by (try lia; rewrite Nat2Z.id; exact Nk). cbn [bind].
    rewrite (py_nth_pos _ _ dk) by (try lia; rewrite Nat2Z.id; exact Ndk). cbn [bind combine mapM]. rewrite Es, Ep. cbn [bind].
    split; [reflexivity|]. split; [exact Np|]. split; [reflexivity|].
    intros j' q' Hj Nq C. destruct (M j' q' Nq) as (d' & Na' & _). rewrite C, <- Es in Na'. exact (Mk j' Hj Na').
Qed.
Print Assumptions C52_specific.

(* The pieces that create_h5_data.py saves for a split are read back with their own ids
   (partition_of: what C42 proves about the splits). *)
Theorem C52_saved : forall (P D : Type) (to_dict : P -> D) parse files ids pss k split pieces measures chords,
  partition_of parse files ids pss -> nth_error ids k = Some split -> nth_error pss k = Some pieces ->
  (forall i, In i files -> measures i = true) ->
  exists ps, load_pieces (Frames files measures measures chords) (Pickle (map to_dict pieces)) split None = Ok ps /\
    Forall2 (fun i p => exists x, parse i = Some x /\ p = mkPlan D i (FromFramesDict i (to_dict x))) split ps.
Proof.
  intros P D to_dict parse files ids pss k split pieces measures chords [F Pm] Ni Np Hm. rewrite load_pieces_eq. cbn [bind dicts_of loader].
  assert (F0 : Forall2 (fun i p => parse i = Some p) split pieces).
  { clear -F Ni Np. revert k Ni Np. induction F; intros [|k] Ni Np; try discriminate; [cbn in *; congruence|]. exact (IHF k Ni Np). }
  assert (I : forall i, In i split -> In i files).
  { intros i Hi. assert (C : In i (concat ids)) by (apply in_concat; exists split; split; [exact (nth_error_In _ _ Ni)|exact Hi]).
    apply (Permutation.Permutation_in _ Pm) in C. apply filter_In in C as [C _]. exact C. }
  assert (C : combine (asked_for (Frames files measures measures chords) split) (map Some (map to_dict pieces)) = combine split (map Some (map to_dict pieces))).
  { destruct split as [|i r]; [|reflexivity]. inversion F0; subst. cbn. destruct files; reflexivity. }
  rewrite C. clear C Ni Np F Pm. induction F0 as [|i x r rp E F IH]; [exists []; split; [reflexivity|constructor]|].
  destruct (IH (fun j Hj => I j (or_intror Hj))) as (ps & Eps & Fps).
  exists (mkPlan D i (FromFramesDict i (to_dict x)) :: ps). split.
  - cbn [map combine mapM]. rewrite Eps. unfold load_frames at 1. rewrite (Hm i (I i (or_introl eq_refl))). cbn [bind].
    assert (Ex : existsb (Z.eqb i) files = true) by (apply existsb_exists; exists i; split; [exact (I i (or_introl eq_refl))|apply Z.eqb_refl]).
    rewrite Ex. reflexivity.
  - constructor; [|exact Fps]. exists x. split; [exact E|reflexivity].
Qed.
Print Assumptions C52_saved.

(* Data frames without saved pieces: each id gives a piece from the rows of that id, with labels
   just if a table of chords was given; an id that is missing from one of the tables is refused. *)
Definition in_tables (files : list Z) (notes measures : Z -> bool) (chords : option (Z -> bool)) (i : Z) : Prop :=
  In i files /\ notes i = true /\ measures i = true /\ forall c, chords = Some c -> c i = true.
Theorem C52_frames : forall (D : Type) files notes measures chords ids,
  let asked := asked_for (Frames files notes measures chords) ids in
  ((forall i, In i asked -> in_tables files notes measures chords i) ->
   load_pieces (D := D) (Frames files notes measures chords) NoPickle ids None =
     Ok (map (fun i => mkPlan D i (FromFrames i (if chords then true else false))) asked)) /\
  ((exists i, In i asked /\ ~ in_tables files notes measures chords i) ->
   load_pieces (D := D) (Frames files notes measures chords) NoPickle ids None = Raise KeyError).
Proof.
  intros D files notes measures chords ids asked. rewrite load_pieces_eq. cbn [bind dicts_of loader]. fold asked.
  rewrite combine_none by apply le_n.
  assert (G : forall i, in_tables files notes measures chords i /\
      load_frames (D := D) files notes measures chords i None = Ok (mkPlan D i (FromFrames i (if chords then true else false)))
    \/ ~ in_tables files notes measures chords i /\ load_frames (D := D) files notes measures chords i None = Raise KeyError).
  { intros i. unfold load_frames, in_tables. destruct (notes i) eqn:En; [|right; split; [intros (_ & C & _); congruence|reflexivity]]. cbn [bind].
    assert (Hc : (forall c, chords = Some c -> c i = true) \/ exists c, chords = Some c /\ c i = false).
    { destruct chords as [c|]; [|left; intros c C; discriminate]. destruct (c i) eqn:E; [left; intros c' C; injection C as <-; exact E|right; exists c; split; [reflexivity|exact E]]. }
    destruct Hc as [Hc|(c & -> & Ec)].
    2:{ rewrite Ec. right. split; [intros (_ & _ & _ & C); rewrite (C c eq_refl) in Ec; discriminate|reflexivity]. }
    assert (X : (match chords with Some c => if c i then Ok tt else Raise KeyError | None => Ok tt end) = Ok tt)
      by (destruct chords as [c|]; [rewrite (Hc c eq_refl); reflexivity|reflexivity]).
    rewrite X. cbn [bind]. destruct (measures i) eqn:Em; [|right; split; [intros (_ & _ & C & _); congruence|reflexivity]]. cbn [bind].
    destruct (existsb (Z.eqb i) files) eqn:Ef.
    - left. split; [|destruct chords; reflexivity]. apply existsb_exists in Ef as (x & Hx & Ex). apply Z.eqb_eq in Ex. subst x. auto.
    - right. split; [|reflexivity]. intros (C & _). assert (existsb (Z.eqb i) files = true) by (apply existsb_exists; exists i; split; [exact C|apply Z.eqb_refl]). congruence. }
  generalize asked. clear asked. intros l. induction l as [|i l [IHa IHb]]; [split; [reflexivity|intros (i & [] & _)]|].
  cbn [map mapM]. destruct (G i) as [[T E]|[T E]]; rewrite E; cbn [bind].
  - split.
    + intros H. rewrite (IHa (fun j Hj => H j (or_intror Hj))). reflexivity.
    + intros (j & [->|Hj] & N); [contradiction|]. rewrite (IHb (ex_intro _ j (conj Hj N))). reflexivity.
  - split; [intros H; destruct (T (H i (or_introl eq_refl)))|reflexivity].
Qed.
Print Assumptions C52_frames.
Example C52_frames_ex :
  load_pieces (D := unit) (Frames [5; 7] (fun _ => true) (fun _ => true) None) NoPickle [] None =
    Ok [mkPlan unit 5 (FromFrames 5 false); mkPlan unit 7 (FromFrames 7 false)] /\
  load_pieces (D := unit) (Frames [5; 7] (fun _ => true) (fun _ => true) (Some (Z.eqb 7))) NoPickle [7] None =
    Ok [mkPlan unit 7 (FromFrames 7 true)] /\
  load_pieces (D := unit) (Frames [5; 7] (fun _ => true) (fun _ => true) (Some (Z.eqb 7))) NoPickle [] None = Raise KeyError.
Proof. repeat split. Qed.

(* A path to saved pieces at which there is no file does not fall back to the raw data. *)
Theorem C52_no_pickle_refuted : forall (D : Type) inp ids, load_pieces (D := D) inp MissingPickle ids None = Raise UnboundLocalError.
Proof. intros D inp ids. rewrite load_pieces_eq. reflexivity. Qed.
Print Assumptions C52_no_pickle_refuted.
(* One score is loaded without annotation if it is given as a Path; given as a str, as the
   signature allows, loading raises. *)
Theorem C52_one_file : forall (D : Type) p,
  load_pieces (D := D) (ScoreFile p false) NoPickle [] None = Ok [mkPlan D 0 (FromXml p None)].
Proof. reflexivity. Qed.
Print Assumptions C52_one_file.
Theorem C52_str_refuted : forall (D : Type) p, load_pieces (D := D) (ScoreFile p true) NoPickle [] None = Raise AttributeError.
Proof. reflexivity. Qed.
Print Assumptions C52_str_refuted.

(* Three scores; in the second directory listing the annotation of the first is missing. *)
Definition score_a : path := [L"corpus"; L"scores"; L"a.mxl"].
Definition score_b : path := [L"corpus"; L"scores"; L"b.1.mxl"].
Definition score_c : path := [L"corpus"; L"scores"; L"c.mxl"].
Definition csv_b : path := [L"corpus"; L"chords"; L"b.1.csv"].
Definition csv_c : path := [L"corpus"; L"chords"; L"c.csv"].
Definition path_eqb (a b : path) : bool := if list_eq_dec (list_eq_dec ascii_dec) a b then true else false.
Definition some_exist (p : path) : bool := path_eqb p csv_b || path_eqb p csv_c.
Lemma named_abc : Forall well_named [score_a; score_b; score_c].
Proof.
  repeat constructor; eexists; exists [L"corpus"], (L"scores"); [exists (L"a")|exists (L"b.1")|exists (L"c")]; (split; [discriminate|split; reflexivity]).
Qed.
Example C52_ex :
  load_pieces (D := unit) (ScoreDir (fun _ => true) [score_a; score_b; score_c]) NoPickle [2; 1] None =
    Ok [mkPlan unit 2 (FromXml score_c (Some csv_c)); mkPlan unit 1 (FromXml score_b (Some csv_b))] /\
  load_pieces (D := unit) (ScoreDir (fun _ => true) [score_a; score_b; score_c]) NoPickle [2; 1] (Some 1) =
    Ok [mkPlan unit 1 (FromXml score_b (Some csv_b))] /\
  load_pieces (D := unit) (ScoreDir some_exist [score_a; score_b; score_c]) NoPickle [0] None =
    Ok [mkPlan unit 0 (FromXml score_a (Some csv_b))] /\
  load_pieces (D := unit) (ScoreDir some_exist [score_a; score_b; score_c]) NoPickle [2] None = Raise IndexError /\
  load_pieces (D := nat) (Frames [5; 7; 9] (fun _ => true) (fun _ => true) None) (Pickle [1%nat; 2%nat]) [9; 5] None =
    Ok [mkPlan nat 9 (FromFramesDict 9 1%nat); mkPlan nat 5 (FromFramesDict 5 2%nat)] /\
  partition_of (fun i => Some i) [5; 7; 9] [[9; 5]; [7]] [[9; 5]; [7]].
Proof.
  do 5 (split; [vm_compute; reflexivity|]). split; [repeat constructor|]. cbn.
  apply (Permutation.perm_trans (l' := [5; 9; 7])); [constructor|]. constructor. constructor.
Qed.
