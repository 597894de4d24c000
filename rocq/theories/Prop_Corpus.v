(* C37, C39, C60, C61: repeats, ties, cleaned notes and chords. *)
From Coq Require Import QArith Lqa Permutation.
From Verif Require Import PyBase Proof_Base Model_Rhythm Spec_Rhythm Proof_Rhythm
  Model_Corpus Spec_Corpus Proof_Corpus Proof_Ties Model_Clean Proof_Clean.
Close Scope Q_scope.
Open Scope Z_scope.

(* Two pieces.  The first has a repeat with two endings (measures 2 and 3), the second a
   repeat of its measures 1 and 2. *)
Definition rows : list crow :=
  [mkC 0 1 1 0 [2; 3]; mkC 0 2 1 0 [1]; mkC 0 3 1 0 [4]; mkC 0 4 1 0 [-1];
   mkC 1 1 (1#2) (1#2) [2]; mkC 1 2 1 0 [1; 3]; mkC 1 3 1 0 []].

(* which measure follows which *)
Lemma rows_follow i r n : nth_error rows i = Some r -> follows rows i n ->
  In (c_file r, c_mc r, n) [(0, 1, 3); (0, 2, 1); (0, 3, 4); (1, 1, 2); (1, 2, 3)].
Proof.
  intros E (r' & E' & NL & N1 & I & M). rewrite E in E'. injection E' as <-.
  do 7 (destruct i as [|i]; [cbn in E; injection E as <-; cbn [c_nexts c_file c_mc] in *; cbn in I, N1;
    decompose [or] I; subst; try tauto;
    try (specialize (M 3); cbn in M; lia); cbn; tauto|]).
  destruct i; discriminate.
Qed.

Lemma rows_played f mc : played rows f mc -> ~ (f = 0 /\ mc = 2).
Proof.
  intros P. induction P as [i r E Fi|i r n E P IH F].
  - destruct i as [|[|[|[|[|[|[|i]]]]]]]; cbn in E; [..|destruct i; discriminate];
      injection E as <-; cbn; try lia.
    destruct Fi as [Fi|(a & b & Ea & Eb & Ne)]; [lia|]. cbn in Ea, Eb.
    injection Ea as <-. injection Eb as <-. cbn in Ne. lia.
  - pose proof (rows_follow i r n E F) as H. cbn in H.
    destruct H as [X|[X|[X|[X|[X|[]]]]]]; injection X as E1 E2 E3; lia.
Qed.

Example rows_ok : several_files rows /\ unique_rows rows /\ acyclic rows /\ forward_rows rows /\ closed_rows rows.
Proof.
  assert (FW : forall i r n, nth_error rows i = Some r -> played rows (c_file r) (c_mc r) -> follows rows i n ->
    In (c_file r, c_mc r, n) [(0, 1, 3); (0, 3, 4); (1, 1, 2); (1, 2, 3)]).
  { intros i r n E P F. pose proof (rows_follow i r n E F) as H. pose proof (rows_played _ _ P) as NP. cbn in *.
    destruct H as [X|[X|[X|[X|[X|[]]]]]]; try tauto.
    injection X as E1 E2 E3; exfalso; apply NP; lia. }
  split; [|split; [|split; [|split]]].
  - intros a b Ha Hb. cbn in Ha, Hb. injection Ha as <-. injection Hb as <-. cbn. lia.
  - unfold unique_rows. cbn. repeat constructor; cbn; intuition discriminate.
  - exists (fun f mc => if (f =? 0) && (mc =? 2) then 0 else mc). intros i r n E F.
    pose proof (rows_follow i r n E F) as H. cbn in H.
    destruct H as [X|[X|[X|[X|[X|[]]]]]]; injection X as E1 E2 E3; rewrite <- E1, <- E2, <- E3; cbn; lia.
  - intros i r n E P F. pose proof (FW i r n E P F) as H. cbn in H.
    destruct H as [X|[X|[X|[X|[]]]]]; injection X as E1 E2 E3; rewrite <- E2, <- E3; lia.
  - intros i r n E P F. pose proof (FW i r n E P F) as H. cbn in H.
    destruct H as [X|[X|[X|[X|[]]]]]; injection X as E1 E2 E3; rewrite <- E1, <- E3.
    + exists (mkC 0 3 1 0 [4]). cbn; tauto.
    + exists (mkC 0 4 1 0 [-1]). cbn; tauto.
    + exists (mkC 1 2 1 0 [1; 3]). cbn; tauto.
    + exists (mkC 1 3 1 0 []). cbn; tauto.
Qed.

(* ---- C37 ---- *)
(* In the resulting table each measure keeps its data, and has as next the largest option
   listed, or none if nothing follows it. *)
Theorem C37_single_next : forall rows kept, several_files rows -> remove_repeats true rows = Ok kept ->
  forall f m, In (f, m) kept ->
  exists i r, nth_error rows i = Some r /\ f = c_file r /\ m_mc m = c_mc r /\ m_dur m = c_dur r /\
    m_off m = c_off r /\
    ((m_next m = NextNA /\ forall n, ~ follows rows i n) \/ (exists n, m_next m = NextMc n /\ follows rows i n)).
Proof.
  intros rows kept Sv H f m I. apply (kept_subset rows kept H) in I. apply In_nth_error in I.
  destruct I as (i & I). destruct (resolve_follows rows i f m Sv I) as (r & X). exists i, r. exact X.
Qed.
Print Assumptions C37_single_next.

(* The measures kept are those played, when following never loops.  The function always
   returns. *)
Theorem C37_kept_iff_played : forall rows, several_files rows -> unique_rows rows -> acyclic rows ->
  exists kept, remove_repeats true rows = Ok kept /\
  forall r, In r rows -> (In (c_file r, c_mc r) (map (fun p : frow => (fst p, m_mc (snd p))) kept) <->
                          played rows (c_file r) (c_mc r)).
Proof.
  intros rows Sv Un Ac. destruct (remove_repeats_total rows) as (kept & K). exists kept.
  split; [exact K|]. exact (kept_iff rows kept Sv Un Ac K).
Qed.
Print Assumptions C37_kept_iff_played.

(* Whatever the next pointers, played measures are kept. *)
Theorem C37_played_kept : forall rows, several_files rows -> unique_rows rows ->
  exists kept, remove_repeats true rows = Ok kept /\
  forall r, In r rows -> played rows (c_file r) (c_mc r) ->
  exists m, In (c_file r, m) kept /\ m_mc m = c_mc r.
Proof.
  intros rows Sv Un. destruct (remove_repeats_total rows) as (kept & K). exists kept.
  split; [exact K|]. exact (played_kept rows kept Sv Un K).
Qed.
Print Assumptions C37_played_kept.

(* The measures of each piece then form one path from its first measure: the conditions
   under which positions and durations are computed (C23, C38, C48, C58). *)
Theorem C37_one_path : forall rows kept f s,
  several_files rows -> unique_rows rows -> acyclic rows -> forward_rows rows -> closed_rows rows ->
  remove_repeats true rows = Ok kept ->
  (forall i r, nth_error rows i = Some r -> first_of_file rows i -> c_file r = f -> c_mc r = s) ->
  unique_mcs (piece_table kept f) /\ forward (piece_table kept f) /\
  forall m, In m (piece_table kept f) -> plays_to (piece_table kept f) s (m_mc m).
Proof.
  intros rows kept f s Sv Un Ac Fw Cl K One. split; [|split].
  - apply piece_table_unique. now apply (kept_nodup rows).
  - now apply (piece_table_forward rows kept f).
  - intros m I. apply piece_table_in in I. apply (played_plays rows kept f s Sv Un K One).
    now apply (kept_played rows kept).
Qed.
Print Assumptions C37_one_path.

Example C37_example : remove_repeats true rows = Ok
  [(0, mkM 1 1 0 (NextMc 3)); (0, mkM 3 1 0 (NextMc 4)); (0, mkM 4 1 0 NextNA);
   (1, mkM 1 (1#2) (1#2) (NextMc 2)); (1, mkM 2 1 0 (NextMc 3)); (1, mkM 3 1 0 NextNA)].
Proof. reflexivity. Qed.

(* With one piece in the corpus every measure is lost: np.roll compares the first row with
   the last one, so no measure counts as a first one. *)
Theorem C37_one_file_refuted : forall rows rank, one_file rows ->
  (forall r n, In r rows -> In n (c_nexts r) -> (forall x, In x (c_nexts r) -> x <= n) -> rank (c_mc r) < rank n) ->
  remove_repeats true rows = Ok [].
Proof.
  intros rows rank O Rk. destruct (remove_repeats_total rows) as (kept & K). rewrite K. f_equal.
  apply (one_file_nothing rows kept (fun _ mc => rank mc) O); [|exact K].
  intros f m n I E. destruct (one_file_next rows f m n I E) as (r & Ir & _ & -> & In' & Mx). now apply Rk.
Qed.
Print Assumptions C37_one_file_refuted.
Example C37_one_file_example :
  remove_repeats true [mkC 0 1 1 0 [2]; mkC 0 2 1 0 [1; 3]; mkC 0 3 1 0 [-1]] = Ok [].
Proof. reflexivity. Qed.

(* Measures that are not played are kept if they form a loop. *)
Theorem C37_loop_refuted : exists rows kept r, several_files rows /\ unique_rows rows /\
  remove_repeats true rows = Ok kept /\ In r rows /\ ~ played rows (c_file r) (c_mc r) /\
  In (c_file r, c_mc r) (map (fun p : frow => (fst p, m_mc (snd p))) kept).
Proof.
  pose (rs := [mkC 0 1 1 0 [4]; mkC 0 2 1 0 [3]; mkC 0 3 1 0 [2]; mkC 0 4 1 0 [-1]; mkC 1 1 1 0 []]).
  exists rs. eexists. exists (mkC 0 2 1 0 [3]). split; [|split; [|split; [reflexivity|split; [cbn; tauto|split]]]].
  - intros a b Ha Hb. cbn in Ha, Hb. injection Ha as <-. injection Hb as <-. cbn. lia.
  - unfold unique_rows. cbn. repeat constructor; cbn; intuition discriminate.
  - assert (NP : forall f mc, played rs f mc -> f = 0 -> mc = 1 \/ mc = 4).
    { intros f mc P. induction P as [i r E Fi|i r n E P IH F].
      - destruct i as [|[|[|[|[|i]]]]]; cbn in E; [..|destruct i; discriminate];
          injection E as <-; cbn; try lia.
        all: destruct Fi as [Fi|(a & b & Ea & Eb & Ne)]; [lia|]; cbn in Ea, Eb;
             injection Ea as <-; injection Eb as <-; cbn in Ne; lia.
      - destruct F as (r' & E' & _ & N1 & I & _). rewrite E in E'. injection E' as <-.
        do 5 (destruct i as [|i]; [cbn in E; injection E as <-; cbn in *; lia|]).
        destruct i; discriminate. }
    intros P. destruct (NP _ _ P eq_refl) as [X|X]; cbn in X; lia.
  - cbn. tauto.
Qed.
Print Assumptions C37_loop_refuted.

(* ---- C39 ---- *)
(* The result consists of the untied and grace notes as they were, of the notes standing
   for chains, and of left over notes as they were; every tied note is in exactly one
   chain or left over.  [shuffle] is the row order of the joins. *)
Definition untied (n : tnote) : bool :=
  n_grace n || match n_tied n with Some _ => false | None => true end.
Definition valid_ties (notes : list tnote) : Prop :=
  forall n t, In n notes -> n_tied n = Some t -> t = -1 \/ t = 0 \/ t = 1.

Lemma untied_changing notes : filter (fun n => negb (changing n)) notes = filter untied notes /\
  filter changing notes = filter (fun n => negb (untied n)) notes.
Proof.
  split; apply filter_ext; intros n; unfold changing, untied; destruct (n_grace n), (n_tied n); reflexivity.
Qed.

Theorem C39_chains : forall fuel shuffle notes,
  NoDup (map nkey notes) -> valid_ties notes -> (forall l, Permutation (shuffle l) l) ->
  (2 * List.length notes <= fuel)%nat ->
  exists left chains,
    merge_ties fuel shuffle notes = Ok (filter untied notes ++ left ++ map fst chains) /\
    Permutation (concat (map snd chains) ++ left) (filter (fun n => negb (untied n)) notes) /\
    Forall (fun g => merged_from (fst g) (snd g) /\ tie_shape (fst g) (snd g)) chains /\
    (* left over notes are tied to something before them *)
    (forall i, In i left -> n_tied i = Some 0 \/ n_tied i = Some (-1)) /\
    (* no left over note continues an open chain, or a left over note tied on both sides *)
    (forall n i, In n (map fst chains) -> n_tied n <> None -> In i left -> ~ continues n i) /\
    ((forall n, In n left -> sounds n) ->
     forall o i, In o left -> n_tied o = Some 0 -> In i left -> ~ continues o i).
Proof.
  intros fuel shuffle notes ND TV SH L.
  destruct (merge_ties_spec fuel shuffle notes ND TV SH L) as (ins & fin & E & (ga & Eg & P & F) & IT & Mx & Sd & _).
  destruct (untied_changing notes) as [U1 U2]. rewrite U1 in E. rewrite U2 in P.
  exists ins, ga. rewrite Eg. split; [exact E|]. split; [exact P|]. split; [exact F|]. split; [exact IT|].
  split; [|exact Sd]. intros n i In' U Ii C. apply ties_iff in C. rewrite (Mx n i In' U Ii) in C. discriminate.
Qed.
Print Assumptions C39_chains.

Theorem C39_duration : forall fuel shuffle notes,
  NoDup (map nkey notes) -> valid_ties notes -> (forall l, Permutation (shuffle l) l) ->
  (2 * List.length notes <= fuel)%nat ->
  exists out, merge_ties fuel shuffle notes = Ok out /\ (total_dur out == total_dur notes)%Q.
Proof.
  intros fuel shuffle notes ND TV SH L.
  destruct (merge_ties_out fuel shuffle notes ND TV SH L) as (out & E & D & _). eauto.
Qed.
Print Assumptions C39_duration.

(* A complete chain, whose notes fit no other note, becomes one note that is not tied. *)
Theorem C39_complete : forall fuel shuffle notes f mid e out,
  NoDup (map nkey notes) -> valid_ties notes -> (forall l, Permutation (shuffle l) l) ->
  (2 * List.length notes <= fuel)%nat -> complete_chain notes f mid e ->
  merge_ties fuel shuffle notes = Ok out ->
  exists n, In n out /\ merged_from n (f :: mid ++ [e]) /\ n_tied n = None.
Proof.
  intros fuel shuffle notes f mid e out ND TV SH L (If & Tf & Fm & Te & Cl) Eo.
  destruct (merge_ties_spec fuel shuffle notes ND TV SH L) as (ins & fin & E & (ga & Eg & P & F) & IT & Mx & Sd & Gn).
  rewrite Eo in E. apply Ok_inj in E. subst out. rewrite <- Eg in *.
  destruct (complete_merged (filter changing notes) (nodup_map_filter _ _ _ ND) ga ins P F IT Gn f mid e If Tf Fm Te Cl)
    as (n & I & M & T).
  exists n. split; [|split; assumption]. apply in_or_app. right. apply in_or_app. now right.
Qed.
Print Assumptions C39_complete.

(* Of several notes that fit, the one of the same staff and voice is taken. *)
Theorem C39_same_voice : forall fuel shuffle notes o i out,
  NoDup (map nkey notes) -> (forall l, Permutation (shuffle l) l) -> (1 <= fuel)%nat ->
  In o notes -> In i notes -> n_grace o = false -> n_grace i = false ->
  n_tied o = Some 1 -> n_tied i = Some (-1) -> continues o i -> one_voice o i ->
  (forall i', In i' notes -> n_tied i' <> None -> continues o i' -> one_voice o i' -> i' = i) ->
  (forall o', In o' notes -> n_tied o' = Some 1 -> continues o' i -> one_voice o' i -> o' = o) ->
  merge_ties fuel shuffle notes = Ok out ->
  exists n, In n out /\ merged_from n [o; i] /\ n_tied n = None.
Proof.
  intros fuel shuffle notes o i out ND SH Hf Io Ii Go Gi To Ti Cn V Ui Uo E.
  exists (absorb o i).
  assert (Ho : In o (filter (tied_is 1) (filter changing notes))).
  { apply filter_In. split; [apply filter_In; split; [exact Io|]|now apply tied_is_iff]. unfold changing. now rewrite Go, To. }
  assert (Hi : In i (filter (fun n => tied_is 0 n || tied_is (-1) n) (filter changing notes))).
  { apply filter_In. split; [apply filter_In; split; [exact Ii|]|]. { unfold changing. now rewrite Gi, Ti. }
    unfold tied_is. rewrite Ti. reflexivity. }
  split; [|split].
  - unfold merge_ties in E. apply bind_ok in E as (s & E & Es). apply Ok_inj in Es. subst out.
    apply in_or_app. right. apply in_or_app. right. unfold merge_start in E. cbv zeta in E.
    set (outs := filter (tied_is 1) (filter changing notes)) in *. set (ins := filter (fun n => tied_is 0 n || tied_is (-1) n) (filter changing notes)) in *.
    assert (Ne : outs <> []) by (intros F; rewrite F in Ho; destruct Ho).
    replace (match outs with [] => repopulate ins [] | _ => mkMS outs ins [] end) with (mkMS outs ins []) in E by (destruct outs; congruence).
    destruct fuel as [|fuel]; [lia|]. cbn [merge_loop s_out] in E.
    destruct outs as [|o0 outs'] eqn:Eo; [congruence|]. rewrite <- Eo in *. apply bind_ok in E as (s1 & E1 & E).
    apply (loop_fin _ _ _ _ _ E). eapply same_voice_iter with (s := mkMS outs ins []); cbn [s_out s_in]; try eassumption.
    + subst outs. do 2 apply nodup_map_filter. exact ND.
    + subst ins. do 2 apply nodup_map_filter. exact ND.
    + intros i' Hi' C' V'. apply filter_In in Hi' as [Hi' _]. apply filter_In in Hi' as [Hi' Ch]. apply Ui; auto.
      unfold changing in Ch. apply andb_true_iff in Ch as [_ Ch]. destruct (n_tied i'); [discriminate|discriminate].
    + intros o' Ho' C' V'. unfold outs in Ho'. apply filter_In in Ho' as [Ho' T']. apply filter_In in Ho' as [Ho' _]. apply Uo; auto. now apply tied_is_iff.
  - change [o; i] with ([o] ++ [i]). apply absorb_merged; [|now apply ties_iff].
    exists o, []. repeat split; cbn. ring.
  - cbn. unfold new_tied, tied_is. rewrite To, Ti. reflexivity.
Qed.
Print Assumptions C39_same_voice.
(* two voices in unison: each tie stays in its voice, also if the rows come in another order *)
Example C39_same_voice_ex :
  let n id mc dur off voice tied := mkN 0 id 60 mc 0 dur off 0 1 voice false tied in
  let o1 := n 0 1 1%Q 2 1 (Some 1) in let o2 := n 1 1 1%Q 2 2 (Some 1) in
  let i1 := n 2 2 1%Q 3 1 (Some (-1)) in let i2 := n 3 2 (2 # 1)%Q 4 2 (Some (-1)) in
  continues o1 i1 /\ continues o1 i2 /\ continues o2 i1 /\ continues o2 i2 /\
  exists out, merge_ties 8 (@rev _) [o1; o2; i1; i2] = Ok out
    /\ map (fun x => (n_id x, n_off_mc x, n_tied x)) out = [(0, 3, None); (1, 4, None)].
Proof. cbv zeta. repeat split. eexists. split; vm_compute; reflexivity. Qed.

(* A chain of three notes, next to a shorter tied note of another pitch whose end is
   missing, a grace note and an untied note. *)
Definition note (i midi mc : Z) (on dur : Q) (omc : Z) (ob : Q) (grace : bool) (tied : option Z) : tnote :=
  mkN 0 i midi mc on dur omc ob 1 1 grace tied.
Definition tied_notes : list tnote :=
  [note 0 60 1 0 1 2 0 false (Some 1); note 1 60 2 0 1 3 0 false (Some 0);
   note 2 60 3 0 (1#2) 3 (1#2) false (Some (-1)); note 3 64 1 0 (1#2) 1 (1#2) false (Some 1);
   note 4 64 1 (1#2) 0 1 (1#2) true (Some (-1)); note 5 67 1 0 1 2 0 false None].
Example C39_example : NoDup (map nkey tied_notes) /\ valid_ties tied_notes /\
  complete_chain tied_notes (note 0 60 1 0 1 2 0 false (Some 1)) [note 1 60 2 0 1 3 0 false (Some 0)]
    (note 2 60 3 0 (1#2) 3 (1#2) false (Some (-1))) /\
  match merge_ties 12 (fun l => l) tied_notes with
  | Ok out => map (fun n => (n_id n, Qred (n_dur n), n_off_mc n, n_tied n)) out =
      [(4, 0%Q, 1, Some (-1)); (5, 1%Q, 2, None); (3, (1#2)%Q, 1, Some 1); (0, (5#2)%Q, 3, None)]
  | _ => False
  end.
Proof.
  split; [|split; [|split]].
  - cbn. repeat constructor; cbn; intuition discriminate.
  - intros n t I E. cbn in I. destruct I as [<-|[<-|[<-|[<-|[<-|[<-|[]]]]]]]; cbn in E; try discriminate;
      injection E as <-; lia.
  - assert (X : forall x, In x (filter (fun n => negb (n_grace n) && match n_tied n with Some _ => true | None => false end) tied_notes) ->
       x = note 0 60 1 0 1 2 0 false (Some 1) \/ x = note 1 60 2 0 1 3 0 false (Some 0) \/
       x = note 2 60 3 0 (1#2) 3 (1#2) false (Some (-1)) \/ x = note 3 64 1 0 (1#2) 1 (1#2) false (Some 1)).
    { intros x I. cbn in I. decompose [or] I; subst; tauto. }
    repeat split; cbn; try tauto; try (repeat constructor); try reflexivity.
    all: intros x I (C1 & C2 & C3 & C4); destruct (X x I) as [->|[->|[->| ->]]]; cbn in *; try lia; try reflexivity;
         try discriminate.
  - reflexivity.
Qed.

(* An incomplete chain does not end at its tie end: a note tied on both sides whose
   beginning is missing takes its tie end and then a second one. *)
Theorem C39_orphan_refuted : exists notes out n chain,
  NoDup (map nkey notes) /\ valid_ties notes /\
  merge_ties 12 (fun l => l) notes = Ok out /\ In n out /\ merged_from n chain /\
  exists a b c, chain = [a; b; c] /\ n_tied a = Some 0 /\ n_tied b = Some (-1) /\ n_tied c = Some (-1).
Proof.
  pose (a := note 0 60 1 0 1 2 0 false (Some 0)). pose (b := note 1 60 2 0 1 3 0 false (Some (-1))).
  pose (c := note 2 60 3 0 1 4 0 false (Some (-1))).
  exists [a; b; c]. eexists. exists (mkN 0 0 60 1 0 (1 + 1 + 1)%Q 4 0 1 1 false None), [a; b; c].
  split; [|split; [|split; [reflexivity|split; [|split]]]].
  - cbn. repeat constructor; cbn; intuition discriminate.
  - intros n t I E. cbn in I. destruct I as [<-|[<-|[<-|[]]]]; cbn in E; injection E as <-; lia.
  - cbn. left. reflexivity.
  - exists a, [b; c]. repeat split.
  - exists a, b, c. repeat split.
Qed.
Print Assumptions C39_orphan_refuted.

(* ---- C60 ---- *)
(* Chord durations: in playing order, each chord lasts until the next one starts and the last
   one until the end of the last measure. *)
Theorem C60_durations : forall ms T s chords times fuel,
  unique_mcs ms -> forward ms -> clock ms T -> In s (map m_mc ms) ->
  (forall m, In m ms -> plays_to ms s (m_mc m)) -> (List.length ms <= fuel)%nat ->
  Forall2 (at_time ms T) chords times ->
  (forall i p q, nth_error chords i = Some p -> nth_error chords (S i) = Some q -> fst p <= fst q) ->
  exists xs ml, chord_rows fuel ms chords = Ok xs /\
    In ml ms /\ (forall n, m_next ml <> NextMc n) /\
    Forall2 (fun x p => fst (fst x) = p) xs chords /\
    Forall2 (fun x t => (snd x == snd t - fst t)%Q) xs
      (combine times (tl times ++ [T (m_mc ml) + m_dur ml]%Q)).
Proof.
  intros ms T s chords times fuel U F C Is P L H Ord.
  destruct (last_measure_spec ms s U F Is P) as (ml & El & Il & Nl & Al).
  destruct (chord_rows_spec ms T s ml U F C P El Il Al fuel chords times L H Ord) as (xs & E & E1 & E2).
  exists xs, ml. split; [exact E|]. split; [exact Il|]. split; [|split; assumption].
  intros n En. unfold next_of in Nl. rewrite En in Nl. discriminate.
Qed.
Print Assumptions C60_durations.

(* Together the chords fill the piece from the first chord on. *)
Theorem C60_fill : forall ms T s p chords t times fuel,
  unique_mcs ms -> forward ms -> clock ms T -> In s (map m_mc ms) ->
  (forall m, In m ms -> plays_to ms s (m_mc m)) -> (List.length ms <= fuel)%nat ->
  Forall2 (at_time ms T) (p :: chords) (t :: times) ->
  (forall i a b, nth_error (p :: chords) i = Some a -> nth_error (p :: chords) (S i) = Some b -> fst a <= fst b) ->
  exists xs ml, chord_rows fuel ms (p :: chords) = Ok xs /\ In ml ms /\ (forall n, m_next ml <> NextMc n) /\
    (fold_right Qplus 0 (map snd xs) == T (m_mc ml) + m_dur ml - t)%Q.
Proof.
  intros ms T s p chords t times fuel U F C Is P L H Ord.
  destruct (C60_durations ms T s _ _ fuel U F C Is P L H Ord) as (xs & ml & E & Il & Nl & _ & D).
  exists xs, ml. split; [exact E|]. split; [exact Il|]. split; [exact Nl|].
  set (e := (T (m_mc ml) + m_dur ml)%Q) in *. clearbody e. clear -D. cbn [tl] in D.
  revert t xs D. induction times as [|t' times IH]; intros t xs D; cbn [app combine] in D.
  - inversion D as [|x y l m Hx D']; subst. inversion D'; subst. cbn [map fold_right fst snd] in *. lra.
  - inversion D as [|x y l m Hx D']; subst. cbn [map fold_right fst snd] in *. rewrite (IH t' l D'). lra.
Qed.
Print Assumptions C60_fill.

(* After the clean-up only chords with positive duration remain, unchanged. *)
Theorem C60_positive : forall fuel ms chords out, clean_chords fuel ms chords = Ok out ->
  exists xs, chord_rows fuel ms chords = Ok xs /\
  forall x, In x out <-> In x xs /\ (0 < snd x)%Q.
Proof.
  intros fuel ms chords out. unfold clean_chords. destruct (chord_rows fuel ms chords) as [xs|]; [|discriminate].
  cbn [bind]. intros H. apply Ok_inj in H. subst out. exists xs. split; [reflexivity|].
  intros x. rewrite filter_In. unfold positive_dur. rewrite negb_true_iff.
  assert (Q : Qle_bool (snd x) 0 = false <-> (0 < snd x)%Q).
  { destruct (Qle_bool (snd x) 0) eqn:E.
    - apply Qle_bool_iff in E. split; [discriminate|intros H; exfalso; lra].
    - split; [intros _|reflexivity]. apply Qnot_le_lt. intros H. apply Qle_bool_iff in H. congruence. }
  now rewrite Q.
Qed.
Print Assumptions C60_positive.

Example C60_example :
  let ms := [mkM 1 (1#4) (3#4) (NextMc 2); mkM 2 1 0 (NextMc 4); mkM 4 (1#2) 0 NextNA] in
  match chord_rows 3 ms [(1, (3#4)%Q); (2, (1#2)%Q); (2, (1#2)%Q); (4, (1#4)%Q)] with
  | Ok xs => map (fun x => Qred (snd x)) xs = [3#4; 0; 3#4; 1#4]%Q
  | _ => False
  end /\
  match clean_chords 3 ms [(1, (3#4)%Q); (2, (1#2)%Q); (2, (1#2)%Q); (4, (1#4)%Q)] with
  | Ok xs => List.length xs = 3%nat
  | _ => False
  end.
Proof. vm_compute. split; reflexivity. Qed.

(* ---- C61 ---- *)
(* The cleaned notes of a corpus: every note starts inside a measure that is played, as one
   of the given notes, and its offset is its onset plus its duration, also after ties are
   merged.  The total duration is that of the notes that were not dropped. *)
Theorem C61_clean_notes : forall fuel shuffle rows notes,
  several_files rows -> unique_rows rows -> acyclic rows -> forward_rows rows -> closed_rows rows ->
  NoDup (map nkey notes) -> valid_ties notes -> (forall l, Permutation (shuffle l) l) ->
  (List.length rows <= fuel)%nat -> (2 * List.length notes <= fuel)%nat ->
  exists kept out, clean_notes fuel shuffle rows notes = Ok (kept, out) /\
    (forall n, In n out ->
      let ms := piece_table kept (n_file n) in
      played rows (n_file n) (n_mc n) /\ within ms (n_mc n, n_on n) /\
      (exists n0, In n0 notes /\ same_onset n n0) /\
      forall T, clock ms T -> exists t, at_time ms T (n_mc n, n_on n) t /\
        at_time ms T (n_off_mc n, n_off_beat n) (t + n_dur n)) /\
    (total_dur out == total_dur (filter (fun n => existsb (fun m =>
        (m_mc m =? n_mc n) && Qle_bool (m_off m) (n_on n) && negb (Qle_bool (m_dur m + m_off m) (n_on n)))
        (piece_table kept (n_file n))) notes))%Q.
Proof.
  intros fuel shuffle rows notes Sv Un Ac Fw Cl ND TV SH L1 L2.
  destruct (clean_notes_spec fuel shuffle rows notes Sv Un Ac Fw Cl ND TV SH L1 L2)
    as (kept & out & E & K & D & H).
  exists kept, out. split; [exact E|]. split.
  - intros n I. cbn zeta. destruct (H n I) as (W & N0 & Tm). cbn zeta in *. split; [|tauto].
    destruct W as (m & (Im & Em) & _). cbn [fst] in Em. apply piece_table_in in Im.
    pose proof (kept_played rows kept Sv Ac K _ _ Im) as P. now rewrite Em in P.
  - rewrite D. unfold remove_unmatched. rewrite filter_filter.
    assert (U : forall f, unique_mcs (piece_table kept f)).
    { intros f. apply piece_table_unique. now apply (kept_nodup rows). }
    erewrite filter_ext; [reflexivity|]. intros n. cbn beta.
    unfold valid_onset. destruct (lookup (piece_table kept (n_file n)) (n_mc n)) as [m|] eqn:El.
    + apply lookup_some in El. destruct El as [Im Em].
      replace (existsb (fun p : frow => (fst p =? n_file n) && (m_mc (snd p) =? n_mc n)) kept) with true.
      2:{ symmetry. apply existsb_exists. exists (n_file n, m). split; [now apply piece_table_in|]. cbn. lia. }
      cbn [andb]. destruct (existsb _ (piece_table _ _)) eqn:Ex.
      * apply existsb_exists in Ex. destruct Ex as (m' & Im' & C). apply andb_true_iff in C. destruct C as [C C3].
        apply andb_true_iff in C. destruct C as [C1 C2].
        assert (m' = m) by (apply (row_of_unique _ (n_mc n) m' m (U (n_file n))); split; auto; lia).
        subst m'. now rewrite C2, C3.
      * destruct (_ && _) eqn:Y; [|reflexivity]. exfalso. rewrite <- not_true_iff_false in Ex. apply Ex.
        apply existsb_exists. exists m. split; [exact Im|]. rewrite <- andb_assoc, Y. rewrite andb_true_r. lia.
    + rewrite andb_false_r. symmetry. apply not_true_iff_false. intros Ex. apply existsb_exists in Ex.
      destruct Ex as (m & Im & C). apply andb_true_iff in C. destruct C as [C _]. apply andb_true_iff in C.
      destruct C as [C _]. rewrite (lookup_row _ (n_mc n) m (U (n_file n))) in El; [discriminate|].
      split; [exact Im|lia].
Qed.
Print Assumptions C61_clean_notes.

(* Two tied notes around the repeat of the first piece: the tie into measure 3 survives, the
   notes of measure 2 are dropped. *)
Example C61_example :
  match clean_notes 10 (fun l => l) rows
    [mkN 0 0 60 1 (1#2) (1#2) 0 0 1 1 false (Some 1); mkN 0 1 60 2 0 1 0 0 1 1 false (Some (-1));
     mkN 0 2 60 3 0 (1#4) 0 0 1 1 false (Some (-1)); mkN 1 0 62 1 0 (1#4) 0 0 1 1 false None] with
  | Ok (_, out) => map (fun n => (n_id n, n_mc n, Qred (n_dur n), n_off_mc n, Qred (n_off_beat n), n_tied n)) out =
      [(0, 1, (3#4)%Q, 3, (1#4)%Q, None)]
  | _ => False
  end.
Proof. vm_compute. reflexivity. Qed.
