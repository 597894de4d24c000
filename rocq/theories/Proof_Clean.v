(* Lemmas for the cleaned notes and chords. *)
From Coq Require Import QArith Lqa Permutation.
From Verif Require Import PyBase Proof_Base Model_Rhythm Spec_Rhythm Proof_Rhythm
  Model_Corpus Spec_Corpus Proof_Corpus Proof_Ties Model_Clean.
Close Scope Q_scope.
Open Scope Z_scope.

(* ---- sums ---- *)
Lemma total_dur_app a b : (total_dur (a ++ b) == total_dur a + total_dur b)%Q.
Proof. induction a as [|x a IH]; cbn [app total_dur]; [lra|]. rewrite IH. lra. Qed.

Lemma total_dur_perm a b : Permutation a b -> (total_dur a == total_dur b)%Q.
Proof. induction 1; cbn [total_dur]; lra. Qed.

Lemma total_dur_chains (ga : list (tnote * list tnote)) : Forall okg ga ->
  (total_dur (map fst ga) == total_dur (concat (map snd ga)))%Q.
Proof.
  induction 1 as [|g ga [H _] _ IH]; cbn [map concat total_dur]; [lra|].
  rewrite total_dur_app, IH. destruct H as (f & r & E & _ & _ & D & _). rewrite D. lra.
Qed.

(* ---- notes ---- *)
(* the offset of the note is its onset plus its duration *)
Definition timed (ms : table) (T : Z -> Q) (n : tnote) : Prop :=
  forall t, at_time ms T (n_mc n, n_on n) t -> at_time ms T (n_off_mc n, n_off_beat n) (t + n_dur n).

Lemma at_time_eq ms T mc b b' t t' : (b == b')%Q -> (t == t')%Q ->
  at_time ms T (mc, b) t -> at_time ms T (mc, b') t'.
Proof.
  intros E1 E2 (m & R & H). exists m. split; [exact R|]. cbn [fst snd] in *. lra.
Qed.

Lemma linked_timed ms T : forall r f, timed ms T f -> (forall x, In x r -> timed ms T x) -> linked f r ->
  forall t, at_time ms T (n_mc f, n_on f) t ->
  at_time ms T (n_off_mc (last r f), n_off_beat (last r f)) (t + total_dur (f :: r)).
Proof.
  induction r as [|b r IH]; intros f Tf Tr L t A.
  - cbn [last total_dur]. eapply at_time_eq; [reflexivity| |apply (Tf t A)]. lra.
  - destruct L as [(C1 & C2 & C3 & C4) L]. rewrite last_cons'.
    assert (A' : at_time ms T (n_mc b, n_on b) (t + n_dur f)).
    { rewrite <- C3. eapply at_time_eq; [exact C4|reflexivity|apply (Tf t A)]. }
    eapply at_time_eq; [reflexivity| |apply (IH b (Tr b (or_introl eq_refl)) (fun x Ix => Tr x (or_intror Ix)) L _ A')].
    cbn [total_dur]. lra.
Qed.

Lemma merged_timed ms T n chain : merged_from n chain -> (forall x, In x chain -> timed ms T x) -> timed ms T n.
Proof.
  intros (f & r & -> & (F1 & F2 & F3 & F4 & F5 & _) & L & D & O1 & O2) H t A.
  rewrite F4, F5 in A. rewrite O1, O2.
  assert (X : at_time ms T (n_off_mc (last r f), n_off_beat (last r f)) (t + total_dur (f :: r))).
  { apply linked_timed; [apply H; now left|intros x Ix; apply H; now right|exact L|exact A]. }
  eapply at_time_eq; [reflexivity| |exact X]. rewrite D. reflexivity.
Qed.

Lemma valid_onset_within kept n : valid_onset kept n = true ->
  within (piece_table kept (n_file n)) (n_mc n, n_on n).
Proof.
  unfold valid_onset. destruct (lookup _ _) as [m|] eqn:E; [|discriminate].
  intros H. apply andb_true_iff in H. destruct H as [H1 H2]. apply Qle_bool_iff in H1.
  apply negb_true_iff in H2. exists m. split; [now apply lookup_some|]. cbn [snd]. split; [exact H1|].
  assert (X : ~ (m_dur m + m_off m <= n_on n)%Q) by (intros X; apply Qle_bool_iff in X; congruence). lra.
Qed.

Lemma within_time ms T p : within ms p -> exists t, at_time ms T p t.
Proof. intros (m & R & _). eexists. exists m. split; [exact R|reflexivity]. Qed.

Lemma with_offset_spec fuel kept n : unique_mcs (piece_table kept (n_file n)) ->
  forward (piece_table kept (n_file n)) -> within (piece_table kept (n_file n)) (n_mc n, n_on n) ->
  (List.length kept <= fuel)%nat ->
  exists n', with_offset fuel kept n = Ok n' /\ same_onset n' n /\ n_dur n' = n_dur n /\ n_tied n' = n_tied n /\
    forall T, clock (piece_table kept (n_file n)) T -> timed (piece_table kept (n_file n)) T n'.
Proof.
  intros U F W L. set (ms := piece_table kept (n_file n)) in *.
  assert (Lm : (List.length ms <= fuel)%nat).
  { unfold ms, piece_table. rewrite map_length.
    pose proof (filter_length_le (fun p : frow => fst p =? n_file n) kept). lia. }
  assert (X : forall T, clock ms T -> exists mc b, add_note_offset fuel ms (n_mc n, n_on n) (n_dur n) = Ok (mc, Some b) /\
    forall t, at_time ms T (n_mc n, n_on n) t -> at_time ms T (mc, b) (t + n_dur n)).
  { intros T C. destruct (within_time ms T _ W) as (t & A). destruct A as (mo & Ro & Ho).
    destruct (offset_loop_spec ms T U F C fuel (n_mc n) (n_on n + n_dur n)%Q (t + n_dur n)%Q)
      as (mc & b & E & A' & _).
    - exists mo. cbn [fst snd] in *. split; [exact Ro|lra].
    - pose proof (rows_from_le ms (n_mc n)). lia.
    - exists mc, b. split; [exact E|]. intros t' (mo' & Ro' & Ho').
      assert (mo = mo') by (apply (row_of_unique ms (n_mc n)); assumption). subst mo'.
      cbn [fst snd] in *. eapply at_time_eq; [reflexivity| |exact A']. lra. }
  destruct (clock_exists ms U F) as (T0 & C0). destruct (X T0 C0) as (mc & b & E & _).
  unfold with_offset. fold ms. rewrite E. cbn [bind].
  eexists. split; [reflexivity|]. split; [repeat split|]. split; [reflexivity|]. split; [reflexivity|].
  intros T C t A. cbn [n_off_mc n_off_beat n_mc n_on n_dur] in *.
  destruct (X T C) as (mc' & b' & E' & H). rewrite E in E'. injection E' as <- <-. now apply H.
Qed.

Lemma mapM_exists {A B} (f : A -> res B) (P : A -> B -> Prop) l :
  (forall a, In a l -> exists b, f a = Ok b /\ P a b) ->
  exists bs, mapM f l = Ok bs /\ Forall2 P l bs.
Proof.
  induction l as [|a l IH]; intros H; cbn [mapM].
  - exists []. split; [reflexivity|constructor].
  - destruct (H a (or_introl eq_refl)) as (b & E & Pb). destruct (IH (fun x Ix => H x (or_intror Ix))) as (bs & E' & F).
    rewrite E. cbn [bind]. rewrite E'. cbn [bind]. exists (b :: bs). split; [reflexivity|now constructor].
Qed.

Lemma Forall2_map_eq {A B C} (R : A -> B -> Prop) (f : A -> C) (g : B -> C) l m :
  Forall2 R l m -> (forall a b, R a b -> f a = g b) -> map f l = map g m.
Proof. intros F H. induction F as [|a b l m Rab F IH]; cbn; [reflexivity|]. f_equal; auto. Qed.

Lemma Forall2_in_r' {A B} (R : A -> B -> Prop) l m : Forall2 R l m -> forall b, In b m -> exists a, In a l /\ R a b.
Proof.
  induction 1 as [|a b l m Rab F IH]; intros y I; [destruct I|].
  destruct I as [<-|I]; [exists a; split; [now left|exact Rab]|].
  destruct (IH y I) as (x & Ix & Rx). exists x. split; [now right|exact Rx].
Qed.

(* what a merged table contains: unchanged notes, left-over notes and chains *)
Lemma merge_ties_out fuel shuffle notes : NoDup (map nkey notes) ->
  (forall n t, In n notes -> n_tied n = Some t -> t = -1 \/ t = 0 \/ t = 1) ->
  (forall l, Permutation (shuffle l) l) -> (2 * List.length notes <= fuel)%nat ->
  exists out, merge_ties fuel shuffle notes = Ok out /\ (total_dur out == total_dur notes)%Q /\
    forall n, In n out -> exists chain, merged_from n chain /\ forall x, In x chain -> In x notes.
Proof.
  intros ND TV SH L. destruct (merge_ties_spec fuel shuffle notes ND TV SH L) as (ins & fin & E & HJ & _).
  destruct HJ as (ga & Eg & P & F). eexists. split; [exact E|].
  assert (Sg : forall n : tnote, merged_from n [n]).
  { intros n. exists n, []. repeat split; cbn [total_dur]; lra. }
  split.
  - rewrite !total_dur_app, <- Eg, (total_dur_chains ga F).
    rewrite (total_dur_perm notes _ (perm_partition changing notes)), total_dur_app.
    rewrite <- (total_dur_perm _ _ P), total_dur_app. lra.
  - intros n In'. apply in_app_or in In'. destruct In' as [I|I]; [|apply in_app_or in I; destruct I as [I|I]].
    + exists [n]. split; [apply Sg|]. intros x [<-|[]]. apply filter_In in I. apply I.
    + exists [n]. split; [apply Sg|]. intros x [<-|[]].
      assert (X : In n (filter changing notes)).
      { eapply Permutation_in; [exact P|]. apply in_or_app. now right. }
      apply filter_In in X. apply X.
    + rewrite <- Eg in I. apply in_map_iff in I. destruct I as (g & <- & Ig).
      rewrite Forall_forall in F. destruct (F g Ig) as [M _]. exists (snd g). split; [exact M|].
      intros x Ix. assert (X : In x (filter changing notes)).
      { eapply Permutation_in; [exact P|]. apply in_or_app. left. apply in_concat. exists (snd g).
        split; [now apply in_map|exact Ix]. }
      apply filter_In in X. apply X.
Qed.

Lemma merged_head n chain : merged_from n chain -> exists f, In f chain /\ same_onset n f.
Proof. intros (f & r & -> & So & _). exists f. split; [now left|exact So]. Qed.

Lemma linked_file r : forall f, linked f r -> forall x, In x r -> n_file x = n_file f.
Proof.
  induction r as [|b r IH]; intros f L x I; [destruct I|]. destruct L as [(C1 & _) L].
  destruct I as [<-|I]; [congruence|]. rewrite (IH b L x I). congruence.
Qed.

Lemma merged_file n chain : merged_from n chain -> forall x, In x chain -> n_file x = n_file n.
Proof.
  intros (f & r & -> & (So & _) & L & _) x [<-|I]; [congruence|]. rewrite (linked_file r f L x I). congruence.
Qed.

Lemma clean_notes_spec fuel shuffle rows notes :
  several_files rows -> unique_rows rows -> acyclic rows -> forward_rows rows -> closed_rows rows ->
  NoDup (map nkey notes) ->
  (forall n t, In n notes -> n_tied n = Some t -> t = -1 \/ t = 0 \/ t = 1) ->
  (forall l, Permutation (shuffle l) l) ->
  (List.length rows <= fuel)%nat -> (2 * List.length notes <= fuel)%nat ->
  exists kept out, clean_notes fuel shuffle rows notes = Ok (kept, out) /\
    remove_repeats true rows = Ok kept /\
    (total_dur out == total_dur (filter (valid_onset kept) (remove_unmatched kept notes)))%Q /\
    forall n, In n out ->
      let ms := piece_table kept (n_file n) in
      within ms (n_mc n, n_on n) /\ (exists n0, In n0 notes /\ same_onset n n0) /\
      forall T, clock ms T -> exists t, at_time ms T (n_mc n, n_on n) t /\
        at_time ms T (n_off_mc n, n_off_beat n) (t + n_dur n).
Proof.
  intros Sv Un Ac Fw Cl ND TV SH L1 L2.
  destruct (remove_repeats_total rows) as (kept & K).
  assert (U : forall f, unique_mcs (piece_table kept f)).
  { intros f. apply piece_table_unique. now apply (kept_nodup rows). }
  assert (F : forall f, forward (piece_table kept f)).
  { intros f. now apply (piece_table_forward rows kept f). }
  assert (Lk : (List.length kept <= fuel)%nat).
  { destruct (remove_repeats_inv _ _ K) as (k & P & ->). rewrite map_length.
    destruct (prune_filter _ _ _ P) as (g & ->).
    pose proof (filter_length_le g (combine (resolve_nexts rows) (start_mask rows))).
    rewrite combine_length, resolve_length in H. lia. }
  set (valid := filter (valid_onset kept) (remove_unmatched kept notes)).
  assert (Vs : forall n, In n valid -> In n notes /\ valid_onset kept n = true).
  { intros n I. apply filter_In in I. destruct I as [I V]. apply filter_In in I. tauto. }
  destruct (mapM_exists (with_offset fuel kept)
    (fun n n' => same_onset n' n /\ n_dur n' = n_dur n /\ n_tied n' = n_tied n /\
       forall T, clock (piece_table kept (n_file n)) T -> timed (piece_table kept (n_file n)) T n') valid)
    as (mid & Em & Fm).
  { intros n I. destruct (Vs n I) as [_ V]. apply with_offset_spec; auto. now apply valid_onset_within. }
  assert (Km : map nkey mid = map nkey valid).
  { symmetry. eapply Forall2_map_eq; [exact Fm|]. intros a b ((A1 & A2 & _) & _). unfold nkey. congruence. }
  assert (NDm : NoDup (map nkey mid)).
  { rewrite Km. unfold valid, remove_unmatched. now do 2 apply nodup_map_filter. }
  assert (TVm : forall n t, In n mid -> n_tied n = Some t -> t = -1 \/ t = 0 \/ t = 1).
  { intros n t I E. destruct (Forall2_in_r' _ _ _ Fm n I) as (n0 & I0 & _ & _ & Et & _).
    apply (TV n0 t); [now apply Vs|congruence]. }
  assert (Lm : (2 * List.length mid <= fuel)%nat).
  { rewrite <- (Forall2_len _ _ _ Fm). unfold valid, remove_unmatched.
    pose proof (filter_length_le (valid_onset kept) (remove_unmatched kept notes)) as H1.
    unfold remove_unmatched in H1.
    pose proof (filter_length_le (fun n => existsb (fun p : frow => (fst p =? n_file n) && (m_mc (snd p) =? n_mc n)) kept) notes) as H2. lia. }
  destruct (merge_ties_out fuel shuffle mid NDm TVm SH Lm) as (out & Eo & Do & Ho).
  exists kept, out. split.
  { unfold clean_notes. rewrite K. cbn [bind]. fold valid. rewrite Em. cbn [bind]. rewrite Eo. reflexivity. }
  split; [exact K|]. split.
  { rewrite Do. fold valid. clear -Fm. induction Fm as [|a b l m (_ & Ed & _) F IH]; cbn [total_dur]; [lra|].
    rewrite Ed, IH. lra. }
  intros n I. cbn zeta. destruct (Ho n I) as (chain & M & Hc).
  destruct (merged_head n chain M) as (f & If & So).
  destruct (Forall2_in_r' _ _ _ Fm f (Hc f If)) as (n0 & I0 & So0 & _).
  destruct (Vs n0 I0) as [In0 V0]. apply valid_onset_within in V0.
  assert (E1 : n_file n = n_file n0 /\ n_mc n = n_mc n0 /\ n_on n = n_on n0).
  { destruct So as (A1 & A2 & A3 & A4 & A5 & _), So0 as (B1 & B2 & B3 & B4 & B5 & _).
    repeat split; congruence. }
  destruct E1 as (E1 & E2 & E3). rewrite <- E1, <- E2, <- E3 in V0.
  split; [exact V0|]. split.
  { exists n0. split; [exact In0|]. clear -So So0. unfold same_onset in *.
    destruct So as (A1 & A2 & A3 & A4 & A5 & A6 & A7 & A8), So0 as (B1 & B2 & B3 & B4 & B5 & B6 & B7 & B8).
    repeat split; congruence. }
  intros T C. destruct (within_time _ T _ V0) as (t & A). exists t. split; [exact A|].
  apply (merged_timed _ T n chain M); [|exact A].
  intros x Ix. destruct (Forall2_in_r' _ _ _ Fm x (Hc x Ix)) as (x0 & _ & Sx & _ & _ & Tx).
  assert (Ef : n_file x0 = n_file n).
  { pose proof (merged_file n chain M x Ix). destruct Sx as (B1 & _). congruence. }
  rewrite Ef in Tx. now apply Tx.
Qed.

(* ---- chords ---- *)
Lemma chord_walk_spec ms T b : unique_mcs ms -> forward ms -> clock ms T ->
  forall a, plays_to ms a b -> forall fuel d, (rows_from ms a <= fuel)%nat ->
  exists d', chord_walk fuel ms a b d = Ok d' /\ (d' == d + (T b - T a))%Q.
Proof.
  intros U F C a P. induction P as [a|a m n b R E P IH]; intros fuel d L.
  - exists d. destruct fuel; cbn [chord_walk]; rewrite Z.eqb_refl; (split; [reflexivity|lra]).
  - destruct R as [I Em]. subst a.
    assert (L' : (rows_from ms n < rows_from ms (m_mc m))%nat) by (apply rows_from_step; [exact I|apply (F m I n E)]).
    destruct fuel as [|fuel]; [lia|]. cbn [chord_walk].
    destruct (m_mc m =? b) eqn:Eb.
    { assert (n <= b) by (apply (plays_to_le ms n b F P)). pose proof (F m I n E). lia. }
    rewrite (lookup_row ms (m_mc m) m U (conj I eq_refl)). unfold next_of. rewrite E.
    destruct (IH fuel (d + m_dur m)%Q ltac:(lia)) as (d' & E' & D). exists d'. split; [exact E'|].
    rewrite D, (C m n I E). lra.
Qed.

Lemma on_fixed_spec ms T p t : unique_mcs ms -> at_time ms T p t ->
  exists o, on_fixed ms p = Ok o /\ (o == t - T (fst p))%Q.
Proof.
  intros U (m & R & H). unfold on_fixed. rewrite (lookup_row ms _ m U R). eexists.
  split; [reflexivity|]. lra.
Qed.

(* all measures on one path: exactly one measure has no next *)
Lemma last_measure_spec ms s : unique_mcs ms -> forward ms -> In s (map m_mc ms) ->
  (forall m, In m ms -> plays_to ms s (m_mc m)) ->
  exists m, last_measure ms = Ok m /\ In m ms /\ next_of m = None /\
    forall m', In m' ms -> plays_to ms (m_mc m') (m_mc m).
Proof.
  intros U F Is P.
  set (lastb := fun m => match next_of m with None => true | _ => false end).
  (* a measure from which nothing follows is reached from every measure *)
  assert (Ex : forall k c, (rows_from ms c <= k)%nat -> In c (map m_mc ms) ->
           exists m, In m ms /\ next_of m = None /\ plays_to ms c (m_mc m)).
  { induction k as [|k IH]; intros c L Ic; destruct (in_row_of _ _ Ic) as (m & I & Em).
    - exfalso. unfold rows_from in L.
      assert (X : In m (filter (fun m0 => c <=? m_mc m0) ms)) by (apply filter_In; split; [exact I|lia]).
      destruct (filter _ ms); [destruct X|cbn in L; lia].
    - destruct (next_of m) as [n|] eqn:En.
      + assert (En' : m_next m = NextMc n) by (unfold next_of in En; destruct (m_next m); congruence).
        destruct (F m I n En') as [Lt In']. pose proof (rows_from_step ms m n I Lt).
        destruct (IH n ltac:(subst c; lia) In') as (m' & I' & N' & P').
        exists m'. split; [exact I'|]. split; [exact N'|]. eapply pt_step; [split; [exact I|exact Em]|exact En'|exact P'].
      + exists m. split; [exact I|]. split; [exact En|]. rewrite Em. apply pt_refl. }
  destruct (Ex _ s (le_n _) Is) as (m & I & N & Pm).
  assert (St : forall b, plays_to ms (m_mc m) b -> b = m_mc m).
  { intros b Pb. inversion Pb as [|a m0 n b' [I0 E0] En Pn]; subst; [reflexivity|].
    assert (m0 = m) by (apply (row_of_unique ms (m_mc m)); [exact U|split; assumption|split; auto]).
    subst m0. unfold next_of in N. rewrite En in N. discriminate. }
  assert (All : forall m', In m' ms -> plays_to ms (m_mc m') (m_mc m)).
  { intros m' I'. destruct (plays_to_comparable ms s (m_mc m') (m_mc m) U (P m' I') Pm) as [H|H]; [exact H|].
    rewrite (St _ H). apply pt_refl. }
  exists m. split; [|split; [exact I|split; [exact N|exact All]]].
  unfold last_measure. fold lastb.
  assert (Sg : forall m', In m' (filter lastb ms) -> m' = m).
  { intros m' I'. apply filter_In in I'. destruct I' as [I' B]. unfold lastb in B.
    assert (E : m_mc m = m_mc m').
    { pose proof (All m' I') as Q. inversion Q as [|a m0 n b' [I0 E0] En Pn]; subst; [reflexivity|].
      assert (m0 = m') by (apply (row_of_unique ms (m_mc m')); [exact U|split; assumption|split; auto]).
      subst m0. unfold next_of in B. rewrite En in B. discriminate. }
    apply (row_of_unique ms (m_mc m)); [exact U|split; auto|split; auto]. }
  assert (Im : In m (filter lastb ms)) by (apply filter_In; split; [exact I|unfold lastb; now rewrite N]).
  assert (NDf : NoDup (filter lastb ms)).
  { apply NoDup_filter. unfold unique_mcs in U. clear -U. induction ms as [|x ms IH]; [constructor|].
    cbn in U. inversion U as [|? ? Nx U']; subst. constructor; [|now apply IH]. intros I. apply Nx. now apply in_map. }
  destruct (filter lastb ms) as [|a [|b r]] eqn:Ef; [destruct Im| |].
  - now rewrite (Sg a (or_introl eq_refl)).
  - exfalso. inversion NDf as [|? ? Na _]; subst. apply Na.
    rewrite (Sg a (or_introl eq_refl)), (Sg b (or_intror (or_introl eq_refl))). now left.
Qed.

Lemma chord_rows_spec ms T s ml : unique_mcs ms -> forward ms -> clock ms T ->
  (forall m, In m ms -> plays_to ms s (m_mc m)) ->
  last_measure ms = Ok ml -> In ml ms -> (forall m', In m' ms -> plays_to ms (m_mc m') (m_mc ml)) ->
  forall fuel chords times, (List.length ms <= fuel)%nat ->
  Forall2 (at_time ms T) chords times ->
  (forall i p q, nth_error chords i = Some p -> nth_error chords (S i) = Some q -> fst p <= fst q) ->
  exists xs, chord_rows fuel ms chords = Ok xs /\
    Forall2 (fun x p => fst (fst x) = p) xs chords /\
    Forall2 (fun x t => (snd x == snd t - fst t)%Q) xs
      (combine times (tl times ++ [T (m_mc ml) + m_dur ml]%Q)).
Proof.
  intros U F C P El Il Al fuel chords times L H. induction H as [|p t chords times Hp H IH]; intros Ord.
  - exists []. repeat split; constructor.
  - destruct IH as (xs & E & E1 & E2).
    { intros i a b Ha Hb. apply (Ord (S i) a b Ha Hb). }
    destruct (on_fixed_spec ms T p t U Hp) as (o & Eo & Ho).
    assert (Ip : In (fst p) (map m_mc ms)) by (destruct Hp as (m & R & _); eapply row_of_in; eauto).
    destruct (in_row_of _ _ Ip) as (mp & Imp & Emp).
    assert (Lp : (rows_from ms (fst p) <= fuel)%nat) by (pose proof (rows_from_le ms (fst p)); lia).
    cbn [chord_rows tl]. destruct chords as [|q chords].
    + inversion H; subst. cbn [app combine]. rewrite El. cbn [bind].
      unfold chord_row. rewrite Eo. cbn [bind fst].
      destruct (chord_walk_spec ms T (m_mc ml) U F C (fst p)) with (fuel := fuel) (d := (m_dur ml - o)%Q)
        as (d & Ed & Hd); [rewrite <- Emp; now apply Al|exact Lp|].
      rewrite Ed. cbn [bind]. cbn [chord_rows] in E. apply Ok_inj in E. subst xs.
      cbn [chord_rows bind]. eexists. split; [reflexivity|]. split.
      * constructor; [reflexivity|constructor].
      * constructor; [|constructor]. cbn [fst snd]. rewrite Hd, Ho. lra.
    + destruct times as [|tq times]; [inversion H|]. inversion H as [|? ? ? ? Hq H']; subst.
      destruct (on_fixed_spec ms T q tq U Hq) as (oq & Eoq & Hoq). rewrite Eoq. cbn [bind].
      unfold chord_row. rewrite Eo. cbn [bind].
      assert (Iq : In (fst q) (map m_mc ms)) by (destruct Hq as (m & R & _); eapply row_of_in; eauto).
      destruct (in_row_of _ _ Iq) as (mq & Imq & Emq).
      pose proof (Ord 0%nat p q eq_refl eq_refl) as Le.
      assert (Pq : plays_to ms (fst p) (fst q)).
      { destruct (plays_to_comparable ms s (fst p) (fst q) U) as [X|X].
        - rewrite <- Emp. now apply P.
        - rewrite <- Emq. now apply P.
        - exact X.
        - pose proof (plays_to_le ms _ _ F X). replace (fst q) with (fst p) by lia. apply pt_refl. }
      destruct (chord_walk_spec ms T (fst q) U F C (fst p) Pq fuel (oq - o)%Q Lp) as (d & Ed & Hd).
      rewrite Ed. cbn [bind]. rewrite E. cbn [bind]. eexists. split; [reflexivity|]. split.
      * constructor; [reflexivity|exact E1].
      * cbn [app combine]. constructor; [|exact E2]. cbn [fst snd]. rewrite Hd, Ho, Hoq. lra.
Qed.
