(* Lemmas for measure tables, range lengths, metrical levels and note offsets. *)
From Coq Require Import QArith Qround Lqa Qfield.
From Verif Require Import PyBase Proof_Base Model_Rhythm Spec_Rhythm.
Close Scope Q_scope.
Open Scope Z_scope.

(* ---- rows ---- *)
Lemma row_of_in ms mc m : row_of ms mc m -> In mc (map m_mc ms).
Proof. intros [I <-]. now apply in_map. Qed.

Lemma in_row_of ms mc : In mc (map m_mc ms) -> exists m, row_of ms mc m.
Proof.
  intros I. apply in_map_iff in I. destruct I as (m & E & I). exists m. now split.
Qed.

Lemma row_of_unique ms mc m m' : unique_mcs ms -> row_of ms mc m -> row_of ms mc m' -> m = m'.
Proof.
  intros U [I E] [I' E']. unfold unique_mcs in U. subst mc.
  induction ms as [|x ms IH]; [destruct I|]. cbn [map] in U. inversion U as [|? ? N U']; subst.
  destruct I as [->|I], I' as [->|I'].
  - reflexivity.
  - exfalso. apply N. rewrite <- E'. now apply in_map.
  - exfalso. apply N. rewrite E'. now apply in_map.
  - now apply IH.
Qed.

Lemma lookup_some ms mc m : lookup ms mc = Some m -> row_of ms mc m.
Proof.
  unfold lookup. intros H. apply find_some in H. destruct H as [I E]. split; [exact I|lia].
Qed.

Lemma lookup_row ms mc m : unique_mcs ms -> row_of ms mc m -> lookup ms mc = Some m.
Proof.
  intros U R. destruct (lookup ms mc) as [m'|] eqn:E.
  - f_equal. apply (row_of_unique ms mc); [exact U| |exact R]. now apply lookup_some.
  - exfalso. destruct R as [I <-]. unfold lookup in E.
    pose proof (find_none _ _ E m I) as F. cbn in F. lia.
Qed.

Lemma row_lookup ms mc : row ms mc = match lookup ms mc with Some m => Ok m | None => Raise IndexError end.
Proof. reflexivity. Qed.

Lemma row_ok ms mc m : unique_mcs ms -> row_of ms mc m -> row ms mc = Ok m.
Proof. intros U R. rewrite row_lookup, (lookup_row _ _ _ U R). reflexivity. Qed.

Lemma row_ok_inv ms mc m : row ms mc = Ok m -> row_of ms mc m.
Proof.
  rewrite row_lookup. destruct (lookup ms mc) eqn:E; [|discriminate].
  intros H. apply Ok_inj in H. subst. now apply lookup_some.
Qed.

(* ---- plays_to ---- *)
Lemma plays_to_trans ms a b c : plays_to ms a b -> plays_to ms b c -> plays_to ms a c.
Proof.
  induction 1 as [|a m n b R E P IH]; [easy|]. intros Q. eapply pt_step; eauto.
Qed.

Lemma plays_to_le ms a b : forward ms -> plays_to ms a b -> a <= b.
Proof.
  intros F. induction 1 as [|a m n b R E P IH]; [lia|].
  destruct R as [I <-]. destruct (F m I n E). lia.
Qed.

Lemma plays_to_comparable ms s a b : unique_mcs ms ->
  plays_to ms s a -> plays_to ms s b -> plays_to ms a b \/ plays_to ms b a.
Proof.
  intros U. induction 1 as [s|s m n a R E P IH].
  - intros H. now left.
  - intros H. inversion H as [|? m' n' ? R' E' P']; subst.
    + right. eapply pt_step; eauto.
    + assert (m' = m) by (eapply row_of_unique; eauto). subst m'.
      assert (n' = n) by congruence. subst n'. now apply IH.
Qed.

Lemma plays_to_in ms a b : forward ms -> plays_to ms a b -> In a (map m_mc ms) -> In b (map m_mc ms).
Proof.
  intros F. induction 1 as [|a m n b R E P IH]; [easy|]. intros _. apply IH.
  destruct R as [I _]. apply (F m I n E).
Qed.

(* number of rows from measure c on *)
Definition rows_from (ms : table) (c : Z) : nat := List.length (filter (fun m => c <=? m_mc m) ms).

Lemma filter_le {A} (f g : A -> bool) l :
  (forall x, In x l -> f x = true -> g x = true) ->
  (List.length (filter f l) <= List.length (filter g l))%nat.
Proof.
  induction l as [|x l IH]; intros H; cbn [filter]; [lia|].
  assert (IH' : (List.length (filter f l) <= List.length (filter g l))%nat).
  { apply IH. intros y I. apply H. now right. }
  destruct (f x) eqn:E.
  - rewrite (H x (or_introl eq_refl) E). cbn [List.length]. lia.
  - destruct (g x); cbn [List.length]; lia.
Qed.

Lemma filter_lt {A} (f g : A -> bool) l a :
  (forall x, In x l -> f x = true -> g x = true) -> In a l -> f a = false -> g a = true ->
  (List.length (filter f l) < List.length (filter g l))%nat.
Proof.
  induction l as [|x l IH]; intros H I Fa Ga; [destruct I|]. cbn [filter].
  destruct I as [->|I].
  - rewrite Fa, Ga. cbn [List.length].
    assert (L : (List.length (filter f l) <= List.length (filter g l))%nat).
    { apply filter_le. intros y Iy. apply H. now right. }
    lia.
  - assert (L : (List.length (filter f l) < List.length (filter g l))%nat).
    { apply IH; auto. intros y Iy. apply H. now right. }
    destruct (f x) eqn:E.
    + rewrite (H x (or_introl eq_refl) E). cbn [List.length]. lia.
    + destruct (g x); cbn [List.length]; lia.
Qed.

Lemma filter_length_le {A} (f : A -> bool) l : (List.length (filter f l) <= List.length l)%nat.
Proof. induction l as [|x l IH]; cbn [filter List.length]; [lia|]. destruct (f x); cbn [List.length]; lia. Qed.

Lemma rows_from_step ms m n : In m ms -> m_mc m < n ->
  (rows_from ms n < rows_from ms (m_mc m))%nat.
Proof.
  intros I L. unfold rows_from. apply filter_lt with (a := m); auto; intros; lia.
Qed.

Lemma rows_from_le ms c : (rows_from ms c <= List.length ms)%nat.
Proof. apply filter_length_le. Qed.

(* ---- get_range_length ---- *)
Lemma walk_spec ms T e : unique_mcs ms -> forward ms -> clock ms T ->
  forall c, plays_to ms c e ->
  forall fuel acc, (rows_from ms c <= fuel)%nat ->
  exists d, walk fuel ms (NextMc c) e acc = Ok (d, e) /\ (d == acc + (T e - T c))%Q.
Proof.
  intros U F C c P. induction P as [e|c m n e R E P IH]; intros fuel acc L.
  - exists acc. destruct fuel; cbn [walk]; rewrite Z.eqb_refl; (split; [reflexivity|lra]).
  - destruct R as [I <-]. destruct (F m I n E) as [Lt In'].
    pose proof (rows_from_step ms m n I Lt) as Ls.
    assert (NE : m_mc m =? e = false).
    { pose proof (plays_to_le ms n e F P). lia. }
    destruct fuel as [|fuel]; [lia|]. cbn [walk]. rewrite NE.
    rewrite (row_ok ms (m_mc m) m U) by (now split). cbn [bind]. rewrite E.
    destruct (IH fuel (acc + m_dur m)%Q) as (d & W & D); [lia|].
    exists d. split; [exact W|]. pose proof (C m n I E). lra.
Qed.

Lemma pos_gt_lt a b : fst a < fst b -> pos_gt a b = false.
Proof.
  intros H. unfold pos_gt. destruct (fst b <? fst a) eqn:E1; [lia|].
  destruct (fst a =? fst b) eqn:E2; [lia|]. reflexivity.
Qed.

Lemma pos_gt_gt a b : fst b < fst a -> pos_gt a b = true.
Proof. intros H. unfold pos_gt. destruct (fst b <? fst a) eqn:E1; [reflexivity|lia]. Qed.

Lemma range_length_same a b ms : fst a = fst b ->
  exists d, get_range_length a b ms = Ok d /\ (d == snd b - snd a)%Q.
Proof.
  destruct a as [am ab], b as [bm bb]. cbn [fst snd]. intros <-. unfold get_range_length.
  destruct (pos_gt (am, ab) (am, bb)); rewrite Z.eqb_refl; eexists; (split; [reflexivity|]); lra.
Qed.

Lemma range_length_up ms T a b ta tb :
  unique_mcs ms -> forward ms -> clock ms T -> plays_to ms (fst a) (fst b) ->
  at_time ms T a ta -> at_time ms T b tb -> fst a < fst b ->
  exists d, get_range_length a b ms = Ok d /\ (d == tb - ta)%Q /\
  exists d', get_range_length b a ms = Ok d' /\ (d' == ta - tb)%Q.
Proof.
  intros U F C P (ma & Ra & Ta) (mb & Rb & Tb) L.
  inversion P as [? E1|? m n ? R E P']; subst; [lia|].
  assert (m = ma) by (eapply row_of_unique; eauto). subst m.
  destruct Ra as [Ia Ea].
  pose proof (C ma n Ia E) as Cn. rewrite Ea in Cn.
  destruct (walk_spec ms T (fst b) U F C n P' (S (List.length ms))
             (m_dur ma + m_off ma - snd a)%Q) as (d & W & D).
  { pose proof (rows_from_le ms n). lia. }
  assert (NE : fst a =? fst b = false) by lia.
  destruct a as [am ab], b as [bm bb]. cbn [fst snd] in *.
  exists (1 * (d + (bb - m_off mb)))%Q. split; [|split; [lra|exists (-1 * (d + (bb - m_off mb)))%Q; split; [|lra]]].
  - unfold get_range_length. rewrite pos_gt_lt by exact L. rewrite NE.
    rewrite (row_ok ms am ma U) by (now split). cbn [bind]. rewrite E, W. cbn [bind].
    rewrite (row_ok ms bm mb U Rb). reflexivity.
  - unfold get_range_length. rewrite pos_gt_gt by exact L. rewrite NE.
    rewrite (row_ok ms am ma U) by (now split). cbn [bind]. rewrite E, W. cbn [bind].
    rewrite (row_ok ms bm mb U Rb). reflexivity.
Qed.

Lemma range_length_spec ms T s a b ta tb :
  unique_mcs ms -> forward ms -> clock ms T ->
  plays_to ms s (fst a) -> plays_to ms s (fst b) ->
  at_time ms T a ta -> at_time ms T b tb ->
  exists d, get_range_length a b ms = Ok d /\ (d == tb - ta)%Q.
Proof.
  intros U F C Pa Pb Ta Tb.
  destruct (Z.eq_dec (fst a) (fst b)) as [E|NE].
  - destruct (range_length_same a b ms E) as (d & G & D). exists d. split; [exact G|].
    destruct Ta as (ma & Ra & Ta), Tb as (mb & Rb & Tb). rewrite E in Ra, Ta.
    assert (ma = mb) by (eapply row_of_unique; eauto). subst mb. lra.
  - destruct (plays_to_comparable ms s (fst a) (fst b) U Pa Pb) as [P|P];
      pose proof (plays_to_le _ _ _ F P).
    + destruct (range_length_up ms T a b ta tb) as (d & G & D & _); auto; try lia. eauto.
    + destruct (range_length_up ms T b a tb ta) as (_ & _ & _ & d & G & D); auto; try lia. eauto.
Qed.

Lemma pos_gt_antisym a b : pos_gt a b = true -> pos_gt b a = false.
Proof.
  unfold pos_gt. intros H.
  destruct (fst b <? fst a) eqn:E1; cbn [orb] in *.
  - destruct (fst a <? fst b) eqn:E2; [lia|]. destruct (fst b =? fst a) eqn:E3; [lia|]. reflexivity.
  - destruct (fst a =? fst b) eqn:E3; cbn [andb] in *; [|discriminate].
    destruct (fst a <? fst b) eqn:E2; [lia|]. rewrite (Z.eqb_sym (fst b)), E3. cbn [orb andb].
    destruct (Qle_bool (snd a) (snd b)) eqn:Q1; [discriminate|].
    destruct (Qle_bool (snd b) (snd a)) eqn:Q2; [reflexivity|].
    exfalso. destruct (Qlt_le_dec (snd a) (snd b)) as [L|L].
    + apply Qlt_le_weak, Qle_bool_iff in L. congruence.
    + apply Qle_bool_iff in L. congruence.
Qed.

Lemma pos_gt_false_both a b : pos_gt a b = false -> pos_gt b a = false ->
  fst a = fst b /\ (snd a == snd b)%Q.
Proof.
  unfold pos_gt. intros H1 H2.
  apply orb_false_iff in H1. destruct H1 as [A1 B1].
  apply orb_false_iff in H2. destruct H2 as [A2 B2].
  assert (E : fst a = fst b) by lia. split; [exact E|].
  rewrite E, Z.eqb_refl in B1. rewrite <- E, Z.eqb_refl in B2. cbn [andb] in *.
  apply negb_false_iff, Qle_bool_iff in B1. apply negb_false_iff, Qle_bool_iff in B2. lra.
Qed.

Lemma range_length_antisym a b ms d : get_range_length a b ms = Ok d ->
  exists d', get_range_length b a ms = Ok d' /\ (d' == - d)%Q.
Proof.
  intros G.
  destruct (pos_gt a b) eqn:S1; destruct (pos_gt b a) eqn:S2.
  - rewrite (pos_gt_antisym a b S1) in S2. discriminate.
  - unfold get_range_length in *. rewrite S1 in G. rewrite S2.
    destruct a as [am ab], b as [bm bb].
    destruct (bm =? am) eqn:E.
    + apply Ok_inj in G. eexists. split; [reflexivity|]. rewrite <- G. lra.
    + destruct (row ms bm) as [m|]; [|discriminate]. cbn [bind] in *.
      destruct (walk _ ms (m_next m) am _) as [[l c]|]; [|discriminate]. cbn [bind] in *.
      destruct (row ms c) as [m'|]; [|discriminate]. cbn [bind] in *.
      apply Ok_inj in G. eexists. split; [reflexivity|]. rewrite <- G. lra.
  - unfold get_range_length in *. rewrite S1 in G. rewrite S2.
    destruct a as [am ab], b as [bm bb].
    destruct (am =? bm) eqn:E.
    + apply Ok_inj in G. eexists. split; [reflexivity|]. rewrite <- G. lra.
    + destruct (row ms am) as [m|]; [|discriminate]. cbn [bind] in *.
      destruct (walk _ ms (m_next m) bm _) as [[l c]|]; [|discriminate]. cbn [bind] in *.
      destruct (row ms c) as [m'|]; [|discriminate]. cbn [bind] in *.
      apply Ok_inj in G. eexists. split; [reflexivity|]. rewrite <- G. lra.
  - destruct (pos_gt_false_both a b S1 S2) as [E Q].
    destruct (range_length_same a b ms E) as (d1 & G1 & D1).
    destruct (range_length_same b a ms (eq_sym E)) as (d2 & G2 & D2).
    exists d2. split; [exact G2|]. rewrite G in G1. apply Ok_inj in G1. subst d1. lra.
Qed.

(* A clock always exists on a forward table. *)
Fixpoint remaining (fuel : nat) (ms : table) (c : Z) : Q :=
  match fuel with
  | O => 0%Q
  | S f => match lookup ms c with
           | None => 0%Q
           | Some m => match m_next m with
                       | NextMc n => Qplus (m_dur m) (remaining f ms n)
                       | _ => m_dur m
                       end
           end
  end.

Lemma remaining_fuel ms : unique_mcs ms -> forward ms ->
  forall f g c, (rows_from ms c < f)%nat -> (rows_from ms c < g)%nat ->
  remaining f ms c = remaining g ms c.
Proof.
  intros U F. induction f as [|f IH]; intros g c Lf Lg; [lia|].
  destruct g as [|g]; [lia|]. cbn [remaining].
  destruct (lookup ms c) as [m|] eqn:E; [|reflexivity].
  destruct (lookup_some _ _ _ E) as [I <-].
  destruct (m_next m) as [n| |] eqn:En; try reflexivity.
  destruct (F m I n En) as [Lt _]. pose proof (rows_from_step ms m n I Lt).
  rewrite (IH g n) by lia. reflexivity.
Qed.

Lemma clock_exists ms : unique_mcs ms -> forward ms -> exists T, clock ms T.
Proof.
  intros U F. exists (fun c => - remaining (S (List.length ms)) ms c)%Q.
  intros m n I E. destruct (F m I n E) as [Lt _].
  pose proof (rows_from_step ms m n I Lt). pose proof (rows_from_le ms (m_mc m)).
  replace (remaining (S (List.length ms)) ms (m_mc m))
    with (m_dur m + remaining (List.length ms) ms n)%Q.
  - rewrite (remaining_fuel ms U F (S (List.length ms)) (List.length ms) n) by lia. lra.
  - cbn [remaining]. rewrite (lookup_row ms (m_mc m) m U) by (now split). rewrite E. reflexivity.
Qed.

(* A number is only ever returned when the end is reached by playing. *)
Lemma walk_plays ms e : forall fuel c acc d c', walk fuel ms c e acc = Ok (d, c') ->
  c' = e /\ exists n, c = NextMc n /\ plays_to ms n e.
Proof.
  induction fuel as [|fuel IH]; intros c acc d c' W; destruct c as [n| |];
    cbn [walk] in W; try discriminate; destruct (n =? e) eqn:E; try discriminate.
  1,2: apply Ok_inj in W; injection W as _ <-; assert (n = e) by lia; subst;
       split; [reflexivity|exists e; split; [reflexivity|apply pt_refl]].
  destruct (row ms n) as [m|] eqn:R; [|discriminate]. cbn [bind] in W.
  destruct (IH _ _ _ _ W) as (-> & n' & En & P). split; [reflexivity|].
  exists n. split; [reflexivity|]. eapply pt_step; eauto. now apply row_ok_inv.
Qed.

Lemma range_length_plays a b ms d : get_range_length a b ms = Ok d ->
  plays_to ms (fst a) (fst b) \/ plays_to ms (fst b) (fst a).
Proof.
  intros G. unfold get_range_length in G.
  destruct (pos_gt a b); destruct a as [am ab], b as [bm bb]; cbn [fst].
  - destruct (bm =? am) eqn:E; [assert (bm = am) by lia; subst; left; apply pt_refl|].
    destruct (row ms bm) as [m|] eqn:R; [|discriminate]. cbn [bind] in G.
    destruct (walk _ ms (m_next m) am _) as [[l c]|] eqn:W; [|discriminate].
    apply walk_plays in W. destruct W as (_ & n & En & P). right.
    eapply pt_step; eauto. now apply row_ok_inv.
  - destruct (am =? bm) eqn:E; [assert (am = bm) by lia; subst; left; apply pt_refl|].
    destruct (row ms am) as [m|] eqn:R; [|discriminate]. cbn [bind] in G.
    destruct (walk _ ms (m_next m) bm _) as [[l c]|] eqn:W; [|discriminate].
    apply walk_plays in W. destruct W as (_ & n & En & P). left.
    eapply pt_step; eauto. now apply row_ok_inv.
Qed.

(* time is monotone along the measures *)
Lemma clock_mono ms T a b ma : forward ms -> unique_mcs ms -> clock ms T ->
  (forall m, In m ms -> (0 < m_dur m)%Q) ->
  plays_to ms a b -> a <> b -> row_of ms a ma -> (T a + m_dur ma <= T b)%Q.
Proof.
  intros F U C D P. revert ma. induction P as [a|a m n b R E P IH]; intros ma NE Ra; [easy|].
  assert (m = ma) by (eapply row_of_unique; eauto). subst m. destruct R as [I Ea].
  pose proof (C ma n I E) as Cn. rewrite Ea in Cn.
  destruct (Z.eq_dec n b) as [->|NE2]; [lra|].
  destruct (F ma I n E) as [_ In']. destruct (in_row_of ms n In') as (mn & Rn).
  pose proof (IH mn NE2 Rn) as H. destruct Rn as [In2 _]. pose proof (D mn In2). lra.
Qed.

Lemma same_time_same_position ms T s a b t : unique_mcs ms -> forward ms -> clock ms T ->
  (forall m, In m ms -> (0 < m_dur m)%Q) ->
  plays_to ms s (fst a) -> plays_to ms s (fst b) ->
  within ms a -> within ms b -> at_time ms T a t -> at_time ms T b t ->
  fst a = fst b /\ (snd a == snd b)%Q.
Proof.
  intros U F C D Pa Pb (ma & Ra & La & Ha) (mb & Rb & Lb & Hb) (ma' & Ra' & Ta) (mb' & Rb' & Tb).
  assert (ma' = ma) by (eapply row_of_unique; eauto). subst ma'.
  assert (mb' = mb) by (eapply row_of_unique; eauto). subst mb'.
  destruct (Z.eq_dec (fst a) (fst b)) as [E|NE].
  - split; [exact E|]. rewrite E in Ra, Ta. assert (ma = mb) by (exact (row_of_unique ms (fst b) ma mb U Ra Rb)).
    subst mb. lra.
  - exfalso. destruct (plays_to_comparable ms s (fst a) (fst b) U Pa Pb) as [P|P].
    + pose proof (clock_mono ms T _ _ ma F U C D P NE Ra). lra.
    + pose proof (clock_mono ms T _ _ mb F U C D P (not_eq_sym NE) Rb). lra.
Qed.

(* ---- proportions ---- *)
Lemma frac_div_ok a b : ~ (b == 0)%Q -> frac_div a b = Ok (a / b)%Q.
Proof.
  intros H. unfold frac_div. destruct (Qeq_bool b 0) eqn:E; [|reflexivity].
  apply Qeq_bool_iff in E. contradiction.
Qed.

Lemma rhythmic_info_spec ms T s note dur rs re tn ts te len :
  unique_mcs ms -> forward ms -> clock ms T ->
  plays_to ms s (fst note) -> plays_to ms s (fst rs) -> plays_to ms s (fst re) ->
  at_time ms T note tn -> at_time ms T rs ts -> at_time ms T re te ->
  ~ (ts == te)%Q -> (len = None \/ exists l, len = Some l /\ (l == te - ts)%Q) ->
  exists on off du, get_rhythmic_info note dur rs re ms len = Ok (on, off, du) /\
    (on == (tn - ts) / (te - ts))%Q /\ (off == (tn + dur - ts) / (te - ts))%Q /\
    (du == dur / (te - ts))%Q.
Proof.
  intros U F C Pn Ps Pe An As Ae NZ Len.
  assert (HL : exists l, match len with Some l => Ok l | None => get_range_length rs re ms end = Ok l
                         /\ (l == te - ts)%Q).
  { destruct Len as [->|(l & -> & E)]; [|eauto]. eapply range_length_spec; eauto. }
  destruct HL as (l & HL & El).
  assert (Nl : ~ (l == 0)%Q) by (intros Z0; apply NZ; lra).
  assert (Nd : ~ (te - ts == 0)%Q) by (intros Z0; apply NZ; lra).
  unfold get_rhythmic_info. rewrite HL. cbn [bind]. rewrite (frac_div_ok dur l Nl). cbn [bind].
  destruct (range_length_spec ms T s rs note ts tn U F C Ps Pn As An) as (d1 & G1 & D1).
  destruct (range_length_spec ms T s note re tn te U F C Pn Pe An Ae) as (d2 & G2 & D2).
  match goal with |- context [if ?b then _ else _] => destruct b end.
  - rewrite G1. cbn [bind]. rewrite (frac_div_ok d1 l Nl). cbn [bind].
    do 3 eexists. split; [reflexivity|]. rewrite El, D1. repeat split; field; exact Nd.
  - rewrite G2. cbn [bind]. rewrite (frac_div_ok d2 l Nl). cbn [bind].
    do 3 eexists. split; [reflexivity|]. rewrite El, D2. repeat split; field; exact Nd.
Qed.

(* ---- metrical levels ---- *)
Lemma frac_mod_zero x y : ~ (y == 0)%Q ->
  exists r, frac_mod x y = Ok r /\ (Qeq_bool r 0 = true <-> multiple x y).
Proof.
  intros NZ. unfold frac_mod. destruct (Qeq_bool y 0) eqn:E.
  { apply Qeq_bool_iff in E. contradiction. }
  eexists. split; [reflexivity|]. rewrite Qeq_bool_iff. split.
  - intros H. exists (Qfloor (x / y)). lra.
  - intros (k & Hk).
    assert (Hf : Qfloor (x / y) = k).
    { rewrite (Qfloor_comp (x / y)%Q (inject_Z k)).
      - apply Qfloor_Z.
      - rewrite Hk. field. exact NZ. }
    rewrite Hf. lra.
Qed.

Lemma multiple_trans x y z : multiple x y -> multiple y z -> multiple x z.
Proof.
  intros (k & Hk) (j & Hj). exists (k * j). rewrite inject_Z_mult, Hk, Hj. ring.
Qed.

Lemma multiple_proper x x' y y' : (x == x')%Q -> (y == y')%Q -> multiple x y -> multiple x' y'.
Proof. intros E1 E2 (k & H). exists k. now rewrite <- E1, <- E2. Qed.

Lemma inject_Z_nz n : n <> 0 -> ~ (inject_Z n == 0)%Q.
Proof. intros H E. apply H. unfold Qeq, inject_Z in E. cbn in E. lia. Qed.

Lemma frac_nz n d : n <> 0 -> d <> 0 -> ~ (inject_Z n / inject_Z d == 0)%Q.
Proof.
  intros Hn Hd E. apply (inject_Z_nz n Hn).
  assert (X : (inject_Z n == inject_Z n / inject_Z d * inject_Z d)%Q).
  { field. now apply inject_Z_nz. }
  rewrite E in X. lra.
Qed.

(* what the three tests compute, once the three lengths are nested multiples *)
Lemma level_of ml bl sl beat :
  ~ (ml == 0)%Q -> ~ (bl == 0)%Q -> ~ (sl == 0)%Q -> multiple ml bl -> multiple bl sl ->
  exists l,
    (let! r3 := frac_mod beat ml in
     if Qeq_bool r3 0%Q then Ok 3 else
     let! r2 := frac_mod beat bl in
     if Qeq_bool r2 0%Q then Ok 2 else
     let! r1 := frac_mod beat sl in
     if Qeq_bool r1 0%Q then Ok 1 else Ok 0) = Ok l /\
    0 <= l <= 3 /\
    (l = 3 <-> multiple beat ml) /\ (2 <= l <-> multiple beat bl) /\ (1 <= l <-> multiple beat sl).
Proof.
  intros N3 N2 N1 M32 M21.
  destruct (frac_mod_zero beat ml N3) as (r3 & E3 & H3).
  destruct (frac_mod_zero beat bl N2) as (r2 & E2 & H2).
  destruct (frac_mod_zero beat sl N1) as (r1 & E1 & H1).
  rewrite E3. cbn [bind].
  assert (I32 : multiple beat ml -> multiple beat bl) by (intros; eapply multiple_trans; eauto).
  assert (I21 : multiple beat bl -> multiple beat sl) by (intros; eapply multiple_trans; eauto).
  destruct (Qeq_bool r3 0) eqn:B3.
  { exists 3. assert (multiple beat ml) by (apply H3; reflexivity).
    split; [reflexivity|]. split; [lia|]. split; [tauto|]. split; intuition lia. }
  rewrite E2. cbn [bind].
  assert (X3 : ~ multiple beat ml) by (intros M; apply H3 in M; congruence).
  destruct (Qeq_bool r2 0) eqn:B2.
  { exists 2. assert (multiple beat bl) by (apply H2; reflexivity).
    split; [reflexivity|]. split; [lia|]. split; [|split]; intuition lia. }
  rewrite E1. cbn [bind].
  assert (X2 : ~ multiple beat bl) by (intros M; apply H2 in M; congruence).
  destruct (Qeq_bool r1 0) eqn:B1.
  { exists 1. assert (multiple beat sl) by (apply H1; reflexivity).
    split; [reflexivity|]. split; [lia|]. split; [|split]; intuition lia. }
  assert (X1 : ~ multiple beat sl) by (intros M; apply H1 in M; congruence).
  exists 0. split; [reflexivity|]. split; [lia|]. split; [|split]; intuition lia.
Qed.

Lemma fraction_ok n d : d <> 0 -> fraction n d = Ok (inject_Z n / inject_Z d)%Q.
Proof. intros H. unfold fraction. destruct (d =? 0) eqn:E; [lia|reflexivity]. Qed.

Lemma level_spec n d beat : n <> 0 -> d <> 0 ->
  let compound := (3 < n /\ n mod 3 = 0)%Z in
  exists l, get_metrical_level beat (n, d) = Ok l /\ 0 <= l <= 3 /\
    (l = 3 <-> multiple beat (inject_Z n / inject_Z d)) /\
    (compound -> (2 <= l <-> multiple beat (3 / inject_Z d)) /\
                 (1 <= l <-> multiple beat (1 / inject_Z d))) /\
    (~ compound -> (2 <= l <-> multiple beat (1 / inject_Z d)) /\
                   (1 <= l <-> multiple beat (1 / inject_Z (2 * d)))).
Proof.
  intros Hn Hd compound. pose proof (inject_Z_nz d Hd) as Nd.
  assert (N1 : ~ (inject_Z 1 / inject_Z d == 0)%Q) by (apply frac_nz; lia).
  unfold get_metrical_level. cbn [fst snd]. unfold get_metrical_level_lengths.
  rewrite !fraction_ok by exact Hd.
  destruct ((3 <? n) && (n mod 3 =? 0)) eqn:B; cbn [bind].
  - assert (Cm : compound) by (unfold compound; lia).
    assert (E3 : (inject_Z 1 / inject_Z d * 3 == 3 / inject_Z d)%Q).
    { change (inject_Z 1) with 1%Q. field. exact Nd. }
    destruct (level_of (inject_Z n / inject_Z d) (inject_Z 1 / inject_Z d * (3 # 1))
                (inject_Z 1 / inject_Z d) beat) as (l & L & R & H3 & H2 & H1).
    + now apply frac_nz.
    + intros Z0. apply N1. lra.
    + exact N1.
    + exists (n / 3). assert (Hq : n = 3 * (n / 3)) by (apply Z.div_exact; [lia|apply Cm]).
      rewrite Hq at 1. rewrite inject_Z_mult. change (inject_Z 3) with 3%Q.
      change (inject_Z 1) with 1%Q. field. exact Nd.
    + exists 3. change (inject_Z 3) with 3%Q. ring.
    + exists l. split; [exact L|]. split; [exact R|]. split; [exact H3|].
      split; [|intros X; contradiction]. intros _. split; [|exact H1]. rewrite H2.
      split; apply multiple_proper; try reflexivity; now rewrite E3.
  - assert (Cm : ~ compound) by (unfold compound; lia).
    assert (E2 : (inject_Z 1 / inject_Z d / (2 # 1) == 1 / inject_Z (2 * d))%Q).
    { rewrite inject_Z_mult. change (inject_Z 1) with 1%Q. change (inject_Z 2) with 2%Q.
      field. exact Nd. }
    destruct (level_of (inject_Z n / inject_Z d) (inject_Z 1 / inject_Z d)
                (inject_Z 1 / inject_Z d / (2 # 1)) beat) as (l & L & R & H3 & H2 & H1).
    + now apply frac_nz.
    + exact N1.
    + rewrite E2. apply (frac_nz 1 (2 * d)); lia.
    + exists n. change (inject_Z 1) with 1%Q. field. exact Nd.
    + exists 2. change (inject_Z 2) with 2%Q. field. exact Nd.
    + exists l. split; [exact L|]. split; [exact R|]. split; [exact H3|].
      split; [intros X; contradiction|]. intros _. split; [exact H2|]. rewrite H1.
      split; apply multiple_proper; try reflexivity; now rewrite E2.
Qed.

Lemma frac_mod_proper b b' y : (b == b')%Q ->
  (exists r r', frac_mod b y = Ok r /\ frac_mod b' y = Ok r' /\ (r == r')%Q) \/
  (exists e, frac_mod b y = Raise e /\ frac_mod b' y = Raise e).
Proof.
  intros E. unfold frac_mod. destruct (Qeq_bool y 0); [right; eauto|left].
  do 2 eexists. split; [reflexivity|]. split; [reflexivity|].
  rewrite (Qfloor_comp (b / y)%Q (b' / y)%Q); [lra|]. now rewrite E.
Qed.

Lemma Qeq_bool_proper r r' : (r == r')%Q -> Qeq_bool r 0 = Qeq_bool r' 0.
Proof.
  intros E. destruct (Qeq_bool r 0) eqn:A; destruct (Qeq_bool r' 0) eqn:B; try reflexivity.
  - apply Qeq_bool_iff in A. rewrite E in A. apply Qeq_bool_iff in A. congruence.
  - apply Qeq_bool_iff in B. rewrite <- E in B. apply Qeq_bool_iff in B. congruence.
Qed.

Lemma level_proper b b' ts : (b == b')%Q -> get_metrical_level b ts = get_metrical_level b' ts.
Proof.
  intros E. unfold get_metrical_level.
  destruct (get_metrical_level_lengths (fst ts) (snd ts)) as [[[ml bl] sl]|]; [|reflexivity].
  cbn [bind].
  destruct (frac_mod_proper b b' ml E) as [(r & r' & H1 & H2 & Er)|(e & H1 & H2)];
    rewrite H1, H2; [|reflexivity]. cbn [bind]. rewrite (Qeq_bool_proper r r' Er).
  destruct (Qeq_bool r' 0); [reflexivity|].
  destruct (frac_mod_proper b b' bl E) as [(q & q' & H3 & H4 & Eq)|(e & H3 & H4)];
    rewrite H3, H4; [|reflexivity]. cbn [bind]. rewrite (Qeq_bool_proper q q' Eq).
  destruct (Qeq_bool q' 0); [reflexivity|].
  destruct (frac_mod_proper b b' sl E) as [(p & p' & H5 & H6 & Ep)|(e & H5 & H6)];
    rewrite H5, H6; [|reflexivity]. cbn [bind]. rewrite (Qeq_bool_proper p p' Ep).
  reflexivity.
Qed.

Definition cache_ok (c : cache) : Prop :=
  forall ts b l, In (ts, b, l) c -> get_metrical_level b ts = Ok l.

Lemma cached_level_spec c beat ts : cache_ok c ->
  match get_metrical_level beat ts with
  | Ok l => exists c', cached_level c beat ts = Ok (l, c') /\ cache_ok c'
  | Raise e => cached_level c beat ts = Raise e
  end.
Proof.
  intros H. unfold cached_level.
  destruct (find _ c) as [[[ts' b'] l']|] eqn:F.
  - apply find_some in F. destruct F as [I T].
    apply andb_true_iff in T. destruct T as [T1 T2]. apply andb_true_iff in T1.
    destruct T1 as [T0 T1]. apply Qeq_bool_iff in T2.
    assert (ts' = ts) by (destruct ts, ts'; cbn in *; f_equal; lia). subst ts'.
    pose proof (H ts b' l' I) as L. rewrite (level_proper b' beat ts T2) in L. rewrite L.
    exists c. now split.
  - destruct (get_metrical_level beat ts) as [l|e] eqn:L; [|reflexivity]. cbn [bind].
    eexists. split; [reflexivity|]. intros ts' b' l' [I|I]; [|now apply H].
    injection I as <- <- <-. exact L.
Qed.

Lemma cached_levels_spec queries : forall c, cache_ok c ->
  match mapM (fun q => get_metrical_level (fst q) (snd q)) queries with
  | Ok ls => exists c', cached_levels c queries = Ok (ls, c')
  | Raise e => cached_levels c queries = Raise e
  end.
Proof.
  induction queries as [|[b ts] qs IH]; intros c H; cbn [mapM cached_levels fst snd].
  - now exists c.
  - pose proof (cached_level_spec c b ts H) as S.
    destruct (get_metrical_level b ts) as [l|e]; cbn [bind].
    + destruct S as (c' & S & H'). rewrite S. cbn [bind]. specialize (IH c' H').
      destruct (mapM _ qs) as [ls|e]; cbn [bind].
      * destruct IH as (c'' & ->). cbn [bind]. now exists c''.
      * rewrite IH. reflexivity.
    + rewrite S. reflexivity.
Qed.

(* ---- note offsets ---- *)
Lemma next_of_some m n : next_of m = Some n -> m_next m = NextMc n.
Proof. unfold next_of. destruct (m_next m); congruence. Qed.

Lemma off_next_some ms n o : off_next ms n = Some o -> exists m, row_of ms n m /\ m_off m = o.
Proof.
  unfold off_next. destruct (lookup ms n) as [m|] eqn:E; [|discriminate].
  intros H. exists m. split; [now apply lookup_some|congruence].
Qed.

Lemma offset_loop_spec ms T : unique_mcs ms -> forward ms -> clock ms T ->
  forall fuel mc b t, at_time ms T (mc, b) t -> (rows_from ms mc <= fuel)%nat ->
  exists mc' b', offset_loop fuel ms mc (Some b) = Ok (mc', Some b') /\
    at_time ms T (mc', b') t /\ plays_to ms mc mc' /\
    (exists m, row_of ms mc' m /\
       (next_of m = None \/ (b' < m_end m)%Q \/ (b' == m_off m)%Q)) /\
    (forall m, row_of ms mc m -> (m_off m <= b)%Q ->
       exists m', row_of ms mc' m' /\ (m_off m' <= b')%Q).
Proof.
  intros U F C. induction fuel as [|fuel IH]; intros mc b t (m & R & Ht) L.
  - exfalso. cbn [fst] in R. destruct R as [I E]. unfold rows_from in L.
    assert (X : In m (filter (fun m0 => mc <=? m_mc m0) ms)) by (apply filter_In; split; [exact I|lia]).
    destruct (filter (fun m0 => mc <=? m_mc m0) ms); [destruct X|cbn in L; lia].
  - cbn [fst snd] in R, Ht. cbn [offset_loop]. rewrite (lookup_row ms mc m U R).
    destruct (next_of m) as [nx|] eqn:En.
    2:{ exists mc, b. split; [reflexivity|]. split; [exists m; cbn [fst snd]; now split|].
        split; [apply pt_refl|]. split.
        - exists m. split; [exact R|now left].
        - intros m' R' Lb. exists m'. now split. }
    pose proof (next_of_some _ _ En) as En'. destruct R as [I Em].
    destruct (F m I nx En') as [Lt Inx]. pose proof (C m nx I En') as Cn. rewrite Em in Cn.
    destruct (in_row_of ms nx Inx) as (mn & Rn).
    assert (On : off_next ms nx = Some (m_off mn)).
    { unfold off_next. now rewrite (lookup_row ms nx mn U Rn). }
    assert (St : plays_to ms mc nx).
    { eapply pt_step; [split; eauto|exact En'|apply pt_refl]. }
    destruct (Qeq_bool b (m_end m)) eqn:B1.
    { apply Qeq_bool_iff in B1. rewrite On. exists nx, (m_off mn). split; [reflexivity|].
      split; [|split; [exact St|split]].
      - exists mn. cbn [fst snd]. split; [exact Rn|]. unfold m_end in B1. lra.
      - exists mn. split; [exact Rn|]. right. right. lra.
      - intros _ _ _. exists mn. split; [exact Rn|lra]. }
    destruct (Qle_bool b (m_end m)) eqn:B2.
    { apply Qle_bool_iff in B2. exists mc, b. split; [reflexivity|].
      split; [exists m; cbn [fst snd]; now split|]. split; [apply pt_refl|]. split.
      - exists m. split; [now split|]. right. left.
        apply Qle_lteq in B2. destruct B2 as [B2|B2]; [exact B2|].
        apply Qeq_bool_iff in B2. congruence.
      - intros m' R' Lb. exists m'. now split. }
    rewrite On. pose proof (rows_from_step ms m nx I Lt) as Ls. rewrite Em in Ls.
    destruct (IH nx (b - m_dur m - m_off m + m_off mn)%Q t) as (mc' & b' & L' & A' & P' & N' & W').
    + exists mn. cbn [fst snd]. split; [exact Rn|]. lra.
    + lia.
    + exists mc', b'. split; [exact L'|]. split; [exact A'|].
      split; [eapply plays_to_trans; eauto|]. split; [exact N'|].
      intros _ _ _. apply (W' mn Rn).
      assert (m_end m < b)%Q.
      { destruct (Qlt_le_dec (m_end m) b) as [H|H]; [exact H|]. apply Qle_bool_iff in H. congruence. }
      unfold m_end in *. lra.
Qed.

(* ---- duration cache ---- *)
Fixpoint qsum (l : list Q) : Q := match l with [] => 0%Q | x :: r => (x + qsum r)%Q end.

Lemma duration_cache_spec ms T s : unique_mcs ms -> forward ms -> clock ms T ->
  forall onsets times last tl,
  Forall2 (fun p t => plays_to ms s (fst p) /\ at_time ms T p t) onsets times ->
  plays_to ms s (fst last) -> at_time ms T last tl ->
  exists cache, get_duration_cache onsets last ms = Ok cache /\
    Forall2 (fun d p => (d == snd p - fst p)%Q) cache (combine times (List.tl times ++ [tl])).
Proof.
  intros U F C. unfold get_duration_cache.
  induction onsets as [|a onsets IH]; intros times last tl FA Pl Al.
  - inversion FA; subst. exists []. split; [reflexivity|constructor].
  - inversion FA as [|? ta ? times' [Pa Ta] FA']; subst. clear FA.
    destruct (IH times' last tl FA' Pl Al) as (cache & E & S).
    destruct onsets as [|b onsets].
    + inversion FA'; subst. cbn [List.tl app combine mapM fst snd].
      destruct (range_length_spec ms T s a last ta tl U F C Pa Pl Ta Al) as (d & G & D).
      rewrite G. cbn [bind]. exists [d]. split; [reflexivity|]. repeat constructor. exact D.
    + inversion FA' as [|? tb ? times'' [Pb Tb] FA'']; subst.
      cbn [List.tl app] in E, S |- *. cbn [combine mapM fst snd] in E, S |- *.
      destruct (range_length_spec ms T s a b ta tb U F C Pa Pb Ta Tb) as (d & G & D).
      rewrite G. cbn [bind]. rewrite E. cbn [bind]. exists (d :: cache).
      split; [reflexivity|]. constructor; [exact D|exact S].
Qed.

Lemma telescope : forall times tl cache,
  Forall2 (fun d p => (d == snd p - fst p)%Q) cache (combine times (List.tl times ++ [tl])) ->
  forall i j ti tj, (i <= j)%nat -> nth_error (times ++ [tl]) i = Some ti ->
  nth_error (times ++ [tl]) j = Some tj ->
  (qsum (firstn (j - i) (skipn i cache)) == tj - ti)%Q.
Proof.
  induction times as [|t times IH]; intros tl cache FA i j ti tj L Hi Hj.
  - cbn in FA. inversion FA; subst. cbn [app] in Hi, Hj.
    destruct i as [|[|i]]; [|discriminate..]. destruct j as [|[|j]]; [|discriminate..].
    cbn in *. injection Hi as <-. injection Hj as <-. cbn. lra.
  - destruct times as [|u times].
    + cbn [List.tl app combine] in FA. inversion FA as [|d ? cache' ? D FA']; subst.
      inversion FA'; subst. cbn [fst snd] in D. cbn [app] in Hi, Hj.
      destruct i as [|[|[|i]]]; [| |discriminate..]; destruct j as [|[|[|j]]]; try discriminate; try lia;
        cbn in *; injection Hi as <-; injection Hj as <-; lra.
    + cbn [List.tl app combine] in FA. inversion FA as [|d ? cache' ? D FA']; subst.
      cbn [fst snd] in D. cbn [app] in Hi, Hj.
      destruct i as [|i].
      * destruct j as [|j].
        { cbn in *. injection Hi as <-. injection Hj as <-. cbn. lra. }
        cbn [nth_error] in Hi, Hj. injection Hi as <-. cbn [skipn].
        replace (S j - 0)%nat with (S (j - 0))%nat by lia. cbn [firstn qsum].
        rewrite (IH tl cache' FA' 0%nat j u tj); [lra|lia|reflexivity|exact Hj].
      * destruct j as [|j]; [lia|]. cbn [nth_error] in Hi, Hj. cbn [skipn].
        replace (S j - S i)%nat with (j - i)%nat by lia.
        apply (IH tl cache' FA' i j ti tj); [lia|exact Hi|exact Hj].
Qed.
