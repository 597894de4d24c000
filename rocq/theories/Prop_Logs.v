(* C114: a probability of zero only excludes what it applies to.  beam_search_utils.py:163-490 (scores
   of states), 882-981 (Beam) with log 0 = -inf. *)
From Verif Require Import Spec_Search Proof_Base Proof_Search Spec_Logs.
From Coq Require Import Lia.
Open Scope Z_scope.

(* a charge, 0 if there is none *)
Definition extra (o : option num) : num := match o with Some x => x | None => Fin 0 end.
Lemma n_add_0 a : n_add a (Fin 0) = a.
Proof. destruct a; cbn; [f_equal; lia|reflexivity..]. Qed.
Lemma n_add_0l a : n_add (Fin 0) a = a.
Proof. destruct a; cbn; reflexivity. Qed.
Lemma adjustment_eq s : fold_left (fun a o => match o with Some x => n_add a x | None => a end)
    [sc_csm s; sc_ksm s; sc_ktm s] (Fin 0) = n_add (n_add (extra (sc_csm s)) (extra (sc_ksm s))) (extra (sc_ktm s)).
Proof.
  cbn [fold_left]. destruct (sc_csm s), (sc_ksm s), (sc_ktm s); cbn [extra]; rewrite ?n_add_0l, ?n_add_0; reflexivity.
Qed.

(* the kinds that have charged already *)
Definition fresh_for (s : score) (c : charge) : Prop :=
  match c with Ktm _ => sc_ktm s = None | Ksm _ => sc_ksm s = None | Csm _ => sc_csm s = None end.

Lemma charged_fresh s c d : fresh_for s d -> model_of c <> model_of d -> fresh_for (charged s c) d.
Proof. destruct c, d; cbn; intros H Hn; try exact H; contradiction Hn; reflexivity. Qed.

(* finite charges: the score is the base and the three charges *)
Lemma finite_sum base : forall l s, once l -> Forall (fun c => finite (amount c)) l ->
  (forall c, In c l -> fresh_for s c) ->
  (exists a b c, extra (sc_csm s) = Fin a /\ extra (sc_ksm s) = Fin b /\ extra (sc_ktm s) = Fin c /\ sc_logp s = n_add base (Fin (a + b + c))) ->
  exists a b c, let t := fold_left charged l s in
    extra (sc_csm t) = Fin a /\ extra (sc_ksm t) = Fin b /\ extra (sc_ktm t) = Fin c /\ sc_logp t = n_add base (Fin (a + b + c)).
Proof.
  induction l as [|x l IH]; intros s Ho Hf Hfr Hs; [exact Hs|]. cbn [fold_left]. inversion Ho as [|y ys Hn Ho' E]; subst.
  inversion Hf as [|y ys [z Hz] Hf' E]; subst. apply IH; [exact Ho'|exact Hf'| |].
  - intros c Hc. apply charged_fresh; [apply Hfr; right; exact Hc|]. intros E. apply Hn. rewrite E. apply in_map. exact Hc.
  - specialize (Hfr x (or_introl eq_refl)). destruct Hs as (a & b & c & E1 & E2 & E3 & E4).
    destruct x as [v|v|v]; cbn in Hz, Hfr |- *; subst v; rewrite Hfr in *; cbn [extra] in *.
    + injection E3 as <-. exists a, b, z. repeat split; try assumption. rewrite E4. destruct base; cbn; try reflexivity. f_equal; lia.
    + injection E2 as <-. exists a, z, c. repeat split; try assumption. rewrite E4. destruct base; cbn; try reflexivity. f_equal; lia.
    + injection E1 as <-. exists z, b, c. repeat split; try assumption. rewrite E4. destruct base; cbn; try reflexivity. f_equal; lia.
Qed.

(* Charges that are finite are taken back exactly when the chord goes on. *)
Theorem C114_restored base lp l : once l -> Forall (fun c => finite (amount c)) l ->
  sc_logp (rejoined (fold_left charged l (uncharged base)) lp) = n_add base lp.
Proof.
  intros Ho Hf. destruct (finite_sum base l (uncharged base) Ho Hf) as (a & b & c & E1 & E2 & E3 & E4).
  - intros [] _; reflexivity.
  - exists 0, 0, 0. cbn. rewrite n_add_0. auto.
  - unfold rejoined. rewrite adjustment_eq, E1, E2, E3, E4. destruct base, lp; cbn; try reflexivity. f_equal; lia.
Qed.
Print Assumptions C114_restored.

(* sums of logarithms *)
Lemma logs_add a b : a_log a -> a_log b -> a_log (n_add a b).
Proof. intros [[x ->]| ->] [[y ->]| ->]; cbn; unfold a_log, finite; eauto. Qed.
Lemma ninf_add a : a_log a -> n_add a NInf = NInf /\ n_add NInf a = NInf.
Proof. intros [[x ->]| ->]; cbn; auto. Qed.

Lemma lost_sum : forall l s, once l -> Forall (fun c => a_log (amount c)) l -> (forall c, In c l -> fresh_for s c) ->
  a_log (sc_logp s) -> a_log (extra (sc_csm s)) -> a_log (extra (sc_ksm s)) -> a_log (extra (sc_ktm s)) ->
  let t := fold_left charged l s in
  a_log (sc_logp t) /\ a_log (extra (sc_csm t)) /\ a_log (extra (sc_ksm t)) /\ a_log (extra (sc_ktm t))
  /\ (sc_logp s = NInf -> sc_logp t = NInf)
  /\ (extra (sc_csm s) = NInf -> extra (sc_csm t) = NInf) /\ (extra (sc_ksm s) = NInf -> extra (sc_ksm t) = NInf)
  /\ (extra (sc_ktm s) = NInf -> extra (sc_ktm t) = NInf)
  /\ ((exists c, In c l /\ amount c = NInf) -> sc_logp t = NInf
       /\ (extra (sc_csm t) = NInf \/ extra (sc_ksm t) = NInf \/ extra (sc_ktm t) = NInf)).
Proof.
  induction l as [|x l IH]; intros s Ho Hf Hfr H0 H1 H2 H3; cbn [fold_left].
  { cbv zeta. do 8 (split; [auto|]). intros (c & [] & _). }
  inversion Ho as [|y ys Hn Ho' E]; subst. inversion Hf as [|y ys Hz Hf' E]; subst.
  assert (Hfx := Hfr x (or_introl eq_refl)).
  destruct (IH (charged s x)) as (A0 & A1 & A2 & A3 & B0 & B1 & B2 & B3 & B4).
  - exact Ho'.
  - exact Hf'.
  - intros c Hc. apply charged_fresh; [apply Hfr; right; exact Hc|]. intros E. apply Hn. rewrite E. apply in_map. exact Hc.
  - destruct x; cbn in Hz |- *; apply logs_add; assumption.
  - destruct x; cbn in Hz |- *; assumption.
  - destruct x; cbn in Hz |- *; assumption.
  - destruct x; cbn in Hz |- *; assumption.
  - cbv zeta. split; [exact A0|]. split; [exact A1|]. split; [exact A2|]. split; [exact A3|].
    split; [intros E; apply B0; destruct x; cbn in Hz |- *; rewrite E; exact (proj2 (ninf_add _ Hz))|].
    assert (Hno : forall o : option num, o = None -> extra o = NInf -> False) by (intros o -> E; discriminate E).
    split; [intros E; apply B1; destruct x; cbn in Hfx |- *; try exact E; destruct (Hno _ Hfx E)|].
    split; [intros E; apply B2; destruct x; cbn in Hfx |- *; try exact E; destruct (Hno _ Hfx E)|].
    split; [intros E; apply B3; destruct x; cbn in Hfx |- *; try exact E; destruct (Hno _ Hfx E)|].
    intros (c & [<-|Hc] & Ec); [|apply B4; exists c; auto]. split.
    + apply B0. destruct x; cbn in Ec |- *; rewrite Ec; exact (proj1 (ninf_add _ H0)).
    + destruct x as [v|v|v]; cbn in Ec; subst v; [right; right; apply B3|right; left; apply B2|left; apply B1]; reflexivity.
Qed.

(* A charge of -inf is never taken back: the score of the longer chord is nan, whatever the
   score was before and whatever the other charges are. *)
Theorem C114_lost base lp l : a_log base -> a_log lp -> once l -> Forall (fun c => a_log (amount c)) l ->
  (exists c, In c l /\ amount c = NInf) ->
  sc_logp (rejoined (fold_left charged l (uncharged base)) lp) = NaN.
Proof.
  intros Hb Hlp Ho Hf He. assert (H0 : a_log (Fin 0)) by (left; eexists; reflexivity).
  destruct (lost_sum l (uncharged base) Ho Hf) as (A0 & A1 & A2 & A3 & _ & _ & _ & _ & B); try assumption.
  { intros [] _; reflexivity. }
  destruct (B He) as [Hl Hor]. unfold rejoined. rewrite adjustment_eq, Hl, (proj2 (ninf_add lp Hlp)). cbn [uncharged sc_logp].
  set (x := extra (sc_csm _)) in *. set (y := extra (sc_ksm _)) in *. set (z := extra (sc_ktm _)) in *.
  assert (E : n_add (n_add x y) z = NInf).
  { destruct Hor as [-> | [-> | ->]].
    - rewrite (proj2 (ninf_add y A2)). exact (proj2 (ninf_add z A3)).
    - rewrite (proj1 (ninf_add x A1)). exact (proj2 (ninf_add z A3)).
    - exact (proj1 (ninf_add _ (logs_add _ _ A1 A2))). }
  rewrite E. reflexivity.
Qed.
Print Assumptions C114_lost.

(* Where log 0 is charged for sure: the states for the first chord cannot change key, so their
   probability of a key change is 0 (joint_model.py:1121-1127); with a forced key inside the first chord
   that is not the key of the state, the change is made all the same and charged with log 0
   (1044-1059).  Here o_log is np.log, of which n_log is the version with infinities. *)
Theorem C114_first_chord g o pd sr l probs a b p n k :
  key_change_probs g o pd 0 l = Ok probs -> In (p, n) (combine probs l) -> can_key_transition n = false ->
  forall prev, st_prev n = Some prev ->
  pick o (forced_set (p_forced_k pd) (st_change prev) (st_change n)) = Some k -> st_key n <> k ->
  key_branch g o pd sr 0 p n = Ok (a, b) ->
  b = [] /\ exists m, a = [m] /\ st_ktm m = Some (o_log o 0 * (Z.of_nat (st_change n) - Z.of_nat (st_change prev)))
    /\ st_key m = st_key n /\ st_change m = st_change n.
Proof.
  intros Hp Hin Hc prev Ep Hk Hne H. destruct (key_change_probs_rel g o pd 0 l probs Hp p n Hin) as [_ [[_ ->]|[Hc' _]]]; [|congruence].
  unfold key_branch, the_prev in H. rewrite Ep in H. cbn [bind] in H. rewrite Hk in H.
  replace (st_key n =? k) with false in H by (symmetry; apply Z.eqb_neq; exact Hne). cbn in H. apply Ok_inj in H.
  apply pair_equal_spec in H as [<- <-]. split; [reflexivity|]. eexists. split; [reflexivity|]. repeat split; reflexivity.
Qed.
Print Assumptions C114_first_chord.

(* Refuted: if the first chord then goes on over another range, its score is nan, for all scores and
   charges; a chord in the forced key gets its real score. *)
Theorem C114_refuted : forall log base ksm csm lp len, 0 < len ->
  sc_logp (rejoined (fold_left charged [Ktm (n_log log 0 len); Ksm (Fin ksm)] (uncharged (Fin base))) (Fin lp)) = NaN
  /\ sc_logp (rejoined (fold_left charged [Csm (Fin csm)] (uncharged (Fin base))) (Fin lp)) = Fin (base + lp).
Proof.
  intros log base ksm csm lp len Hl. assert (E : n_log log 0 len = NInf).
  { unfold n_log. rewrite Z.eqb_refl. apply Z.ltb_lt in Hl. rewrite Hl. reflexivity. }
  rewrite E. split; [reflexivity|]. cbn. f_equal. lia.
Qed.
Print Assumptions C114_refuted.

(* nan on a beam *)
Lemma nan_max l : n_max NaN l = NaN.
Proof. induction l as [|a l IH]; [reflexivity|exact IH]. Qed.

(* A full beam with nan on top of its heap takes no other state any more, and nan is its best state. *)
Theorem C114_blocked size heap l : size <= zlen (NaN :: heap) ->
  (forall s, n_fits size (NaN :: heap) s = Ok false)
  /\ n_beam_run size (NaN :: heap) l = Ok (NaN :: heap)
  /\ n_top (NaN :: heap) = Some NaN.
Proof.
  intros Hs. split; [|split; [|cbn; rewrite nan_max; reflexivity]].
  - intros s. unfold n_fits. replace (zlen (NaN :: heap) <? size) with false by (symmetry; apply Z.ltb_ge; exact Hs). reflexivity.
  - induction l as [|s l IH]; [reflexivity|]. cbn [n_beam_run]. unfold n_beam_add.
    replace (size <=? zlen (NaN :: heap)) with true by (symmetry; apply Z.leb_le; exact Hs). exact IH.
Qed.
Print Assumptions C114_blocked.

(* Without nan all is well: the best of the list is found. *)
Theorem C114_best : forall l a, a <> NaN -> ~ In NaN l ->
  In (n_max a l) (a :: l) /\ forall x, In x (a :: l) -> n_lt (n_max a l) x = false.
Proof.
  assert (Hle : forall a b c, a <> NaN -> b <> NaN -> c <> NaN -> n_lt b a = false -> n_lt c b = false -> n_lt c a = false).
  { intros [x| | |] [y| | |] [z| | |] Ha Hb Hc; cbn; intros H1 H2; try reflexivity; try discriminate; try contradiction; try (destruct (Ha eq_refl)); try (destruct (Hb eq_refl)); try (destruct (Hc eq_refl)).
    apply Z.ltb_ge in H1, H2. apply Z.ltb_ge. lia. }
  induction l as [|b l IH]; intros a Ha Hl.
  - split; [left; reflexivity|]. intros x [<-|[]]. destruct a; cbn; try reflexivity. apply Z.ltb_irrefl.
  - assert (Hb : b <> NaN) by (intros ->; apply Hl; left; reflexivity).
    assert (Hl' : ~ In NaN l) by (intros H; apply Hl; right; exact H).
    change (n_max a (b :: l)) with (n_max (if n_lt a b then b else a) l).
    destruct (n_lt a b) eqn:E.
    + destruct (IH b Hb Hl') as [I1 I2]. split; [right; exact I1|]. intros x [<-|Hx]; [|exact (I2 x Hx)].
      assert (Hm : n_max b l <> NaN) by (intros En; rewrite En in I1; destruct I1 as [I1|I1]; [congruence|contradiction]).
      apply (Hle a b (n_max b l) Ha Hb Hm); [|exact (I2 b (or_introl eq_refl))].
      destruct a, b; cbn in E |- *; try reflexivity; try discriminate. apply Z.ltb_lt in E. apply Z.ltb_ge. lia.
    + destruct (IH a Ha Hl') as [I1 I2]. assert (Hm : n_max a l <> NaN) by (intros En; rewrite En in I1; destruct I1 as [I1|I1]; [congruence|contradiction]).
      split; [destruct I1 as [I1|I1]; [left; exact I1|right; right; exact I1]|].
      intros x [<-|[<-|Hx]]; [exact (I2 a (or_introl eq_refl))| |exact (I2 x (or_intror Hx))].
      exact (Hle b a (n_max a l) Hb Ha Hm E (I2 a (or_introl eq_refl))).
Qed.
Print Assumptions C114_best.

(* Refuted: a beam of one, or a beam with room that meets the nan state first, gives the nan state as
   the best, although the others have real scores. *)
Theorem C114_top_refuted :
  n_beam_run 1 [] [NaN; Fin (-5)] = Ok [NaN]
  /\ (let! h := n_beam_run 5 [] [NaN; Fin (-5); Fin (-2)] in Ok (n_top h)) = Ok (Some NaN)
  /\ (let! h := n_beam_run 5 [] [NInf; Fin (-5); Fin (-2)] in Ok (n_top h)) = Ok (Some (Fin (-2))).
Proof. vm_compute. auto. Qed.
Print Assumptions C114_top_refuted.

Example C114_restored_ex : once [Ktm (Fin (-7)); Ksm (Fin (-4)); Csm (Fin (-1))]
  /\ sc_logp (fold_left charged [Ktm (Fin (-7)); Ksm (Fin (-4)); Csm (Fin (-1))] (uncharged (Fin (-10)))) = Fin (-22)
  /\ sc_logp (rejoined (fold_left charged [Ktm (Fin (-7)); Ksm (Fin (-4)); Csm (Fin (-1))] (uncharged (Fin (-10)))) (Fin (-3))) = Fin (-13).
Proof. split; [|split; reflexivity]. repeat constructor; cbn; lia. Qed.
Example C114_lost_ex : sc_logp (fold_left charged [Ktm NInf; Csm (Fin (-1))] (uncharged (Fin (-10)))) = NInf
  /\ sc_logp (rejoined (fold_left charged [Ktm NInf; Csm (Fin (-1))] (uncharged (Fin (-10)))) (Fin (-3))) = NaN.
Proof. split; reflexivity. Qed.
Example C114_best_ex : n_max NInf [Fin (-5); NInf; Fin (-2); Fin (-9)] = Fin (-2).
Proof. reflexivity. Qed.
Example C114_first_chord_ex :
  let s0 := {| st_chord := None; st_key := 0; st_change := 0; st_logp := -3; st_prev := None; st_hash := None;
               st_prior := []; st_must := false; st_csm := None; st_ksm := None; st_ktm := None |} in
  match chord_transition MIDI MIDI s0 0 2 (-2) with
  | Ok (Some n) => can_key_transition n = false /\ st_prev n = Some s0 /\ st_key n <> 7
                   /\ forced_set [-1; 7; -1] (st_change s0) (st_change n) = [7]
  | _ => False
  end.
Proof. vm_compute. repeat split; discriminate. Qed.
