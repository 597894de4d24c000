(* Lemmas for merge_ties. *)
From Coq Require Import QArith Lqa Permutation.
From Verif Require Import PyBase Proof_Base Model_Rhythm Spec_Rhythm Proof_Rhythm
  Model_Corpus Spec_Corpus Proof_Corpus.
Close Scope Q_scope.
Open Scope Z_scope.

(* ---- keys ---- *)
Lemma key_eqb_iff a b : key_eqb a b = true <-> a = b.
Proof.
  destruct a, b. unfold key_eqb. cbn [fst snd]. rewrite andb_true_iff, !Z.eqb_eq.
  split; [intros [-> ->]; reflexivity|intros H; injection H as -> ->; auto].
Qed.

Lemma key_eqb_refl a : key_eqb a a = true.
Proof. now apply key_eqb_iff. Qed.

Lemma key_eqb_neq a b : a <> b -> key_eqb a b = false.
Proof. intros H. destruct (key_eqb a b) eqn:E; [|reflexivity]. apply key_eqb_iff in E. contradiction. Qed.

Lemma kmem_iff k l : kmem k l = true <-> In k l.
Proof.
  unfold kmem. rewrite existsb_exists. split.
  - intros (x & I & E). apply key_eqb_iff in E. now subst.
  - intros I. exists k. split; [exact I|apply key_eqb_refl].
Qed.

Lemma kmem_false k l : kmem k l = false <-> ~ In k l.
Proof.
  destruct (kmem k l) eqn:E.
  - apply kmem_iff in E. split; [discriminate|contradiction].
  - split; [|reflexivity]. intros _ I. apply kmem_iff in I. congruence.
Qed.

Lemma tied_is_iff v n : tied_is v n = true <-> n_tied n = Some v.
Proof.
  unfold tied_is. destruct (n_tied n) as [t|].
  - rewrite Z.eqb_eq. split; [intros ->; reflexivity|intros H; now injection H].
  - split; discriminate.
Qed.

Lemma ties_iff o i : ties o i = true <-> continues o i.
Proof.
  unfold ties, continues. rewrite !andb_true_iff, !Z.eqb_eq, Qeq_bool_iff. tauto.
Qed.

Lemma in_join o i outs ins : In (o, i) (join outs ins) <-> In o outs /\ In i ins /\ ties o i = true.
Proof.
  unfold join. rewrite in_flat_map. split.
  - intros (o' & Io & H). apply in_map_iff in H. destruct H as (i' & E & Ii).
    injection E as -> ->. apply filter_In in Ii. tauto.
  - intros (Io & Ii & T). exists o. split; [exact Io|]. apply in_map_iff. exists i.
    split; [reflexivity|]. now apply filter_In.
Qed.

(* ---- lists ---- *)
Lemma in_split_perm {A} (x : A) l : In x l -> exists l', Permutation l (x :: l').
Proof.
  intros I. apply in_split in I. destruct I as (a & b & ->). exists (a ++ b).
  symmetry. apply Permutation_middle.
Qed.

Lemma perm_filter {A} (f : A -> bool) l l' : Permutation l l' -> Permutation (filter f l) (filter f l').
Proof.
  induction 1; cbn [filter].
  - constructor.
  - destruct (f x); [now constructor|assumption].
  - destruct (f x), (f y); try constructor; try apply Permutation_refl.
  - eapply Permutation_trans; eauto.
Qed.

Lemma perm_partition {A} (f : A -> bool) l :
  Permutation l (filter f l ++ filter (fun x => negb (f x)) l).
Proof.
  induction l as [|x l IH]; cbn [filter app]; [constructor|].
  destruct (f x); cbn [negb].
  - cbn [app]. now constructor.
  - eapply Permutation_trans; [apply perm_skip, IH|]. apply Permutation_middle.
Qed.

Lemma filter_ext_in' {A} (f g : A -> bool) l : (forall x, In x l -> f x = g x) -> filter f l = filter g l.
Proof. apply filter_ext_in. Qed.

Lemma map_ext_in' {A B} (f g : A -> B) l : (forall x, In x l -> f x = g x) -> map f l = map g l.
Proof. apply map_ext_in. Qed.

Lemma NoDup_app_remove_l {A} (l r : list A) : NoDup (l ++ r) -> NoDup r.
Proof. induction l as [|x l IH]; cbn; intros N; [exact N|]. inversion N; auto. Qed.

(* ---- the invariant ---- *)
Definition okg (g : tnote * list tnote) : Prop := merged_from (fst g) (snd g) /\ tie_shape (fst g) (snd g).

Section Inv.
Context (orig : list tnote).

Definition J (A ins : list tnote) : Prop :=
  exists ga, map fst ga = A /\ Permutation (concat (map snd ga) ++ ins) orig /\ Forall okg ga.

Lemma J_perm A A' ins ins' : Permutation A A' -> Permutation ins ins' -> J A ins -> J A' ins'.
Proof.
  intros PA PI (ga & <- & P & F).
  apply Permutation_sym in PA. apply Permutation_map_inv in PA. destruct PA as (ga' & -> & PG).
  exists ga'. split; [reflexivity|]. split.
  - eapply Permutation_trans; [|exact P]. apply Permutation_app; [|now symmetry].
    symmetry. clear -PG. induction PG; cbn [map concat].
    + constructor.
    + now apply Permutation_app_head.
    + rewrite !app_assoc. apply Permutation_app_tail, Permutation_app_comm.
    + eapply Permutation_trans; eauto.
  - rewrite Forall_forall in *. intros g I. apply F. eapply Permutation_in; [symmetry; exact PG|exact I].
Qed.

Lemma last_snoc {A} (l : list A) x d : last (l ++ [x]) d = x.
Proof. induction l as [|a l IH]; [reflexivity|]. cbn [app last]. destruct (l ++ [x]) eqn:E; [destruct l; discriminate|exact IH]. Qed.

Lemma last_cons' {A} (r : list A) : forall b f, last (b :: r) f = last r b.
Proof.
  induction r as [|c r IH]; intros b f; [reflexivity|].
  change (last (b :: c :: r) f) with (last (c :: r) f). now rewrite !IH.
Qed.

Lemma linked_snoc : forall r f i, linked f r -> continues (last r f) i -> linked f (r ++ [i]).
Proof.
  induction r as [|b r IH]; intros f i L C.
  - cbn. split; [exact C|exact I].
  - destruct L as [L1 L2]. cbn [app linked]. split; [exact L1|]. apply IH; [exact L2|].
    replace (last r b) with (last (b :: r) f); [exact C|].
    apply last_cons'.
Qed.

Lemma linked_same : forall r f, linked f r -> n_file (last r f) = n_file f /\ n_midi (last r f) = n_midi f.
Proof.
  induction r as [|b r IH]; intros f L; [cbn; auto|].
  destruct L as [(E1 & E2 & _) L]. destruct (IH b L) as [H1 H2].
  replace (last (b :: r) f) with (last r b); [split; congruence|].
  symmetry. apply last_cons'.
Qed.

Lemma total_dur_snoc l i : (total_dur (l ++ [i]) == total_dur l + n_dur i)%Q.
Proof. induction l as [|a l IH]; cbn [app total_dur]; [lra|]. rewrite IH. lra. Qed.

Lemma absorb_merged o i l : merged_from o l -> ties o i = true -> merged_from (absorb o i) (l ++ [i]).
Proof.
  intros (f & r & -> & So & L & D & E1 & E2) T. apply ties_iff in T.
  exists f, (r ++ [i]). split; [reflexivity|]. split; [exact So|].
  split.
  { apply linked_snoc; [exact L|]. destruct T as (T1 & T2 & T3 & T4).
    destruct (linked_same r f L) as [S1 S2]. destruct So as (F1 & _ & F3 & _).
    split; [congruence|]. split; [congruence|]. split; [congruence|]. now rewrite <- E2. }
  split.
  { cbn [absorb n_dur]. change ((f :: r) ++ [i]) with ((f :: r) ++ [i]).
    rewrite <- app_comm_cons. change (f :: r ++ [i]) with ((f :: r) ++ [i]).
    rewrite total_dur_snoc, D. reflexivity. }
  rewrite last_snoc. split; reflexivity.
Qed.

Lemma tied_sum o i a b : n_tied o = Some a -> n_tied i = Some b ->
  new_tied o i = if (a =? 0) || (b =? 0) then Some (a + b) else None.
Proof. intros Ho Hi. unfold new_tied, tied_is. rewrite Ho, Hi. reflexivity. Qed.

Lemma absorb_shape o i l : tie_shape o l -> n_tied o <> None ->
  (n_tied i = Some 0 \/ n_tied i = Some (-1)) -> tie_shape (absorb o i) (l ++ [i]).
Proof.
  intros S U Hi. destruct l as [|f r]; [destruct S|]. cbn [app tie_shape] in *.
  change (n_tied (absorb o i)) with (new_tied o i).
  destruct S as [(Tf & [(To & Fr)|(To & _)])|(Tf & Fr & C)]; [| congruence |].
  - left. split; [exact Tf|]. destruct Hi as [Hi|Hi]; rewrite (tied_sum o i _ _ To Hi).
    + left. split; [reflexivity|]. apply Forall_app. split; [exact Fr|]. repeat constructor. exact Hi.
    + right. split; [reflexivity|]. exists r, i. repeat split; auto.
  - right. split; [exact Tf|]. split.
    { apply Forall_app. split; [exact Fr|]. constructor; [exact Hi|constructor]. }
    cbn zeta. rewrite filter_app, app_length. cbn [filter].
    cbn zeta in C. destruct Hi as [Hi|Hi].
    + assert (B : tied_is (-1) i = false) by (unfold tied_is; rewrite Hi; reflexivity). rewrite B.
      destruct C as [(C & To)|[(C & To)|(C & To)]]; [| |congruence];
        rewrite (tied_sum o i _ _ To Hi); cbn [List.length]; rewrite C; cbn; [left|right; left]; auto.
    + assert (B : tied_is (-1) i = true) by (unfold tied_is; rewrite Hi; reflexivity). rewrite B.
      destruct C as [(C & To)|[(C & To)|(C & To)]]; [| |congruence];
        rewrite (tied_sum o i _ _ To Hi); cbn [List.length]; rewrite C; cbn; right; [left|right]; auto.
Qed.

Lemma J_absorb o i A ins : J (o :: A) (i :: ins) -> ties o i = true -> n_tied o <> None ->
  (n_tied i = Some 0 \/ n_tied i = Some (-1)) -> J (absorb o i :: A) ins.
Proof.
  intros (ga & E & P & F) T U Hi. destruct ga as [|[o' l] ga]; [discriminate|].
  cbn [map] in E. injection E as -> <-. cbn [fst] in *.
  inversion F as [|? ? [M S] F']; subst. cbn [fst snd] in *.
  exists ((absorb o i, l ++ [i]) :: ga). split; [reflexivity|]. split.
  - eapply Permutation_trans; [|exact P]. cbn [map concat snd].
    rewrite <- !app_assoc. apply Permutation_app_head. cbn [app]. apply Permutation_middle.
  - constructor; [|exact F']. split; cbn [fst snd]; [now apply absorb_merged|now apply absorb_shape].
Qed.

(* rows usable by an update step *)
Definition good_rows (rows : pairs) (out ins : list tnote) : Prop :=
  (forall o i, In (o, i) rows -> In o out /\ In i ins /\ ties o i = true) /\
  NoDup (map (fun p => nkey (fst p)) rows) /\ NoDup (map (fun p => nkey (snd p)) rows).

Definition in_ties (ins : list tnote) : Prop :=
  forall i, In i ins -> n_tied i = Some 0 \/ n_tied i = Some (-1).
Definition unfinished (out : list tnote) : Prop := forall o, In o out -> n_tied o <> None.

Definition drop_in (rows : pairs) (ins : list tnote) : list tnote :=
  filter (fun i => negb (kmem (nkey i) (map (fun p => nkey (snd p)) rows))) ins.

Lemma J_update : forall rows out A ins,
  J (out ++ A) ins -> good_rows rows out ins -> in_ties ins -> unfinished out ->
  NoDup (map nkey out) -> NoDup (map nkey ins) ->
  J (map (upd_out rows) out ++ A) (drop_in rows ins) /\
  (List.length (drop_in rows ins) + List.length rows = List.length ins)%nat.
Proof.
  induction rows as [|[o i] rows IH]; intros out A ins HJ G IT UF NO NI.
  - assert (E1 : map (upd_out []) out = out) by (rewrite <- (map_id out) at 2; apply map_ext; reflexivity).
    assert (E2 : drop_in [] ins = ins).
    { unfold drop_in. cbn. clear. induction ins as [|x ins IH]; cbn [filter]; congruence. }
    rewrite E1, E2. split; [exact HJ|cbn; lia].
  - destruct G as (G & N1 & N2). cbn [map fst snd] in N1, N2.
    inversion N1 as [|? ? X1 N1']; subst. inversion N2 as [|? ? X2 N2']; subst. clear N1 N2.
    destruct (G o i (or_introl eq_refl)) as (Io & Ii & T).
    destruct (in_split_perm o out Io) as (out1 & PO). destruct (in_split_perm i ins Ii) as (ins1 & PI).
    assert (NO' : NoDup (map nkey (o :: out1))).
    { eapply Permutation_NoDup; [|exact NO]. now apply Permutation_map. }
    assert (NI' : NoDup (map nkey (i :: ins1))).
    { eapply Permutation_NoDup; [|exact NI]. now apply Permutation_map. }
    cbn [map] in NO', NI'. inversion NO' as [|? ? XO NO1]; subst. inversion NI' as [|? ? XI NI1]; subst.
    assert (J1 : J (out1 ++ absorb o i :: A) ins1).
    { apply (J_perm (absorb o i :: out1 ++ A) _ ins1); [apply Permutation_middle|reflexivity|].
      apply J_absorb; [|exact T|apply UF, Io|apply IT, Ii].
      apply (J_perm (out ++ A) _ ins); [rewrite PO; reflexivity|exact PI|exact HJ]. }
    destruct (IH out1 (absorb o i :: A) ins1) as [J2 L2]; auto.
    { split; [|split; assumption]. intros o' i' I'. destruct (G o' i' (or_intror I')) as (Io' & Ii' & T').
      split; [|split; [|exact T']].
      - apply (Permutation_in _ PO) in Io'. destruct Io' as [<-|Io']; [|exact Io'].
        exfalso. apply X1. apply in_map_iff. exists (o, i'). split; [reflexivity|exact I'].
      - apply (Permutation_in _ PI) in Ii'. destruct Ii' as [<-|Ii']; [|exact Ii'].
        exfalso. apply X2. apply in_map_iff. exists (o', i). split; [reflexivity|exact I']. }
    { intros j Ij. apply IT. eapply Permutation_in; [symmetry; exact PI|]. now right. }
    { intros j Ij. apply UF. eapply Permutation_in; [symmetry; exact PO|]. now right. }
    assert (PO2 : Permutation (map (upd_out ((o, i) :: rows)) out)
                              (absorb o i :: map (upd_out rows) out1)).
    { eapply Permutation_trans; [apply Permutation_map, PO|]. cbn [map].
      assert (E0 : upd_out ((o, i) :: rows) o = absorb o i).
      { unfold upd_out. cbn [find fst]. now rewrite key_eqb_refl. }
      rewrite E0. rewrite (map_ext_in' (upd_out ((o, i) :: rows)) (upd_out rows)); [reflexivity|].
      intros x Ix. unfold upd_out. cbn [find fst]. rewrite key_eqb_neq; [reflexivity|].
      intros Ek. apply XO. rewrite Ek. now apply in_map. }
    assert (PI2 : Permutation (drop_in ((o, i) :: rows) ins) (drop_in rows ins1)).
    { unfold drop_in. eapply Permutation_trans; [apply perm_filter, PI|].
      cbn [map snd filter]. cbn [kmem existsb]. rewrite key_eqb_refl. cbn [orb negb].
      rewrite (filter_ext_in' _ (fun i0 => negb (kmem (nkey i0) (map (fun p => nkey (snd p)) rows))));
        [reflexivity|].
      intros x Ix. rewrite key_eqb_neq; [reflexivity|]. intros Ek. apply XI. rewrite <- Ek.
      now apply in_map. }
    split.
    + eapply J_perm; [| |exact J2].
      * rewrite PO2. cbn [app]. symmetry. apply Permutation_middle.
      * now symmetry.
    + rewrite (Permutation_length PI2). rewrite (Permutation_length PI). cbn [List.length]. lia.
Qed.

(* ---- states ---- *)
Definition maximal (fin ins : list tnote) : Prop :=
  forall n i, In n fin -> n_tied n <> None -> In i ins -> ties n i = false.

(* first the tie onsets are extended, then the chains whose beginning is missing *)
Definition phase (s : mstate) : Prop :=
  (forall o, In o (s_out s) -> n_tied o <> Some 1) \/
  (forall x, In x (s_out s ++ s_fin s) -> exists f, In f orig /\ n_tied f = Some 1 /\ nkey f = nkey x).
(* a finished tie onset had nothing to continue with *)
Definition keys3 (s : mstate) : list key := map nkey (s_in s ++ s_out s ++ s_fin s).
Definition gone (s : mstate) : Prop :=
  forall n i, In n (s_fin s) -> n_tied n = Some 1 -> In i orig -> (n_tied i = Some 0 \/ n_tied i = Some (-1)) ->
  ties n i = true -> ~ In (nkey i) (keys3 s).

Record inv (s : mstate) : Prop := mkInv {
  inv_J : J (s_out s ++ s_fin s) (s_in s);
  inv_in : in_ties (s_in s);
  inv_out : unfinished (s_out s);
  inv_max : maximal (s_fin s) (s_in s);
  inv_phase : phase s;
  inv_gone : gone s }.

Context (ND : NoDup (map nkey orig)).

Lemma chain_head_key g : okg g -> exists f r, snd g = f :: r /\ nkey (fst g) = nkey f.
Proof.
  intros [(f & r & E & (F1 & F2 & _) & _) _]. exists f, r. split; [exact E|].
  unfold nkey. congruence.
Qed.

Lemma J_nodup : forall ga R, Forall okg ga ->
  NoDup (map nkey (concat (map snd ga) ++ R)) -> NoDup (map nkey (map fst ga ++ R)).
Proof.
  induction ga as [|g ga IH]; intros R F N; [exact N|].
  inversion F as [|? ? Hg F']; subst. destruct (chain_head_key g Hg) as (f & r & E & K).
  cbn [map concat] in N. rewrite E in N. rewrite <- app_assoc in N. cbn [app map] in N.
  inversion N as [|? ? X N']; subst. rewrite map_app in N'.
  apply NoDup_app_remove_l in N'. specialize (IH R F' N').
  cbn [map app]. constructor; [|exact IH]. rewrite K. intros I. apply X.
  rewrite map_app. apply in_or_app. right. clear -F' I.
  rewrite map_app in *. apply in_app_or in I. apply in_or_app. destruct I as [I|I]; [left|now right].
  rewrite map_map in I. apply in_map_iff in I. destruct I as (g & E & I).
  rewrite Forall_forall in F'. destruct (chain_head_key g (F' g I)) as (f' & r' & E' & K').
  rewrite <- E, K'. apply in_map. apply in_concat. exists (snd g).
  split; [now apply in_map|]. rewrite E'. now left.
Qed.

Lemma J_keys A ins : J A ins -> NoDup (map nkey (A ++ ins)).
Proof.
  intros (ga & <- & P & F). apply J_nodup; [exact F|].
  eapply Permutation_NoDup; [|exact ND]. apply Permutation_map. now symmetry.
Qed.

Lemma nodup_app_l {A} (l r : list A) : NoDup (l ++ r) -> NoDup l.
Proof.
  induction l as [|x l IH]; cbn; intros N; [constructor|]. inversion N as [|? ? X N']; subst.
  constructor; [|now apply IH]. intros I. apply X. apply in_or_app. now left.
Qed.

Lemma inv_keys s : inv s -> NoDup (map nkey (s_out s)) /\ NoDup (map nkey (s_in s)).
Proof.
  intros I. pose proof (J_keys _ _ (inv_J s I)) as N. rewrite !map_app in N.
  split; [now apply nodup_app_l, nodup_app_l in N|now apply NoDup_app_remove_l in N].
Qed.

Lemma J_in_orig A ins : J A ins -> forall i, In i ins -> In i orig.
Proof. intros (ga & _ & P & _) i I. eapply Permutation_in; [exact P|]. apply in_or_app. now right. Qed.

Lemma J_tied A ins : J A ins -> forall n t, In n A -> n_tied n = Some t -> t = 1 \/ t = 0 \/ t = -1.
Proof.
  intros (ga & <- & _ & F) n t I E. apply in_map_iff in I. destruct I as (g & <- & I).
  rewrite Forall_forall in F. destruct (F g I) as [_ S]. destruct (snd g) as [|f r]; [destruct S|].
  cbn [tie_shape] in S. cbn zeta in S.
  destruct S as [(_ & [(X & _)|(X & _)])|(_ & _ & [(_ & X)|[(_ & X)|(_ & X)]])]; rewrite E in X; try discriminate;
    injection X as <-; auto.
Qed.

Lemma upd_out_key rows o : nkey (upd_out rows o) = nkey o.
Proof.
  unfold upd_out. destruct (find _ rows) as [[a i]|] eqn:E; [|reflexivity].
  apply find_some in E. destruct E as [_ E]. apply key_eqb_iff in E. cbn [fst] in E. rewrite <- E. reflexivity.
Qed.

Lemma update_keys rows s k : In k (keys3 (update_step rows s)) -> In k (keys3 s).
Proof.
  unfold keys3. cbn [update_step s_in s_out s_fin]. rewrite !map_app, !in_app_iff.
  assert (X : forall (g : tnote -> bool), In k (map nkey (filter g (map (upd_out rows) (s_out s)))) -> In k (map nkey (s_out s))).
  { intros g I. apply in_map_iff in I. destruct I as (x & <- & I). apply filter_In in I. destruct I as [I _].
    apply in_map_iff in I. destruct I as (o & <- & I). rewrite upd_out_key. now apply in_map. }
  intros [I|[I|[I|I]]]; eauto.
  apply in_map_iff in I. destruct I as (x & <- & I). apply filter_In in I. left. apply in_map, I.
Qed.

Lemma update_phase rows s : J (s_out s ++ s_fin s) (s_in s) -> in_ties (s_in s) -> phase s ->
  good_rows rows (s_out s) (s_in s) -> phase (update_step rows s).
Proof.
  intros HJ IT [Ph|Ph] G.
  - left. intros o Io. cbn [update_step s_out] in Io. apply filter_In in Io. destruct Io as [Io _].
    apply in_map_iff in Io. destruct Io as (o0 & <- & Io0). unfold upd_out.
    destruct (find _ rows) as [[a i]|] eqn:E; [|now apply Ph].
    apply find_some in E. destruct E as [Ip _]. destruct G as (G & _). destruct (G a i Ip) as (Ia & Ii & _).
    change (n_tied (absorb a i)) with (new_tied a i).
    destruct (n_tied a) as [ta|] eqn:Ea.
    + pose proof (Ph a Ia) as Na. rewrite Ea in Na.
      assert (Ta : ta = 1 \/ ta = 0 \/ ta = -1) by (apply (J_tied _ _ HJ a); [apply in_or_app; now left|exact Ea]).
      assert (Ta' : ta = 0 \/ ta = -1) by (destruct Ta as [->|Ta]; [contradiction|exact Ta]).
      destruct (IT i Ii) as [Ei|Ei]; rewrite (tied_sum a i _ _ Ea Ei);
        destruct Ta' as [->| ->]; cbn; discriminate.
    + unfold new_tied. rewrite Ea. destruct (_ || _); discriminate.
  - right. intros x Ix. assert (Kx : exists y, In y (s_out s ++ s_fin s) /\ nkey y = nkey x).
    { cbn [update_step s_out s_fin] in Ix. apply in_app_or in Ix.
      assert (X : forall (g : tnote -> bool), In x (filter g (map (upd_out rows) (s_out s))) ->
                  exists y, In y (s_out s ++ s_fin s) /\ nkey y = nkey x).
      { intros g I. apply filter_In in I. destruct I as [I _]. apply in_map_iff in I.
        destruct I as (o & <- & I). exists o. split; [apply in_or_app; now left|]. symmetry. apply upd_out_key. }
      destruct Ix as [Ix|Ix]; [eauto|]. apply in_app_or in Ix. destruct Ix as [Ix|Ix]; [|eauto].
      exists x. split; [apply in_or_app; now right|reflexivity]. }
    destruct Kx as (y & Iy & <-). now apply Ph.
Qed.

Lemma update_gone rows s : gone s -> gone (update_step rows s).
Proof.
  intros Gn n i In' E Ii Ti T K. apply update_keys in K.
  cbn [update_step s_fin] in In'. apply in_app_or in In'. destruct In' as [In'|In'].
  - exact (Gn n i In' E Ii Ti T K).
  - apply filter_In in In'. destruct In' as [_ F]. unfold finished in F. rewrite E in F. discriminate.
Qed.

Lemma update_inv rows s : inv s -> good_rows rows (s_out s) (s_in s) ->
  inv (update_step rows s) /\
  (List.length (s_in (update_step rows s)) + List.length rows = List.length (s_in s))%nat /\
  (List.length (s_out (update_step rows s)) <= List.length (s_out s))%nat.
Proof.
  intros I G. destruct (inv_keys s I) as [NO NI].
  destruct (J_update rows (s_out s) (s_fin s) (s_in s) (inv_J s I) G (inv_in s I) (inv_out s I) NO NI)
    as [HJ L].
  split; [|split].
  - constructor; cbn [update_step s_out s_in s_fin].
    + eapply J_perm; [|reflexivity|exact HJ].
      set (out := map (upd_out rows) (s_out s)).
      rewrite (perm_partition finished out) at 1.
      rewrite <- app_assoc. rewrite Permutation_app_comm. rewrite <- app_assoc. apply Permutation_refl.
    + intros i Ii. apply filter_In in Ii. apply (inv_in s I). apply Ii.
    + intros o Io. apply filter_In in Io. destruct Io as [_ F]. unfold finished in F.
      destruct (n_tied o); [discriminate|discriminate F].
    + intros n i In' U Ii. apply filter_In in Ii. destruct Ii as [Ii _].
      apply in_app_or in In'. destruct In' as [In'|In']; [now apply (inv_max s I)|].
      apply filter_In in In'. destruct In' as [_ F]. unfold finished in F.
      destruct (n_tied n); [discriminate|contradiction].
    + apply (update_phase rows s (inv_J s I) (inv_in s I) (inv_phase s I) G).
    + apply (update_gone rows s (inv_gone s I)).
  - exact L.
  - cbn [update_step s_out]. eapply Nat.le_trans; [apply filter_length_le|]. rewrite map_length. lia.
Qed.

Lemma in_upd_other rows s o : In o (s_out s) -> n_tied o <> None ->
  ~ In (nkey o) (map (fun p => nkey (fst p)) rows) -> In o (s_out (update_step rows s)).
Proof.
  intros I U N. cbn [update_step s_out]. apply filter_In. split.
  - apply in_map_iff. exists o. split; [|exact I]. unfold upd_out.
    destruct (find _ rows) as [[a i]|] eqn:E; [|reflexivity].
    apply find_some in E. destruct E as [I' E]. apply key_eqb_iff in E. cbn [fst] in E.
    exfalso. apply N. rewrite <- E. apply in_map_iff. exists (a, i). split; [reflexivity|exact I'].
  - unfold finished. destruct (n_tied o); [reflexivity|contradiction].
Qed.

Lemma in_drop_other rows s i : In i (s_in s) ->
  ~ In (nkey i) (map (fun p => nkey (snd p)) rows) -> In i (s_in (update_step rows s)).
Proof.
  intros I N. cbn [update_step s_in]. apply filter_In. split; [exact I|].
  apply negb_true_iff, kmem_false. exact N.
Qed.

(* ---- drop_dups ---- *)
Lemma drop_dups_in {A} (k : A -> key) l : forall seen x, In x (drop_dups k seen l) -> In x l.
Proof.
  induction l as [|a l IH]; intros seen x; cbn [drop_dups]; [easy|].
  destruct (kmem (k a) seen); intros H; [right; eauto|].
  destruct H as [<-|H]; [now left|right; eauto].
Qed.

Lemma drop_dups_unseen {A} (k : A -> key) l : forall seen x, In x (drop_dups k seen l) -> ~ In (k x) seen.
Proof.
  induction l as [|a l IH]; intros seen x; cbn [drop_dups]; [easy|].
  destruct (kmem (k a) seen) eqn:E; intros H; [eauto|].
  destruct H as [<-|H]; [now apply kmem_false|]. intros X. apply (IH _ _ H). now right.
Qed.

Lemma drop_dups_nodup {A} (k : A -> key) l : forall seen, NoDup (map k (drop_dups k seen l)).
Proof.
  induction l as [|a l IH]; intros seen; cbn [drop_dups]; [constructor|].
  destruct (kmem (k a) seen); [apply IH|]. cbn [map]. constructor; [|apply IH].
  intros I. apply in_map_iff in I. destruct I as (x & E & I).
  apply (drop_dups_unseen k l _ x I). rewrite E. now left.
Qed.

Lemma drop_dups_nonempty {A} (k : A -> key) l : l <> [] -> drop_dups k [] l <> [].
Proof. destruct l; [easy|]. cbn. discriminate. Qed.

Lemma drop_dups_sub_nodup {A} (k k' : A -> key) l : NoDup (map k' l) ->
  forall seen, NoDup (map k' (drop_dups k seen l)).
Proof.
  induction l as [|a l IH]; cbn [map]; intros N seen; cbn [drop_dups]; [constructor|].
  inversion N as [|? ? X N']; subst. destruct (kmem (k a) seen); [now apply IH|].
  cbn [map]. constructor; [|now apply IH]. intros I. apply X.
  apply in_map_iff in I. destruct I as (x & <- & I). apply in_map. eapply drop_dups_in; eauto.
Qed.

Lemma naive_drop_spec rows : (forall p, In p (naive_drop rows) -> In p rows) /\
  NoDup (map (fun p => nkey (fst p)) (naive_drop rows)) /\
  NoDup (map (fun p => nkey (snd p)) (naive_drop rows)) /\
  (rows <> [] -> naive_drop rows <> []).
Proof.
  unfold naive_drop. split; [|split; [|split]].
  - intros p I. do 2 apply drop_dups_in in I. exact I.
  - apply drop_dups_sub_nodup. apply drop_dups_nodup.
  - apply drop_dups_nodup.
  - intros H. now do 2 apply drop_dups_nonempty.
Qed.

(* ---- counting ---- *)
Lemma count_pos k l : In k l -> (1 <= count k l)%nat.
Proof.
  intros I. unfold count. induction l as [|x l IH]; [destruct I|]. cbn [filter].
  destruct I as [->|I].
  - rewrite key_eqb_refl. cbn [List.length]. lia.
  - specialize (IH I). destruct (key_eqb k x); cbn [List.length]; lia.
Qed.

Lemma count_two {A} (k : A -> key) l a b : In a l -> In b l -> a <> b -> k a = k b ->
  (2 <= count (k a) (map k l))%nat.
Proof.
  intros Ia Ib NE E. unfold count. induction l as [|x l IH]; [destruct Ia|]. cbn [map filter].
  destruct Ia as [->|Ia], Ib as [->|Ib].
  - contradiction.
  - rewrite key_eqb_refl. cbn [List.length].
    assert (X : In (k a) (map k l)) by (rewrite E; now apply in_map).
    apply count_pos in X. unfold count in X. lia.
  - rewrite E, key_eqb_refl. cbn [List.length].
    assert (X : In (k a) (map k l)) by now apply in_map.
    apply count_pos in X. unfold count in X. rewrite E in X. lia.
  - specialize (IH Ia Ib). destruct (key_eqb (k a) (k x)); cbn [List.length]; lia.
Qed.

Lemma count_filter_le {A} (k : A -> key) p l x :
  (count x (map k (filter p l)) <= count x (map k l))%nat.
Proof.
  unfold count. induction l as [|a l IH]; cbn [filter map]; [lia|].
  destruct (p a); cbn [map filter]; destruct (key_eqb x (k a)); cbn [List.length]; lia.
Qed.

Lemma count_nodup l : (forall x, In x l -> count x l = 1%nat) -> NoDup l.
Proof.
  induction l as [|a l IH]; intros H; [constructor|].
  assert (Na : ~ In a l).
  { intros I. pose proof (H a (or_introl eq_refl)) as C. unfold count in C. cbn [filter] in C.
    rewrite key_eqb_refl in C. cbn [List.length] in C. apply count_pos in I. unfold count in I. lia. }
  constructor; [exact Na|]. apply IH. intros x I. pose proof (H x (or_intror I)) as C.
  unfold count in *. cbn [filter] in C. rewrite key_eqb_neq in C; [exact C|]. intros ->. contradiction.
Qed.

Lemma single_nodup {A} (k : A -> key) p l :
  (forall a, In a l -> p a = true -> count (k a) (map k l) = 1%nat) -> NoDup (map k (filter p l)).
Proof.
  intros H. apply count_nodup. intros x I. pose proof (count_pos _ _ I) as C1.
  apply in_map_iff in I. destruct I as (a & <- & I). apply filter_In in I. destruct I as [I Pa].
  pose proof (count_filter_le k p l (k a)). pose proof (H a I Pa). lia.
Qed.

(* ---- repopulate ---- *)
Lemma repopulate_inv ins fin : J fin ins -> in_ties ins -> maximal fin ins -> gone (mkMS [] ins fin) ->
  inv (repopulate ins fin).
Proof.
  intros HJ IT M Gn. unfold repopulate.
  set (move := fun n => _ && _). cbn zeta.
  assert (Mv : forall o, In o (filter move ins) -> n_tied o = Some 0).
  { intros o Io. apply filter_In in Io. destruct Io as [Io Mo]. unfold move in Mo.
      apply andb_true_iff in Mo. destruct Mo as [Mo _]. apply kmem_iff in Mo.
      apply in_map_iff in Mo. destruct Mo as ([a i] & E & I). apply in_join in I.
      destruct I as (Ia & _ & _). apply filter_In in Ia. destruct Ia as [Ia Ta].
      assert (a = o).
      { cbn [fst] in E. pose proof (J_keys _ _ HJ) as N. rewrite map_app in N.
        apply NoDup_app_remove_l in N. now apply (nodup_map_inj nkey ins). }
      subst a. now apply tied_is_iff. }
  constructor; cbn [s_out s_in s_fin].
  - assert (X : forall mv rest, J fin (mv ++ rest) -> (forall o, In o mv -> n_tied o = Some 0) ->
                J (mv ++ fin) rest).
    { clear. induction mv as [|o mv IH]; intros rest HJ H; [exact HJ|].
      assert (J1 : J (mv ++ fin) (o :: rest)).
      { apply IH; [|intros x Ix; apply H; now right].
        eapply J_perm; [reflexivity| |exact HJ]. cbn [app]. apply Permutation_middle. }
      destruct J1 as (ga & E & P & F). exists ((o, [o]) :: ga). split; [cbn; now rewrite E|]. split.
      - cbn [map snd concat]. eapply Permutation_trans; [|exact P]. cbn [app]. apply Permutation_middle.
      - constructor; [|exact F]. split; cbn [fst snd].
        + exists o, []. repeat split; cbn [total_dur]; lra.
        + right. rewrite (H o (or_introl eq_refl)). cbn. auto. }
    apply X.
    + eapply J_perm; [reflexivity| |exact HJ]. apply perm_partition.
    + exact Mv.
  - intros i Ii. apply filter_In in Ii. apply IT, Ii.
  - intros o Io. apply filter_In in Io. destruct (IT o (proj1 Io)) as [H|H]; rewrite H; discriminate.
  - intros n i In' U Ii. apply filter_In in Ii. apply M; auto. apply Ii.
  - left. intros o Io. rewrite (Mv o Io). discriminate.
  - intros n i In' E Ii Ti T K. apply (Gn n i In' E Ii Ti T).
    unfold keys3 in *. cbn [s_in s_out s_fin app] in *. rewrite !map_app, !in_app_iff in *.
    destruct K as [K|[K|K]]; [| |now right]; left; apply in_map_iff in K; destruct K as (x & <- & K);
      apply filter_In in K; apply in_map, K.
Qed.

Definition mu (s : mstate) : nat := 2 * List.length (s_in s) + List.length (s_out s).

Lemma repopulate_mu ins fin : (mu (repopulate ins fin) <= 2 * List.length ins)%nat.
Proof.
  assert (E : exists mv, repopulate ins fin =
    mkMS (filter mv ins) (filter (fun n => negb (mv n)) ins) fin) by (eexists; reflexivity).
  destruct E as (mv & ->). unfold mu. cbn [s_in s_out].
  pose proof (Permutation_length (perm_partition mv ins)) as H. rewrite app_length in H. lia.
Qed.

(* ---- one iteration ---- *)
Context (shuffle : pairs -> pairs) (SH : forall l, Permutation (shuffle l) l).

Lemma in_shuffle l p : In p (shuffle l) <-> In p l.
Proof. split; apply Permutation_in; [apply SH|symmetry; apply SH]. Qed.

Lemma finish_inv s : inv s ->
  inv (match s_out s with [] => repopulate (s_in s) (s_fin s) | _ => s end) /\
  (mu (match s_out s with [] => repopulate (s_in s) (s_fin s) | _ => s end) <= mu s)%nat.
Proof.
  intros I. destruct (s_out s) as [|o out] eqn:E; [|split; [exact I|lia]].
  split.
  - apply repopulate_inv; [|apply I|apply I|].
    + pose proof (inv_J s I) as HJ. now rewrite E in HJ.
    + pose proof (inv_gone s I) as Gn. unfold gone, keys3 in *. rewrite E in Gn. exact Gn.
  - eapply Nat.le_trans; [apply repopulate_mu|]. unfold mu. lia.
Qed.

(* a state is updated, or an update step makes progress *)
Lemma double_step_inv doubly s : inv s -> doubly <> [] ->
  (forall o i, In (o, i) doubly -> In o (s_out s) /\ In i (s_in s) /\ ties o i = true) ->
  exists s', double_step shuffle doubly s = Ok s' /\ inv s' /\ (mu s' < mu s)%nat.
Proof.
  intros I NEd Dm. unfold double_step. destruct doubly as [|d0 dr] eqn:Ed0; [contradiction|].
  rewrite <- Ed0 in *. clear Ed0 d0 dr.
  set (more := same_voice doubly). cbn zeta.
  destruct (naive_drop_spec (filter (fun p => (n_staff (fst p) =? n_staff (snd p)) &&
              (n_voice (fst p) =? n_voice (snd p))) doubly)) as (M1 & M2 & M3 & _).
  fold (same_voice doubly) in M1, M2, M3. fold more in M1, M2, M3.
  assert (G2 : good_rows more (s_out s) (s_in s)).
  { split; [|split; assumption]. intros o i Ip. apply M1, filter_In in Ip. now apply Dm. }
  destruct (update_inv _ _ I G2) as (I3 & Li3 & Lo3).
  assert (Ou : forall o, In o (s_out s) -> ~ In (nkey o) (outs_of more) ->
               In o (s_out (update_step more s))).
  { intros o Io N. apply in_upd_other; [exact Io|now apply (inv_out s I)|exact N]. }
  assert (Iu : more = [] -> forall i, In i (s_in s) -> In i (s_in (update_step more s))).
  { intros E i Ii. apply in_drop_other; [exact Ii|]. rewrite E. cbn. tauto. }
  assert (Nd : forall k, In k (need_force doubly more) -> exists o i, k = nkey o /\ In (o, i) doubly /\
                In o (s_out (update_step more s))).
  { intros k Ik. unfold need_force in Ik. apply filter_In in Ik. destruct Ik as [Ik Nk].
    apply negb_true_iff, kmem_false in Nk.
    apply in_map_iff in Ik. destruct Ik as ([o i] & <- & Ip). exists o, i.
    split; [reflexivity|]. split; [exact Ip|]. apply Ou; [apply (Dm o i Ip)|exact Nk]. }
  assert (Nm : need_force doubly more = [] -> more <> []).
  { intros En Em. unfold need_force in En. rewrite Em in En. cbn [outs_of map] in En.
    destruct doubly as [|d ds]; [contradiction|]. cbn in En. discriminate. }
  set (s3 := update_step more s) in *. clearbody more s3. 
  assert (mu3 : (mu s3 + 2 * List.length more <= mu s)%nat) by (unfold mu; lia).
  unfold force_step. destruct (need_force doubly more) as [|k0 nr] eqn:En.
  - exists s3. split; [reflexivity|]. split; [exact I3|].
    specialize (Nm eq_refl). destruct more; [contradiction|]. cbn [List.length] in mu3. lia.
  - rewrite <- En in *.
    assert (FB : forallb (fun k => kmem k (map nkey (s_out s3))) (need_force doubly more) = true).
    { apply forallb_forall. intros k Ik. destruct (Nd k Ik) as (o & i & -> & _ & Io).
      apply kmem_iff. now apply in_map. }
    rewrite FB.
    set (jn := shuffle (join (filter (fun o => kmem (nkey o) (need_force doubly more)) (s_out s3)) (s_in s3))).
    destruct (naive_drop_spec jn) as (N1 & N2 & N3 & N4).
    assert (G3 : good_rows (naive_drop jn) (s_out s3) (s_in s3)).
    { split; [|split; assumption]. intros o i Ip. apply N1 in Ip. unfold jn in Ip.
      apply in_shuffle, in_join in Ip. destruct Ip as (A & B & C). apply filter_In in A.
      split; [apply A|split; assumption]. }
    destruct (update_inv _ _ I3 G3) as (I4 & Li4 & Lo4).
    eexists. split; [reflexivity|]. split; [exact I4|].
    assert (mu4 : (mu (update_step (naive_drop jn) s3) + 2 * List.length (naive_drop jn) <= mu s3)%nat)
      by (unfold mu; lia).
    assert (Cm : more = [] \/ (1 <= List.length more)%nat).
    { clear. destruct more; [now left|right; cbn; lia]. }
    destruct Cm as [Em|Lm]; [|lia].
    (* nothing matched by staff and voice: the forced join is not empty *)
    assert (NJ : jn <> []).
    { assert (Ik0 : In k0 (need_force doubly more)) by (rewrite En; now left).
      destruct (Nd k0 Ik0) as (o & i & Ek & Ip & Io).
      intros Ej. assert (X : In (o, i) jn).
      { unfold jn. apply in_shuffle, in_join. split; [|split].
        - apply filter_In. split; [exact Io|]. apply kmem_iff. now rewrite <- Ek.
        - apply Iu; [exact Em|apply (Dm o i Ip)].
        - apply (Dm o i Ip). }
      rewrite Ej in X. destruct X. }
    specialize (N4 NJ). destruct (naive_drop jn); [contradiction|]. cbn [List.length] in mu4. lia.
Qed.

Lemma merge_iter_inv s : inv s -> s_out s <> [] ->
  exists s', merge_iter shuffle s = Ok s' /\ inv s' /\ (mu s' < mu s)%nat.
Proof.
  intros I NE. unfold merge_iter.
  set (merged := shuffle (join (s_out s) (s_in s))). cbn zeta.
  assert (Im : forall o i, In (o, i) merged <-> In o (s_out s) /\ In i (s_in s) /\ ties o i = true).
  { intros o i. unfold merged. rewrite in_shuffle. apply in_join. }
  destruct (inv_keys s I) as [NO NI]. clearbody merged.
  set (s1 := drop_unmatched merged s).
  assert (I1 : inv s1).
  { constructor; cbn [s1 drop_unmatched s_out s_in s_fin].
    - eapply J_perm; [|reflexivity|exact (inv_J s I)].
      rewrite (perm_partition (fun o => kmem (nkey o) (outs_of merged)) (s_out s)) at 1.
      rewrite <- app_assoc. apply Permutation_app_head. apply Permutation_app_comm.
    - apply I.
    - intros o Io. apply filter_In in Io. apply (inv_out s I), Io.
    - intros n i In' U Ii. apply in_app_or in In'. destruct In' as [In'|In']; [now apply (inv_max s I)|].
      apply filter_In in In'. destruct In' as [In' K]. apply negb_true_iff, kmem_false in K.
      destruct (ties n i) eqn:T; [|reflexivity]. exfalso. apply K.
      apply in_map_iff. exists (n, i). split; [reflexivity|]. now apply Im.
    - destruct (inv_phase s I) as [Ph|Ph].
      + left. intros o Io. cbn [s1 drop_unmatched s_out] in Io. apply filter_In in Io. apply Ph, Io.
      + right. intros x Ix. apply Ph. cbn [s1 drop_unmatched s_out s_fin] in Ix. rewrite !in_app_iff in *.
        destruct Ix as [Ix|[Ix|Ix]]; [left; apply filter_In in Ix; apply Ix|now right|
          left; apply filter_In in Ix; apply Ix].
    - intros n i In' E Ii Ti T K.
      assert (K' : In (nkey i) (keys3 s)).
      { unfold keys3 in *. cbn [s1 drop_unmatched s_in s_out s_fin] in K. rewrite !map_app, !in_app_iff in *.
        destruct K as [K|[K|[K|K]]]; [now left|right; left|right; now right|right; left];
          apply in_map_iff in K; destruct K as (x & <- & K); apply filter_In in K; apply in_map, K. }
      cbn [s1 drop_unmatched s_fin] in In'. apply in_app_or in In'.
      destruct In' as [In'|In']; [exact (inv_gone s I n i In' E Ii Ti T K')|].
      apply filter_In in In'. destruct In' as [In' Un]. apply negb_true_iff, kmem_false in Un.
      unfold keys3 in K'. rewrite map_app in K'. apply in_app_or in K'. destruct K' as [K'|K'].
      + apply in_map_iff in K'. destruct K' as (i' & Ek & Ii').
        assert (i' = i).
        { apply (nodup_map_inj nkey orig); auto. apply (J_in_orig _ _ (inv_J s I) i' Ii'). }
        subst i'. apply Un. apply in_map_iff. exists (n, i). split; [reflexivity|]. now apply Im.
      + destruct (inv_phase s I) as [Ph|Ph]; [exact (Ph n In' E)|].
        apply in_map_iff in K'. destruct K' as (x & Ek & Ix). destruct (Ph x Ix) as (f & If & Tf & Ef).
        assert (f = i) by (apply (nodup_map_inj nkey orig); auto; congruence).
        subst f. rewrite Tf in Ti. destruct Ti; discriminate. }
  assert (L1 : (mu s1 <= mu s)%nat).
  { unfold mu, s1. cbn [drop_unmatched s_in s_out].
    pose proof (filter_length_le (fun o => kmem (nkey o) (outs_of merged)) (s_out s)). lia. }
  assert (O1 : forall o i, In (o, i) merged -> In o (s_out s1)).
  { intros o i Ip. pose proof (proj1 (Im o i) Ip) as (A & B & C). cbn [s1 drop_unmatched s_out].
    apply filter_In. split; [exact A|]. apply kmem_iff. apply in_map_iff. exists (o, i).
    split; [reflexivity|exact Ip]. }
  assert (G1 : good_rows (filter (single merged) merged) (s_out s1) (s_in s1)).
  { split; [|split].
    - intros o i Ip. apply filter_In in Ip. destruct Ip as [Ip _].
      pose proof (proj1 (Im o i) Ip) as (A & B & C).
      split; [now apply (O1 o i)|split; assumption].
    - apply single_nodup. intros a Ia Sa. apply andb_true_iff in Sa. destruct Sa as [Sa _].
      apply Nat.eqb_eq in Sa. exact Sa.
    - apply single_nodup. intros a Ia Sa. apply andb_true_iff in Sa. destruct Sa as [_ Sa].
      apply Nat.eqb_eq in Sa. exact Sa. }
  destruct (update_inv _ _ I1 G1) as (I2 & Li2 & Lo2).
  set (s2 := update_step (filter (single merged) merged) s1) in *.
  set (doubly := filter (fun p => negb (single merged p)) merged).
  (* members of doubly are untouched by the first update *)
  assert (Dm : forall o i, In (o, i) doubly -> In o (s_out s2) /\ In i (s_in s2) /\ ties o i = true).
  { intros o i Ip. apply filter_In in Ip. destruct Ip as [Ip Ns]. apply negb_true_iff in Ns.
    pose proof (proj1 (Im o i) Ip) as (A & B & C). split; [|split; [|exact C]].
    - apply in_upd_other; [now apply (O1 o i)|now apply (inv_out s I)|].
      intros X. apply in_map_iff in X. destruct X as ([o' i'] & E & X). cbn [fst] in E.
      apply filter_In in X. destruct X as [X Sx].
      assert (NEp : (o', i') <> (o, i)) by (intros Q; rewrite Q in Sx; congruence).
      pose proof (count_two (fun p => nkey (fst p)) merged _ _ X Ip NEp E) as C2.
      apply andb_true_iff in Sx. destruct Sx as [Sx _]. apply Nat.eqb_eq in Sx.
      cbn beta in C2. fold (outs_of merged) in C2. lia.
    - apply in_drop_other; [exact B|].
      intros X. apply in_map_iff in X. destruct X as ([o' i'] & E & X). cbn [snd] in E.
      apply filter_In in X. destruct X as [X Sx].
      assert (NEp : (o', i') <> (o, i)) by (intros Q; rewrite Q in Sx; congruence).
      pose proof (count_two (fun p => nkey (snd p)) merged _ _ X Ip NEp E) as C2.
      apply andb_true_iff in Sx. destruct Sx as [_ Sx]. apply Nat.eqb_eq in Sx.
      cbn beta in C2. fold (ins_of merged) in C2. lia. }
  assert (Prog : merged = [] -> (mu s1 < mu s)%nat).
  { intros E0. unfold mu, s1, drop_unmatched, outs_of. rewrite E0. cbn [map s_in s_out].
    destruct (s_out s) as [|o out] eqn:Eo; [contradiction|].
    assert (Ef : filter (fun o0 => kmem (nkey o0) []) (o :: out) = []).
    { clear. generalize (o :: out). intros l. induction l as [|x l IH]; [reflexivity|exact IH]. }
    rewrite Ef. cbn [List.length]. lia. }
  assert (mu2 : (mu s2 + 2 * List.length (filter (single merged) merged) <= mu s1)%nat) by (unfold mu; lia).
  assert (St : exists s3, double_step shuffle doubly s2 = Ok s3 /\ inv s3 /\ (mu s3 < mu s)%nat).
  { assert (Cd : doubly = [] \/ doubly <> []) by (destruct doubly; [now left|right; discriminate]).
    destruct Cd as [Ed|NEd].
    - rewrite Ed. exists s2. split; [reflexivity|]. split; [exact I2|].
      assert (Cs : merged = [] \/ exists q, In q merged).
      { clear. destruct merged as [|q mr]; [now left|right; exists q; now left]. }
      destruct Cs as [Em|(q & Iq)].
      + specialize (Prog Em). lia.
      + assert (Sq : In q (filter (single merged) merged)).
        { apply filter_In. split; [exact Iq|]. destruct (single merged q) eqn:Sq; [reflexivity|]. exfalso.
          assert (X : In q doubly) by (apply filter_In; split; [exact Iq|now rewrite Sq]).
          rewrite Ed in X. destruct X. }
        assert (Ln : (1 <= List.length (filter (single merged) merged))%nat).
        { destruct (filter (single merged) merged); [destruct Sq|cbn; lia]. }
        lia.
    - destruct (double_step_inv doubly s2 I2 NEd Dm) as (s3 & E3 & I3 & L3).
      exists s3. split; [exact E3|]. split; [exact I3|lia]. }
  destruct St as (s3 & E3 & I3 & L3). rewrite E3. cbn [bind].
  destruct (finish_inv s3 I3) as [I4 L4]. eexists. split; [reflexivity|]. split; [exact I4|lia].
Qed.

Lemma merge_loop_inv : forall fuel s, inv s -> (mu s <= fuel)%nat ->
  exists s', merge_loop fuel shuffle s = Ok s' /\ inv s' /\ s_out s' = [].
Proof.
  induction fuel as [|fuel IH]; intros s I L; cbn [merge_loop];
    (destruct (s_out s) as [|o out] eqn:E; [exists s; auto|]).
  - unfold mu in L. rewrite E in L. cbn in L. lia.
  - destruct (merge_iter_inv s I) as (s1 & Eq & I1 & L1); [congruence|].
    rewrite Eq. cbn [bind]. apply IH; [exact I1|lia].
Qed.
End Inv.

(* ---- the whole function ---- *)
(* once the loop stops, no note tied on both sides is left before another note *)
Definition settled (s : mstate) : Prop :=
  s_out s = [] -> forall o i, In o (s_in s) -> n_tied o = Some 0 -> In i (s_in s) -> continues o i ->
  exists o', In o' (s_in s) /\ n_tied o' = Some 0 /\ continues o' o.

Lemma repopulate_settled ins fin : NoDup (map nkey (s_in (repopulate ins fin))) ->
  settled (repopulate ins fin).
Proof.
  unfold settled, repopulate. set (merged := join (filter (tied_is 0) ins) ins).
  set (move := fun n => _ && _). cbn zeta. cbn [s_out s_in].
  intros ND E o i Io To Ii C. pose proof Io as Io'. apply filter_In in Io. destruct Io as [Io Mo].
  apply filter_In in Ii. destruct Ii as [Ii Mi].
  assert (Ip : In (o, i) merged).
  { apply in_join. split; [apply filter_In; split; [exact Io|now apply tied_is_iff]|].
    split; [exact Ii|now apply ties_iff]. }
  unfold move in Mo. apply negb_true_iff, andb_false_iff in Mo.
  assert (K : kmem (nkey o) (map (fun p => nkey (snd p)) merged) = true).
  { destruct Mo as [Mo|Mo].
    - apply kmem_false in Mo. exfalso. apply Mo. apply in_map_iff. now exists (o, i).
    - apply negb_false_iff in Mo. exact Mo. }
  (* nothing was moved, so every note stays *)
  assert (St : forall x, In x ins -> In x (filter (fun n => negb (move n)) ins)).
  { intros x Ix. apply filter_In. split; [exact Ix|]. destruct (move x) eqn:Mx; [|reflexivity].
    assert (X : In x (filter move ins)) by (apply filter_In; split; assumption).
    rewrite E in X. destruct X. }
  apply kmem_iff, in_map_iff in K. destruct K as ([o1 i1] & Ek & I1). cbn [snd] in Ek.
  apply in_join in I1. destruct I1 as (Io1 & Ii1 & T1). apply filter_In in Io1. destruct Io1 as [Io1 To1].
  exists o1. split; [now apply St|]. split; [now apply tied_is_iff|]. apply ties_iff in T1.
  replace o with i1; [exact T1|]. apply (nodup_map_inj nkey _ i1 o ND); auto.
Qed.

Lemma iter_settled orig shuffle s s' : NoDup (map nkey orig) -> inv orig s' ->
  merge_iter shuffle s = Ok s' -> settled s'.
Proof.
  intros ND I. unfold merge_iter. cbn zeta.
  destruct (double_step _ _ _) as [s3|]; [|discriminate]. cbn [bind]. intros H. apply Ok_inj in H.
  destruct (s_out s3) as [|o3 r3] eqn:E3.
  - subst s'. apply repopulate_settled. apply (inv_keys orig ND _ I).
  - subst s'. intros X. congruence.
Qed.

Lemma loop_settled orig shuffle : NoDup (map nkey orig) -> (forall l, Permutation (shuffle l) l) ->
  forall fuel s s', inv orig s -> settled s -> merge_loop fuel shuffle s = Ok s' -> settled s'.
Proof.
  intros ND SH. induction fuel as [|fuel IH]; intros s s' I St; cbn [merge_loop];
    destruct (s_out s) as [|o out] eqn:E; try discriminate.
  1,2: intros H; apply Ok_inj in H; now subst.
  destruct (merge_iter_inv orig ND shuffle SH s I) as (s1 & E1 & I1 & _); [congruence|].
  rewrite E1. cbn [bind]. intros H. eapply IH; [exact I1| |exact H].
  eapply iter_settled; eauto.
Qed.

Definition before (a b : tnote) : Prop :=
  n_mc a < n_mc b \/ n_mc a = n_mc b /\ (n_on a < n_on b)%Q.
Definition beforeb (a b : tnote) : bool :=
  (n_mc a <? n_mc b) || ((n_mc a =? n_mc b) && negb (Qle_bool (n_on b) (n_on a))).
Lemma beforeb_iff a b : beforeb a b = true <-> before a b.
Proof.
  unfold beforeb, before. rewrite orb_true_iff, andb_true_iff, negb_true_iff.
  assert (Q : Qle_bool (n_on b) (n_on a) = false <-> (n_on a < n_on b)%Q).
  { destruct (Qle_bool _ _) eqn:E.
    - apply Qle_bool_iff in E. split; [discriminate|intros H; exfalso; lra].
    - split; [intros _|reflexivity]. apply Qnot_le_lt. intros H. apply Qle_bool_iff in H. congruence. }
  rewrite Q, Z.ltb_lt, Z.eqb_eq. tauto.
Qed.
Lemma before_trans a b c : before a b -> before b c -> before a c.
Proof.
  unfold before. intros [H1|[H1 H1']] [H2|[H2 H2']]; try (left; lia).
  right. split; [lia|lra].
Qed.
Lemma before_irrefl a : ~ before a a.
Proof. intros [H|[_ H]]; [lia|lra]. Qed.
Lemma sounds_before a b : sounds a -> continues a b -> before a b.
Proof.
  intros S (_ & _ & E1 & E2). unfold sounds in S. unfold before. rewrite <- E1, <- E2. exact S.
Qed.

(* with sounding notes, the descending sequence of [settled] must stop *)
Lemma settled_none ins : (forall n, In n ins -> sounds n) ->
  (forall o i, In o ins -> n_tied o = Some 0 -> In i ins -> continues o i ->
     exists o', In o' ins /\ n_tied o' = Some 0 /\ continues o' o) ->
  forall o i, In o ins -> n_tied o = Some 0 -> In i ins -> ~ continues o i.
Proof.
  intros Sd St.
  assert (X : forall k o i, (List.length (filter (fun x => beforeb x o) ins) <= k)%nat ->
              In o ins -> n_tied o = Some 0 -> In i ins -> ~ continues o i).
  { induction k as [|k IH]; intros o i L Io To Ii C;
      destruct (St o i Io To Ii C) as (o' & Io' & To' & C');
      pose proof (sounds_before o' o (Sd o' Io') C') as B.
    - assert (Y : In o' (filter (fun x => beforeb x o) ins)) by (apply filter_In; split; [exact Io'|now apply beforeb_iff]).
      destruct (filter _ ins); [destruct Y|cbn in L; lia].
    - apply (IH o' o); auto.
      assert (Lt : (List.length (filter (fun x => beforeb x o') ins) < List.length (filter (fun x => beforeb x o) ins))%nat).
      { apply filter_lt with o'.
        - intros x _ Hx. apply beforeb_iff in Hx. apply beforeb_iff. now apply before_trans with o'.
        - exact Io'.
        - destruct (beforeb o' o') eqn:E; [|reflexivity]. apply beforeb_iff in E. destruct (before_irrefl _ E).
        - now apply beforeb_iff. }
      lia. }
  intros o i. apply X with (List.length ins). apply filter_length_le.
Qed.

Lemma start_inv notes : NoDup (map nkey notes) ->
  (forall n t, In n notes -> n_tied n = Some t -> t = -1 \/ t = 0 \/ t = 1) ->
  let orig := filter changing notes in
  inv orig (merge_start notes) /\ (mu (merge_start notes) <= 2 * List.length notes)%nat /\
  settled (merge_start notes).
Proof.
  intros ND TV orig. unfold merge_start. fold orig.
  set (outs := filter (tied_is 1) orig).
  set (ins := filter (fun n => tied_is 0 n || tied_is (-1) n) orig). cbn zeta.
  assert (IT : in_ties ins).
  { intros i Ii. apply filter_In in Ii. destruct Ii as [_ Ii]. apply orb_true_iff in Ii.
    destruct Ii as [Ii|Ii]; apply tied_is_iff in Ii; auto. }
  assert (TO : forall o, In o outs -> n_tied o = Some 1).
  { intros o Io. apply filter_In in Io. now apply tied_is_iff. }
  assert (Pm : Permutation (outs ++ ins) orig).
  { symmetry. eapply Permutation_trans; [apply (perm_partition (tied_is 1))|].
    apply Permutation_app_head. apply Permutation_refl'. apply filter_ext_in'.
    intros x Ix. apply filter_In in Ix. destruct Ix as [Ix Cx]. unfold changing in Cx.
    apply andb_true_iff in Cx. destruct Cx as [_ Cx].
    destruct (n_tied x) as [t|] eqn:Et; [|discriminate].
    unfold tied_is. rewrite Et. destruct (TV x t Ix Et) as [->|[->| ->]]; reflexivity. }
  assert (NDo : NoDup (map nkey orig)) by now apply nodup_map_filter.
  assert (Lo : (List.length outs + List.length ins <= List.length notes)%nat).
  { rewrite <- app_length, (Permutation_length Pm). apply filter_length_le. }
  assert (Jo : forall l, (forall o, In o l -> n_tied o = Some 1) -> forall rest, Permutation (l ++ rest) orig ->
               J orig l rest).
  { clear -Pm. intros l Tl rest P. exists (map (fun o => (o, [o])) l). split; [|split].
    - rewrite map_map. cbn [fst]. apply map_id.
    - rewrite map_map. cbn [snd].
      replace (concat (map (fun x => [x]) l)) with l; [exact P|].
      clear. induction l as [|x l IH]; [reflexivity|]. cbn. now rewrite <- IH.
    - apply Forall_forall. intros g Ig. apply in_map_iff in Ig. destruct Ig as (o & <- & Io).
      split; cbn [fst snd].
      + exists o, []. repeat split; cbn [total_dur]; lra.
      + left. rewrite (Tl o Io). auto. }
  destruct outs as [|o0 outs'] eqn:Eo.
  - assert (I : inv orig (repopulate ins [])).
    { apply repopulate_inv; [exact NDo| |exact IT|intros n i []|intros n i []].
      apply Jo; [intros o []|exact Pm]. }
    split; [exact I|]. split.
    + pose proof (repopulate_mu ins []). lia.
    + apply repopulate_settled. apply (inv_keys orig NDo _ I).
  - rewrite <- Eo in *. split; [|split].
    + constructor; cbn [s_out s_in s_fin].
      * rewrite app_nil_r. now apply Jo.
      * exact IT.
      * intros o Io. rewrite (TO o Io). discriminate.
      * intros n i [].
      * right. intros x Ix. cbn [s_out s_fin] in Ix. rewrite app_nil_r in Ix.
        exists x. split; [|split; [now apply TO|reflexivity]].
        eapply Permutation_in; [exact Pm|]. apply in_or_app. now left.
      * intros n i [].
    + unfold mu. cbn [s_in s_out]. lia.
    + intros X. cbn [s_out] in X. congruence.
Qed.

Lemma merge_ties_spec fuel shuffle notes : NoDup (map nkey notes) ->
  (forall n t, In n notes -> n_tied n = Some t -> t = -1 \/ t = 0 \/ t = 1) ->
  (forall l, Permutation (shuffle l) l) -> (2 * List.length notes <= fuel)%nat ->
  exists ins fin, merge_ties fuel shuffle notes = Ok (filter (fun n => negb (changing n)) notes ++ ins ++ fin) /\
    J (filter changing notes) fin ins /\ in_ties ins /\ maximal fin ins /\
    ((forall n, In n ins -> sounds n) ->
     forall o i, In o ins -> n_tied o = Some 0 -> In i ins -> ~ continues o i) /\
    gone (filter changing notes) (mkMS [] ins fin).
Proof.
  intros ND TV SH L. destruct (start_inv notes ND TV) as (I & M & St).
  assert (NDo : NoDup (map nkey (filter changing notes))) by now apply nodup_map_filter.
  destruct (merge_loop_inv _ NDo shuffle SH fuel _ I ltac:(lia)) as (s & E & Is & O).
  pose proof (loop_settled _ shuffle NDo SH _ _ _ I St E) as Ss.
  exists (s_in s), (s_fin s). unfold merge_ties. rewrite E. cbn [bind].
  split; [reflexivity|]. split; [|split; [apply Is|split; [apply Is|]]].
  - pose proof (inv_J _ s Is) as HJ. rewrite O in HJ. exact HJ.
  - split; [intros Sd; apply settled_none; [exact Sd|]; exact (Ss O)|].
    pose proof (inv_gone _ s Is) as Gn. unfold gone, keys3 in *. rewrite O in Gn. exact Gn.
Qed.

(* ---- complete chains ---- *)
Section Complete.
Context (orig : list tnote) (ND : NoDup (map nkey orig)).
Context (ga : list (tnote * list tnote)) (left_over : list tnote).
Context (P : Permutation (concat (map snd ga) ++ left_over) orig) (F : Forall okg ga).
Context (Lf : in_ties left_over).
Context (Mx : maximal (map fst ga) left_over).
Context (Gn : gone orig (mkMS [] left_over (map fst ga))).

Lemma all_nodup : NoDup (concat (map snd ga) ++ left_over).
Proof. apply (NoDup_map_inv nkey). eapply Permutation_NoDup; [|exact ND]. apply Permutation_map. now symmetry. Qed.

Lemma concat_nodup_same (gs : list (tnote * list tnote)) x : NoDup (concat (map snd gs)) ->
  forall g g', In g gs -> In g' gs -> In x (snd g) -> In x (snd g') -> g = g'.
Proof.
  induction gs as [|h gs IH]; intros N g g' I I' X X'; [destruct I|].
  cbn [map concat] in N. pose proof (NoDup_app_remove_l _ _ N) as N2.
  assert (Dj : In x (snd h) -> In x (concat (map snd gs)) -> False).
  { clear -N. intros A B. induction (snd h) as [|y l IH]; [destruct A|]. cbn in N.
    inversion N as [|? ? Ny N']; subst. destruct A as [->|A]; [|now apply IH].
    apply Ny. apply in_or_app. now right. }
  assert (Cn : forall g0, In g0 gs -> In x (snd g0) -> In x (concat (map snd gs))).
  { intros g0 I0 X0. apply in_concat. exists (snd g0). split; [now apply in_map|exact X0]. }
  destruct I as [<-|I], I' as [<-|I'].
  - reflexivity.
  - exfalso. eauto.
  - exfalso. eauto.
  - eauto.
Qed.

(* in a linked chain, everything but the head is preceded by an element it continues *)
Lemma linked_pred : forall r f c, linked f r -> In c r ->
  exists pre o post, f :: r = pre ++ o :: c :: post /\ continues o c.
Proof.
  induction r as [|b r IH]; intros f c L I; [destruct I|]. destruct L as [C L].
  destruct I as [<-|I].
  - exists [], f, r. split; [reflexivity|exact C].
  - destruct (IH b c L I) as (pre & o & post & E & Co). exists (f :: pre), o, post.
    split; [cbn [app]; now rewrite <- E|exact Co].
Qed.

Lemma complete_end g f r (Ig : In g ga) (Eg : snd g = f :: r) (Tf : n_tied f = Some 1) :
  forall cur rest r' pre, f :: r = pre ++ cur :: r' -> linked cur r' ->
  clear_links orig cur rest -> rest <> [] \/ n_tied cur = Some (-1) ->
  (forall mid e, rest = mid ++ [e] -> Forall (fun x => n_tied x = Some 0) mid /\ n_tied e = Some (-1)) ->
  (pre <> [] -> rest <> [] -> n_tied cur = Some 0) -> r' = rest.
Proof.
  rewrite Forall_forall in F. destruct (F g Ig) as [M Sh]. rewrite Eg in Sh.
  assert (In_o : forall x, In x (f :: r) -> In x orig).
  { intros x Ix. eapply Permutation_in; [exact P|]. apply in_or_app. left. apply in_concat.
    exists (snd g). split; [now apply in_map|now rewrite Eg]. }
  assert (Sh1 : (n_tied (fst g) = Some 1 /\ Forall (fun x => n_tied x = Some 0) r) \/
     (n_tied (fst g) = None /\ exists mid e, r = mid ++ [e] /\ n_tied e = Some (-1) /\
            Forall (fun x => n_tied x = Some 0) mid)).
  { cbn [tie_shape] in Sh. destruct Sh as [(_ & S)|(T0 & _)]; [exact S|congruence]. }
  (* members of r: tied 0, or -1 in the last place *)
  assert (Rt : forall pre x post, r = pre ++ x :: post -> n_tied x = Some 0 \/ (n_tied x = Some (-1) /\ post = [])).
  { intros pre x post E. destruct Sh1 as [(_ & Fr)|(_ & mid & e & Er & Te & Fm)].
    - left. rewrite Forall_forall in Fr. apply Fr. rewrite E. apply in_or_app. right. now left.
    - rewrite Forall_forall in Fm. destruct post as [|y post].
      + assert (Ee : e = x /\ mid = pre) by (rewrite E in Er; apply app_inj_tail in Er; destruct Er; auto).
        destruct Ee as [-> ->]. right. auto.
      + left. apply Fm. rewrite E in Er.
        destruct (exists_last (l := y :: post)) as (q & z & Eq); [discriminate|].
        rewrite Eq in Er. change (pre ++ x :: q ++ [z]) with (pre ++ (x :: q) ++ [z]) in Er.
        rewrite app_assoc in Er. apply app_inj_tail in Er. destruct Er as [<- _].
        apply in_or_app. right. now left. }
  intros cur rest. revert cur. induction rest as [|c rest IH]; intros cur r' pre E L Cl Ne Tl Tc.
  - destruct Ne as [Ne|Ne]; [contradiction|].
    destruct pre as [|p0 pre]; [injection E as -> ->; congruence|]. injection E as -> E.
    destruct (Rt pre cur r' E) as [X|(_ & X)]; [congruence|exact X].
  - destruct Cl as (Cc & Ic & U1 & U2 & Cl).
    destruct r' as [|b r'].
    + exfalso.
      (* the chain stops at cur although c could follow *)
      assert (Tg : n_tied (fst g) = Some 1).
      { destruct Sh1 as [(T & _)|(_ & mid & e & Er & Te & _)]; [exact T|]. exfalso.
        destruct pre as [|p0 pre].
        - injection E as _ E. rewrite E in Er. destruct mid; discriminate.
        - injection E as _ E. rewrite E in Er. apply app_inj_tail in Er. destruct Er as [_ <-].
          rewrite (Tc ltac:(discriminate) ltac:(discriminate)) in Te. discriminate. }
      assert (Lc : last r f = cur).
      { destruct pre as [|p0 pre]; [injection E as <- ->; reflexivity|]. injection E as _ ->. apply last_snoc. }
      assert (Tn : ties (fst g) c = true).
      { apply ties_iff. destruct M as (f' & r0 & E0 & (S1 & _ & S3 & _) & Lk & _ & O1 & O2).
        rewrite Eg in E0. injection E0 as <- <-. rewrite Lc in O1, O2.
        destruct (linked_same r f Lk) as [L1 L2]. rewrite Lc in L1, L2.
        destruct Cc as (C1 & C2 & C3 & C4).
        split; [congruence|]. split; [congruence|]. split; [congruence|]. now rewrite O2. }
      assert (Tin : n_tied c = Some 0 \/ n_tied c = Some (-1)).
      { destruct (exists_last (l := c :: rest)) as (q & z & Eq); [discriminate|].
        destruct (Tl q z Eq) as [Fq Tz]. rewrite Forall_forall in Fq.
        destruct q as [|c' q]; [injection Eq as -> _; now right|].
        injection Eq as -> _. left. apply Fq. now left. }
      assert (Nk : ~ In (nkey c) (keys3 (mkMS [] left_over (map fst ga)))).
      { apply (Gn (fst g) c); auto. cbn [s_fin]. now apply in_map. }
      unfold keys3 in Nk. cbn [s_in s_out s_fin app] in Nk. rewrite map_app, in_app_iff in Nk.
      (* so c is inside another chain *)
      assert (Ia : In c (concat (map snd ga) ++ left_over)) by (eapply Permutation_in; [symmetry; exact P|exact Ic]).
      apply in_app_or in Ia. destruct Ia as [Ia|Ia]; [|apply Nk; left; now apply in_map].
      apply in_concat in Ia. destruct Ia as (l & Il & Icl). apply in_map_iff in Il. destruct Il as (g' & <- & Ig').
      destruct (F g' Ig') as [M' _]. pose proof M' as M2.
      destruct M' as (f' & r0 & E0 & (S1 & S2 & _) & Lk & _). rewrite E0 in Icl.
      destruct Icl as [<-|Icl].
      { apply Nk. right. rewrite map_map. apply in_map_iff. exists g'. split; [unfold nkey; congruence|exact Ig']. }
      destruct (linked_pred r0 f' c Lk Icl) as (pre' & o & post & Es & Co).
      assert (Io : In o orig).
      { eapply Permutation_in; [exact P|]. apply in_or_app. left. apply in_concat. exists (snd g').
        split; [now apply in_map|]. rewrite E0, Es. apply in_or_app. right. now left. }
      assert (o = cur) by (now apply U2). subst o.
      assert (g' = g).
      { apply (concat_nodup_same ga cur); auto.
        - apply nodup_app_l with left_over. apply all_nodup.
        - rewrite E0, Es. apply in_or_app. right. now left.
        - rewrite Eg, E. apply in_or_app. right. now left. }
      subst g'. rewrite Eg in E0. injection E0 as <- <-. rewrite E in Es.
      assert (Nc : NoDup (pre ++ [cur])).
      { rewrite <- E. rewrite <- Eg. pose proof (nodup_app_l _ _ all_nodup) as N.
        clear -N Ig. induction ga as [|h gs IH]; [destruct Ig|]. cbn [map concat] in N.
        destruct Ig as [->|Ig]; [now apply nodup_app_l in N|]. apply IH; [exact Ig|]. now apply NoDup_app_remove_l in N. }
      assert (Nin : ~ In cur pre).
      { apply NoDup_remove_2 in Nc. rewrite app_nil_r in Nc. exact Nc. }
      clear -Es Nin. revert pre' Es. induction pre as [|p pre IH]; intros pre' Es.
      * destruct pre' as [|x pre']; cbn in Es; [discriminate|]. injection Es as _ Es. destruct pre'; discriminate.
      * destruct pre' as [|x pre']; cbn in Es.
        -- injection Es as -> Es. apply Nin. now left.
        -- injection Es as -> Es. apply (IH (fun X => Nin (or_intror X)) pre' Es).
    + (* the next note of the chain is c *)
      destruct L as [Cb L].
      assert (Ib : In b orig).
      { apply In_o. rewrite E. apply in_or_app. right. right. now left. }
      assert (b = c) by now apply U1. subst b. f_equal.
      apply (IH c r' (pre ++ [cur])).
      * rewrite E, <- app_assoc. reflexivity.
      * exact L.
      * exact Cl.
      * destruct rest as [|d rest]; [right|left; discriminate]. apply (Tl [] c eq_refl).
      * intros mid e Em. destruct (Tl (c :: mid) e) as [Fm Te]; [now rewrite Em|].
        inversion Fm; auto.
      * intros _ Nr. destruct (exists_last Nr) as (q & z & Eq). destruct (Tl (c :: q) z) as [Fq _]; [now rewrite Eq|].
        inversion Fq; auto.
Qed.

Lemma complete_merged f mid e : In f orig -> n_tied f = Some 1 -> Forall (fun x => n_tied x = Some 0) mid ->
  n_tied e = Some (-1) -> clear_links orig f (mid ++ [e]) ->
  exists n, In n (map fst ga) /\ merged_from n (f :: mid ++ [e]) /\ n_tied n = None.
Proof.
  intros If Tf Fm Te Cl.
  assert (Ia : In f (concat (map snd ga) ++ left_over)) by (eapply Permutation_in; [symmetry; exact P|exact If]).
  apply in_app_or in Ia. destruct Ia as [Ia|Ia]; [|destruct (Lf f Ia); congruence].
  apply in_concat in Ia. destruct Ia as (l & Il & Ifl). apply in_map_iff in Il. destruct Il as (g & <- & Ig).
  pose proof F as F'. rewrite Forall_forall in F'. destruct (F' g Ig) as [M Sh].
  pose proof M as M0. destruct M as (f' & r & Eg & _ & Lk & _). rewrite Eg in Ifl, Sh.
  assert (f' = f).
  { destruct Ifl as [->|Ifl]; [reflexivity|]. exfalso. cbn [tie_shape] in Sh.
    destruct Sh as [(_ & [(_ & Fr)|(_ & mid' & e' & Er & Te' & Fm')])|(_ & Fr & _)].
    - rewrite Forall_forall in Fr. rewrite (Fr f Ifl) in Tf. discriminate.
    - rewrite Er in Ifl. apply in_app_or in Ifl. rewrite Forall_forall in Fm'.
      destruct Ifl as [I|[<-|[]]]; [rewrite (Fm' f I) in Tf; discriminate|congruence].
    - rewrite Forall_forall in Fr. destruct (Fr f Ifl); congruence. }
  subst f'.
  assert (Er : r = mid ++ [e]).
  { apply (complete_end g f r Ig Eg Tf f (mid ++ [e]) r []).
    - reflexivity.
    - exact Lk.
    - exact Cl.
    - left. destruct mid; discriminate.
    - intros mid' e' E. apply app_inj_tail in E. destruct E as [-> ->]. auto.
    - intros X. contradiction. }
  exists (fst g). split; [now apply in_map|]. rewrite <- Er, <- Eg. split; [exact M0|].
  cbn [tie_shape] in Sh. destruct Sh as [(_ & [(_ & Fr)|(T & _)])|(T0 & _)]; [|exact T|congruence].
  exfalso. rewrite Er in Fr. apply Forall_app in Fr. destruct Fr as [_ Fe]. inversion Fe as [|? ? Te0 _].
  congruence.
Qed.
End Complete.

(* C39: notes of the same staff and voice *)
Lemma drop_dups_keeps {A} (k : A -> key) (x : A) : forall l seen, In x l -> ~ In (k x) seen ->
  (forall y, In y l -> k y = k x -> y = x) -> In x (drop_dups k seen l).
Proof.
  induction l as [|y l IH]; intros seen I N U; [destruct I|]. cbn [drop_dups].
  destruct (kmem (k y) seen) eqn:Ek.
  - apply kmem_iff in Ek. destruct I as [->|I]; [contradiction|]. apply IH; [exact I|exact N|intros z Iz; apply U; now right].
  - destruct I as [->|I]; [now left|]. destruct (key_eqb (k y) (k x)) eqn:E.
    + apply key_eqb_iff in E. left. exact (U y (or_introl eq_refl) E).
    + right. apply IH; [exact I| |intros z Iz; apply U; now right]. intros [F|F]; [|contradiction].
      rewrite F, key_eqb_refl in E. discriminate.
Qed.
Lemma naive_keeps rows o i : In (o, i) rows ->
  (forall p, In p rows -> nkey (fst p) = nkey o -> p = (o, i)) ->
  (forall p, In p rows -> nkey (snd p) = nkey i -> p = (o, i)) -> In (o, i) (naive_drop rows).
Proof.
  intros I U1 U2. unfold naive_drop. apply drop_dups_keeps; [|intros []|].
  - apply drop_dups_keeps; [exact I|intros []|exact U1].
  - intros p Ip. apply U2. exact (drop_dups_in _ _ _ _ Ip).
Qed.
Lemma update_fin rows s n : In n (s_fin s) -> In n (s_fin (update_step rows s)).
Proof. intros I. cbn. apply in_or_app. now left. Qed.
Lemma double_fin sh d s s' n : double_step sh d s = Ok s' -> In n (s_fin s) -> In n (s_fin s').
Proof.
  unfold double_step. destruct d as [|p d]; [intros E; apply Ok_inj in E; now subst|]. cbv zeta.
  unfold force_step. destruct (need_force _ _).
  - intros E I. apply Ok_inj in E. subst s'. now apply update_fin.
  - destruct (forallb _ _); [|discriminate]. intros E I. apply Ok_inj in E. subst s'. now do 2 apply update_fin.
Qed.
Lemma repop_fin ins fin n : In n fin -> In n (s_fin (repopulate ins fin)).
Proof. intros I. exact I. Qed.
Lemma iter_end_fin (s : mstate) n : In n (s_fin s) ->
  In n (s_fin match s_out s with [] => repopulate (s_in s) (s_fin s) | _ => s end).
Proof. intros I. destruct (s_out s); [now apply repop_fin|exact I]. Qed.
Lemma iter_fin sh s s' n : merge_iter sh s = Ok s' -> In n (s_fin s) -> In n (s_fin s').
Proof.
  unfold merge_iter. cbv zeta. intros E I. apply bind_ok in E as (s1 & E1 & E). apply Ok_inj in E. subst s'.
  apply iter_end_fin. apply (double_fin _ _ _ _ _ E1). apply update_fin. cbn. apply in_or_app. now left.
Qed.
Lemma loop_fin sh n : forall fuel s s', merge_loop fuel sh s = Ok s' -> In n (s_fin s) -> In n (s_fin s').
Proof.
  induction fuel as [|fuel IH]; intros s s' E I; cbn [merge_loop] in E.
  - destruct (s_out s); [apply Ok_inj in E; now subst|discriminate].
  - destruct (s_out s); [apply Ok_inj in E; now subst|]. apply bind_ok in E as (s1 & E1 & E).
    apply (IH _ _ E). exact (iter_fin _ _ _ _ E1 I).
Qed.
Lemma update_absorbs rows s o i : In o (s_out s) -> In (o, i) rows -> NoDup (outs_of rows) ->
  n_tied (absorb o i) = None -> In (absorb o i) (s_fin (update_step rows s)).
Proof.
  intros Io Ir ND T. cbn. apply in_or_app. right. apply filter_In. split; [|unfold finished; now rewrite T].
  apply in_map_iff. exists o. split; [|exact Io]. unfold upd_out.
  destruct (find (fun p => key_eqb (nkey (fst p)) (nkey o)) rows) as [[a b]|] eqn:F.
  - apply find_some in F as [F1 F2]. cbn [fst] in F2. apply key_eqb_iff in F2. clear Io T.
    assert (H : (a, b) = (o, i)).
    { unfold outs_of in ND. clear s. induction rows as [|r rows IH]; [destruct Ir|]. cbn in ND. inversion ND as [|? ? N1 N2]; subst.
      destruct F1 as [->|F1], Ir as [E|Ir]; [exact E| | |exact (IH Ir N2 F1)].
      - exfalso. apply N1. cbn [fst]. rewrite F2. apply (in_map (fun p => nkey (fst p)) rows (o, i)). exact Ir.
      - exfalso. apply N1. rewrite E. cbn [fst]. rewrite <- F2. apply (in_map (fun p => nkey (fst p)) rows (a, b)). exact F1. }
    injection H as -> ->. reflexivity.
  - exfalso. pose proof (find_none _ _ F _ Ir) as N. cbn [fst] in N. rewrite key_eqb_refl in N. discriminate.
Qed.
Lemma nodup_key_eq l (a b : tnote) : NoDup (map nkey l) -> In a l -> In b l -> nkey a = nkey b -> a = b.
Proof.
  induction l as [|x l IH]; intros ND Ia Ib E; [destruct Ia|]. cbn in ND. inversion ND as [|? ? N1 N2]; subst.
  destruct Ia as [->|Ia], Ib as [->|Ib]; [reflexivity| | |exact (IH N2 Ia Ib E)].
  - exfalso. apply N1. rewrite E. now apply in_map.
  - exfalso. apply N1. rewrite <- E. now apply in_map.
Qed.
Lemma same_voice_iter sh s s' o i : (forall l, Permutation (sh l) l) ->
  NoDup (map nkey (s_out s)) -> NoDup (map nkey (s_in s)) ->
  In o (s_out s) -> In i (s_in s) -> continues o i -> n_tied o = Some 1 -> n_tied i = Some (-1) ->
  one_voice o i ->
  (forall i', In i' (s_in s) -> continues o i' -> one_voice o i' -> i' = i) ->
  (forall o', In o' (s_out s) -> continues o' i -> one_voice o' i -> o' = o) ->
  merge_iter sh s = Ok s' -> In (absorb o i) (s_fin s').
Proof.
  intros SH NDo NDi Io Ii Cn To Ti V Ui Uo E.
  assert (T : n_tied (absorb o i) = None).
  { cbn. unfold new_tied, tied_is. rewrite To, Ti. reflexivity. }
  unfold merge_iter in E. cbv zeta in E. set (merged := sh (join (s_out s) (s_in s))) in *.
  assert (Hin : forall p, In p merged <-> In (fst p) (s_out s) /\ In (snd p) (s_in s) /\ continues (fst p) (snd p)).
  { intros [a b]. cbn [fst snd]. rewrite <- ties_iff. rewrite <- in_join. unfold merged. split; intros H.
    - exact (Permutation_in _ (SH _) H).
    - exact (Permutation_in _ (Permutation_sym (SH _)) H). }
  assert (Im : In (o, i) merged) by (apply Hin; auto).
  apply bind_ok in E as (s2 & E2 & E). apply Ok_inj in E. subst s'. apply iter_end_fin.
  set (s1 := drop_unmatched merged s) in *.
  assert (Io1 : In o (s_out s1)).
  { cbn. apply filter_In. split; [exact Io|]. apply kmem_iff. apply (in_map (fun p => nkey (fst p)) merged (o, i)). exact Im. }
  destruct (single merged (o, i)) eqn:Es.
  - apply (double_fin _ _ _ _ _ E2). apply update_absorbs; [exact Io1|apply filter_In; auto| |exact T].
    unfold outs_of. apply single_nodup. intros p _ Hp. unfold single in Hp. apply andb_true_iff in Hp as [Hp _]. apply Nat.eqb_eq in Hp. exact Hp.
  - set (rows := filter (single merged) merged) in *.
    assert (Io2 : In o (s_out (update_step rows s1))).
    { apply in_upd_other; [exact Io1|congruence|]. intros Hk. apply in_map_iff in Hk as ((a & b) & Ek & Hr).
      apply filter_In in Hr as [Hr1 Hr2]. cbn [fst] in Ek. pose proof (proj1 (Hin _) Hr1) as (Ha & _ & _). cbn [fst] in Ha.
      assert (a = o) by (apply (nodup_key_eq _ _ _ NDo Ha Io Ek)). subst a.
      destruct (key_eqb (nkey b) (nkey i)) eqn:Eb.
      - apply key_eqb_iff in Eb. assert (b = i) by (apply (nodup_key_eq _ _ _ NDi); [apply (proj1 (Hin _) Hr1)|exact Ii|exact Eb]). subst b. congruence.
      - unfold single in Hr2. cbn [fst snd] in Hr2. apply andb_true_iff in Hr2 as [Hr2 _]. apply Nat.eqb_eq in Hr2.
        assert (2 <= count (nkey o) (outs_of merged))%nat; [|lia].
        apply (count_two (fun p => nkey (fst p)) merged (o, b) (o, i)); auto.
        intros F. injection F as ->. rewrite key_eqb_refl in Eb. discriminate. }
    set (doubly := filter (fun p => negb (single merged p)) merged) in *.
    assert (Id : In (o, i) doubly) by (apply filter_In; rewrite Es; auto).
    assert (Isv : In (o, i) (same_voice doubly)).
    { unfold same_voice. apply naive_keeps.
      - apply filter_In. split; [exact Id|]. cbn [fst snd]. destruct V as [-> ->]. now rewrite !Z.eqb_refl.
      - intros [a b] Hp Ek. cbn [fst] in Ek. apply filter_In in Hp as [Hp Hv]. apply filter_In in Hp as [Hp _]. apply Hin in Hp as (Ha & Hb & Hc).
        cbn [fst snd] in *. assert (a = o) by (apply (nodup_key_eq _ _ _ NDo Ha Io Ek)). subst a.
        apply andb_true_iff in Hv as [V1 V2]. apply Z.eqb_eq in V1, V2. f_equal. apply Ui; [exact Hb|exact Hc|now split].
      - intros [a b] Hp Ek. cbn [snd] in Ek. apply filter_In in Hp as [Hp Hv]. apply filter_In in Hp as [Hp _]. apply Hin in Hp as (Ha & Hb & Hc).
        cbn [fst snd] in *. assert (b = i) by (apply (nodup_key_eq _ _ _ NDi Hb Ii Ek)). subst b.
        apply andb_true_iff in Hv as [V1 V2]. apply Z.eqb_eq in V1, V2. f_equal. apply Uo; [exact Ha|exact Hc|now split]. }
    pose proof (update_absorbs _ _ o i Io2 Isv (proj1 (proj2 (naive_drop_spec _))) T) as Hfin.
    clearbody doubly. destruct doubly as [|p0 d0]; [destruct Id|]. cbn [double_step] in E2. unfold force_step in E2.
    destruct (need_force _ _) as [|k0 ks]; [apply Ok_inj in E2; subst s2; exact Hfin|].
    destruct (forallb _ _); [|discriminate]. apply Ok_inj in E2. subst s2. apply update_fin. exact Hfin.
Qed.
