(* C84: notes, chords, keys and pieces as dictionaries. *)
From Coq Require Import QArith String Ascii.
From Verif Require Import PyBase Model_Types Model_Harmony Model_Strings Model_Dict Spec_Tables Spec_Dict
  Proof_Base Proof_Strings Proof_Tables Proof_Dict.
From Coq Require Import List.
Import ListNotations.
Close Scope Q_scope.
Open Scope Z_scope.

Lemma fields_are c : params c = fields_of c.
Proof. destruct c; reflexivity. Qed.
Lemma type_is c : type_field c = type_of c.
Proof. destruct c; reflexivity. Qed.
Lemma pitches_are c f : In f (pitch_fields c) <-> In f (pitches_of c).
Proof. destruct c; cbn; tauto. Qed.

(* ---- constructors ---- *)
(* A constructor takes exactly the names of its parameters and stores what it is given; a note
   without mc_onset takes the beat of its onset. *)
Theorem C84_fields : forall c kwargs o, construct c kwargs = Ok o ->
  (forall f v, str_lookup f kwargs = Some v -> In f (fields_of c)) /\
  (forall f, In f (fields_of c) -> exists w, has o f w /\
     match str_lookup f kwargs with
     | Some VNone | None => f = L"suspension" /\ w = VNone \/ str_lookup f kwargs = Some w \/
                            c = CNote /\ f = L"mc_onset" /\ exists m b, has o (L"onset") (VPos m b) /\ w = VFrac b
     | Some v => w = v
     end).
Proof.
  intros c kwargs o H. rewrite <- fields_are. unfold construct in H. apply bind_ok in H. destruct H as (d & B & H).
  destruct (bind_inv _ _ _ B) as (K & Names & Vals). specialize (Vals (params_nodup c)). fold (params c) in K, Names.
  split; [exact Names|].
  assert (Plain : forall f, In f (params c) -> exists w dv, In (f, dv) (signature c) /\ str_lookup f d = Some w /\
            Some w = match str_lookup f kwargs with Some v => Some v | None => dv end).
  { intros f I. destruct (lookup_some d f) as (w & E); [now rewrite K|]. unfold params in I. apply in_map_iff in I. destruct I as ([g dv] & X & I).
    cbn in X. subst g. exists w, dv. split; [exact I|]. split; [exact E|]. rewrite <- E. now apply Vals. }
  destruct c.
  2,3: apply Ok_inj in H; subst o; intros f I; destruct (Plain f I) as (w & dv & Id & E & Ew);
       exists w; (split; [unfold has, getattr; cbn [o_attrs]; now rewrite E|]);
       destruct (str_lookup f kwargs) as [v|] eqn:Ek;
       [apply Some_inj in Ew; subst v; destruct w; auto|].
  - apply bind_ok in H. destruct H as (mc & Em & H).
    assert (Lm : str_lookup (L"mc_onset") d = Some mc).
    { unfold dict_get in Em. destruct (str_lookup (L"mc_onset") d); [|discriminate Em]. apply Ok_inj in Em. congruence. }
    assert (In (L"mc_onset") (map fst d)) as Im by (rewrite K; cbn; tauto).
    assert (Gen : forall f (w : pyval) dv, In (f, dv) (signature CNote) -> f <> L"mc_onset" -> dv = None).
    { intros f w dv I N. cbn in I. repeat (destruct I as [X|I]; [apply pair_equal_spec in X; destruct X as [<- <-]; try reflexivity; exfalso; apply N; reflexivity|]). destruct I. }
    assert (Case : mc <> VNone /\ o = mkObj CNote d \/
                   mc = VNone /\ exists m b, str_lookup (L"onset") d = Some (VPos m b) /\ o = mkObj CNote (dict_set d (L"mc_onset") (VFrac b))).
    { destruct mc; try (left; split; [discriminate|]; apply Ok_inj in H; now subst). right. split; [reflexivity|].
      apply bind_ok in H. destruct H as (on & Eo & H). destruct on as [| | |m b| | | |]; try discriminate H. apply Ok_inj in H. subst o.
      exists m, b. split; [|reflexivity]. unfold dict_get in Eo. destruct (str_lookup (L"onset") d); [|discriminate Eo]. apply Ok_inj in Eo. congruence. }
    intros f I. destruct (Plain f I) as (w & dv & Id & E & Ew).
    destruct Case as [[Nm ->]|[-> (m & b & Eo & ->)]].
    + exists w. split; [unfold has, getattr; cbn [o_attrs]; now rewrite E|].
      destruct (str_lookup f kwargs) as [v|] eqn:Ek; [apply Some_inj in Ew; subst v; destruct w; auto|].
      destruct (str_dec f (L"mc_onset")) as [->|Nf]; [|rewrite (Gen f w dv Id Nf) in Ew; discriminate Ew].
      exfalso. rewrite Lm in E. apply Some_inj in E. subst mc.
      cbn in Id. repeat (destruct Id as [X|Id]; [apply pair_equal_spec in X; destruct X as [X <-]; try discriminate X; apply Some_inj in Ew; congruence|]). destruct Id.
    + destruct (str_dec f (L"mc_onset")) as [->|Nf].
      * exists (VFrac b). split; [unfold has, getattr; cbn [o_attrs]; rewrite set_lookup by exact Im; now rewrite str_eqb_refl|].
        assert (Ho : has (mkObj CNote (dict_set d (L"mc_onset") (VFrac b))) (L"onset") (VPos m b)).
        { unfold has, getattr. cbn [o_attrs]. rewrite set_lookup by exact Im. rewrite str_eqb_neq by discriminate. now rewrite Eo. }
        rewrite Lm in E. apply Some_inj in E. subst w.
        destruct (str_lookup (L"mc_onset") kwargs) as [v|] eqn:Ek; [apply Some_inj in Ew; subst v|]; right; right; eauto 6.
      * exists w. split; [unfold has, getattr; cbn [o_attrs]; rewrite set_lookup by exact Im; rewrite str_eqb_neq by exact Nf; now rewrite E|].
        destruct (str_lookup f kwargs) as [v|] eqn:Ek; [apply Some_inj in Ew; subst v; destruct w; auto|].
        rewrite (Gen f w dv Id Nf) in Ew. discriminate Ew.
  - cbn in Id. repeat (destruct Id as [X|Id]; [apply pair_equal_spec in X; destruct X as [<- <-]; try discriminate Ew; apply Some_inj in Ew; left; auto|]). destruct Id.
  - cbn in Id. repeat (destruct Id as [X|Id]; [apply pair_equal_spec in X; destruct X as [<- <-]; discriminate Ew|]). destruct Id.
Qed.
Print Assumptions C84_fields.

Lemma mapM_each {A B} (f : A -> res B) l : (forall x, In x l -> exists y, f x = Ok y) -> exists r, mapM f l = Ok r.
Proof.
  induction l as [|x l IH]; intros H; [now exists []|]. destruct (H x (or_introl eq_refl)) as (y & E).
  destruct (IH (fun z I => H z (or_intror I))) as (r & E'). exists (y :: r). cbn [mapM]. rewrite E. cbn [bind]. now rewrite E'.
Qed.
(* An object can be made from the required fields; a note whose mc_onset is not given needs a
   position. *)
Theorem C84_constructs : forall c kwargs,
  (forall f v, str_lookup f kwargs = Some v -> In f (fields_of c)) ->
  (forall f, In f (required c) -> exists v, str_lookup f kwargs = Some v) ->
  (c = CNote -> str_lookup (L"mc_onset") kwargs = None \/ str_lookup (L"mc_onset") kwargs = Some VNone ->
     exists m b, str_lookup (L"onset") kwargs = Some (VPos m b)) ->
  exists o, construct c kwargs = Ok o.
Proof.
  intros c kwargs Hn Hr Hm. unfold construct.
  assert (B : exists d, bind_args (signature c) kwargs = Ok d).
  { unfold bind_args. fold (params c). rewrite fields_are.
    assert (X : forallb (fun kv : pystr * pyval => existsb (str_eqb (fst kv)) (fields_of c)) kwargs = true).
    { apply forallb_forall. intros [f v] I. cbn [fst]. apply existsb_exists. exists f. split; [|apply str_eqb_refl].
      destruct (str_lookup f kwargs) as [w|] eqn:E; [exact (Hn f w E)|]. exfalso.
      clear -I E. induction kwargs as [|[g w] r IH]; [destruct I|]. cbn [str_lookup] in E. destruct (str_eqb f g) eqn:Q; [discriminate|].
      destruct I as [Y|I]; [|exact (IH I E)]. apply pair_equal_spec in Y as [-> _]. rewrite str_eqb_refl in Q. discriminate. }
    rewrite X. apply mapM_each. intros [f dv] I. cbn [fst snd].
    destruct (str_lookup f kwargs) as [v|] eqn:E; [eauto|]. destruct dv as [d|]; [eauto|]. exfalso.
    assert (R : In f (required c)).
    { destruct c; cbn in I |- *; repeat (destruct I as [Y|I]; [apply pair_equal_spec in Y; destruct Y as [<- Y]; try discriminate Y; tauto|]); destruct I. }
    destruct (Hr f R) as (v & E'). congruence. }
  destruct B as (d & B). rewrite B. cbn [bind].
  destruct (bind_inv _ _ _ B) as (K & _ & Vals). specialize (Vals (params_nodup c)).
  destruct c; [|eauto|eauto].
  assert (Em : str_lookup (L"mc_onset") d = match str_lookup (L"mc_onset") kwargs with Some v => Some v | None => Some VNone end)
    by (apply Vals; cbn; tauto).
  assert (Eo : str_lookup (L"onset") d = match str_lookup (L"onset") kwargs with Some v => Some v | None => None end)
    by (apply Vals; cbn; tauto).
  unfold dict_get. rewrite Em. specialize (Hm eq_refl).
  destruct (str_lookup (L"mc_onset") kwargs) as [v|].
  - destruct v; cbn [bind]; eauto. destruct Hm as (m & b & Eb); [now right|]. rewrite Eo, Eb. cbn [bind]. eauto.
  - destruct Hm as (m & b & Eb); [now left|]. cbn [bind]. rewrite Eo, Eb. cbn [bind]. eauto.
Qed.
Print Assumptions C84_constructs.

(* to_dict followed by the constructor gives the object back. *)
Theorem C84_round_trip : forall c o, built c o -> exists d,
  to_dict o = Ok d /\ map fst d = fields_of c /\ (forall f v, In (f, v) d <-> In f (fields_of c) /\ has o f v) /\
  construct c d = Ok o.
Proof.
  intros c o B. rewrite <- fields_are. pose proof (built_wf _ _ B) as W. exists (o_attrs o). split; [eapply dict_same; eassumption|].
  destruct W as (Ec & K & M). split; [exact K|]. split; [|apply construct_same; repeat split; assumption].
  intros f v. unfold has, getattr. rewrite <- K. split.
  - intros I. split; [apply in_map_iff; exists (f, v); auto|]. rewrite (lookup_nodup _ f v); [reflexivity|rewrite K; apply params_nodup|exact I].
  - intros [_ H]. destruct (str_lookup f (o_attrs o)) as [w|] eqn:E; [|discriminate H]. apply Ok_inj in H. subst w. now apply lookup_in.
Qed.
Print Assumptions C84_round_trip.

(* ---- equality ---- *)
(* Two objects are equal if they are of the same class and agree in every field. *)
Theorem C84_equal : forall c c' o p, built c o -> built c' p -> exists b, obj_eq o p = Ok b /\
  (b = true <-> c = c' /\ forall f v w, In f (fields_of c) -> has o f v -> has p f w -> same_value v w).
Proof.
  intros c c' o p B B'. rewrite <- fields_are. pose proof (built_wf _ _ B) as W. pose proof (built_wf _ _ B') as W'.
  unfold obj_eq. rewrite (proj1 W), (proj1 W'). destruct (class_eqb c' c) eqn:E.
  - assert (c' = c) by (destruct c, c'; (reflexivity || discriminate E)). subst c'.
    destruct (fields_equal_iff c o p W W' (params c) (fun f I => I)) as (b & Eb & Hb). exists b. split; [exact Eb|]. rewrite Hb.
    split; [intros X; split; [reflexivity|exact X]|intros [_ X]; exact X].
  - exists false. split; [reflexivity|]. split; [discriminate|]. intros [-> _]. destruct c'; discriminate E.
Qed.
Print Assumptions C84_equal.

Lemma eq_iff c o p : built c o -> built c p -> (obj_eq o p = Ok true <-> forall f v w, In f (params c) -> has o f v -> has p f w -> same_value v w).
Proof.
  intros B B'. destruct (C84_equal c c o p B B') as (b & E & H). rewrite <- fields_are in H. rewrite E. split.
  - intros X. apply Ok_inj in X. subst b. now apply H.
  - intros X. f_equal. apply H. auto.
Qed.
Lemma eq_class c c' o p : built c o -> built c' p -> obj_eq o p = Ok true -> c = c'.
Proof. intros B B' H. destruct (C84_equal c c' o p B B') as (b & E & X). rewrite E in H. apply Ok_inj in H. subst b. now apply X. Qed.

(* == is an equivalence on what constructors return. *)
Theorem C84_equivalence :
  (forall c o, built c o -> obj_eq o o = Ok true) /\
  (forall c c' o p, built c o -> built c' p -> obj_eq o p = Ok true -> obj_eq p o = Ok true) /\
  (forall c c' c'' o p q, built c o -> built c' p -> built c'' q ->
     obj_eq o p = Ok true -> obj_eq p q = Ok true -> obj_eq o q = Ok true).
Proof.
  split; [|split].
  - intros c o B. apply (eq_iff c); auto. intros f v w I H1 H2. unfold has in *. rewrite H1 in H2. apply Ok_inj in H2. subst. apply same_refl.
  - intros c c' o p B B' H. assert (c = c') by (eapply eq_class; eassumption). subst c'. apply (eq_iff c); auto.
    intros f v w I H1 H2. apply same_sym. exact (proj1 (eq_iff c o p B B') H f w v I H2 H1).
  - intros c c' c'' o p q B B' B'' H H'. assert (c = c') by (eapply eq_class; eassumption). subst c'.
    assert (c = c'') by (eapply (eq_class c c'' p q); eassumption). subst c''. apply (eq_iff c); auto.
    intros f v w I H1 H2. destruct (wf_get c p f (built_wf _ _ B') I) as (x & Hx).
    eapply same_trans; [exact (proj1 (eq_iff c o p B B') H f v x I H1 Hx)|exact (proj1 (eq_iff c p q B' B'') H' f x w I Hx H2)].
Qed.
Print Assumptions C84_equivalence.

(* ---- to_pitch_type ---- *)
Lemma get_lookup (d : dict) f v : dict_get d f = Ok v -> str_lookup f d = Some v.
Proof. unfold dict_get. destruct (str_lookup f d); [intros H; apply Ok_inj in H; congruence|discriminate]. Qed.

Lemma convert_fold from pt : forall fs d d', NoDup fs -> (forall f, In f fs -> In f (map fst d)) ->
  foldM (convert_field from pt) fs d = Ok d' ->
  map fst d' = map fst d /\ (forall f, ~ In f fs -> str_lookup f d' = str_lookup f d) /\
  (forall f, In f fs -> exists p q, str_lookup f d = Some (VInt p) /\ str_lookup f d' = Some (VInt q) /\ convert_pitch p from pt = Ok q).
Proof.
  induction fs as [|f fs IH]; intros d d' N I H; cbn [foldM] in H.
  - apply Ok_inj in H. subst d'. split; [reflexivity|]. split; [reflexivity|]. intros f [].
  - apply bind_ok in H. destruct H as (d1 & E & H). unfold convert_field in E. apply bind_ok in E. destruct E as (v & Ev & E).
    apply get_lookup in Ev. destruct v as [|p| | | | | |]; try discriminate E. apply bind_ok in E. destruct E as (q & Eq & E). apply Ok_inj in E. subst d1.
    pose proof (I f (or_introl eq_refl)) as If. inversion N as [|? ? N1 N2]; subst.
    destruct (IH (dict_set d f (VInt q)) d' N2) as (K & Out & In'); [intros g Ig; rewrite set_keys by exact If; apply I; now right|exact H|].
    rewrite set_keys in K by exact If. split; [exact K|]. split.
    + intros g Ng. rewrite Out by (intros X; apply Ng; now right). rewrite set_lookup by exact If.
      rewrite str_eqb_neq; [reflexivity|]. intros ->. apply Ng. now left.
    + intros g [<-|Ig].
      * exists p, q. split; [exact Ev|]. split; [|exact Eq]. rewrite Out by exact N1. rewrite set_lookup by exact If. now rewrite str_eqb_refl.
      * destruct (In' g Ig) as (p' & q' & H1 & H2 & H3). exists p', q'. split; [|auto]. rewrite set_lookup in H1 by exact If.
        rewrite str_eqb_neq in H1; [exact H1|]. intros ->. contradiction.
Qed.

Lemma pitch_fields_ok c : NoDup (pitch_fields c) /\ (forall f, In f (pitch_fields c) -> In f (params c) /\ f <> type_field c /\ f <> L"mc_onset").
Proof.
  split.
  - destruct c; cbn; repeat (constructor; [cbn; intuition discriminate|]); constructor.
  - intros f I. destruct c; cbn in I; repeat (destruct I as [<-|I]; [split; [cbn; tauto|split; discriminate]|]); destruct I.
Qed.

(* The new object says the pitches in the new type and is the same in all other fields; with the
   type it has already it is the same. *)
Theorem C84_pitch_type : forall c o pt o', built c o -> to_pitch_type o pt = Ok o' ->
  built c o' /\ has o' (type_of c) (VPitchType pt) /\
  (forall f v, In f (fields_of c) -> f <> type_of c -> ~ In f (pitches_of c) -> has o f v -> has o' f v) /\
  (has o (type_of c) (VPitchType pt) -> o' = o) /\
  (forall own, has o (type_of c) (VPitchType own) -> own <> pt -> forall f, In f (pitches_of c) ->
     exists p q, has o f (VInt p) /\ has o' f (VInt q) /\ said_as own pt p q).
Proof.
  intros c o pt o' B H. setoid_rewrite <- pitches_are. rewrite <- fields_are, <- type_is. pose proof (built_wf _ _ B) as W. unfold to_pitch_type in H. rewrite (dict_same c o W) in H. cbn [bind] in H.
  destruct W as (Ec & K & M). rewrite Ec in H. apply bind_ok in H. destruct H as (own & Eo & H).
  set (d0 := dict_set (o_attrs o) (type_field c) (VPitchType pt)) in *.
  assert (It : In (type_field c) (map fst (o_attrs o))) by (rewrite K; destruct c; cbn; tauto).
  assert (K0 : map fst d0 = params c) by (unfold d0; rewrite set_keys; [exact K|exact It]).
  assert (L0 : forall f, str_lookup f d0 = if str_eqb f (type_field c) then Some (VPitchType pt) else str_lookup f (o_attrs o))
    by (intros f; unfold d0; now apply set_lookup).
  assert (Lo : str_lookup (type_field c) (o_attrs o) = Some own).
  { unfold getattr in Eo. destruct (str_lookup (type_field c) (o_attrs o)); [apply Ok_inj in Eo; congruence|discriminate Eo]. }
  destruct (pitch_fields_ok c) as [Nd Pf].
  assert (Tm : type_field c <> L"mc_onset") by (destruct c; discriminate).
  assert (Made : forall d, map fst d = params c -> str_lookup (L"mc_onset") d = str_lookup (L"mc_onset") (o_attrs o) ->
            construct c d = Ok (mkObj c d)).
  { intros d Kd Md. apply (construct_same c (mkObj c d)). split; [reflexivity|]. split; [exact Kd|]. cbn [o_attrs]. rewrite Md. exact M. }
  destruct (val_eqb (VPitchType pt) own) eqn:Ev.
  - assert (own = VPitchType pt) by (destruct own; try discriminate Ev; f_equal; destruct pt, p; (reflexivity || discriminate Ev)). subst own.
    rewrite Made in H; [|exact K0|rewrite L0, str_eqb_neq by (intros X; now apply Tm); reflexivity]. apply Ok_inj in H. subst o'.
    assert (Same : mkObj c d0 = o).
    { destruct o as [c' a]. cbn [o_class o_attrs] in *. subst c'. f_equal. apply dict_ext; [congruence|rewrite K0; apply params_nodup|].
      intros f _. rewrite L0. destruct (str_eqb f (type_field c)) eqn:E; [|reflexivity]. apply str_eqb_eq in E. subst f. now symmetry. }
    rewrite Same. split; [exact B|]. split; [exact Eo|]. split; [auto|]. split; [reflexivity|].
    intros own Ho Nw. exfalso. apply Nw. unfold has in Ho. rewrite Eo in Ho. apply Ok_inj in Ho. congruence.
  - destruct own as [| | | | | |from|]; try discriminate H. apply bind_ok in H. destruct H as (d & F & H).
    destruct (convert_fold from pt (pitch_fields c) d0 d Nd) as (Kd & Out & Inn); [intros f I; rewrite K0; now apply Pf|exact F|].
    rewrite K0 in Kd. rewrite Made in H; [|exact Kd|].
    2:{ rewrite Out by (intros X; apply Pf in X; destruct X as (_ & _ & X); now apply X). rewrite L0, str_eqb_neq by (intros X; now apply Tm). reflexivity. }
    apply Ok_inj in H. subst o'.
    assert (Mk : construct c d = Ok (mkObj c d)).
    { apply Made; [exact Kd|]. rewrite Out by (intros X; apply Pf in X; destruct X as (_ & _ & X); now apply X).
      rewrite L0, str_eqb_neq by (intros X; now apply Tm). reflexivity. }
    split; [now exists d|]. unfold has, getattr. cbn [o_attrs]. split; [|split; [|split]].
    + rewrite Out by (intros X; apply Pf in X; destruct X as (_ & X & _); now apply X). rewrite L0, str_eqb_refl. reflexivity.
    + intros f v If Nt Np Hv. rewrite Out by exact Np. rewrite L0, str_eqb_neq by exact Nt. exact Hv.
    + intros X. rewrite Lo in X. apply Ok_inj in X. injection X as ->. destruct pt; discriminate Ev.
    + intros own Ho Nw f If. rewrite Lo in Ho. apply Ok_inj in Ho. injection Ho as <-.
      destruct (Inn f If) as (p & q & H1 & H2 & H3). destruct (Pf f If) as (_ & Nt & _). rewrite L0, str_eqb_neq in H1 by exact Nt.
      exists p, q. rewrite H1, H2. split; [reflexivity|]. split; [reflexivity|]. now apply convert_spec.
Qed.
Print Assumptions C84_pitch_type.

(* From spelled pitches to semitones the conversion always works. *)
Theorem C84_to_midi : forall c o, built c o -> has o (type_of c) (VPitchType TPC) ->
  (forall f, In f (pitches_of c) -> exists p, has o f (VInt p)) ->
  exists o', to_pitch_type o MIDI = Ok o'.
Proof.
  intros c o B Ht Hp. setoid_rewrite <- pitches_are in Hp. rewrite <- type_is in Ht. pose proof (built_wf _ _ B) as W. unfold to_pitch_type. rewrite (dict_same c o W). cbn [bind].
  destruct W as (Ec & K & M). rewrite Ec. unfold has in Ht. rewrite Ht. cbn [bind val_eqb pt_eqb].
  set (d0 := dict_set (o_attrs o) (type_field c) (VPitchType MIDI)).
  assert (It : In (type_field c) (map fst (o_attrs o))) by (rewrite K; destruct c; cbn; tauto).
  assert (K0 : map fst d0 = params c) by (unfold d0; rewrite set_keys; [exact K|exact It]).
  destruct (pitch_fields_ok c) as [Nd Pf].
  assert (X : forall fs d, (forall f, In f fs -> In f (map fst d) /\ exists p, str_lookup f d = Some (VInt p)) -> exists d', foldM (convert_field TPC MIDI) fs d = Ok d').
  { induction fs as [|f fs IH]; intros d H; [exists d; reflexivity|]. destruct (H f (or_introl eq_refl)) as (If & p & Ep).
    cbn [foldM]. unfold convert_field at 1, dict_get. rewrite Ep. cbn [bind]. rewrite tpc_to_midi. cbn [bind]. apply IH.
    intros g Ig. destruct (H g (or_intror Ig)) as (Ig' & p' & Ep'). rewrite set_keys by exact If. split; [exact Ig'|].
    rewrite set_lookup by exact If. destruct (str_eqb g f); eauto. }
  destruct (X (pitch_fields c) d0) as (d & Ed).
  { intros f I. destruct (Pf f I) as (Ip & Nt & _). split; [rewrite K0; exact Ip|]. destruct (Hp f I) as (p & Ep). exists p.
    unfold d0. rewrite set_lookup by exact It. rewrite str_eqb_neq by exact Nt. unfold has, getattr in Ep.
    destruct (str_lookup f (o_attrs o)); [apply Ok_inj in Ep; congruence|discriminate Ep]. }
  rewrite Ed. cbn [bind]. destruct (convert_fold TPC MIDI (pitch_fields c) d0 d Nd) as (Kd & Out & _); [intros f I; rewrite K0; now apply Pf|exact Ed|].
  exists (mkObj c d). apply (construct_same c (mkObj c d)). split; [reflexivity|]. split; [cbn [o_attrs]; congruence|]. cbn [o_attrs].
  intros Cn. rewrite Out by (intros Y; apply Pf in Y; destruct Y as (_ & _ & Y); now apply Y). unfold d0. rewrite set_lookup by exact It.
  rewrite str_eqb_neq by (destruct c; discriminate). now apply M.
Qed.
Print Assumptions C84_to_midi.

(* ---- pieces ---- *)
Lemma mapM_map {A B} (f : A -> res B) (g : A -> B) l : (forall x, In x l -> f x = Ok (g x)) -> mapM f l = Ok (map g l).
Proof.
  induction l as [|x l IH]; intros H; [reflexivity|]. cbn [mapM map]. rewrite (H x) by now left. cbn [bind].
  rewrite IH by (intros; apply H; now right). reflexivity.
Qed.
Lemma back c l : Forall (built c) l -> mapM to_dict l = Ok (map o_attrs l) /\ mapM (construct c) (map o_attrs l) = Ok l.
Proof.
  intros F. rewrite Forall_forall in F. split.
  - apply mapM_map. intros o I. eapply dict_same. apply built_wf. now apply F.
  - induction l as [|o l IH]; [reflexivity|]. cbn [map mapM]. rewrite construct_same by (apply built_wf, F; now left). cbn [bind].
    rewrite IH by (intros; apply F; now right). reflexivity.
Qed.

(* A labelled piece comes back from its dictionary. *)
Theorem C84_piece : forall p chords keys, dp_chords p = Some chords -> dp_keys p = Some keys ->
  Forall (built CNote) (dp_notes p) -> Forall (built CChord) chords -> Forall (built CKey) keys ->
  exists d, piece_to_dict p = Ok d /\ piece_from_dict d = Ok p.
Proof.
  intros p chords keys Hc Hk Fn Fc Fk. destruct (back _ _ Fn) as [N1 N2]. destruct (back _ _ Fc) as [C1 C2]. destruct (back _ _ Fk) as [K1 K2].
  unfold piece_to_dict. rewrite N1, Hc, Hk, C1, K1. cbn [bind]. eexists. split; [reflexivity|].
  cbn [piece_from_dict]. rewrite N2, C2, K2. cbn [bind]. destruct p. cbn in *. congruence.
Qed.
Print Assumptions C84_piece.

(* A piece without labels has no dictionary. *)
Theorem C84_unlabelled_refuted : forall notes cc cr kc, Forall (built CNote) notes ->
  piece_to_dict (mkDP notes None None cc cr kc) = Raise TypeError.
Proof. intros notes cc cr kc F. unfold piece_to_dict. cbn [dp_notes dp_chords]. rewrite (proj1 (back _ _ F)). reflexivity. Qed.
Print Assumptions C84_unlabelled_refuted.

(* G4 on beat 3 of measure 2, and the chord and key there. *)
Definition note84 : dict :=
  [(L"pitch_type", VPitchType TPC); (L"pitch_class", VInt 16); (L"octave", VInt 4); (L"onset", VPos 2 (1#2));
   (L"onset_level", VInt 2); (L"duration", VFrac (1#4)); (L"offset", VPos 2 (3#4)); (L"offset_level", VInt 2)].
Definition chord84 : dict :=
  [(L"root", VInt 16); (L"bass", VInt 20); (L"key_tonic", VInt 15); (L"key_mode", VMode MAJOR); (L"chord_type", VType Maj_Min7);
   (L"inversion", VInt 1); (L"onset", VPos 2 (1#2)); (L"onset_level", VInt 2); (L"offset", VPos 3 0); (L"offset_level", VInt 3);
   (L"duration", VFrac (1#2)); (L"pitch_type", VPitchType TPC)].
Definition key84 : dict :=
  [(L"relative_tonic", VInt 15); (L"local_tonic", VInt 15); (L"global_tonic", VInt 12); (L"relative_mode", VMode MAJOR);
   (L"local_mode", VMode MAJOR); (L"global_mode", VMode MINOR); (L"tonic_type", VPitchType TPC)].
Example C84_example : exists n c k, construct CNote note84 = Ok n /\ construct CChord chord84 = Ok c /\ construct CKey key84 = Ok k /\
  has n (L"mc_onset") (VFrac (1#2)) /\ has c (L"suspension") VNone /\
  (exists c', to_pitch_type c MIDI = Ok c' /\ has c' (L"root") (VInt 7) /\ has c' (L"bass") (VInt 11) /\ obj_eq c c' = Ok false) /\
  obj_eq n c = Ok false /\
  (exists d, piece_to_dict (mkDP [n] (Some [c]) (Some [k]) (Some [0]) (Some [(0, 1)]) (Some [0])) = Ok d) /\
  construct CKey (skipn 1 key84) = Raise TypeError /\ construct CKey ((L"tonic", VInt 3) :: key84) = Raise TypeError.
Proof.
  eexists; eexists; eexists. split; [vm_compute; reflexivity|]. split; [vm_compute; reflexivity|]. split; [vm_compute; reflexivity|].
  split; [vm_compute; reflexivity|]. split; [vm_compute; reflexivity|].
  split; [eexists; split; [vm_compute; reflexivity|]; repeat split; vm_compute; reflexivity|].
  split; [vm_compute; reflexivity|]. split; [eexists; vm_compute; reflexivity|]. split; vm_compute; reflexivity.
Qed.
