(* C109: the texts of notes, chords and keys. *)
From Coq Require Import QArith String Ascii.
From Verif Require Import PyBase Model_Types Model_Harmony Model_Strings Model_Output Model_Dict Model_Repr
  Spec_Dict Spec_Repr Proof_Base Proof_Labels Proof_Dict Proof_Repr.
From Coq Require Import List Lia.
Import ListNotations.
Close Scope Q_scope.
Open Scope Z_scope.

Lemma wf_fields c o : wf c o -> forall f v, In (f, v) (o_attrs o) <-> has o f v.
Proof.
  intros W f v. pose proof W as (_ & K & _). unfold has, getattr. split.
  - intros I. rewrite (lookup_nodup _ f v); [reflexivity|rewrite K; apply params_nodup|exact I].
  - intros H. destruct (str_lookup f (o_attrs o)) as [w|] eqn:E; [|discriminate H]. apply Ok_inj in H. subst w. now apply lookup_in.
Qed.
Lemma name_last c : forall a b, params c = a ++ b -> b <> [] -> ~ In (L"suspension") a.
Proof.
  intros a b E Nb I. assert (In (L"suspension") (removelast (params c))) as X.
  { rewrite E. rewrite removelast_app by exact Nb. apply in_app_iff. now left. }
  clear - X. destruct c; cbn [params signature map fst removelast In] in X; repeat destruct X as [X|X]; try discriminate X; destruct X.
Qed.

(* repr() succeeds and tells the class and every field: two objects have the same text exactly if
   == holds between them. *)
Theorem C109_repr : forall c c' o p, built c o -> built c' p -> texts_apart o -> texts_apart p ->
  exists s t, obj_repr o = Ok s /\ obj_repr p = Ok t /\ (s = t <-> obj_eq o p = Ok true).
Proof.
  intros c c' o p Bo Bp Ao Ap. pose proof (built_wf _ _ Bo) as W. pose proof (built_wf _ _ Bp) as W'.
  eexists _, _. split; [exact (repr_is c o W)|]. split; [exact (repr_is c' p W')|].
  unfold obj_eq. rewrite (proj1 W), (proj1 W'). split.
  - intros E. assert (c = c') as <- by (destruct c, c'; (reflexivity || discriminate E)).
    assert (Ec : class_eqb c c = true) by (destruct c; reflexivity). rewrite Ec.
    do 2 apply app_inv_head in E. destruct (fields_equal_iff c o p W W' (params c) (fun f I => I)) as (b & Eb & Hb). rewrite Eb. f_equal. apply Hb.
    apply fields_inj in E.
    + intros f v w I Hv Hw. apply (wf_fields c o W) in Hv. apply (wf_fields c p W') in Hw. pose proof W as (_ & K & _). pose proof W' as (_ & K' & _).
      assert (N : NoDup (map fst (o_attrs o))) by (rewrite K; apply params_nodup). rewrite <- K' in K.
      clear - E Hv Hw N K. revert N K. induction E as [|[f1 v1] [f2 v2] d e [Ef Ev] F IH]; intros N K; [destruct Hv|]. cbn [fst snd] in *. subst f2.
      cbn [map fst] in N, K. inversion N as [|? ? N1 N2]; subst. injection K as K.
      destruct Hv as [Hv|Hv], Hw as [Hw|Hw].
      * injection Hv as <- <-. injection Hw as <-. exact Ev.
      * injection Hv as <- <-. exfalso. apply N1. rewrite K. apply in_map_iff. now exists (f1, w).
      * injection Hw as <- <-. exfalso. apply N1. apply in_map_iff. now exists (f1, v).
      * now apply IH.
    + rewrite (proj1 (proj2 W)), (proj1 (proj2 W')). reflexivity.
    + intros f v I. exact (Ao f v (proj1 (wf_fields c o W f v) I)).
    + intros f v I. exact (Ap f v (proj1 (wf_fields c p W' f v) I)).
    + rewrite (proj1 (proj2 W)). apply name_last.
  - intros E. destruct (class_eqb c' c) eqn:Ec; [|discriminate E]. assert (c' = c) by (destruct c, c'; (reflexivity || discriminate Ec)). subst c'.
    destruct (fields_equal_iff c o p W W' (params c) (fun f I => I)) as (b & Eb & Hb). rewrite Eb in E. apply Ok_inj in E. subst b.
    destruct Hb as [Hb _]. specialize (Hb eq_refl).
    assert (X : map field_text (o_attrs o) = map field_text (o_attrs p)).
    { pose proof W as (_ & K & _). pose proof W' as (_ & K' & _).
      assert (Sub : forall f v w, In (f, v) (o_attrs o) -> In (f, w) (o_attrs p) -> same_value v w).
      { intros f v w Iv Iw. apply (Hb f); [rewrite <- K; apply in_map_iff; now exists (f, v)| |]; now apply (wf_fields c). }
      rewrite <- K' in K. clear - Sub K. revert Sub K. generalize (o_attrs o) (o_attrs p). intros d.
      induction d as [|[f v] d IH]; intros [|[g w] e] Sub K; cbn in K; try discriminate K; [reflexivity|]. injection K as <- K.
      cbn [map]. f_equal; [|apply IH; [intros g v' w' Iv Iw; apply (Sub g); now right|exact K]].
      unfold field_text. cbn [fst snd]. rewrite (same_text v w); [reflexivity|]. apply (Sub f); now left. }
    rewrite X. reflexivity.
Qed.
Print Assumptions C109_repr.

(* str() succeeds and tells exactly the shown fields. *)
Theorem C109_str : forall c pt o p, proper c pt o -> proper c pt p ->
  exists s t, obj_str o = Ok s /\ obj_str p = Ok t /\ (s = t <-> look_alike c pt o p).
Proof.
  assert (Pt : forall pt x y, same_pitch pt (VInt x) (VInt y) <-> same_z pt x y).
  { intros pt x y. split; [intros (a & b & E1 & E2 & H)|intros H; exists x, y; auto]. injection E1 as ->. injection E2 as ->. exact H. }
  assert (Fun : forall o f v w, has o f v -> has o f w -> v = w) by (unfold has; intros; congruence).
  intros c pt o p (Bo & To & Ko) (Bp & Tp & Kp). unfold obj_str.
  rewrite (proj1 (built_wf _ _ Bo)), (proj1 (built_wf _ _ Bp)). destruct c; cbn [type_of shown] in *.
  - (* notes *)
    destruct (Ko (L"pitch_class") APitch) as (v1 & H1 & x & ->); [cbn; tauto|]. destruct (Kp (L"pitch_class") APitch) as (w1 & G1 & y & ->); [cbn; tauto|].
    destruct (Ko (L"octave") ANumber) as (v2 & H2 & oct & ->); [cbn; tauto|]. destruct (Kp (L"octave") ANumber) as (w2 & G2 & oct' & ->); [cbn; tauto|].
    destruct (Ko (L"onset") APosition) as (v3 & H3 & m & q & ->); [cbn; tauto|]. destruct (Kp (L"onset") APosition) as (w3 & G3 & m' & q' & ->); [cbn; tauto|].
    destruct (Ko (L"offset") APosition) as (v4 & H4 & n & r & ->); [cbn; tauto|]. destruct (Kp (L"offset") APosition) as (w4 & G4 & n' & r' & ->); [cbn; tauto|].
    destruct (get_pitch_string_total x pt) as (s & Es). destruct (get_pitch_string_total y pt) as (t & Et).
    eexists _, _. unfold note_str, pitch_text. unfold has in H1, H2, H3, H4, To, G1, G2, G3, G4, Tp.
    rewrite H1, To, H2, H3, H4, G1, Tp, G2, G3, G4. cbn [bind]. rewrite Es, Et. cbn [bind]. split; [reflexivity|]. split; [reflexivity|]. split.
    + intros E. rewrite <- ?app_assoc in E.
      assert (First : forall z u, outside name_char (str_val (VInt z) ++ u)).
      { intros z u. cbn [str_val]. destruct (z_first z) as (c & rest & -> & N). cbn. intros X. now apply name_no_num in X. }
      apply (name_cut pt x y) in E; auto. destruct E as [E1 E].
      cbn [str_val] in E. apply z_cut in E; [|cbn; no_num|cbn; no_num]. destruct E as [E2 E]. apply app_inv_head in E.
      apply (pos_cut m q m' q') in E. destruct E as [E3 E]. apply app_inv_head in E.
      assert (E' : str_val (VPos n r) ++ [] = str_val (VPos n' r') ++ []) by (rewrite !app_nil_r; exact E).
      apply pos_cut in E'. destruct E' as [E4 _].
      intros f k v w I Hv Hw. cbn [In] in I.
      destruct I as [I|[I|[I|[I|[]]]]]; apply pair_equal_spec in I; destruct I as [<- <-]; unfold has in Hv, Hw; [rewrite H1 in Hv; rewrite G1 in Hw|rewrite H2 in Hv; rewrite G2 in Hw|rewrite H3 in Hv; rewrite G3 in Hw|rewrite H4 in Hv; rewrite G4 in Hw];
        apply Ok_inj in Hv; apply Ok_inj in Hw; subst v w; [now apply Pt|rewrite E2; apply same_refl|exact E3|exact E4].
    + intros A. assert (A1 := A _ APitch _ _ ltac:(cbn; tauto) H1 G1). assert (A2 := A _ ANumber _ _ ltac:(cbn; tauto) H2 G2).
      assert (A3 := A _ APosition _ _ ltac:(cbn; tauto) H3 G3). assert (A4 := A (L"offset") APosition _ _ ltac:(cbn; tauto) H4 G4). cbv beta iota in A1, A2, A3, A4.
      apply Pt in A1. apply (name_same pt x y s t Es Et) in A1. rewrite A1, (same_text _ _ A2), (same_text _ _ A3), (same_text _ _ A4). reflexivity.
  - (* chords *)
    destruct (Ko (L"root") APitch) as (v1 & H1 & x & ->); [cbn; tauto|]. destruct (Kp (L"root") APitch) as (w1 & G1 & y & ->); [cbn; tauto|].
    destruct (Ko (L"bass") APitch) as (v2 & H2 & bx & ->); [cbn; tauto|]. destruct (Kp (L"bass") APitch) as (w2 & G2 & by_ & ->); [cbn; tauto|].
    destruct (Ko (L"onset") APosition) as (v3 & H3 & m & q & ->); [cbn; tauto|]. destruct (Kp (L"onset") APosition) as (w3 & G3 & m' & q' & ->); [cbn; tauto|].
    destruct (Ko (L"offset") APosition) as (v4 & H4 & n & r & ->); [cbn; tauto|]. destruct (Kp (L"offset") APosition) as (w4 & G4 & n' & r' & ->); [cbn; tauto|].
    destruct (Ko (L"chord_type") AType) as (v5 & H5 & ty & ->); [cbn; tauto|]. destruct (Kp (L"chord_type") AType) as (w5 & G5 & ty' & ->); [cbn; tauto|].
    destruct (Ko (L"inversion") ANumber) as (v6 & H6 & iv & ->); [cbn; tauto|]. destruct (Kp (L"inversion") ANumber) as (w6 & G6 & iv' & ->); [cbn; tauto|].
    destruct (get_pitch_string_total x pt) as (s & Es). destruct (get_pitch_string_total y pt) as (t & Et).
    destruct (get_pitch_string_total bx pt) as (sb & Esb). destruct (get_pitch_string_total by_ pt) as (tb & Etb).
    eexists _, _. unfold chord_str, pitch_text. unfold has in H1, H2, H3, H4, H5, H6, To, G1, G2, G3, G4, G5, G6, Tp.
    rewrite H1, To, H2, H3, H4, H5, H6, G1, Tp, G2, G3, G4, G5, G6. cbn [bind]. rewrite Es, Et. cbn [bind]. rewrite Esb, Etb. cbn [bind].
    split; [reflexivity|]. split; [reflexivity|]. rewrite !inversion_words. split.
    + intros E. rewrite <- ?app_assoc in E.
      apply (name_cut pt x y) in E; auto; [|cbn; unfold name_char; cbn; intuition discriminate|cbn; unfold name_char; cbn; intuition discriminate].
      destruct E as [E1 E]. apply app_inv_head in E.
      apply (cut no_space) in E; auto using type_no_space; [|cbn; unfold no_space; tauto|cbn; unfold no_space; tauto].
      destruct E as [E5 E]. apply type_inj in E5. apply app_inv_head in E.
      apply (cut no_space) in E; auto using word_no_space; [|cbn; unfold no_space; tauto|cbn; unfold no_space; tauto].
      destruct E as [E6 E]. apply word_inj in E6. subst iv'. do 3 apply app_inv_head in E.
      apply (name_cut pt bx by_) in E; auto; [|cbn; unfold name_char; cbn; intuition discriminate|cbn; unfold name_char; cbn; intuition discriminate].
      destruct E as [E2 E]. apply app_inv_head in E.
      apply (pos_cut m q m' q') in E. destruct E as [E3 E]. apply app_inv_head in E.
      assert (E' : str_val (VPos n r) ++ [] = str_val (VPos n' r') ++ []) by (rewrite !app_nil_r; exact E).
      apply pos_cut in E'. destruct E' as [E4 _].
      intros f k v w I Hv Hw. cbn [In] in I.
      destruct I as [I|[I|[I|[I|[I|[I|[]]]]]]]; apply pair_equal_spec in I; destruct I as [<- <-]; unfold has in Hv, Hw;
        [rewrite H1 in Hv; rewrite G1 in Hw|rewrite H5 in Hv; rewrite G5 in Hw|rewrite H6 in Hv; rewrite G6 in Hw
        |rewrite H2 in Hv; rewrite G2 in Hw|rewrite H3 in Hv; rewrite G3 in Hw|rewrite H4 in Hv; rewrite G4 in Hw];
        apply Ok_inj in Hv; apply Ok_inj in Hw; subst v w;
        [now apply Pt|rewrite E5; apply same_refl|apply same_refl|now apply Pt|exact E3|exact E4].
    + intros A. assert (A1 := A _ APitch _ _ ltac:(cbn; tauto) H1 G1). assert (A2 := A (L"bass") APitch _ _ ltac:(cbn; tauto) H2 G2).
      assert (A3 := A (L"onset") APosition _ _ ltac:(cbn; tauto) H3 G3). assert (A4 := A (L"offset") APosition _ _ ltac:(cbn; tauto) H4 G4).
      assert (A5 := A _ AType _ _ ltac:(cbn; tauto) H5 G5). assert (A6 := A _ ANumber _ _ ltac:(cbn; tauto) H6 G6). cbv beta iota in A1, A2, A3, A4, A5, A6.
      apply Pt in A1. apply Pt in A2. apply (name_same pt x y s t Es Et) in A1. apply (name_same pt bx by_ sb tb Esb Etb) in A2.
      rewrite A1, A2, (same_text _ _ A3), (same_text _ _ A4).
      assert (ty = ty') as -> by (destruct A5 as [A5|[(a & b & X & _)|(a & b & d & X & _)]]; [congruence|discriminate X|discriminate X]).
      assert (iv = iv') as ->; [|reflexivity].
      apply same_text in A6. now apply z_to_str_inj.
  - (* keys *)
    destruct (Ko (L"relative_tonic") APitch) as (v1 & H1 & x & ->); [cbn; tauto|]. destruct (Kp (L"relative_tonic") APitch) as (w1 & G1 & y & ->); [cbn; tauto|].
    destruct (Ko (L"relative_mode") AMode) as (v2 & H2 & m & ->); [cbn; tauto|]. destruct (Kp (L"relative_mode") AMode) as (w2 & G2 & m' & ->); [cbn; tauto|].
    destruct (get_pitch_string_total x pt) as (s & Es). destruct (get_pitch_string_total y pt) as (t & Et).
    eexists _, _. unfold key_str, pitch_text. unfold has in H1, H2, To, G1, G2, Tp.
    rewrite H1, To, H2, G1, Tp, G2. cbn [bind]. rewrite Es, Et. cbn [bind]. split; [reflexivity|]. split; [reflexivity|]. split.
    + intros E. apply (name_cut pt x y) in E; auto; [|cbn; unfold name_char; cbn; intuition discriminate|cbn; unfold name_char; cbn; intuition discriminate].
      destruct E as [E1 E]. apply app_inv_head in E.
      intros f k v w I Hv Hw. cbn [In] in I.
      destruct I as [I|[I|[]]]; apply pair_equal_spec in I; destruct I as [<- <-]; unfold has in Hv, Hw; [rewrite H1 in Hv; rewrite G1 in Hw|rewrite H2 in Hv; rewrite G2 in Hw];
        apply Ok_inj in Hv; apply Ok_inj in Hw; subst v w; [now apply Pt|]. left. destruct m, m'; (reflexivity || discriminate E).
    + intros A. assert (A1 := A _ APitch _ _ ltac:(cbn; tauto) H1 G1). assert (A2 := A _ AMode _ _ ltac:(cbn; tauto) H2 G2). cbv beta iota in A1, A2.
      apply Pt in A1. apply (name_same pt x y s t Es Et) in A1. rewrite A1, (same_text _ _ A2). reflexivity.
Qed.
Print Assumptions C109_str.

(* a dominant seventh chord in G major with a suspended fourth *)
Definition d7_args (inversion : Z) (suspension : pyval) : dict :=
  [(L"root", VInt 17); (L"bass", VInt 21); (L"key_tonic", VInt 16); (L"key_mode", VMode MAJOR); (L"chord_type", VType Maj_Min7);
   (L"inversion", VInt inversion); (L"onset", VPos 3 (2 # 4)); (L"onset_level", VInt 2); (L"offset", VPos 4 0); (L"offset_level", VInt 3);
   (L"duration", VFrac (1 # 2)); (L"pitch_type", VPitchType TPC); (L"suspension", suspension)].
Definition d7 (inversion : Z) (suspension : pyval) : obj := mkObj CChord (d7_args inversion suspension).
Lemma d7_built i s : built CChord (d7 i s).
Proof. exists (d7_args i s). reflexivity. Qed.
Example C109_repr_ex : texts_apart (d7 1 (VText (L"4"))) /\
  obj_repr (d7 1 (VText (L"4"))) = Ok (L"Chord(root=17, bass=21, key_tonic=16, key_mode=KeyMode.MAJOR, chord_type=ChordType.MAJ_MIN7, inversion=1, onset=(3, Fraction(1, 2)), onset_level=2, offset=(4, Fraction(0, 1)), offset_level=3, duration=1/2, pitch_type=PitchType.TPC, suspension=4)")
  /\ obj_eq (d7 1 (VText (L"4"))) (d7 1 VNone) = Ok false.
Proof.
  split; [|split; vm_compute; reflexivity]. intros f v H. apply (wf_fields CChord) in H; [|apply built_wf, d7_built].
  cbn [d7 d7_args o_attrs In] in H.
  repeat (destruct H as [H|H]; [injection H as <- <-; cbn; first [intros s X; discriminate X|right; eexists; split; [reflexivity|discriminate]]|]).
  destruct H.
Qed.
Example C109_str_ex : proper CChord TPC (d7 1 VNone) /\
  obj_str (d7 1 VNone) = Ok (L"D:Mm7 1st inversion BASS=F#: (3, Fraction(1, 2))--(4, Fraction(0, 1))") /\
  obj_str (d7 4 VNone) = Ok (L"D:Mm7 4th inversion BASS=F#: (3, Fraction(1, 2))--(4, Fraction(0, 1))").
Proof.
  split; [|split; vm_compute; reflexivity]. split; [apply d7_built|]. split; [reflexivity|]. intros f k I. cbn [shown In] in I.
  repeat (destruct I as [I|I]; [injection I as <- <-; eexists; split; [reflexivity|cbn; eauto]|]). destruct I.
Qed.

(* The text of a chord with the suspension "None" is that of one without: the condition on texts
   is needed. *)
Theorem C109_none : exists o p s, built CChord o /\ built CChord p /\
  obj_repr o = Ok s /\ obj_repr p = Ok s /\ obj_eq o p = Ok false.
Proof.
  exists (d7 1 VNone), (d7 1 (VText (L"None"))). eexists. split; [apply d7_built|]. split; [apply d7_built|].
  split; [vm_compute; reflexivity|]. split; vm_compute; reflexivity.
Qed.
Print Assumptions C109_none.
