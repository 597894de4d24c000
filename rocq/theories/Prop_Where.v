(* C111: where the labels of the tables are. *)
From Coq Require Import QArith Lqa String Ascii.
From Verif Require Import PyBase Model_Types Model_Strings Model_Harmony Model_Rhythm Model_Piece Model_Xml Model_Search Model_Eval Model_Tables Model_Where
  Spec_Music Spec_Search Spec_Piece Spec_Xml Spec_Where Proof_Base Proof_Piece Proof_Eval Proof_Annot Proof_Keys Proof_Xml Prop_Piece Prop_Eval Prop_Tables Prop_Xml.
From Coq Require Import List Lia.
Import ListNotations.
Close Scope Q_scope.
Open Scope Z_scope.

(* ---- the tables do not look at the notes ---- *)
Lemma annotate_map {N M} (f : N -> M) : forall l prev,
  annotate prev (map (fun x : Q * N * (pystr * pystr) => (fst (fst x), f (snd (fst x)), snd x)) l) = map (fun r => (fst r, f (snd r))) (annotate prev l).
Proof.
  induction l as [|[[d n] [k c]] l IH]; intros prev; [reflexivity|]. cbn [annotate map fst snd].
  destruct (Qeq_bool d 0); [apply IH|]. rewrite IH, !map_app. f_equal; [|f_equal]; (destruct (match prev with Some _ => _ | None => _ end); reflexivity).
Qed.
Lemma label_rows_map {N M} (f : N -> M) rt tt cl kl : forall l prev,
  label_rows rt tt cl kl prev (map (fun x : Q * N * ((Z * Z) * (Z * Z)) => (fst (fst x), f (snd (fst x)), snd x)) l)
  = let! rows := label_rows rt tt cl kl prev l in Ok (map (fun r : pystr * N * colour => (fst (fst r), f (snd (fst r)), snd r)) rows).
Proof.
  induction l as [|[[d n] [[ec gc] [ek gk]]] l IH]; intros prev; [reflexivity|]. cbn [label_rows map fst snd].
  destruct (Qeq_bool d 0); [apply IH|].
  destruct (py_nth cl gc) as [t1|]; [cbn [bind]|reflexivity]. destruct (py_nth kl gk) as [t2|]; [cbn [bind]|reflexivity].
  destruct (py_nth cl ec) as [t3|]; [cbn [bind]|reflexivity]. destruct (py_nth kl ek) as [t4|]; [cbn [bind]|reflexivity].
  cbv zeta. rewrite IH.
  set (b1 := match prev with Some q => str_eqb t2 _ | None => false end). set (b2 := match prev with Some q => str_eqb t4 _ | None => false end).
  set (b3 := match prev with Some q => str_eqb t1 _ | None => false end). set (b4 := match prev with Some q => str_eqb t3 _ | None => false end).
  destruct (b1 && b2); [|destruct (key_colour tt gk ek) as [c1|]; [|reflexivity]]; cbn [bind];
    (destruct (b3 && b4); [|destruct (chord_colour rt gc ec) as [c2|]; [|reflexivity]]); cbn [bind];
    (destruct (label_rows rt tt cl kl (Some (t1, t2, t3, t4)) l) as [rows|]; [|reflexivity]); cbn [bind]; rewrite !map_app; reflexivity.
Qed.
Lemma combine_fst {A B C D} (durs : list A) (notes : list (B * C)) : forall (l : list D),
  combine (combine durs (map fst notes)) l = map (fun x => (fst (fst x), fst (snd (fst x)), snd x)) (combine (combine durs notes) l).
Proof.
  revert notes. induction durs as [|d durs IH]; intros notes l; [reflexivity|]. destruct notes as [|[n q] notes]; [reflexivity|]. destruct l as [|x l]; [reflexivity|].
  cbn. now rewrite IH.
Qed.
Lemma annotate_notes {N} : forall (l : list (Q * N * (pystr * pystr))) prev t n, In (t, n) (annotate prev l) -> exists d x, In (d, n, x) l.
Proof.
  induction l as [|[[d n0] [k c]] l IH]; intros prev t n H; [destruct H|]. cbn [annotate] in H.
  destruct (Qeq_bool d 0); [destruct (IH _ _ _ H) as (d' & x & I); exists d', x; now right|].
  apply in_app_or in H as [H|H]; [|apply in_app_or in H as [H|H]].
  - destruct (match prev with Some _ => _ | None => _ end); [destruct H|]. destruct H as [H|[]]. injection H as _ ->. exists d, (k, c). now left.
  - destruct (match prev with Some _ => _ | None => _ end); [destruct H|]. destruct H as [H|[]]. injection H as _ ->. exists d, (k, c). now left.
  - destruct (IH _ _ _ H) as (d' & x & I). exists d', x. now right.
Qed.

(* what get_annotation_df adds to get_annotation *)
Lemma annotation_df_rows p notes durs s rt tt out : p_notes p = map fst notes -> get_annotation_df p notes durs s rt tt = Ok out ->
  exists l, get_annotation p durs s rt tt = Ok (map (fun r => (fst r, fst (snd r))) l) /\ out = map (fun r => columns_of (fst r) (snd r)) l /\
    forall t n, In (t, n) l -> In n notes.
Proof.
  intros En H. unfold get_annotation_df in H. unfold get_annotation.
  apply bind_ok in H as (chords & -> & H). apply bind_ok in H as (keys & -> & H). apply bind_ok in H as (cl & -> & H). apply bind_ok in H as (kl & -> & H). cbn [bind].
  apply bind_ok in H as (texts & E & H). rewrite E. cbn [bind]. apply Ok_inj in H. exists (annotate None (combine (combine durs notes) texts)).
  rewrite En, combine_fst, (annotate_map fst). split; [reflexivity|]. split; [now symmetry|]. intros t n I. apply annotate_notes in I as (d & x & I).
  now apply in_combine_l, in_combine_r in I.
Qed.
Lemma annotation_df_ok p notes durs s rt tt ann : p_notes p = map fst notes -> get_annotation p durs s rt tt = Ok ann ->
  exists out, get_annotation_df p notes durs s rt tt = Ok out.
Proof.
  intros En H. unfold get_annotation_df. unfold get_annotation in H.
  apply bind_ok in H as (chords & -> & H). apply bind_ok in H as (keys & -> & H). apply bind_ok in H as (cl & -> & H). apply bind_ok in H as (kl & -> & H). cbn [bind].
  apply bind_ok in H as (texts & E & H). rewrite E. cbn [bind]. eauto.
Qed.

Lemma table_notes_in ts rows n q : In (n, q) (table_notes ts rows) -> exists r, In (r, q) rows /\ note_from_series ts TPC r = Some n.
Proof.
  unfold table_notes. induction rows as [|[r q'] rows IH]; [intros []|]. cbn [map fst snd]. intros H.
  destruct (note_from_series ts TPC r) as [n'|] eqn:E; cbn [somes] in H.
  - destruct H as [H|H]; [apply pair_equal_spec in H as [-> ->]; exists r; split; [now left|exact E]|]. destruct (IH H) as (r' & I & E'). exists r'. split; [now right|exact E'].
  - destruct (IH H) as (r' & I & E'). exists r'. split; [now right|exact E'].
Qed.
Lemma table_notes_fst ts rows : map fst (table_notes ts rows) = somes (map (note_from_series ts TPC) (map fst rows)).
Proof.
  unfold table_notes. induction rows as [|[r q] rows IH]; [reflexivity|]. cbn [map fst snd]. destruct (note_from_series ts TPC r); cbn [somes map fst]; now rewrite IH.
Qed.
Lemma series_on ts r n : note_from_series ts TPC r = Some n -> no_on n = nr_on r.
Proof.
  unfold note_from_series. intros H.
  match type of H with or_none ?x = _ => destruct x as [y|] eqn:E; [|discriminate H] end. cbn [or_none] in H. apply Some_inj in H. subst y.
  apply bind_ok in E as (a & _ & E). apply bind_ok in E as (b & _ & E). apply bind_ok in E as (c & _ & E). apply Ok_inj in E. subst n. reflexivity.
Qed.
Lemma score_notes ts red ui ur us note_rows rows p : get_score_piece ts red ui ur us (map fst note_rows) rows = Ok p ->
  p_notes p = map fst (table_notes ts note_rows).
Proof. intros H. apply score_piece_inv in H as (gs & _ & _ & H & _). now rewrite table_notes_fst. Qed.

(* Row by row the table of get_annotation_df has the labels of get_annotation (C41), and the place of each is that of the
   row of the notes table that the note was made of. *)
Theorem C111_tables ts red ui ur us note_rows rows p durs s rt tt out :
  get_score_piece ts red ui ur us (map fst note_rows) rows = Ok p -> get_annotation_df p (table_notes ts note_rows) durs s rt tt = Ok out ->
  exists labels, get_annotation p durs s rt tt = Ok labels /\
    Forall2 (fun c x => col_label c = fst x /\ exists r q, In (r, q) note_rows /\ note_from_series ts TPC r = Some (snd x) /\ at_row r q c) out labels.
Proof.
  intros Hp H. destruct (annotation_df_rows _ _ _ _ _ _ _ (score_notes _ _ _ _ _ _ _ _ Hp) H) as (l & E & -> & I).
  eexists. split; [exact E|]. clear E H. induction l as [|[t [n q]] l IH]; [constructor|]. cbn [map]. constructor.
  - split; [reflexivity|]. destruct (table_notes_in ts note_rows n q) as (r & Ir & Er); [apply (I t); now left|]. exists r, q. split; [exact Ir|]. split; [exact Er|].
    rewrite <- (series_on _ _ _ Er) || idtac. unfold at_row. cbn. now rewrite (series_on _ _ _ Er).
  - apply IH. intros t' n' I'. apply (I t'). now right.
Qed.
Print Assumptions C111_tables.
(* There is such a table whenever there is one of labels (C41_defined). *)
Theorem C111_defined ts red ui ur us note_rows rows p durs s rt tt labels :
  get_score_piece ts red ui ur us (map fst note_rows) rows = Ok p -> get_annotation p durs s rt tt = Ok labels ->
  exists out, get_annotation_df p (table_notes ts note_rows) durs s rt tt = Ok out.
Proof. intros Hp. apply annotation_df_ok. exact (score_notes _ _ _ _ _ _ _ _ Hp). Qed.
Print Assumptions C111_defined.
(* If the two onsets of the notes table name the same place, so do those of the labels. *)
Theorem C111_agree ts red ui ur us note_rows rows p durs s rt tt out offset :
  get_score_piece ts red ui ur us (map fst note_rows) rows = Ok p -> get_annotation_df p (table_notes ts note_rows) durs s rt tt = Ok out ->
  (forall r q, In (r, q) note_rows -> same_place offset (fst (nr_on r)) q (snd (nr_on r))) ->
  forall c, In c out -> same_place offset (col_mc c) (col_mc_onset c) (col_mn_onset c).
Proof.
  intros Hp H A c I. destruct (C111_tables _ _ _ _ _ _ _ _ _ _ _ _ _ Hp H) as (labels & _ & F). apply In_nth_error in I as (i & Hi).
  destruct (Forall2_nth _ _ _ _ _ F Hi) as (x & _ & _ & r & q & I & _ & E1 & E2 & E3). rewrite E1, E2, E3. now apply A.
Qed.
Print Assumptions C111_agree.

(* ---- the order of the rows ---- *)
Lemma in_order_cons a l : in_order l -> (forall x, In x l -> ~ before x a) -> in_order (a :: l).
Proof. intros H F. destruct l as [|b l]; [exact I|]. split; [apply F; now left|exact H]. Qed.
Lemma in_order_tail a l : in_order (a :: l) -> in_order l.
Proof. destruct l; [intros _; exact I|intros [_ H]; exact H]. Qed.
Lemma annotate_order {N} (f : N -> pos) : forall (l : list (Q * N * (pystr * pystr))) prev, in_order (map (fun x => f (snd (fst x))) l) ->
  in_order (map (fun r => f (snd r)) (annotate prev l)).
Proof.
  induction l as [|[[d n] [k c]] l IH]; intros prev H; [exact I|]. cbn [annotate]. cbn [map fst snd] in H.
  assert (Hd := in_order_head _ _ H). apply in_order_tail in H.
  destruct (Qeq_bool d 0); [now apply IH|]. specialize (IH (Some (k, c)) H).
  assert (A : forall x, In x (map (fun r => f (snd r)) (annotate (Some (k, c)) l)) -> ~ before x (f n)).
  { intros x Ix. apply in_map_iff in Ix as ([t m] & <- & Ix). apply annotate_notes in Ix as (d' & y & Iy). apply Hd. apply in_map_iff. exists (d', m, y). split; [reflexivity|exact Iy]. }
  rewrite !map_app.
  assert (B : in_order (map (fun r : pystr * N => f (snd r)) (if match prev with Some (_, c0) => str_eqb c c0 | None => false end then [] else [(c, n)]) ++ map (fun r => f (snd r)) (annotate (Some (k, c)) l)) /\
      forall x, In x (map (fun r : pystr * N => f (snd r)) (if match prev with Some (_, c0) => str_eqb c c0 | None => false end then [] else [(c, n)]) ++ map (fun r => f (snd r)) (annotate (Some (k, c)) l)) -> ~ before x (f n)).
  { destruct (match prev with Some (_, c0) => str_eqb c c0 | None => false end); [split; [exact IH|exact A]|]. cbn [map app snd]. split; [apply in_order_cons; [exact IH|exact A]|].
    intros x [<-|Ix]; [apply before_irrefl|now apply A]. }
  destruct B as [B1 B2]. destruct (match prev with Some (k0, _) => str_eqb k k0 | None => false end); [exact B1|]. cbn [map app snd]. apply in_order_cons; [exact B1|exact B2].
Qed.
Lemma combine_order {A B C} (f : B -> pos) : forall (durs : list A) (notes : list B) (l : list C), in_order (map f notes) ->
  in_order (map (fun x => f (snd (fst x))) (combine (combine durs notes) l)).
Proof.
  induction durs as [|d durs IH]; intros notes l H; [exact I|]. destruct notes as [|n notes]; [exact I|]. destruct l as [|x l]; [exact I|]. cbn [combine map fst snd].
  cbn [map] in H. assert (Hd := in_order_head _ _ H). apply in_order_tail in H. apply in_order_cons; [now apply IH|].
  intros y Iy. apply in_map_iff in Iy as ([[d' m] z] & <- & Iy). cbn [fst snd]. apply in_combine_l, in_combine_r in Iy. apply Hd. now apply in_map.
Qed.
(* If the notes are in order, so are the labels. *)
Theorem C111_order p notes durs s rt tt out : p_notes p = map fst notes -> in_order (map no_on (p_notes p)) ->
  get_annotation_df p notes durs s rt tt = Ok out -> in_order (map place out).
Proof.
  intros En O H. unfold get_annotation_df in H.
  apply bind_ok in H as (chords & _ & H). apply bind_ok in H as (keys & _ & H). apply bind_ok in H as (cl & _ & H). apply bind_ok in H as (kl & _ & H).
  apply bind_ok in H as (texts & _ & H). apply Ok_inj in H. subst out. rewrite map_map.
  assert (K := annotate_order (fun n : note * Q => no_on (fst n)) (combine (combine durs notes) texts) None).
  rewrite (map_ext _ (fun r : pystr * (note * Q) => no_on (fst (snd r)))).
  - apply K. apply (combine_order (fun n : note * Q => no_on (fst n))). now rewrite En, map_map in O.
  - intros [t [n q]]. unfold place, columns_of. cbn. now destruct (no_on n).
Qed.
Print Assumptions C111_order.

(* ---- the table with colours ---- *)
Lemma label_rows_notes {N} rt tt cl kl : forall (l : list (Q * N * ((Z * Z) * (Z * Z)))) prev rows, label_rows rt tt cl kl prev l = Ok rows ->
  forall t n c, In (t, n, c) rows -> exists d x, In (d, n, x) l.
Proof.
  induction l as [|[[d n0] [[ec gc] [ek gk]]] l IH]; intros prev rows H t n c I0; cbn [label_rows] in H; [apply Ok_inj in H; subst rows; destruct I0|].
  destruct (Qeq_bool d 0); [destruct (IH _ _ H t n c I0) as (d' & x & J); exists d', x; now right|].
  do 4 (apply bind_ok in H as (? & _ & H)). cbv zeta in H. apply bind_ok in H as (r1 & E1 & H). apply bind_ok in H as (r2 & E2 & H). apply bind_ok in H as (r3 & E3 & H). apply Ok_inj in H. subst rows.
  apply in_app_or in I0 as [I0|I0]; [|apply in_app_or in I0 as [I0|I0]].
  - match type of E1 with (if ?b then _ else _) = _ => destruct b end; [apply Ok_inj in E1; subst r1; destruct I0|]. apply bind_ok in E1 as (c1 & _ & E1). apply Ok_inj in E1. subst r1.
    destruct I0 as [I0|[]]. injection I0 as _ <- _. eexists d, _. now left.
  - match type of E2 with (if ?b then _ else _) = _ => destruct b end; [apply Ok_inj in E2; subst r2; destruct I0|]. apply bind_ok in E2 as (c1 & _ & E2). apply Ok_inj in E2. subst r2.
    destruct I0 as [I0|[]]. injection I0 as _ <- _. eexists d, _. now left.
  - destruct (IH _ _ E3 t n c I0) as (d' & y & J). exists d', y. now right.
Qed.
(* The same for the table with colours that test.py writes (C73). *)
Theorem C111_coloured ts red ui ur us note_rows rows p durs s rt tt out :
  get_score_piece ts red ui ur us (map fst note_rows) rows = Ok p -> get_label_df p (table_notes ts note_rows) durs s rt tt = Ok out ->
  exists labels, get_label_table p durs s rt tt = Ok labels /\
    Forall2 (fun c x => col_label (fst c) = fst (fst x) /\ snd c = snd x /\
      exists r q, In (r, q) note_rows /\ note_from_series ts TPC r = Some (snd (fst x)) /\ at_row r q (fst c)) out labels.
Proof.
  intros Hp H. unfold get_label_df in H. unfold get_label_table. cbv zeta in H |- *.
  apply bind_ok in H as (gc & -> & H). apply bind_ok in H as (ec & -> & H). apply bind_ok in H as (gk & -> & H). apply bind_ok in H as (ek & -> & H).
  apply bind_ok in H as (cl & -> & H). apply bind_ok in H as (kl & -> & H). cbn [bind]. apply bind_ok in H as (l & E & H). apply Ok_inj in H. subst out.
  rewrite (score_notes _ _ _ _ _ _ _ _ Hp), combine_fst, (label_rows_map fst), E. cbn [bind]. eexists. split; [reflexivity|].
  assert (J : forall t n c, In (t, n, c) l -> In n (table_notes ts note_rows)).
  { intros t n c K. destruct (label_rows_notes _ _ _ _ _ _ _ E t n c K) as (d & x & M). now apply in_combine_l, in_combine_r in M. }
  clear E. induction l as [|[[t [n q]] c] l IH]; [constructor|]. cbn [map]. constructor.
  - split; [reflexivity|]. split; [reflexivity|]. destruct (table_notes_in ts note_rows n q) as (r & Ir & Er); [apply (J t _ c); now left|]. exists r, q. split; [exact Ir|]. split; [exact Er|].
    unfold at_row. cbn. now rewrite (series_on _ _ _ Er).
  - apply IH. intros t' n' c' K. apply (J t' n' c'). now right.
Qed.
Print Assumptions C111_coloured.

(* ---- scores read with music21 ---- *)
Lemma xml_notes ms bs t score ns n q : get_measures ms bs = Ok t -> get_notes t score = Ok ns -> In (n, q) ns ->
  exists number items k it x, In (number, items) score /\ In it items /\ first_row t number k /\ nth_error t k = Some x /\
    no_on n = (Z.of_nat k, (it_offset it / 4 + m_off (x_row x))%Q) /\ q = (it_offset it / 4 + m_off (x_row x) - m_off (x_row x))%Q.
Proof.
  intros H Hn I0. unfold get_notes in Hn. apply bind_ok in Hn as (ls & Hl & Hn). apply Ok_inj in Hn. subst ns. apply mapM_ok in Hl.
  apply in_concat in I0 as (l & Il & I0). apply In_nth_error in Il as (i & Hi). destruct (Forall2_nth_r _ _ _ _ _ Hl Hi) as ([number items] & Hs & Hp). apply nth_error_In in Hs.
  destruct (find (fun x => x_mn x =? number) t) as [x|] eqn:Fx; [|apply Ok_inj in Hp; subst l; destruct I0].
  apply bind_ok in Hp as (l2 & Hp & E). apply Ok_inj in E. subst l.
  assert (K : exists k, nth_error t k = Some x /\ forall j y, (j < k)%nat -> nth_error t j = Some y -> x_mn y <> number).
  { clear -Fx. induction t as [|y t IH]; [discriminate Fx|]. cbn in Fx. destruct (Z.eqb_spec (x_mn y) number) as [E|N].
    - injection Fx as <-. exists 0%nat. split; [reflexivity|]. intros; lia.
    - destruct (IH Fx) as (k & K & N'). exists (S k). split; [exact K|]. intros [|j] z L0 Hz; cbn in Hz.
      + injection Hz as <-. exact N.
      + apply (N' j); [lia|exact Hz]. }
  destruct K as (k & K & N). pose proof (find_some _ _ Fx) as [_ Ex]. apply Z.eqb_eq in Ex.
  pose proof (table_row _ _ _ _ _ H K) as (_ & _ & _ & M & _). rewrite M in Hp. apply mapM_ok in Hp.
  apply in_concat in I0 as (l & Il & I0). apply In_nth_error in Il as (j & Hj). destruct (Forall2_nth_r _ _ _ _ _ Hp Hj) as (it & Hit & Hl'). apply nth_error_In in Hit.
  apply mapM_ok in Hl'. apply In_nth_error in I0 as (j' & Hj'). destruct (Forall2_nth_r _ _ _ _ _ Hl' Hj') as (p & _ & Hn).
  pose proof (note_inv _ _ _ _ _ _ _ _ _ _ H K Hn) as (k' & m' & tmp & _ & _ & _ & _ & _ & O & _ & _ & _ & _ & _ & _ & _ & Q0).
  exists number, items, k, it, x. split; [exact Hs|]. split; [exact Hit|]. split; [exists x; split; [exact K|split; [exact Ex|exact N]]|]. split; [exact K|]. split; [exact O|exact Q0].
Qed.
(* A label names the place of an item of the score: its measure, counted from 0 and without those of first endings, and its
   distance from the start of the measure and of the bar. *)
Theorem C111_xml ms bs t score ns p durs s rt tt out : get_measures ms bs = Ok t -> get_notes t score = Ok ns -> p_notes p = map fst ns ->
  get_annotation_df p ns durs s rt tt = Ok out ->
  exists labels, get_annotation p durs s rt tt = Ok labels /\ map col_label out = map fst labels /\
    forall c, In c out -> exists number items k it, In (number, items) score /\ In it items /\ first_row t number k /\ at_item t k it c.
Proof.
  intros Ht Hn En H. destruct (annotation_df_rows _ _ _ _ _ _ _ En H) as (l & E & -> & J). eexists. split; [exact E|]. rewrite !map_map. split; [reflexivity|].
  intros c I0. apply in_map_iff in I0 as ([lab [n q]] & <- & I0). destruct (xml_notes _ _ _ _ _ _ _ Ht Hn (J _ _ I0)) as (number & items & k & it & x & I1 & I2 & F & K & O & Q0).
  exists number, items, k, it. split; [exact I1|]. split; [exact I2|]. split; [exact F|]. exists x. split; [exact K|]. unfold columns_of. cbn [col_mc col_mc_onset col_mn_onset fst snd]. rewrite O, Q0. cbn [fst snd].
  split; [reflexivity|]. split; [ring|reflexivity].
Qed.
Print Assumptions C111_xml.

(* A piece that starts with an upbeat of a quarter note: measure 0 starts 3/4 after its bar would, so the first label is
   at the start of measure 0 and on the last quarter of the bar. *)
Definition notes111 : list (note_row * Q) :=
  [(mkNR 67 1 (0, (3#4)%Q) (1, 0%Q) (1#4), 0%Q); (mkNR 60 0 (1, 0%Q) (1, (1#2)%Q) (1#2), 0%Q); (mkNR 64 4 (1, (1#2)%Q) (2, 0%Q) (1#2), (1#2)%Q)].
Definition rows111 : list label_row :=
  [lab (L"V") 1 (L"M") [] (L"I") (0, (3#4)%Q) (1, 0%Q) (1#4); lab (L"I") 0 (L"M") [] (L"I") (1, 0%Q) (2, 0%Q) 1].
Definition p111 := load false (map fst notes111) rows111.
Definition durs111 : list Q := [1#4; 1#2; 1#2]%Q.
Definition s111 := states [(1%nat, 48, 15); (3%nat, 45, 15)].
Definition offset111 (mc : Z) : Q := if mc =? 0 then (3#4)%Q else 0%Q.
Example C111_ex : get_score_piece ts44 (fun t => t) true false false (map fst notes111) rows111 = Ok p111
  /\ (forall r q, In (r, q) notes111 -> same_place offset111 (fst (nr_on r)) q (snd (nr_on r)))
  /\ in_order (map no_on (p_notes p111))
  /\ get_annotation_df p111 (table_notes ts44 notes111) durs111 s111 TPC TPC =
       Ok [mkCols (L"C:KeyMode.MAJOR") 0 0%Q (3#4)%Q; mkCols (L"G:M, inv:0") 0 0%Q (3#4)%Q; mkCols (L"C:M, inv:0") 1 0%Q 0%Q]
  /\ get_label_df p111 (table_notes ts44 notes111) durs111 s111 TPC TPC =
       Ok [(mkCols (L"C:KeyMode.MAJOR") 0 0%Q (3#4)%Q, Green); (mkCols (L"G:M, inv:0") 0 0%Q (3#4)%Q, Green); (mkCols (L"C:M, inv:0") 1 0%Q 0%Q, Green)].
Proof.
  split; [vm_compute; reflexivity|]. split.
  - intros r q I0. destruct I0 as [I0|[I0|[I0|[]]]]; apply pair_equal_spec in I0 as [<- <-]; vm_compute; reflexivity.
  - split; [|split; vm_compute; reflexivity]. change (map no_on (p_notes p111)) with [(0, (3#4)%Q); (1, 0%Q); (1, (1#2)%Q)]. unfold in_order, before. cbn [fst snd]. split; [|split; [|exact I]]; intros [H|[H1 H]]; try lia. lra.
Qed.
(* The measures of first endings are not counted, so after one of them the mc of a label is that of an earlier measure,
   whether one counts from 0 or from 1.  The score of C80_ex has an upbeat and a first ending, measure 2; the label in
   measure 3, which is the fourth of the score, gets mc 2. *)
Definition score111 : list (Z * list m21_item) :=
  [(0, [mkItem 0 1 [(L"A", 4)]]); (1, [mkItem 0 2 [(L"D", 4); (L"F#", 4)]]); (2, [mkItem 0 4 [(L"C", 4)]]); (3, [mkItem 1 5 [(L"B-", 4)]])].
Definition xml111 : res (list (note * Q)) := let! t := get_measures ex_ms ex_bs in get_notes t score111.
Definition out111 (ns : list (note * Q)) : res (list label_columns) :=
  get_annotation_df (mkPiece (map fst ns) [] [] [] [] []) ns [1#4; 0; 1; 1]%Q (states [(1%nat, 48, 15); (3%nat, 45, 15); (4%nat, 48, 15)]) TPC TPC.
Theorem C111_endings_refuted : exists ms bs t score ns p durs s out c it, get_measures ms bs = Ok t /\ get_notes t score = Ok ns /\ p_notes p = map fst ns /\
  get_annotation_df p ns durs s TPC TPC = Ok out /\ In c out /\ nth_error (map fst score) 3 = Some 3 /\ nth_error (map mm_number ms) 3 = Some 3 /\
  In (3, [it]) score /\ first_row t 3 2 /\ at_item t 2 it c /\ col_mc c = 2.
Proof.
  destruct (get_measures ex_ms ex_bs) as [t|] eqn:Et; [|vm_compute in Et; discriminate]. destruct (get_notes t score111) as [ns|] eqn:En.
  2:{ vm_compute in Et. apply Ok_inj in Et. subst t. vm_compute in En. discriminate. }
  destruct (out111 ns) as [out|] eqn:Eo.
  2:{ vm_compute in Et. apply Ok_inj in Et. subst t. vm_compute in En. apply Ok_inj in En. subst ns. vm_compute in Eo. discriminate. }
  exists ex_ms, ex_bs, t, score111, ns. eexists _, _, _, out, (nth 3 out (mkCols [] 0 0%Q 0%Q)), (mkItem 1 5 [(L"B-", 4)]).
  split; [exact Et|]. split; [exact En|]. split; [|split; [exact Eo|]]; [reflexivity|].
  vm_compute in Et. apply Ok_inj in Et. subst t. vm_compute in En. apply Ok_inj in En. subst ns. vm_compute in Eo. apply Ok_inj in Eo. subst out. cbn [nth].
  split; [do 3 right; left; reflexivity|]. split; [reflexivity|]. split; [reflexivity|]. split; [do 3 right; left; reflexivity|]. split.
  - eexists. split; [reflexivity|]. split; [reflexivity|]. intros [|[|j]] y Hj Hy; [| |lia]; cbn in Hy; injection Hy as <-; discriminate.
  - split; [|reflexivity]. eexists. split; [reflexivity|]. split; [reflexivity|]. split; vm_compute; reflexivity.
Qed.
Print Assumptions C111_endings_refuted.
Example C111_xml_ex :
  match xml111 with
  | Ok ns => match out111 ns with
             | Ok out => map (fun c => (col_label c, col_mc c, Qred (col_mc_onset c), Qred (col_mn_onset c))) out =
                 [(L"C:KeyMode.MAJOR", 0, 0%Q, (3#4)%Q); (L"G:M, inv:0", 0, 0%Q, (3#4)%Q); (L"C:M, inv:0", 1, 0%Q, 0%Q); (L"G:M, inv:0", 2, (1#4)%Q, (1#4)%Q)]
             | _ => False
             end
  | _ => False
  end.
Proof. vm_compute. reflexivity. Qed.
