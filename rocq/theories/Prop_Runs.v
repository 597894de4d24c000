(* C85: forced labels are read from a json file and used for the piece they are meant for.
   C86: average_results gives the means of the accuracies in a log. *)
From Coq Require Import QArith String Ascii.
From Verif Require Import Model_Runs Spec_Runs Spec_Prior Proof_Base Proof_Strings Proof_Prior Proof_Runs.
From Coq Require Import List Lia.
Import ListNotations.
Close Scope Q_scope.
Open Scope Z_scope.

(* The name of a range is read as the numbers it says, and is refused if it says none. *)
Theorem C85_range s r : parse_range s = Ok r <-> denotes s r.
Proof. apply parse_range_iff. Qed.
Print Assumptions C85_range.
Theorem C85_range_text a b r : denotes (range_text a b) r <-> r = [a; b].
Proof.
  split.
  - intros H. exact (denotes_unique _ _ _ H (range_text_denotes a b)).
  - intros ->. apply range_text_denotes.
Qed.
Print Assumptions C85_range_text.

(* The arguments made from an object: a field for each recognised name, and no other; sets
   with the elements listed, dictionaries with the last label of each range. *)
Theorem C85_fields raw d : load_nested (JDict raw) = Ok d ->
  NoDup (map fst d) /\
  (forall n, (exists x, In (n, x) d) <-> (In n change_names \/ In n label_names) /\ exists j, field raw n j) /\
  (forall n x j, In (n, x) d -> field raw n j ->
     (In n change_names -> exists els l, x = FSet l /\ elements j els /\ is_set_of els l) /\
     (In n label_names -> exists fields l, x = FDict l /\ j = JDict fields /\ NoDup (map fst l) /\
        forall r v, entry l r v <-> labelled fields r v)).
Proof.
  intros H. pose proof (nested_ok raw) as T. rewrite H in T. apply proj1 in T. specialize (T eq_refl).
  destruct (nested_in _ _ H) as [N K]. split; [exact N|]. split.
  - intros n. split.
    + intros (x & I). apply K in I as (j & F & [[I _]|[I _]]); (split; [|now exists j]); [now left|now right].
    + intros [R (j & F)]. destruct R as [I|I].
      * destruct (proj1 (T n j F) I) as (els & E & Hh). pose proof (proj2 (get_set_total j) (ex_intro _ els (conj E Hh))) as G.
        destruct (get_set j) as [x|] eqn:Gx; [|discriminate]. exists x. apply K. exists j. split; [exact F|]. left. now split.
      * pose proof (proj2 (get_dict_total j) (proj2 (T n j F) I)) as G.
        destruct (get_dict j) as [x|] eqn:Gx; [|discriminate]. exists x. apply K. exists j. split; [exact F|]. right. now split.
  - intros n x j I F. apply K in I as (j' & F' & G).
    assert (j' = j) by (apply lookup_field in F, F'; congruence). subst j'. split; intros R.
    + destruct G as [[_ G]|[I _]]; [|elim (names_disjoint n R I)]. apply get_set_ok in G as (els & l & -> & E & _ & S1). now exists els, l.
    + destruct G as [[I _]|[_ G]]; [elim (names_disjoint n I R)|]. apply get_dict_ok in G as (fs & l & -> & -> & N1 & _ & B).
      exists fs, l. repeat split; try assumption; apply B.
Qed.
Print Assumptions C85_fields.

(* Which objects can be read. *)
Theorem C85_accepts raw : is_ok (load_nested (JDict raw)) = true <->
  forall n j, field raw n j ->
    (In n change_names -> exists els, elements j els /\ Forall hashable els) /\
    (In n label_names -> exists fields, j = JDict fields /\ forall t v, In (t, v) fields -> exists r, denotes t r).
Proof. apply nested_ok. Qed.
Print Assumptions C85_accepts.

(* A file in the documented form means what it says. *)
Theorem C85_documented raw :
  (forall n j, field raw n j -> In n change_names -> exists zs, j = int_list zs) ->
  (forall n j, field raw n j -> In n label_names -> exists ls, j = label_object ls) ->
  exists d, load_nested (JDict raw) = Ok d /\
    (forall n zs, field raw n (int_list zs) -> In n change_names ->
       exists l, In (n, FSet l) d /\ forall z, In z zs <-> In (JNum (inject_Z z)) l) /\
    (forall n ls, field raw n (label_object ls) -> In n label_names -> NoDup (map fst ls) ->
       exists l, In (n, FDict l) d /\ forall a b v, In (a, b, v) ls <-> entry l [a; b] v).
Proof.
  intros H1 H2. assert (T : is_ok (load_nested (JDict raw)) = true).
  { apply nested_ok. intros n j F. split; intros I.
    - destruct (H1 n j F I) as (zs & ->). exists (map (fun z => JNum (inject_Z z)) zs). split; [reflexivity|].
      apply Forall_forall. intros x Hx. apply in_map_iff in Hx as (z & <- & _). exact Logic.I.
    - destruct (H2 n j F I) as (ls & ->). exists (map (fun x => let '(a, b, v) := x in (range_text a b, v)) ls). split; [reflexivity|].
      intros t v Hx. apply in_map_iff in Hx as ([[a b] w] & E & _). injection E as <- <-. exists [a; b]. apply range_text_denotes. }
  destruct (load_nested (JDict raw)) as [d|] eqn:E; [|discriminate]. exists d. split; [reflexivity|].
  destruct (C85_fields _ _ E) as (_ & K & M). split.
  - intros n zs F I. destruct (proj2 (K n) (conj (or_introl I) (ex_intro _ _ F))) as (x & X).
    destruct (proj1 (M n x _ X F) I) as (els & l & -> & El & S1 & S2 & _). cbn in El. subst els.
    exists l. split; [exact X|]. intros z. split.
    + intros Hz. destruct (S1 (JNum (inject_Z z))) as (y & Iy & Sy); [apply in_map_iff; now exists z|].
      pose proof (S2 y Iy) as Ey. apply in_map_iff in Ey as (z' & <- & _).
      destruct Sy as [Q|(p & q & P1 & P2 & Q)]; [injection Q as ->; exact Iy|].
      cbn in P1, P2. injection P1 as <-. injection P2 as <-. apply (proj1 (inject_Z_injective _ _)) in Q. rewrite Q. exact Iy.
    + intros Iy. apply S2 in Iy. apply in_map_iff in Iy as (z' & Q & Hz). injection Q as ->. exact Hz.
  - intros n ls F I ND. destruct (proj2 (K n) (conj (or_intror I) (ex_intro _ _ F))) as (x & X).
    destruct (proj2 (M n x _ X F) I) as (fs & l & -> & Ef & _ & B). unfold label_object in Ef. injection Ef as <-.
    exists l. split; [exact X|]. intros a b v. rewrite (B [a; b] v). split.
    + intros Il. apply in_split in Il as (l1 & l2 & ->). rewrite map_app. cbn [map].
      eexists _, _, _. split; [reflexivity|]. split; [apply range_text_denotes|]. intros t' v' Hx D.
      apply in_map_iff in Hx as ([[a' b'] w] & Q & Hx). injection Q as <- <-. apply C85_range_text in D. injection D as <- <-.
      rewrite map_app in ND. apply NoDup_remove_2 in ND. apply ND. rewrite in_app_iff. right. apply in_map_iff. now exists (a, b, w).
    + intros (u & t & w & Q & D & _). assert (Hx : In (t, v) (u ++ (t, v) :: w)) by (rewrite in_app_iff; right; now left).
      rewrite <- Q in Hx. apply in_map_iff in Hx as ([[a' b'] v'] & Q' & Hx). injection Q' as <- <-.
      apply C85_range_text in D. injection D as -> ->. exact Hx.
Qed.
Print Assumptions C85_documented.

(* The whole file: with a recognised name among its own, it is the default of all pieces;
   otherwise its fields are the arguments for the pieces named. *)
Theorem C85_file raw all : load_forces (JDict raw) = Ok all ->
  ((exists n j, (In n change_names \/ In n label_names) /\ field raw n j) ->
     exists f, load_nested (JDict raw) = Ok f /\ all = [(L"default", f)]) /\
  (~ (exists n j, (In n change_names \/ In n label_names) /\ field raw n j) ->
     Forall2 (fun x y => fst x = fst y /\ load_nested (snd x) = Ok (snd y)) raw all).
Proof.
  unfold load_forces. destruct (has_any_object raw (SET_NAMES ++ DICT_NAMES)) as (b & -> & Hb). cbn [bind]. intros H.
  assert (R : b = true <-> exists n j, (In n change_names \/ In n label_names) /\ field raw n j).
  { rewrite Hb. split; intros (n & j & I & F); exists n, j; (split; [now apply recognised_iff|exact F]). }
  rewrite <- R. split.
  - intros ->. cbn [mapM bind fst snd] in H. apply bind_ok in H as (y & H & E). apply bind_ok in H as (f & H & E').
    apply Ok_inj in E, E'. subst. now exists f.
  - intros Nb. destruct b; [now elim Nb|]. apply mapM_ok in H. clear -H.
    induction H as [|x y l r H F IH]; constructor; [|exact IH].
    apply bind_ok in H as (f & H & E). apply Ok_inj in E. subst y. now split.
Qed.
Print Assumptions C85_file.

(* the keys of the file other than "default", in some order *)
Definition keys_in_some_order (order : list (list ascii)) (all : list (list ascii * list (list ascii * force))) : Prop :=
  forall k, In k order <-> In k (map fst all) /\ k <> L"default".

(* A piece in whose name no key of the file occurs gets the default, or nothing; if one key
   occurs, it gets the arguments of that key; if several do, those of one of them. *)
Theorem C85_choice order all : keys_in_some_order order all -> NoDup (map fst all) ->
  let default := match str_lookup (L"default") all with Some f => f | None => [] end in
  choose_forces order all None = Ok default /\
  forall name, 
    ((forall k, In k (map fst all) -> k <> L"default" -> ~ contains_text name k) ->
       choose_forces order all (Some name) = Ok default) /\
    (forall k f, In (k, f) all -> k <> L"default" -> contains_text name k ->
       exists k' f', choose_forces order all (Some name) = Ok f' /\ In (k', f') all /\ k' <> L"default" /\ contains_text name k') /\
    (forall k f, In (k, f) all -> k <> L"default" -> contains_text name k ->
       (forall k', In k' (map fst all) -> k' <> L"default" -> contains_text name k' -> k' = k) ->
       choose_forces order all (Some name) = Ok f).
Proof.
  intros O ND default. split; [reflexivity|]. intros name.
  assert (LK : forall k f, In (k, f) all -> str_lookup k all = Some f).
  { clear -ND. induction all as [|[k1 f1] all IH]; intros k f I; [destruct I|]. cbn [map fst] in ND. inversion ND as [|? ? N1 N2]; subst.
    cbn [str_lookup]. destruct I as [Q|I].
    - injection Q as -> ->. now rewrite str_eqb_refl.
    - destruct (str_eqb k k1) eqn:E; [|now apply IH]. apply str_eqb_eq in E. subst k1. elim N1. apply in_map_iff. now exists (k, f). }
  assert (A : forall k f, In (k, f) all -> k <> L"default" -> contains_text name k ->
       exists k' f', choose_forces order all (Some name) = Ok f' /\ In (k', f') all /\ k' <> L"default" /\ contains_text name k').
  { intros k f I D C. cbn [choose_forces].
    destruct (find (fun key => substring_of key name) order) as [k'|] eqn:F.
    - apply find_some in F as [Ik Ck]. apply substring_iff in Ck. apply O in Ik as [Ik Dk].
      apply in_map_iff in Ik as ((k2 & f') & Q & If). cbn in Q. subst k2. exists k', f'. split; [|now split].
      unfold dict_get. now rewrite (LK _ _ If).
    - exfalso. assert (X : substring_of k name = false).
      { apply (find_none _ _ F). apply O. split; [|exact D]. apply in_map_iff. now exists (k, f). }
      apply substring_iff in C. congruence. }
  split; [|split].
  - intros N. cbn [choose_forces]. destruct (find (fun key => substring_of key name) order) as [k|] eqn:F; [|reflexivity].
    apply find_some in F as [Ik Ck]. apply substring_iff in Ck. apply O in Ik as [Ik Dk]. elim (N k Ik Dk Ck).
  - exact A.
  - intros k f I D C U. destruct (A k f I D C) as (k' & f' & E & I' & D' & C'). rewrite E. f_equal.
    assert (k' = k) by (apply U; [apply in_map_iff; now exists (k', f')|assumption|assumption]). subst k'.
    apply LK in I, I'. congruence.
Qed.
Print Assumptions C85_choice.

(* So a file with recognised names gives every piece the same arguments, and entries for
   single pieces beside them are not used. *)
Theorem C85_default_for_all raw all order name : load_forces (JDict raw) = Ok all ->
  keys_in_some_order order all ->
  (exists n j, (In n change_names \/ In n label_names) /\ field raw n j) ->
  choose_forces order all name = load_nested (JDict raw).
Proof.
  intros H O R. destruct (proj1 (C85_file raw all H) R) as (f & E & ->). rewrite E.
  destruct (C85_choice order _ O) as [C1 C2]; [repeat constructor; intros []|]. cbn [str_lookup] in C1, C2.
  rewrite str_eqb_refl in C1, C2. destruct name as [name|]; [|exact C1]. apply (C2 name).
  intros k [<-|[]] D. now elim D.
Qed.
Print Assumptions C85_default_for_all.

(* If the names of two entries occur in the name of the piece, the entry used depends on the
   order in which the keys happen to be gone through: the name of sonata 10 also matches
   sonata 1. *)
Theorem C85_order_refuted : exists j all o1 o2 name f1 f2,
  load_forces j = Ok all /\ NoDup (map fst all) /\
  keys_in_some_order o1 all /\ keys_in_some_order o2 all /\
  choose_forces o1 all (Some name) = Ok f1 /\ choose_forces o2 all (Some name) = Ok f2 /\ f1 <> f2.
Proof.
  exists (JDict [(L"sonata_1", JDict [(L"forced_chord_changes", int_list [3])]);
                 (L"sonata_10", JDict [(L"forced_chord_changes", int_list [5])])]).
  eexists. exists [L"sonata_1"; L"sonata_10"], [L"sonata_10"; L"sonata_1"], (L"0: corpus/sonata_10.tsv").
  eexists. eexists. split; [vm_compute; reflexivity|]. split; [repeat constructor; cbn; intuition discriminate|].
  split; [|split].
  1,2: intros k; split; [intros [<-|[<-|[]]]; (split; [cbn; tauto|discriminate])|intros [[<-|[<-|[]]] _]; cbn; tauto].
  split; [vm_compute; reflexivity|]. split; [vm_compute; reflexivity|]. discriminate.
Qed.
Print Assumptions C85_order_refuted.

Example C85_example :
  load_forces (JDict [(L"default", JDict []);
    (L"op2", JDict [(L"forced_chord_changes", int_list [3; 7; 3]);
                    (L"forced_chords", label_object [(0, 3, JNum 12%Q)]); (L"speed", JNull)])])
  = Ok [(L"default", []);
        (L"op2", [(L"forced_chord_changes", FSet [JNum (inject_Z 3); JNum (inject_Z 7)]); (L"forced_chords", FDict [([0; 3], JNum 12%Q)])])]
  /\ denotes (L"[ +1_0 ,-2)") [10; -2].
Proof. split; [vm_compute; reflexivity|]. apply parse_range_iff. vm_compute. reflexivity. Qed.

(* ---- C86 ---------------------------------------------------------------------------- *)
(* The result has, for every key of an accuracy, the mean of the values on the lines about
   it, and nothing else. *)
Theorem C86_average float_of sep lines d : sep <> [] -> average_results float_of lines sep = Ok d ->
  forall k, exists qs, readings float_of sep k lines qs /\
    (forall qs', readings float_of sep k lines qs' -> qs' = qs) /\
    str_lookup k d = match qs with [] => None | _ => Some (average qs) end.
Proof.
  intros Hs H k. destruct (average_ok float_of sep Hs lines d H) as [E K]. destruct (E k) as (qs & R). exists qs.
  split; [exact R|]. split; [intros qs' R'; exact (readings_fun _ _ _ _ _ R' _ R)|]. rewrite (K k qs R).
  destruct qs; [reflexivity|now rewrite np_mean_average].
Qed.
Print Assumptions C86_average.
(* It can be computed if and only if all these values are numbers. *)
Theorem C86_readable float_of sep lines : sep <> [] ->
  (is_ok (average_results float_of lines sep) = true <->
   forall line k v, In line lines -> line_says sep line k v -> float_of v <> None).
Proof. intros Hs. now apply average_total. Qed.
Print Assumptions C86_readable.
Theorem C86_empty_separator float_of line lines : average_results float_of (line :: lines) [] = Raise ValueError.
Proof. destruct line; reflexivity. Qed.
Print Assumptions C86_empty_separator.

(* A log of the script: for each piece some other lines, then the eight accuracies (or none,
   if there was no result), each with its text and the number that it is. *)
Definition log_of (pieces : list (list (list ascii) * list (list ascii * Q))) : list (list ascii) :=
  flat_map (fun p => fst p ++ map (fun x => log_line (fst x) (fst (snd x))) (combine accuracy_names (snd p))) pieces.
Definition good_piece (float_of : list ascii -> option Q) (p : list (list ascii) * list (list ascii * Q)) : Prop :=
  (forall line k v, In line (fst p) -> ~ line_says (L" = ") line k v) /\
  (forall t q, In (t, q) (snd p) -> ~ In "="%char t /\ float_of (t ++ [newline]) = Some q).

Lemma readings_app float_of sep k l1 l2 q1 q2 : readings float_of sep k l1 q1 -> readings float_of sep k l2 q2 ->
  readings float_of sep k (l1 ++ l2) (q1 ++ q2).
Proof.
  induction 1 as [|line v q lines qs S1 F R IH|line lines qs N R IH]; intros H; [exact H| |].
  - cbn [app]. apply Read_it with v; auto.
  - cbn [app]. apply Read_other; auto.
Qed.
Lemma readings_silent float_of sep k l : (forall line v, In line l -> ~ line_says sep line k v) -> readings float_of sep k l [].
Proof.
  induction l as [|x l IH]; intros H; [constructor|]. apply Read_other; [intros v; apply H; now left|].
  apply IH. intros line v I. apply H. now right.
Qed.
Lemma accuracy_names_nodup : NoDup accuracy_names.
Proof. repeat constructor; cbn; intuition discriminate. Qed.
Lemma block_readings float_of : forall names res n,
  (forall m, In m names -> In m accuracy_names) -> NoDup names ->
  (forall t q, In (t, q) res -> ~ In "="%char t /\ float_of (t ++ [newline]) = Some q) ->
  forall i, nth_error names i = Some n ->
  readings float_of (L" = ") (L"INFO:root:" ++ n)
    (map (fun x : list ascii * (list ascii * Q) => log_line (fst x) (fst (snd x))) (combine names res))
    (match nth_error res i with Some (t, q) => [q] | None => [] end).
Proof.
  induction names as [|m names IH]; intros res n Hn ND Hr i Hi; [destruct i; discriminate|].
  inversion ND as [|? ? N1 N2]; subst.
  destruct res as [|[t q] res]; [destruct i; constructor|]. cbn [combine map fst snd].
  destruct (Hr t q (or_introl eq_refl)) as [Ht Hq]. pose proof (log_line_says m t (Hn m (or_introl eq_refl)) Ht) as S1.
  destruct i as [|i]; cbn in Hi.
  - injection Hi as ->. cbn [nth_error]. apply Read_it with (t ++ [newline]); [exact S1|exact Hq|].
    apply readings_silent. intros line v I S2. apply in_map_iff in I as ([m' [t' q']] & <- & I). cbn [fst snd] in S2.
    assert (Im : In m' names) by (eapply in_combine_l; eauto).
    assert (S3 : line_says (L" = ") (log_line m' t') (L"INFO:root:" ++ m') (t' ++ [newline])).
    { apply log_line_says; [apply Hn; now right|]. apply in_combine_r in I. apply (Hr t' q'). now right. }
    destruct (line_says_fun _ _ _ _ _ _ S2 S3) as [E _]. apply app_inv_head in E. now subst m'.
  - cbn [nth_error]. apply Read_other.
    + intros v S2. destruct (line_says_fun _ _ _ _ _ _ S1 S2) as [E _]. apply app_inv_head in E. subst m.
      apply N1. eapply nth_error_In, Hi.
    + apply IH; try assumption; [intros m' I; apply Hn; now right|intros t' q' I; apply Hr; now right].
Qed.

(* Averaging the log gives, for each of the eight accuracies, its mean over the pieces. *)
Theorem C86_log float_of pieces i n : Forall (good_piece float_of) pieces -> nth_error accuracy_names i = Some n ->
  let qs := flat_map (fun p => match nth_error (snd p) i with Some (t, q) => [q] | None => [] end) pieces in
  exists d, average_results float_of (log_of pieces) (L" = ") = Ok d /\
    str_lookup (L"INFO:root:" ++ n) d = match qs with [] => None | _ => Some (average qs) end.
Proof.
  intros G Hn qs. assert (Hs : L" = " <> []) by discriminate.
  assert (T : is_ok (average_results float_of (log_of pieces) (L" = ")) = true).
  { apply average_total; [exact Hs|]. intros line k v I S1. unfold log_of in I. apply in_flat_map in I as (p & Ip & I).
    rewrite Forall_forall in G. destruct (G p Ip) as [G1 G2]. apply in_app_iff in I as [I|I]; [elim (G1 line k v I S1)|].
    apply in_map_iff in I as ([m [t q]] & <- & I). cbn [fst snd] in S1.
    destruct (G2 t q) as [Ht Hq]; [eapply in_combine_r; eauto|].
    pose proof (log_line_says m t (in_combine_l _ _ _ _ I) Ht) as S2.
    destruct (line_says_fun _ _ _ _ _ _ S1 S2) as [_ ->]. congruence. }
  destruct (average_results float_of (log_of pieces) (L" = ")) as [d|] eqn:E; [|discriminate]. exists d. split; [reflexivity|].
  assert (R : readings float_of (L" = ") (L"INFO:root:" ++ n) (log_of pieces) qs).
  { subst qs. unfold log_of. clear E T. induction G as [|p pieces [G1 G2] G IH]; [constructor|]. cbn [flat_map].
    apply readings_app; [|exact IH]. rewrite <- (app_nil_l (match _ with Some _ => _ | None => _ end)).
    apply readings_app.
    - apply readings_silent. intros line v I. now apply G1.
    - apply block_readings; try assumption; auto. exact accuracy_names_nodup. }
  destruct (C86_average float_of _ _ d Hs E (L"INFO:root:" ++ n)) as (qs' & R' & U & K). now rewrite (U qs R).
Qed.
Print Assumptions C86_log.

(* two pieces; a float function for the two texts that occur *)
Definition example_float (s : list ascii) : option Q :=
  if str_eqb s (L"0.5" ++ [newline]) then Some (1 # 2)%Q else if str_eqb s (L"1.0" ++ [newline]) then Some 1%Q else None.
Example C86_example :
  average_results example_float
    [L"INFO:root:Running piece a" ++ [newline]; log_line (L"Chord accuracy") (L"0.5"); log_line (L"Key accuracy") (L"1.0");
     L"INFO:root:    forced_chords = {}" ++ [newline]; log_line (L"Chord accuracy") (L"1.0")] (L" = ")
  = Ok [(L"INFO:root:Chord accuracy", average [1 # 2; 1]%Q); (L"INFO:root:Key accuracy", average [1%Q])]
  /\ (average [1 # 2; 1] == 3 # 4)%Q
  /\ good_piece example_float ([L"INFO:root:Running piece a" ++ [newline]], [(L"0.5", 1 # 2)%Q]).
Proof.
  split; [vm_compute; reflexivity|]. split; [reflexivity|]. split.
  - intros line k v [<-|[]] H. apply line_says_cut in H as (a & [E _] & _).
    assert (X : substring_of (L" = ") (L"INFO:root:Running piece a" ++ [newline]) = true) by (apply substring_iff; now exists a, v).
    vm_compute in X. discriminate.
  - intros t q [E|[]]. injection E as <- <-. split; [|reflexivity]. cbn. intuition discriminate.
Qed.
