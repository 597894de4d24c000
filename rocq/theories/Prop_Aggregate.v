(* C92: the combined tables of a corpus hold, under the number of every file, its own rows. *)
From Coq Require Import String Ascii.
From Verif Require Import Model_Aggregate Spec_Aggregate Proof_Base Proof_Strings Proof_Aggregate Spec_Load Proof_Load Prop_Load.
From Coq Require Import List Lia.
Import ListNotations.
Open Scope Z_scope.

Section Tables.
Context {R : Type}.
Variable read_table : path -> option (list R).
Notation agg := (aggregate_annotation_dfs read_table).
Notation run fs := (fold_left (aggregate_step read_table) fs no_lists).

Lemma agg_some found old : found <> [] -> agg found old =
  OutFiles (Some (files_dict (run found))) (write_table (chord_df_list (run found)) (chord_indexes (run found)) (o_chords old))
    (write_table (note_df_list (run found)) (note_indexes (run found)) (o_notes old))
    (write_table (measure_df_list (run found)) (measure_indexes (run found)) (o_measures old)).
Proof.
  intros N. unfold aggregate_annotation_dfs. destruct (files_dict (run found)) as [|x l] eqn:E; [|reflexivity].
  rewrite files_eq in E. destruct found; [now elim N|discriminate E].
Qed.
Lemma written tables indexes old : tables <> [] -> write_table (R := R) tables indexes old = Some (all_rows (combine indexes tables)).
Proof. destruct tables; intros N; [now elim N|reflexivity]. Qed.
Lemma nonempty_of {A B} (a : list A) (b : list B) l x : combine a b = l -> In x l -> b <> [].
Proof. intros <- H ->. destruct a; destruct H. Qed.

(* files.tsv: every file found has its line, with the names of corpus and file. *)
Theorem C92_files found old : found <> [] -> exists names, o_files (agg found old) = Some names /\
  List.length names = List.length found /\
  forall n base corpus d file, nth_error found n = Some (base ++ [corpus; d; file]) -> nth_error names n = Some (corpus, file).
Proof.
  intros N. rewrite agg_some by exact N. cbn [o_files]. eexists. split; [reflexivity|]. rewrite files_eq, map_length. split; [reflexivity|].
  intros n base corpus d file H. rewrite (map_nth_error _ _ _ H). f_equal. unfold parent, path_name.
  change [corpus; d; file] with (([corpus] ++ [d]) ++ [file]). rewrite app_assoc, removelast_last, last_last.
  rewrite app_assoc, removelast_last, last_last. reflexivity.
Qed.

(* A table that can be read for some file is combined: the rows with number n are those of the table
   of the n-th file, in their order. *)
Theorem C92_chords found old p q rows : Forall three_parts found -> In p found -> beside (L"harmonies") p q -> read_table q = Some rows ->
  exists t, o_chords (agg found old) = Some t /\ holds_rows read_table (L"harmonies") found t /\ in_order t.
Proof.
  intros F Hp B T. assert (N : found <> []) by (destruct found; [destruct Hp|discriminate]). rewrite agg_some by exact N. cbn [o_chords].
  destruct (kinds_eq read_table found) as ((E & _) & _).
  assert (I : exists i, In (i, rows) (kind_pairs read_table (L"harmonies") found)).
  { destruct (In_nth_error _ _ Hp) as (n & Hn). exists (Z.of_nat n). apply kind_in. exists n, p. split; [reflexivity|]. split; [exact Hn|].
    rewrite Forall_forall in F. apply shape_table in B; [|now apply F]. subst q. exact T. }
  destruct I as (i & I). rewrite written by (eapply nonempty_of; [exact E|exact I]). rewrite E.
  eexists. split; [reflexivity|]. split; [now apply rows_hold|apply rows_in_order].
Qed.
Theorem C92_notes found old p q rows : Forall three_parts found -> In p found -> beside (L"notes") p q -> read_table q = Some rows ->
  exists t, o_notes (agg found old) = Some t /\ holds_rows read_table (L"notes") found t /\ in_order t.
Proof.
  intros F Hp B T. assert (N : found <> []) by (destruct found; [destruct Hp|discriminate]). rewrite agg_some by exact N. cbn [o_notes].
  destruct (kinds_eq read_table found) as (_ & (E & _) & _).
  assert (I : exists i, In (i, rows) (kind_pairs read_table (L"notes") found)).
  { destruct (In_nth_error _ _ Hp) as (n & Hn). exists (Z.of_nat n). apply kind_in. exists n, p. split; [reflexivity|]. split; [exact Hn|].
    rewrite Forall_forall in F. apply shape_table in B; [|now apply F]. subst q. exact T. }
  destruct I as (i & I). rewrite written by (eapply nonempty_of; [exact E|exact I]). rewrite E.
  eexists. split; [reflexivity|]. split; [now apply rows_hold|apply rows_in_order].
Qed.
Theorem C92_measures found old p q rows : Forall three_parts found -> In p found -> beside (L"measures") p q -> read_table q = Some rows ->
  exists t, o_measures (agg found old) = Some t /\ holds_rows read_table (L"measures") found t /\ in_order t.
Proof.
  intros F Hp B T. assert (N : found <> []) by (destruct found; [destruct Hp|discriminate]). rewrite agg_some by exact N. cbn [o_measures].
  destruct (kinds_eq read_table found) as (_ & _ & (E & _)).
  assert (I : exists i, In (i, rows) (kind_pairs read_table (L"measures") found)).
  { destruct (In_nth_error _ _ Hp) as (n & Hn). exists (Z.of_nat n). apply kind_in. exists n, p. split; [reflexivity|]. split; [exact Hn|].
    rewrite Forall_forall in F. apply shape_table in B; [|now apply F]. subst q. exact T. }
  destruct I as (i & I). rewrite written by (eapply nonempty_of; [exact E|exact I]). rewrite E.
  eexists. split; [reflexivity|]. split; [now apply rows_hold|apply rows_in_order].
Qed.

(* A table that can be read for no file is not written: what was in the directory before stays. *)
Lemma kind_none k found : Forall three_parts found -> (forall p q, In p found -> beside k p q -> read_table q = None) -> kind_pairs read_table k found = [].
Proof.
  intros F H. destruct (kind_pairs read_table k found) as [|(i, t) l] eqn:E; [reflexivity|]. exfalso.
  assert (I : In (i, t) (kind_pairs read_table k found)) by (rewrite E; now left). apply kind_in in I. destruct I as (n & p & _ & Hn & T).
  assert (Hp := nth_error_In _ _ Hn). rewrite Forall_forall in F. unfold table_of in T.
  rewrite (H p _ Hp (proj2 (shape_table k p (F p Hp) _) eq_refl)) in T. discriminate T.
Qed.
Theorem C92_stale_refuted found old : Forall three_parts found ->
  (forall p q, In p found -> beside (L"harmonies") p q -> read_table q = None) -> o_chords (agg found old) = o_chords old.
Proof.
  intros F H. destruct found as [|p0 fs] eqn:Ef; [reflexivity|]. rewrite <- Ef in *. rewrite agg_some by (rewrite Ef; discriminate). cbn [o_chords].
  destruct (kinds_eq read_table found) as ((E & El) & _). rewrite (kind_none _ _ F H) in E.
  destruct (chord_df_list (run found)) as [|t l]; [reflexivity|]. destruct (chord_indexes (run found)); [discriminate El|discriminate E].
Qed.

(* Nothing found: nothing written. *)
Theorem C92_nothing old : agg [] old = old.
Proof. reflexivity. Qed.

(* Two corpora of the same name: their files cannot be told apart in files.tsv. *)
Theorem C92_same_refuted old a b corpus d file : o_files (agg [a ++ [corpus; d; file]; b ++ [corpus; d; file]] old) = Some [(corpus, file); (corpus, file)].
Proof.
  rewrite agg_some by discriminate. cbn [o_files]. rewrite files_eq. cbn [map].
  assert (K : forall a, (path_name (parent (parent (a ++ [corpus; d; file]))), path_name (a ++ [corpus; d; file])) = (corpus, file)).
  { intros c. unfold parent, path_name. change [corpus; d; file] with (([corpus] ++ [d]) ++ [file]). rewrite app_assoc, removelast_last, last_last.
    rewrite app_assoc, removelast_last, last_last. reflexivity. }
  rewrite !K. reflexivity.
Qed.

(* ---- loading the combined tables --------------------------------------------------------- *)
Lemma has_rows_iff k found t n p : Forall three_parts found -> holds_rows read_table k found t -> nth_error found n = Some p ->
  (has_rows (Some t) (Z.of_nat n) = true <-> table_with_rows read_table k p).
Proof.
  intros F H Hn. unfold has_rows. rewrite existsb_exists. split.
  - intros (((i, j), r) & Hi & E). apply Z.eqb_eq in E. subst i. apply H in Hi.
    destruct Hi as (n' & m & p' & q & rows & En & _ & Hn' & B & T & Hm). apply Nat2Z.inj in En. subst n'. rewrite Hn in Hn'. apply Some_inj in Hn'. subst p'.
    exists q, rows. split; [exact B|]. split; [exact T|]. intros ->. destruct m; discriminate Hm.
  - intros (q & rows & B & T & Nr). destruct rows as [|r rows]; [now elim Nr|]. exists (Z.of_nat n, 0, r). split; [|apply Z.eqb_refl].
    apply H. exists n, O, p, q, (r :: rows). auto 10.
Qed.
(* All tables there: every file becomes a piece, made from the rows with its number. *)
Theorem C92_load (D : Type) found : found <> [] -> Forall three_parts found ->
  Forall (fun p => table_with_rows read_table (L"harmonies") p /\ table_with_rows read_table (L"notes") p /\ table_with_rows read_table (L"measures") p) found ->
  load_pieces (D := D) (as_input (agg found empty_dir)) NoPickle [] None =
    Ok (map (fun i => mkPlan D i (FromFrames i true)) (zrange 0 (zlen found))).
Proof.
  intros N F H. destruct found as [|p0 fs] eqn:Ef; [now elim N|]. rewrite <- Ef in *. assert (H0 : In p0 found) by (rewrite Ef; now left).
  rewrite Forall_forall in H. destruct (H p0 H0) as ((q1 & r1 & B1 & T1 & _) & (q2 & r2 & B2 & T2 & _) & (q3 & r3 & B3 & T3 & _)).
  destruct (C92_chords found empty_dir _ _ _ F H0 B1 T1) as (tc & Ec & Hc & _).
  destruct (C92_notes found empty_dir _ _ _ F H0 B2 T2) as (tn & En & Hn & _).
  destruct (C92_measures found empty_dir _ _ _ F H0 B3 T3) as (tm & Em & Hm & _).
  destruct (C92_files found empty_dir N) as (names & Ef' & Ln & _).
  unfold as_input. rewrite Ec, En, Em, Ef'. assert (El : zlen names = zlen found) by (unfold zlen; now rewrite Ln). rewrite El.
  destruct (C52_frames D (zrange 0 (zlen found)) (has_rows (Some tn)) (has_rows (Some tm)) (Some (has_rows (Some tc))) []) as (G & _).
  rewrite G; [reflexivity|]. intros i Hi. change (asked_for (Frames (zrange 0 (zlen found)) (has_rows (Some tn)) (has_rows (Some tm)) (Some (has_rows (Some tc)))) []) with (zrange 0 (zlen found)) in Hi.
  unfold zrange in Hi. apply in_map_iff in Hi. destruct Hi as (n & <- & Hi). assert (Hi' := Hi). apply in_seq in Hi.
  assert (Ln' : (n < List.length found)%nat) by (unfold zlen in Hi; lia). destruct (nth_error found n) as [p|] eqn:Ep; [|apply nth_error_None in Ep; lia].
  destruct (H p (nth_error_In _ _ Ep)) as (A & B & C). cbn [Z.add]. split; [unfold zrange; apply in_map_iff; exists n; split; [reflexivity|exact Hi']|].
  split; [now apply (has_rows_iff (L"notes") found tn n p F Hn Ep)|]. split; [now apply (has_rows_iff (L"measures") found tm n p F Hm Ep)|].
  intros c Ecx. apply Some_inj in Ecx. subst c. now apply (has_rows_iff (L"harmonies") found tc n p F Hc Ep).
Qed.
(* A file without rows of chords (as notes_only allows) beside one that has some: no piece at all
   can be loaded. *)
Theorem C92_missing_refuted (D : Type) found p p' : Forall three_parts found -> In p found -> In p' found ->
  table_with_rows read_table (L"harmonies") p -> ~ table_with_rows read_table (L"harmonies") p' ->
  load_pieces (D := D) (as_input (agg found empty_dir)) NoPickle [] None = Raise KeyError.
Proof.
  intros F Hp Hp' (q & r & B & T & _) M. assert (N : found <> []) by (destruct found; [destruct Hp|discriminate]).
  destruct (C92_chords found empty_dir _ _ _ F Hp B T) as (tc & Ec & Hc & _).
  destruct (C92_files found empty_dir N) as (names & Ef' & Ln & _).
  unfold as_input. rewrite Ec, Ef'. assert (El : zlen names = zlen found) by (unfold zlen; now rewrite Ln). rewrite El.
  match goal with |- load_pieces (Frames ?f ?n ?m ?c) _ _ _ = _ => destruct (C52_frames D f n m c []) as (_ & G) end. apply G.
  destruct (In_nth_error _ _ Hp') as (k & Hk). exists (Z.of_nat k). assert (k < List.length found)%nat by (apply nth_error_Some; congruence). split.
  - change (In (Z.of_nat k) (zrange 0 (zlen found))). unfold zrange. apply in_map_iff. exists k. split; [reflexivity|]. apply in_seq. unfold zlen. lia.
  - intros (_ & _ & _ & C). specialize (C _ eq_refl). apply M. now apply (has_rows_iff (L"harmonies") found tc k p' F Hc Hk).
Qed.
End Tables.
Print Assumptions C92_files. Print Assumptions C92_chords. Print Assumptions C92_notes. Print Assumptions C92_measures.
Print Assumptions C92_stale_refuted. Print Assumptions C92_nothing. Print Assumptions C92_same_refuted.
Print Assumptions C92_load. Print Assumptions C92_missing_refuted.

(* ---- examples ------------------------------------------------------------------------------ *)
Definition ex_table (p : path) : option (list Z) :=
  if str_eqb (path_name p) (L"a.tsv") then Some [1; 2]
  else if str_eqb (path_name p) (L"b.tsv") then (if str_eqb (path_name (parent p)) (L"harmonies") then None else Some [7]) else None.
Definition ex_found : list path := [[L"data"; L"ABC"; L"notes"; L"b.tsv"]; [L"data"; L"ABC"; L"notes"; L"a.tsv"]].
Example ex_three : Forall three_parts ex_found.
Proof.
  constructor; [|constructor; [|constructor]].
  - exists [L"data"; L"ABC"], (L"notes"), (L"b.tsv"). reflexivity.
  - exists [L"data"; L"ABC"], (L"notes"), (L"a.tsv"). reflexivity.
Qed.
Example ex_agg : aggregate_annotation_dfs ex_table ex_found (OutFiles None None (Some [(9, 9, 9)]) None) =
  OutFiles (Some [(L"ABC", L"b.tsv"); (L"ABC", L"a.tsv")]) (Some [(1, 0, 1); (1, 1, 2)])
    (Some [(0, 0, 7); (1, 0, 1); (1, 1, 2)]) (Some [(0, 0, 7); (1, 0, 1); (1, 1, 2)]).
Proof. vm_compute. reflexivity. Qed.
Example ex_missing : load_pieces (D := unit) (as_input (aggregate_annotation_dfs ex_table ex_found empty_dir)) NoPickle [] None = Raise KeyError.
Proof. vm_compute. reflexivity. Qed.
Example ex_load : load_pieces (D := unit) (as_input (aggregate_annotation_dfs ex_table [[L"data"; L"ABC"; L"notes"; L"a.tsv"]] empty_dir)) NoPickle [] None =
  Ok [mkPlan unit 0 (FromFrames 0 true)].
Proof. vm_compute. reflexivity. Qed.
(* an old chords.tsv stays when the new corpus has no annotations *)
Example ex_stale : o_chords (aggregate_annotation_dfs ex_table [[L"data"; L"ABC"; L"notes"; L"b.tsv"]] (OutFiles None (Some [(0, 0, 99)]) None None)) = Some [(0, 0, 99)].
Proof. vm_compute. reflexivity. Qed.
