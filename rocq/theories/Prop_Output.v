(* C90: the tables of every piece end up in files of their own. *)
From Coq Require Import String Ascii.
From Verif Require Import Model_Output Spec_Output Proof_Base Proof_Strings Proof_Output.
From Coq Require Import List Lia.
Import ListNotations.
Open Scope Z_scope.

(* evaluate: when all is done, a file holds a table exactly if it is one of the three tables of a
   piece and the file is the one for this table. *)
Theorem C90_evaluate {T} (dir : fpath) ext (l : list (filed (tables T))) : well_named ext l ->
  forall p c, file_content (evaluate_files (Some dir) (named_scores ext l)) p = Some c <->
    exists x t, In x l /\ f_out x = Some t /\
      ((p = below dir (f_dirs x) (f_base x ++ ext) /\ c = t_labels t) \/
       (p = below dir (f_dirs x) (f_base x ++ L"_results.tsv") /\ c = t_results t) \/
       (p = below dir (f_dirs x) (f_base x ++ L"_results_midi.tsv") /\ c = t_midi t)).
Proof.
  intros W p c. rewrite content_iff by (intros p' c' c''; apply writes_unique, W). rewrite (writes_in dir ext l W). split.
  - intros (i & x & t & Ei & H). exists x, t. split; [exact (nth_error_In _ _ Ei)|exact H].
  - intros (x & t & Hi & H). destruct (In_nth_error _ _ Hi) as (i & Ei). exists i, x, t. split; assumption.
Qed.
Print Assumptions C90_evaluate.

(* The same for the pieces of a corpus, whose names are made from corpus and file names. *)
Theorem C90_frames {T} (dir : fpath) (l : list (Z * pystr * pystr * option (tables T))) :
  well_named (L".tsv") (framed l) ->
  forall p c, file_content (evaluate_files (Some dir) (named_frames (with_ext (L".tsv") l))) p = Some c <->
    exists id corpus base t, In (id, corpus, base, Some t) l /\
      ((p = below dir [corpus] (base ++ L".tsv") /\ c = t_labels t) \/
       (p = below dir [corpus] (base ++ L"_results.tsv") /\ c = t_results t) \/
       (p = below dir [corpus] (base ++ L"_results_midi.tsv") /\ c = t_midi t)).
Proof.
  intros W p c.
  assert (E : named_frames (with_ext (L".tsv") l) = named_scores (L".tsv") (framed l)).
  { unfold named_frames, with_ext, named_scores, framed. rewrite !map_map. apply map_ext. intros (((id, corpus), base), out). reflexivity. }
  rewrite E, C90_evaluate by exact W. unfold framed. split.
  - intros (x & t & Hi & Ht & H). apply in_map_iff in Hi. destruct Hi as ((((id, corpus), base), out) & <- & Hi).
    cbn [f_out f_dirs f_base] in Ht, H. subst out. exists id, corpus, base, t. split; assumption.
  - intros (id & corpus & base & t & Hi & H). exists (Filed _ id [corpus] base (Some t)), t.
    split; [apply in_map_iff; exists (id, corpus, base, Some t); split; [reflexivity|exact Hi]|]. split; [reflexivity|exact H].
Qed.
Print Assumptions C90_frames.

(* annotate: one file per piece, without sub-directories. *)
Theorem C90_annotate {T} (dir : fpath) ext (l : list (filed T)) : well_named_flat ext l ->
  forall p c, file_content (annotate_files (Some dir) (named_scores ext l)) p = Some c <->
    exists x, In x l /\ f_out x = Some c /\ p = below dir [] (f_base x ++ L".tsv").
Proof.
  intros W p c. rewrite content_iff by (intros p' c' c''; apply annotate_unique, W). rewrite (annotate_in dir ext l W). split.
  - intros (i & x & Ei & H). exists x. split; [exact (nth_error_In _ _ Ei)|exact H].
  - intros (x & Hi & H). destruct (In_nth_error _ _ Hi) as (i & Ei). exists i, x. split; assumption.
Qed.
Print Assumptions C90_annotate.

(* Nothing is written without an output directory, for a piece without name, or without result. *)
Theorem C90_nothing {T} (pieces : list (option pystr * option (tables T))) :
  evaluate_files None pieces = [] /\
  forall dir, Forall (fun '(name, t) => name = None \/ t = None) pieces -> evaluate_files dir pieces = [].
Proof.
  unfold evaluate_files. split.
  - induction pieces as [|(name, t) r IH]; [reflexivity|]. cbn [flat_map]. rewrite IH. destruct t, name; reflexivity.
  - intros dir F. induction F as [|(name, t) r H F IH]; [reflexivity|]. cbn [flat_map]. rewrite IH.
    destruct H as [-> | ->]; [destruct t; reflexivity|reflexivity].
Qed.
Print Assumptions C90_nothing.


(* With spaces in names only the last word counts: of two pieces whose names end with the same
   word, the tables of the first are lost. *)
Theorem C90_spaces_refuted {T} dir (u1 u2 base : pystr) (t1 t2 : tables T) :
  component (base ++ L".tsv") ->
  Forall (fun c => ~ In c [t_labels t2; t_results t2; t_midi t2]) [t_labels t1; t_results t1; t_midi t1] ->
  Forall (lost (evaluate_files (Some dir)
    [(Some (u1 ++ L" " ++ base ++ L".tsv"), Some t1); (Some (u2 ++ L" " ++ base ++ L".tsv"), Some t2)]))
    [t_labels t1; t_results t1; t_midi t1].
Proof.
  intros C D.
  assert (K : forall u (t : tables T), evaluate_piece (Some dir) (Some (u ++ L" " ++ base ++ L".tsv")) (Some t) =
    [(below dir [] (base ++ L"_results.tsv"), t_results t); (below dir [] (base ++ L"_results_midi.tsv"), t_midi t);
     (below dir [] (base ++ L".tsv"), t_labels t)]).
  { intros u t. assert (H := evaluate_piece_eq dir (L".tsv") eq_refl (Filed _ 0 [] base (Some t)) (Forall_nil _) C).
    cbn [f_out f_id f_dirs f_base] in H. rewrite <- H. unfold evaluate_piece.
    assert (P : forall u, piece_path (u ++ L" " ++ base ++ L".tsv") = FPath 0 [base ++ L".tsv"]).
    { intros v. unfold piece_path. change (L" " ++ base ++ L".tsv") with (" "%char :: (base ++ L".tsv")).
      rewrite last_split by apply C. apply parse_one, component_part, C. }
    rewrite P. rewrite piece_path_score; [reflexivity|discriminate|constructor; [exact C|constructor]]. }
  unfold evaluate_files. cbn [flat_map app]. rewrite !K. cbn [app].
  assert (NE : forall a b : pystr, List.length a <> List.length b -> fpath_eqb (below dir [] (base ++ a)) (below dir [] (base ++ b)) = false).
  { intros a b N. destruct (fpath_eqb _ _) eqn:E; [|reflexivity]. apply fpath_eqb_eq, below_eq in E. destruct E as (_ & E).
    apply app_inv_head in E. subst b. now elim N. }
  rewrite Forall_forall in D |- *. intros c Hc p H. specialize (D c Hc). cbn [In] in Hc. cbn [file_content] in H.
  destruct (fpath_eqb (below dir [] (base ++ L".tsv")) p) eqn:E1; [apply Some_inj in H; apply D; left; exact H|].
  destruct (fpath_eqb (below dir [] (base ++ L"_results_midi.tsv")) p) eqn:E2;
    [apply Some_inj in H; apply D; right; right; left; exact H|].
  destruct (fpath_eqb (below dir [] (base ++ L"_results.tsv")) p) eqn:E3;
    [apply Some_inj in H; apply D; right; left; exact H|discriminate H].
Qed.
Print Assumptions C90_spaces_refuted.

(* A file whose name ends with _results is overwritten by the results of another piece. *)
Theorem C90_results_refuted {T} dir corpus base (t1 t2 : tables T) :
  component corpus -> component (base ++ L".tsv") -> component (base ++ L"_results.tsv") ->
  ~ In (t_labels t1) [t_labels t2; t_results t2; t_midi t2; t_results t1; t_midi t1] ->
  lost (evaluate_files (Some dir) (named_frames
    [(0, corpus, base ++ L"_results.tsv", Some t1); (1, corpus, base ++ L".tsv", Some t2)])) (t_labels t1).
Proof.
  intros Cc C1 C2 D p H. apply D. unfold named_frames, evaluate_files in H. cbn [map flat_map] in H.
  rewrite !frame_score in H.
  assert (K1 := evaluate_piece_eq dir (L".tsv") eq_refl (Filed _ 0 [corpus] (base ++ L"_results") (Some t1))).
  assert (K2 := evaluate_piece_eq dir (L".tsv") eq_refl (Filed _ 1 [corpus] base (Some t2))).
  cbn [f_out f_id f_dirs f_base app] in K1, K2.
  assert (Ea : (base ++ L"_results") ++ L".tsv" = base ++ L"_results.tsv") by (rewrite <- app_assoc; reflexivity).
  rewrite Ea in K1. assert (Fc : Forall component [corpus]) by (constructor; [exact Cc|constructor]).
  rewrite K1, K2 in H by assumption.
  cbn [app] in H. cbn [file_content] in H.
  destruct (fpath_eqb (below dir [corpus] (base ++ L".tsv")) p); [apply Some_inj in H; rewrite H; now left|].
  destruct (fpath_eqb (below dir [corpus] (base ++ L"_results_midi.tsv")) p); [apply Some_inj in H; rewrite H; right; right; now left|].
  destruct (fpath_eqb (below dir [corpus] (base ++ L"_results.tsv")) p); [apply Some_inj in H; rewrite H; right; now left|].
  destruct (fpath_eqb (below dir [corpus] ((base ++ L"_results") ++ L"_results_midi.tsv")) p); [apply Some_inj in H; rewrite H; do 4 right; now left|].
  destruct (fpath_eqb (below dir [corpus] ((base ++ L"_results") ++ L"_results.tsv")) p); [apply Some_inj in H; rewrite H; do 3 right; now left|].
  discriminate H.
Qed.
Print Assumptions C90_results_refuted.

(* A corpus name that ends with a space: the tables are written outside the output directory, in
   the root directory. *)
Theorem C90_outside_refuted {T} dir id corpus base (t : tables T) : component (base ++ L".tsv") ->
  evaluate_files (Some dir) (named_frames [(id, corpus ++ L" ", base ++ L".tsv", Some t)]) =
    [(FPath 1 [base ++ L"_results.tsv"], t_results t); (FPath 1 [base ++ L"_results_midi.tsv"], t_midi t);
     (FPath 1 [base ++ L".tsv"], t_labels t)].
Proof.
  intros C. unfold evaluate_files, named_frames, evaluate_piece. cbn [map flat_map].
  assert (P : piece_path (frame_name id (corpus ++ L" ") (base ++ L".tsv")) = FPath 1 [base ++ L".tsv"]).
  { unfold piece_path, frame_name.
    replace (z_to_str id ++ L": " ++ (corpus ++ L" ") ++ L"/" ++ base ++ L".tsv")
      with ((z_to_str id ++ L": " ++ corpus) ++ " "%char :: "/"%char :: (base ++ L".tsv"))
      by (rewrite <- !app_assoc; reflexivity).
    rewrite last_split by (intros [H|H]; [discriminate H|now apply C in H]). unfold parse_path.
    cbn [split_on]. rewrite Ascii.eqb_refl, split_on_nosep by apply C. cbn [filter]. change (str_eqb [] []) with true. cbn [orb negb].
    assert (Hk := keep_parts [base ++ L".tsv"]). cbn [filter] in Hk. rewrite Hk by (constructor; [now apply component_part|constructor]).
    f_equal. destruct base as [|c [|d b]]; [reflexivity| |];
      cbn [app text_root]; rewrite ?Ascii.eqb_refl;
      (destruct (Ascii.eqb c "/") eqn:E; [apply Ascii.eqb_eq in E; subst c; exfalso; apply (proj1 (proj2 (proj2 (proj2 C)))); now left|reflexivity]). }
  rewrite P. unfold join_path at 1 2 3 4 5 6. cbn [p_root]. unfold fname, fparent, path_name, parent. cbn [p_root p_parts last removelast].
  rewrite slice_base by reflexivity.
  set (sr := L"_results.tsv"). set (sm := L"_results_midi.tsv").
  assert (Pr : part (base ++ sr)).
  { eapply (part_suffix base (L".tsv")); [reflexivity|exact C| |]; subst sr; cbn; [|lia].
    repeat split; try discriminate. intros H. repeat (destruct H as [H|H]; [discriminate H|]). destruct H. }
  assert (Pm : part (base ++ sm)).
  { eapply (part_suffix base (L".tsv")); [reflexivity|exact C| |]; subst sm; cbn; [|lia].
    repeat split; try discriminate. intros H. repeat (destruct H as [H|H]; [discriminate H|]). destruct H. }
  rewrite !parse_one by assumption. reflexivity.
Qed.
Print Assumptions C90_outside_refuted.

(* For scores the labels are written under the name of the score, .mxl and all: no other file
   holds them (and an output directory that is the input directory has its scores overwritten). *)
Theorem C90_score_refuted {T} dir (l : list (filed (tables T))) x t p : well_named (L".mxl") l ->
  In x l -> f_out x = Some t ->
  (forall y u, In y l -> f_out y = Some u -> t_labels t <> t_results u /\ t_labels t <> t_midi u) ->
  file_content (evaluate_files (Some dir) (named_scores (L".mxl") l)) p = Some (t_labels t) ->
  exists dirs base, p = below dir dirs (base ++ L".mxl").
Proof.
  intros W Hx Ht D H. apply C90_evaluate in H; [|exact W]. destruct H as (y & u & Hy & Hu & [(-> & _)|[(_ & E)|(_ & E)]]).
  - eauto.
  - now elim (proj1 (D y u Hy Hu)).
  - now elim (proj2 (D y u Hy Hu)).
Qed.
Print Assumptions C90_score_refuted.

(* annotate leaves out the directories: of two pieces with the same file name in different corpora
   the annotation of the first is lost. *)
Theorem C90_annotate_refuted {T} dir c1 c2 base (t1 t2 : T) :
  component c1 -> component c2 -> component (base ++ L".tsv") -> base <> [] -> t1 <> t2 ->
  lost (annotate_files (Some dir) (named_frames [(0, c1, base ++ L".tsv", Some t1); (1, c2, base ++ L".tsv", Some t2)])) t1.
Proof.
  intros C1 C2 Cb Nb D p H. apply D.
  assert (K : forall id corpus (t : T), component corpus -> annotate_files (Some dir) (named_frames [(id, corpus, base ++ L".tsv", Some t)])
    = [(join_path dir (parse_path (base ++ L".tsv")), t)]).
  { intros id corpus t C. unfold annotate_files, named_frames, annotate_piece. cbn [map flat_map app]. rewrite frame_score.
    rewrite piece_path_score; [|discriminate|constructor; [assumption|constructor; [assumption|constructor]]]. cbn [p_parts].
    change [corpus; base ++ L".tsv"] with ([corpus] ++ [base ++ "."%char :: L"tsv"]).
    rewrite stem_base; [reflexivity|exact Nb|discriminate|]. intros G. repeat (destruct G as [G|G]; [discriminate G|]). destruct G. }
  assert (E : annotate_files (Some dir) (named_frames [(0, c1, base ++ L".tsv", Some t1); (1, c2, base ++ L".tsv", Some t2)]) =
    annotate_files (Some dir) (named_frames [(0, c1, base ++ L".tsv", Some t1)]) ++ annotate_files (Some dir) (named_frames [(1, c2, base ++ L".tsv", Some t2)])).
  { unfold annotate_files, named_frames. cbn [map flat_map]. rewrite !app_nil_r. reflexivity. }
  rewrite E, !K in H by assumption. cbn [app] in H. cbn [file_content] in H.
  destruct (fpath_eqb (join_path dir (parse_path (base ++ L".tsv"))) p); [apply Some_inj in H; now symmetry|discriminate H].
Qed.
Print Assumptions C90_annotate_refuted.

(* ---- examples ------------------------------------------------------------------------------ *)
Definition ex_dir : fpath := parse_path (L"/data//out/./").
Example ex_dir_is : ex_dir = FPath 1 [L"data"; L"out"].
Proof. reflexivity. Qed.
Definition ex_pieces : list (Z * pystr * pystr * option (tables Z)) :=
  [(0, L"ABC", L"n01op18-1_01", Some (Tables 1 2 3)); (1, L"ABC", L"n01op18-1_02", None);
   (2, L"corelli", L"n01op18-1_01", Some (Tables 4 5 6))].
Ltac comp := repeat split; try discriminate; let H := fresh in intros H; cbn in H; repeat (destruct H as [H|H]; [discriminate H|]); destruct H.
Example ex_named : well_named (L".tsv") (framed ex_pieces).
Proof.
  split; [reflexivity|]. split; [|split].
  - intros x [<-|[<-|[<-|[]]]]; (split; [constructor; [comp|constructor]|comp]).
  - intros [|[|[|i]]] [|[|[|j]]] x y E F; cbn in E, F;
      try (destruct i; discriminate E); try (destruct j; discriminate F);
      apply Some_inj in E, F; subst; cbn; intros D B; try reflexivity; discriminate.
  - intros _ x y [<-|[<-|[<-|[]]]] [<-|[<-|[<-|[]]]] _; split; discriminate.
Qed.
Example ex_files :
  map (fun '(p, c) => (path_text p, c)) (evaluate_files (Some ex_dir) (named_frames (with_ext (L".tsv") ex_pieces))) =
  [(L"/data/out/ABC/n01op18-1_01_results.tsv", 2); (L"/data/out/ABC/n01op18-1_01_results_midi.tsv", 3);
   (L"/data/out/ABC/n01op18-1_01.tsv", 1); (L"/data/out/corelli/n01op18-1_01_results.tsv", 5);
   (L"/data/out/corelli/n01op18-1_01_results_midi.tsv", 6); (L"/data/out/corelli/n01op18-1_01.tsv", 4)].
Proof. vm_compute. reflexivity. Qed.
(* annotate on the same two pieces: one file, the second piece's *)
Example ex_annotate :
  map (fun '(p, c) => (path_text p, c)) (annotate_files (Some ex_dir) (named_frames
    [(0, L"ABC", L"n01op18-1_01.tsv", Some 1); (2, L"corelli", L"n01op18-1_01.tsv", Some 4)])) =
  [(L"/data/out/n01op18-1_01.tsv", 1); (L"/data/out/n01op18-1_01.tsv", 4)].
Proof. vm_compute. reflexivity. Qed.
Example ex_flat : well_named_flat (L".mxl")
  [Filed Z 0 [L"bach"; L"scores"] (L"bwv.1") (Some 1); Filed Z 1 [L"bach"] (L"bwv.2") (Some 2)].
Proof.
  split; [exists (L"mxl"); repeat split; try discriminate; intros H; cbn in H; repeat (destruct H as [H|H]; [discriminate H|]); destruct H|].
  split.
  - intros x [<-|[<-|[]]]; (split; [repeat (apply Forall_cons; [comp|]); apply Forall_nil|split; [comp|discriminate]]).
  - intros [|[|i]] [|[|j]] x y E F; cbn in E, F;
      try (destruct i; discriminate E); try (destruct j; discriminate F);
      apply Some_inj in E, F; subst; cbn; intros B; try reflexivity; discriminate.
Qed.
(* spaces: two movements of different works *)
Example ex_spaces :
  map (fun '(p, c) => (path_text p, c)) (evaluate_files (Some ex_dir) (named_frames
    [(0, L"Beethoven", L"Op. 18 No. 1.tsv", Some (Tables 1 2 3)); (1, L"Haydn", L"Op. 20 No. 1.tsv", Some (Tables 4 5 6));
     (2, L"Mozart ", L"K1.tsv", Some (Tables 7 8 9))])) =
  [(L"/data/out/1_results.tsv", 2); (L"/data/out/1_results_midi.tsv", 3); (L"/data/out/1.tsv", 1);
   (L"/data/out/1_results.tsv", 5); (L"/data/out/1_results_midi.tsv", 6); (L"/data/out/1.tsv", 4);
   (L"/K1_results.tsv", 8); (L"/K1_results_midi.tsv", 9); (L"/K1.tsv", 7)].
Proof. vm_compute. reflexivity. Qed.
