(* Lemmas about the output files. *)
From Coq Require Import String Ascii.
From Verif Require Import Model_Output Spec_Output Proof_Base Proof_Strings.
From Coq Require Import List Lia.
Import ListNotations.
Open Scope Z_scope.

(* ---- texts and paths ----------------------------------------------------------------- *)
Lemma split_on_nonempty sep s : split_on sep s <> [].
Proof. destruct s as [|c s]; cbn [split_on]; [discriminate|]. destruct (Ascii.eqb c sep); [discriminate|]. destruct (split_on sep s); discriminate. Qed.
Lemma last_split sep a b : ~ In sep b -> last (split_on sep (a ++ sep :: b)) [] = b.
Proof.
  intros N. induction a as [|c a IH]; cbn [app split_on].
  - rewrite Ascii.eqb_refl, split_on_nosep by assumption. reflexivity.
  - destruct (Ascii.eqb c sep) eqn:E.
    + assert (H := split_on_nonempty sep (a ++ sep :: b)). destruct (split_on sep (a ++ sep :: b)); [now elim H|exact IH].
    + destruct (split_on sep (a ++ sep :: b)) as [|w ws] eqn:F; [now elim (split_on_nonempty _ _ F)|].
      destruct ws as [|w' ws]; [|exact IH]. exfalso.
      assert (K : forall a w, split_on sep (a ++ sep :: b) <> [w]).
      { clear -N. induction a as [|d a IH]; intros w; cbn [app split_on].
        - rewrite Ascii.eqb_refl. intros H. apply (f_equal (@tl _)) in H. cbn in H. now apply split_on_nonempty in H.
        - destruct (Ascii.eqb d sep).
          + intros H. apply (f_equal (@tl _)) in H. cbn in H. now apply split_on_nonempty in H.
          + destruct (split_on sep (a ++ sep :: b)) as [|v vs] eqn:G; [now elim (split_on_nonempty _ _ G)|].
            intros H. apply (f_equal (@tl _)) in H. cbn in H. subst vs. now elim (IH v). }
      now apply K in F.
Qed.

(* a component as far as the parsing of paths goes *)
Definition part (w : pystr) : Prop := w <> [] /\ w <> L"." /\ ~ In "/"%char w.
Lemma component_part w : component w -> part w.
Proof. intros (A & B & _ & C & _). repeat split; assumption. Qed.

Lemma split_join parts : parts <> [] -> Forall part parts -> split_on "/" (str_join (L"/") parts) = parts.
Proof.
  induction parts as [|w r IH]; intros N F; [now elim N|]. inversion F as [|? ? P R]; subst.
  destruct r as [|v r].
  - cbn [str_join]. apply split_on_nosep, P.
  - change (str_join (L"/") (w :: v :: r)) with (w ++ "/"%char :: str_join (L"/") (v :: r)).
    rewrite split_on_app by apply P. f_equal. apply IH; [discriminate|assumption].
Qed.
Lemma text_root_plain c s : c <> "/"%char -> text_root (c :: s) = O.
Proof. intros N. apply Ascii.eqb_neq in N. destruct s as [|d [|e s]]; cbn [text_root]; rewrite N; reflexivity. Qed.
Lemma join_head parts : parts <> [] -> Forall part parts -> exists c s, str_join (L"/") parts = c :: s /\ c <> "/"%char.
Proof.
  intros N F. destruct parts as [|w r]; [now elim N|]. inversion F as [|? ? (P & _ & Q) R]; subst.
  destruct w as [|c w]; [now elim P|]. exists c.
  destruct r; eexists; (split; [reflexivity|intros ->; apply Q; now left]).
Qed.
Lemma keep_parts parts : Forall part parts ->
  filter (fun w => negb (str_eqb w [] || str_eqb w (L"."))) parts = parts.
Proof.
  induction 1 as [|w r (P & Q & _) _ IH]; [reflexivity|]. cbn [filter]. rewrite IH.
  destruct (str_eqb w []) eqn:E; [apply str_eqb_eq in E; now elim P|].
  destruct (str_eqb w (L".")) eqn:E'; [apply str_eqb_eq in E'; now elim Q|]. reflexivity.
Qed.
Lemma parse_join parts : parts <> [] -> Forall part parts -> parse_path (str_join (L"/") parts) = FPath 0 parts.
Proof.
  intros N F. unfold parse_path. rewrite split_join, keep_parts by assumption. f_equal.
  destruct (join_head _ N F) as (c & s & -> & C). now apply text_root_plain.
Qed.
Lemma parse_one w : part w -> parse_path w = FPath 0 [w].
Proof. intros P. apply (parse_join [w]); [discriminate|]. constructor; [assumption|constructor]. Qed.
Lemma join_no_space parts : Forall component parts -> ~ In " "%char (str_join (L"/") parts).
Proof.
  induction parts as [|w r IH]; intros F; [intros []|]. inversion F as [|? ? P R]; subst.
  destruct r as [|v r]; [apply P|].
  change (str_join (L"/") (w :: v :: r)) with (w ++ "/"%char :: str_join (L"/") (v :: r)).
  intros H. apply in_app_or in H. destruct H as [H|[H|H]]; [now apply P in H|discriminate|now apply IH in H].
Qed.
Lemma score_text id parts : parts <> [] -> score_name id parts = (z_to_str id ++ L":") ++ " "%char :: str_join (L"/") parts.
Proof.
  intros N. unfold score_name, path_text. cbn [p_root p_parts]. destruct parts as [|w r]; [now elim N|].
  cbn [repeat]. change ([] ++ ?x) with x. rewrite <- app_assoc. reflexivity.
Qed.
Lemma frame_score id corpus file : frame_name id corpus file = score_name id [corpus; file].
Proof. reflexivity. Qed.
Lemma piece_path_score id parts : parts <> [] -> Forall component parts -> piece_path (score_name id parts) = FPath 0 parts.
Proof.
  intros N F. unfold piece_path. rewrite score_text by assumption. rewrite last_split by now apply join_no_space.
  apply parse_join; [assumption|]. eapply Forall_impl; [|exact F]. apply component_part.
Qed.

(* ---- equality of paths, contents ------------------------------------------------------ *)
Lemma fpath_eqb_eq p q : fpath_eqb p q = true <-> p = q.
Proof.
  destruct p as [r a], q as [s b]. unfold fpath_eqb. cbn [p_root p_parts]. rewrite andb_true_iff, Nat.eqb_eq.
  match goal with |- _ /\ ?f a b = true <-> _ => set (eqb := f) end.
  assert (K : forall a b, eqb a b = true <-> a = b).
  { clear. induction a as [|x a IH]; intros [|y b]; cbn [eqb]; try (split; [discriminate|discriminate]); [split; reflexivity|].
    fold eqb. rewrite andb_true_iff, str_eqb_eq, IH. split; [intros (-> & ->); reflexivity|intros [= -> ->]; split; reflexivity]. }
  rewrite K. split; [intros (-> & ->); reflexivity|intros [= -> ->]; split; reflexivity].
Qed.
Section Content.
Context {T : Type}.
Implicit Types w : list (fpath * T).
Lemma content_in w p c : file_content w p = Some c -> In (p, c) w.
Proof.
  induction w as [|(q, t) w IH]; cbn [file_content]; [discriminate|]. destruct (file_content w p) eqn:E.
  - intros H. right. apply IH, H.
  - destruct (fpath_eqb q p) eqn:F; [|discriminate]. apply fpath_eqb_eq in F. subst q. intros H. apply Some_inj in H. subst. now left.
Qed.
Lemma content_some w p c : In (p, c) w -> exists c', file_content w p = Some c'.
Proof.
  induction w as [|(q, t) w IH]; cbn [file_content]; [intros []|]. intros [H|H].
  - apply pair_equal_spec in H. destruct H as (-> & ->). destruct (file_content w p); [eexists; reflexivity|].
    rewrite (proj2 (fpath_eqb_eq p p) eq_refl). eexists; reflexivity.
  - destruct (IH H) as (c' & ->). eexists; reflexivity.
Qed.
Lemma content_iff w : (forall p c c', In (p, c) w -> In (p, c') w -> c = c') ->
  forall p c, file_content w p = Some c <-> In (p, c) w.
Proof.
  intros U p c. split; [apply content_in|]. intros H. destruct (content_some _ _ _ H) as (c' & E).
  rewrite E. f_equal. eapply U; [apply content_in, E|exact H].
Qed.
End Content.

(* ---- the files of one piece ------------------------------------------------------------ *)
Lemma tail_eq {A} (a b c d : list A) : List.length b = List.length d -> a ++ b = c ++ d -> a = c /\ b = d.
Proof.
  intros E H. assert (K : List.length a = List.length c) by (apply (f_equal (@List.length _)) in H; rewrite !app_length in H; lia).
  revert c K H. induction a as [|x a IH]; intros [|y c] K H; try discriminate K; [split; [reflexivity|exact H]|].
  cbn [app] in H. inversion H; subst. destruct (IH c) as (-> & ->); [cbn in K; lia|assumption|split; reflexivity].
Qed.
Lemma last_app {A} (a : list A) x d : last (a ++ [x]) d = x.
Proof. induction a as [|y [|z a] IH]; [reflexivity|reflexivity|exact IH]. Qed.
Lemma slice_base (base ext : pystr) : List.length ext = 4%nat -> py_slice (base ++ ext) 0 (-4) = base.
Proof.
  intros E. assert (L4 : zlen ext = 4) by (unfold zlen; rewrite E; reflexivity).
  unfold py_slice, py_bound. assert (H : zlen (base ++ ext) = zlen base + 4) by (unfold zlen in *; rewrite app_length; lia).
  assert (0 <= zlen base) by (unfold zlen; lia). rewrite H. cbn [Z.ltb Z.compare].
  replace (Z.max 0 (Z.min (zlen base + 4) 0)) with 0 by lia. cbn [Z.to_nat skipn].
  replace (Z.to_nat _) with (List.length base) by (unfold zlen in *; lia).
  rewrite firstn_app, firstn_all, Nat.sub_diag. cbn [firstn]. apply app_nil_r.
Qed.
Lemma part_suffix (base ext suffix : pystr) : List.length ext = 4%nat -> component (base ++ ext) -> part suffix ->
  (List.length suffix > 1)%nat -> part (base ++ suffix).
Proof.
  intros E (_ & _ & _ & C & _) (P & _ & Q) G. repeat split.
  - intros H. apply app_eq_nil in H. now apply P.
  - intros H. apply (f_equal (@List.length _)) in H. rewrite app_length in H. cbn [List.length L list_ascii_of_string] in H. lia.
  - intros H. apply in_app_or in H. destruct H as [H|H]; [apply C, in_or_app; now left|now apply Q].
Qed.

Section Piece.
Context {T : Type}.
Variables (dir : fpath) (ext : pystr).
Hypothesis Hext : List.length ext = 4%nat.
Lemma evaluate_piece_eq (x : filed (tables T)) :
  Forall component (f_dirs x) -> component (f_base x ++ ext) ->
  evaluate_piece (Some dir) (Some (score_name (f_id x) (f_dirs x ++ [f_base x ++ ext]))) (f_out x) =
  match f_out x with
  | None => []
  | Some t => [(below dir (f_dirs x) (f_base x ++ L"_results.tsv"), t_results t);
               (below dir (f_dirs x) (f_base x ++ L"_results_midi.tsv"), t_midi t);
               (below dir (f_dirs x) (f_base x ++ ext), t_labels t)]
  end.
Proof.
  intros D C. unfold evaluate_piece. destruct (f_out x) as [t|]; [|reflexivity].
  assert (N : f_dirs x ++ [f_base x ++ ext] <> []) by (destruct (f_dirs x); discriminate).
  rewrite piece_path_score; [|assumption|apply Forall_app; split; [assumption|constructor; [assumption|constructor]]].
  set (sr := L"_results.tsv"). set (sm := L"_results_midi.tsv").
  unfold join_path at 1 2 3 4 5 6. cbn [p_root p_parts]. unfold fname, fparent, path_name, parent. cbn [p_root p_parts].
  rewrite app_assoc, last_app, removelast_last, slice_base by assumption.
  assert (Pr : part (f_base x ++ sr)).
  { eapply part_suffix; [exact Hext|exact C| |]; subst sr; cbn; [|lia].
    repeat split; try discriminate. intros H. repeat (destruct H as [H|H]; [discriminate H|]). destruct H. }
  assert (Pm : part (f_base x ++ sm)).
  { eapply part_suffix; [exact Hext|exact C| |]; subst sm; cbn; [|lia].
    repeat split; try discriminate. intros H. repeat (destruct H as [H|H]; [discriminate H|]). destruct H. }
  rewrite !parse_one by assumption. unfold join_path, below. cbn [p_root p_parts]. rewrite <- !app_assoc. reflexivity.
Qed.
End Piece.

(* ---- all pieces -------------------------------------------------------------------------- *)
Lemma below_eq dir d e f g : below dir d f = below dir e g -> d = e /\ f = g.
Proof.
  unfold below. intros [= H]. apply app_inv_head in H. apply app_inj_tail in H. exact H.
Qed.
Section All.
Context {T : Type}.
Variables (dir : fpath) (ext : pystr) (l : list (filed (tables T))).
Hypothesis W : well_named ext l.
Let writes := evaluate_files (Some dir) (named_scores ext l).

Lemma writes_in p c : In (p, c) writes <-> exists i x t, nth_error l i = Some x /\ f_out x = Some t /\
  ((p = below dir (f_dirs x) (f_base x ++ ext) /\ c = t_labels t) \/
   (p = below dir (f_dirs x) (f_base x ++ L"_results.tsv") /\ c = t_results t) \/
   (p = below dir (f_dirs x) (f_base x ++ L"_results_midi.tsv") /\ c = t_midi t)).
Proof.
  destruct W as (We & Wc & _ & _). unfold writes, evaluate_files. rewrite in_flat_map. split.
  - intros ((name, out) & Hi & Hp). unfold named_scores in Hi. apply in_map_iff in Hi. destruct Hi as (x & Hx & Hi).
    apply pair_equal_spec in Hx. destruct Hx as (<- & <-). destruct (Wc x Hi) as (Hd & Hc).
    rewrite evaluate_piece_eq in Hp by assumption. destruct (In_nth_error _ _ Hi) as (i & Ei).
    destruct (f_out x) as [t|] eqn:E; [|destruct Hp]. exists i, x, t. split; [exact Ei|]. split; [exact E|].
    destruct Hp as [Hp|[Hp|[Hp|[]]]]; apply pair_equal_spec in Hp; destruct Hp as (<- & <-); tauto.
  - intros (i & x & t & Ei & E & H). assert (Hi := nth_error_In _ _ Ei). destruct (Wc x Hi) as (Hd & Hc).
    eexists (_, _). split; [apply in_map_iff; exists x; split; [reflexivity|exact Hi]|].
    cbn beta iota. rewrite evaluate_piece_eq by assumption. rewrite E.
    destruct H as [(-> & ->)|[(-> & ->)|(-> & ->)]]; cbn [In]; tauto.
Qed.
Lemma tsv_tail (base : pystr) base' s : base ++ ext = base' ++ s ++ L".tsv" -> ext = L".tsv" /\ base = base' ++ s.
Proof.
  destruct W as (We & _). rewrite app_assoc. intros H. apply tail_eq in H; [|exact We]. destruct H as (-> & ->). split; reflexivity.
Qed.
Lemma writes_unique p c c' : In (p, c) writes -> In (p, c') writes -> c = c'.
Proof.
  intros H K. apply writes_in in H, K. destruct H as (i & x & t & Ei & Ex & H), K as (j & y & u & Ej & Ey & K).
  destruct W as (We & Wc & Wu & Wr).
  assert (Ix := nth_error_In _ _ Ei). assert (Iy := nth_error_In _ _ Ej).
  assert (Same : f_dirs x = f_dirs y -> f_base x = f_base y -> t = u).
  { intros D B. assert (i = j) by (eapply Wu; eassumption). subst j. rewrite Ei in Ej. apply Some_inj in Ej. subst y.
    rewrite Ex in Ey. now apply Some_inj in Ey. }
  assert (NM : forall a b : pystr, a ++ L"_results.tsv" <> b ++ L"_results_midi.tsv").
  { intros a b E. apply (f_equal (@rev _)) in E. rewrite !rev_app_distr in E. cbn in E. discriminate E. }
  change (L"_results.tsv") with (L"_results" ++ L".tsv") in *. change (L"_results_midi.tsv") with (L"_results_midi" ++ L".tsv") in *.
  destruct H as [(-> & ->)|[(-> & ->)|(-> & ->)]]; destruct K as [(E & ->)|[(E & ->)|(E & ->)]]; apply below_eq in E; destruct E as (D & E).
  - apply tail_eq in E; [|reflexivity]. now rewrite (Same D (proj1 E)).
  - apply tsv_tail in E. destruct E as (E & B). now elim (proj1 (Wr E x y Ix Iy D)).
  - apply tsv_tail in E. destruct E as (E & B). now elim (proj2 (Wr E x y Ix Iy D)).
  - symmetry in E, D. apply tsv_tail in E. destruct E as (E & B). now elim (proj1 (Wr E y x Iy Ix D)).
  - apply app_inv_tail in E. now rewrite (Same D E).
  - now elim (NM _ _ E).
  - symmetry in E, D. apply tsv_tail in E. destruct E as (E & B). now elim (proj2 (Wr E y x Iy Ix D)).
  - symmetry in E. now elim (NM _ _ E).
  - apply app_inv_tail in E. now rewrite (Same D E).
Qed.
End All.

(* ---- annotate ------------------------------------------------------------------------------ *)
Lemma last_dot_none e i f : ~ In "."%char e -> last_dot e i f = f.
Proof.
  revert i f. induction e as [|c e IH]; intros i f N; [reflexivity|]. cbn [last_dot].
  destruct (Ascii.eqb c ".") eqn:E; [apply Ascii.eqb_eq in E; subst; elim N; now left|]. apply IH. intros H. apply N. now right.
Qed.
Lemma last_dot_app base e i f : ~ In "."%char e -> last_dot (base ++ "."%char :: e) i f = Some (i + List.length base)%nat.
Proof.
  intros N. revert i f. induction base as [|c base IH]; intros i f; cbn [app last_dot List.length].
  - rewrite Ascii.eqb_refl, last_dot_none by assumption. f_equal. lia.
  - rewrite IH. f_equal. lia.
Qed.
Lemma stem_base dirs base e : base <> [] -> e <> [] -> ~ In "."%char e -> stem (dirs ++ [base ++ "."%char :: e]) = base.
Proof.
  intros B E N. unfold stem, path_name. rewrite last_app, last_dot_app by assumption. cbn [Nat.add].
  destruct base as [|c base]; [now elim B|]. cbn [List.length]. rewrite app_length. cbn [List.length].
  destruct e as [|d e]; [now elim E|]. cbn [List.length].
  destruct (Nat.ltb_spec (S (S (List.length base))) (S (List.length base) + S (S (List.length e)))) as [_|G]; [|lia].
  change (S (List.length base)) with (List.length (c :: base)).
  rewrite firstn_app, firstn_all, Nat.sub_diag. cbn [firstn]. apply app_nil_r.
Qed.
Section Annotate.
Context {T : Type}.
Variables (dir : fpath) (ext : pystr) (l : list (filed T)).
Hypothesis W : well_named_flat ext l.
Let writes := annotate_files (Some dir) (named_scores ext l).
Lemma annotate_in p c : In (p, c) writes <-> exists i x, nth_error l i = Some x /\ f_out x = Some c /\
  p = below dir [] (f_base x ++ L".tsv").
Proof.
  destruct W as ((e & -> & En & Ed) & Wc & _). unfold writes, annotate_files. rewrite in_flat_map.
  assert (K : forall x, In x l ->
    annotate_piece (Some dir) (Some (score_name (f_id x) (f_dirs x ++ [f_base x ++ "."%char :: e]))) (f_out x) =
    match f_out x with None => [] | Some t => [(below dir [] (f_base x ++ L".tsv"), t)] end).
  { intros x Hi. destruct (Wc x Hi) as (Hd & Hc & Hb). unfold annotate_piece. destruct (f_out x) as [t|]; [|reflexivity].
    rewrite piece_path_score; [|destruct (f_dirs x); discriminate|apply Forall_app; split; [assumption|constructor; [assumption|constructor]]].
    cbn [p_parts]. rewrite stem_base by assumption.
    assert (P : part (f_base x ++ L".tsv")).
    { repeat split; intros H.
      - apply app_eq_nil in H. now apply Hb.
      - destruct (f_base x) as [|c1 [|c2 b]]; [now elim Hb|discriminate|discriminate].
      - apply in_app_or in H. destruct H as [H|H]; [|repeat (destruct H as [H|H]; [discriminate H|]); destruct H].
        destruct Hc as (_ & _ & _ & C & _). apply C, in_or_app. now left. }
    rewrite parse_one by exact P. reflexivity. }
  split.
  - intros ((name, out) & Hi & Hp). apply in_map_iff in Hi. destruct Hi as (x & Hx & Hi).
    apply pair_equal_spec in Hx. destruct Hx as (<- & <-). rewrite K in Hp by assumption.
    destruct (In_nth_error _ _ Hi) as (i & Ei). exists i, x. split; [exact Ei|].
    destruct (f_out x) as [t|]; [|destruct Hp]. destruct Hp as [Hp|[]]. apply pair_equal_spec in Hp. destruct Hp as (<- & <-). split; reflexivity.
  - intros (i & x & Ei & E & ->). assert (Hi := nth_error_In _ _ Ei).
    eexists (_, _). split; [apply in_map_iff; exists x; split; [reflexivity|exact Hi]|].
    cbn beta iota. rewrite K, E by assumption. now left.
Qed.
Lemma annotate_unique p c c' : In (p, c) writes -> In (p, c') writes -> c = c'.
Proof.
  intros H K. apply annotate_in in H, K. destruct H as (i & x & Ei & Ex & ->), K as (j & y & Ej & Ey & E).
  apply below_eq in E. destruct E as (_ & E). apply app_inv_tail in E.
  destruct W as (_ & _ & Wu). assert (i = j) by (eapply Wu; eassumption). subst j. rewrite Ei in Ej. apply Some_inj in Ej. subst y.
  rewrite Ex in Ey. now apply Some_inj in Ey.
Qed.
End Annotate.
