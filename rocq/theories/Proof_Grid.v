(* Lemmas about the grid search. *)
From Coq Require Import String Ascii.
From Verif Require Import Model_Grid Spec_Grid Spec_Output Proof_Base Proof_Strings Proof_Labels Proof_Output.
From Coq Require Import List Lia.
Import ListNotations.
Open Scope Z_scope.

(* ---- the product ---------------------------------------------------------------------- *)
Lemma product_in {A} (ls : list (list A)) vs : In vs (product ls) <-> Forall2 (fun v l => In v l) vs ls.
Proof.
  revert vs. induction ls as [|l r IH]; intros vs; cbn [product].
  - split; [intros [<-|[]]; constructor|intros H; inversion H; now left].
  - rewrite in_flat_map. split.
    + intros (x & Hx & H). apply in_map_iff in H. destruct H as (ws & <- & H). constructor; [exact Hx|now apply IH].
    + intros H. inversion H as [|v l' ws r' Hv Hr]; subst. exists v. split; [exact Hv|]. apply in_map_iff. exists ws. split; [reflexivity|now apply IH].
Qed.
Lemma NoDup_app_disjoint {A} (a b : list A) : NoDup a -> NoDup b -> (forall x, In x a -> ~ In x b) -> NoDup (a ++ b).
Proof.
  intros Na Nb D. induction Na as [|x a N Na IH]; [exact Nb|]. cbn [app]. constructor.
  - intros H. apply in_app_or in H. destruct H as [H|H]; [now apply N|]. apply (D x); [now left|exact H].
  - apply IH. intros y Hy. apply D. now right.
Qed.
Lemma product_NoDup {A} (ls : list (list A)) : Forall (@NoDup A) ls -> NoDup (product ls).
Proof.
  induction 1 as [|l r Hl _ IH]; cbn [product]; [repeat constructor; intros []|].
  induction Hl as [|x l Nx Hl IHl]; cbn [flat_map]; [constructor|]. apply NoDup_app_disjoint; [|exact IHl|].
  - clear -IH. induction IH as [|v vs N _ IHv]; cbn [map]; constructor; [|exact IHv].
    intros H. apply in_map_iff in H. destruct H as (w & [= ->] & H). now apply N.
  - intros ws H K. apply in_map_iff in H. destruct H as (v & <- & _). apply in_flat_map in K. destruct K as (y & Hy & K).
    apply in_map_iff in K. destruct K as (u & [= -> _] & _). now apply Nx.
Qed.

(* ---- joining and splitting ------------------------------------------------------------ *)
Lemma split_join_sep (sep : ascii) parts : parts <> [] -> Forall (fun p => ~ In sep p) parts ->
  split_on sep (str_join [sep] parts) = parts.
Proof.
  induction parts as [|w r IH]; intros N F; [now elim N|]. inversion F as [|? ? P R]; subst.
  destruct r as [|v r].
  - cbn [str_join]. now apply split_on_nosep.
  - change (str_join [sep] (w :: v :: r)) with (w ++ sep :: str_join [sep] (v :: r)).
    rewrite split_on_app by exact P. f_equal. apply IH; [discriminate|assumption].
Qed.
Lemma join_split sep s : str_join [sep] (split_on sep s) = s.
Proof.
  induction s as [|c s IH]; [reflexivity|]. cbn [split_on]. destruct (Ascii.eqb c sep) eqn:E.
  - apply Ascii.eqb_eq in E. subst c. assert (N := split_on_nonempty sep s). destruct (split_on sep s) as [|w ws]; [now elim N|].
    change (str_join [sep] ([] :: w :: ws)) with (sep :: str_join [sep] (w :: ws)). now rewrite IH.
  - assert (N := split_on_nonempty sep s). destruct (split_on sep s) as [|w ws]; [now elim N|].
    destruct ws as [|v ws]; cbn [str_join app] in *; now rewrite IH.
Qed.

(* components that a path keeps *)
Definition kept (w : pystr) : Prop := w <> [] /\ w <> L".".
Definition whole (s : pystr) : Prop := Forall kept (split_on "/" s).
Lemma split_app_merge sep x y : exists xs u v ys, split_on sep x = xs ++ [u] /\ split_on sep y = v :: ys /\
  split_on sep (x ++ y) = xs ++ (u ++ v) :: ys.
Proof.
  induction x as [|c x IH].
  - assert (N := split_on_nonempty sep y). destruct (split_on sep y) as [|v ys] eqn:E; [now elim N|].
    exists [], [], v, ys. repeat split. cbn [app]. exact E.
  - destruct IH as (xs & u & v & ys & Ex & Ey & Exy). cbn [app split_on]. destruct (Ascii.eqb c sep).
    + exists ([] :: xs), u, v, ys. rewrite Ex, Exy. repeat split. exact Ey.
    + rewrite Ex, Exy. destruct xs as [|w xs]; cbn [app].
      * exists [], (c :: u), v, ys. repeat split. exact Ey.
      * exists ((c :: w) :: xs), u, v, ys. repeat split. exact Ey.
Qed.
Lemma whole_app x y : whole x -> whole y -> whole (x ++ y).
Proof.
  unfold whole. destruct (split_app_merge "/"%char x y) as (xs & u & v & ys & -> & -> & ->). intros Hx Hy.
  apply Forall_app in Hx. destruct Hx as (Hx & Hu). inversion Hu as [|? ? (U1 & U2) _]; subst. inversion Hy as [|? ? (V1 & V2) Hys]; subst.
  apply Forall_app. split; [exact Hx|]. constructor; [|exact Hys]. split.
  - intros H. apply app_eq_nil in H. now apply U1.
  - intros H. apply (f_equal (@List.length _)) in H. rewrite app_length in H. cbn [List.length L list_ascii_of_string] in H.
    destruct u as [|? u]; [now elim U1|]. destruct v as [|? v]; [now elim V1|]. cbn [List.length] in H. lia.
Qed.
Lemma whole_number v : number_text v -> whole v.
Proof.
  intros (_ & _ & _ & parts & N & -> & F). unfold whole. rewrite split_join; [|exact N|exact F].
  eapply Forall_impl; [|exact F]. intros p (A & B & _). split; assumption.
Qed.
Lemma whole_parse s : whole s -> parse_path s = FPath 0 (split_on "/" s) /\ Forall part (split_on "/" s).
Proof.
  intros W. assert (P : Forall part (split_on "/" s)).
  { assert (K : Forall (fun w => ~ In "/"%char w) (split_on "/" s)).
    { clear. induction s as [|c s IH]; cbn [split_on]; [constructor; [intros []|constructor]|].
      destruct (Ascii.eqb c "/") eqn:E; [constructor; [intros []|exact IH]|].
      destruct (split_on "/" s) as [|w ws]; [constructor; [intros [->|[]]; now rewrite Ascii.eqb_refl in E|constructor]|].
      inversion IH; subst. constructor; [|assumption]. intros [->|H]; [now rewrite Ascii.eqb_refl in E|contradiction]. }
    unfold whole in W. rewrite Forall_forall in *. intros w H. destruct (W w H). repeat split; try assumption. now apply K. }
  split; [|exact P]. rewrite <- (join_split "/"%char s) at 1. apply parse_join; [apply split_on_nonempty|exact P].
Qed.
(* ---- the directory of a setting ---------------------------------------------------------- *)
Definition ABBRS : list pystr := [L"mccp"; L"mnccp"; L"mcl"; L"mkcp"; L"mnkcp"; L"bs"; L"mcbf"; L"tcbp"; L"mkbf"; L"tkbp"; L"hl"; L"ke"].
Lemma abbrs_eq : mapM abbreviation PARAMS = Ok ABBRS.
Proof. vm_compute. reflexivity. Qed.
Definition labelled_values (abbrs vs : list pystr) : list pystr :=
  map (fun '(name, val) => name ++ L"-" ++ val) (combine abbrs vs).
Lemma dir_name_eq abbrs vs : dir_name abbrs vs = str_join (L"_") (labelled_values abbrs vs).
Proof. reflexivity. Qed.
Definition abbr_ok (a : pystr) : Prop := ~ In "_"%char a /\ ~ In " "%char a /\ ~ In "/"%char a /\ a <> [] /\ a <> L"." /\ begins_with_dash a = false.
Lemma not_in_list (c : ascii) (l : list ascii) : existsb (Ascii.eqb c) l = false -> ~ In c l.
Proof. intros E H. assert (K : existsb (Ascii.eqb c) l = true) by (apply existsb_exists; exists c; split; [exact H|apply Ascii.eqb_refl]). rewrite K in E. discriminate E. Qed.
Lemma abbrs_ok : Forall abbr_ok ABBRS.
Proof. repeat (apply Forall_cons; [split; [apply not_in_list; reflexivity|split; [apply not_in_list; reflexivity|split; [apply not_in_list; reflexivity|split; [discriminate|split; [discriminate|reflexivity]]]]]|]). apply Forall_nil. Qed.

Lemma labelled_no (c : ascii) abbrs vs : c <> "-"%char -> Forall (fun a => ~ In c a) abbrs -> Forall (fun v => ~ In c v) vs ->
  Forall (fun w => ~ In c w) (labelled_values abbrs vs).
Proof.
  intros N Ha Hv. apply Forall_forall. intros w H. apply in_map_iff in H. destruct H as ((a, v) & <- & H).
  rewrite Forall_forall in Ha, Hv. assert (A := Ha a (in_combine_l _ _ _ _ H)). assert (V := Hv v (in_combine_r _ _ _ _ H)).
  intros K. apply in_app_or in K. destruct K as [K|K]; [contradiction|]. destruct K as [K|K]; [congruence|contradiction].
Qed.
Lemma labelled_inj abbrs vs vs' : List.length vs = List.length abbrs -> List.length vs' = List.length abbrs ->
  labelled_values abbrs vs = labelled_values abbrs vs' -> vs = vs'.
Proof.
  revert vs vs'. induction abbrs as [|a abbrs IH]; intros [|v vs] [|v' vs'] E E' H; try discriminate; [reflexivity|].
  cbn [labelled_values combine map] in H. apply (f_equal (fun l => (hd [] l, tl l))) in H. cbn [hd tl] in H. apply pair_equal_spec in H.
  destruct H as (H & K). apply app_inv_head, app_inv_head in H. subst v'. f_equal. apply IH; [cbn in E; lia|cbn in E'; lia|exact K].
Qed.
Lemma labelled_nonempty abbrs vs : abbrs <> [] -> List.length vs = List.length abbrs -> labelled_values abbrs vs <> [].
Proof. destruct abbrs, vs; intros; try discriminate; congruence. Qed.
Lemma dir_name_inj abbrs vs vs' : abbrs <> [] -> Forall abbr_ok abbrs ->
  List.length vs = List.length abbrs -> List.length vs' = List.length abbrs ->
  Forall number_text vs -> Forall number_text vs' -> dir_name abbrs vs = dir_name abbrs vs' -> vs = vs'.
Proof.
  intros N A E E' F F' H. rewrite !dir_name_eq in H. apply (f_equal (split_on "_")) in H.
  assert (Na : Forall (fun a => ~ In "_"%char a) abbrs) by (eapply Forall_impl; [|exact A]; intros a Ha; apply Ha).
  rewrite !split_join_sep in H; try (now apply labelled_nonempty).
  - now apply labelled_inj in H.
  - apply labelled_no; [discriminate|exact Na|]. eapply Forall_impl; [|exact F']. intros v Hv. apply Hv.
  - apply labelled_no; [discriminate|exact Na|]. eapply Forall_impl; [|exact F]. intros v Hv. apply Hv.
Qed.
Lemma whole_plain s : ~ In "/"%char s -> kept s -> whole s.
Proof. intros N K. unfold whole. rewrite split_on_nosep by exact N. constructor; [exact K|constructor]. Qed.
Lemma whole_dir abbrs vs : abbrs <> [] -> Forall abbr_ok abbrs -> List.length vs = List.length abbrs -> Forall number_text vs ->
  whole (dir_name abbrs vs).
Proof.
  intros N A. rewrite dir_name_eq. revert vs N. induction A as [|a abbrs Ha A IH]; intros vs N E F; [now elim N|].
  destruct vs as [|v vs]; [discriminate E|]. inversion F as [|? ? Hv Fv]; subst.
  assert (W1 : whole (a ++ L"-" ++ v)).
  { apply whole_app; [|apply whole_app].
    - destruct Ha as (_ & _ & Hs & Hn & Hd & _). apply whole_plain; [exact Hs|split; assumption].
    - apply whole_plain; [intros [H|[]]; discriminate H|split; discriminate].
    - now apply whole_number. }
  destruct abbrs as [|b abbrs].
  - destruct vs; [|discriminate E]. exact W1.
  - destruct vs as [|v' vs]; [discriminate E|].
    change (str_join (L"_") (labelled_values (a :: b :: abbrs) (v :: v' :: vs)))
      with ((a ++ L"-" ++ v) ++ L"_" ++ str_join (L"_") (labelled_values (b :: abbrs) (v' :: vs))).
    apply whole_app; [exact W1|]. apply whole_app; [apply whole_plain; [intros [H|[]]; discriminate H|split; discriminate]|].
    apply IH; [discriminate|cbn in E |- *; lia|exact Fv].
Qed.
Definition out_path (a : grid_args) (vs : list pystr) : pystr :=
  path_text (join_path (g_output a) (parse_path (dir_name ABBRS vs))).
Lemma path_text_cons r parts : parts <> [] -> path_text (FPath r parts) = repeat "/"%char r ++ str_join (L"/") parts.
Proof. intros N. destruct parts as [|w ws]; [now elim N|]. destruct r; reflexivity. Qed.
Lemma out_path_eq a vs : List.length vs = List.length ABBRS -> Forall number_text vs ->
  out_path a vs = repeat "/"%char (p_root (g_output a)) ++ str_join (L"/") (p_parts (g_output a) ++ split_on "/" (dir_name ABBRS vs)) /\
  Forall part (split_on "/" (dir_name ABBRS vs)).
Proof.
  intros E F. assert (W : whole (dir_name ABBRS vs)) by (apply whole_dir; [discriminate|apply abbrs_ok|exact E|exact F]).
  destruct (whole_parse _ W) as (P & K). split; [|exact K]. unfold out_path. rewrite P. unfold join_path. cbn [p_root p_parts].
  apply path_text_cons. intros H. apply app_eq_nil in H. now apply (split_on_nonempty "/"%char (dir_name ABBRS vs)).
Qed.
Lemma out_path_inj a vs vs' : Forall part (p_parts (g_output a)) ->
  List.length vs = List.length ABBRS -> List.length vs' = List.length ABBRS ->
  Forall number_text vs -> Forall number_text vs' -> out_path a vs = out_path a vs' -> vs = vs'.
Proof.
  intros P E E' F F' H. destruct (out_path_eq a vs E F) as (Q & K). destruct (out_path_eq a vs' E' F') as (Q' & K').
  rewrite Q, Q' in H. apply app_inv_head in H. apply (f_equal (split_on "/")) in H.
  rewrite !split_join in H.
  - apply app_inv_head in H. apply (f_equal (str_join (L"/"))) in H. change (L"/") with ["/"%char] in H. rewrite !join_split in H.
    apply dir_name_inj in H; auto; [discriminate|apply abbrs_ok].
  - intros G. apply app_eq_nil in G. now apply (split_on_nonempty "/"%char (dir_name ABBRS vs')).
  - apply Forall_app. split; assumption.
  - intros G. apply app_eq_nil in G. now apply (split_on_nonempty "/"%char (dir_name ABBRS vs)).
  - apply Forall_app. split; assumption.
Qed.

(* ---- reading a command ------------------------------------------------------------------- *)
Notation pairs := (list (pystr * option pystr)).
Definition words_of (l : pairs) : list pystr := flat_map (fun '(w, v) => w :: match v with Some v => [v] | None => [] end) l.
Lemma words_of_app a b : words_of (a ++ b) = words_of a ++ words_of b.
Proof. apply flat_map_app. Qed.
Definition pair_ok (p : pystr * option pystr) : Prop :=
  match snd p with
  | None => member (fst p) flags = true
  | Some v => member (fst p) flags = false /\ member (fst p) valued = true /\ begins_with_dash v = false
  end.
Lemma read_words l : Forall pair_ok l -> read_args (words_of l) = Some l.
Proof.
  induction 1 as [|(w, v) l P _ IH]; [reflexivity|]. unfold pair_ok in P. cbn [fst snd] in P.
  change (words_of ((w, v) :: l)) with ((w :: match v with Some v => [v] | None => [] end) ++ words_of l).
  destruct v as [v|]; cbn [app read_args].
  - destruct P as (-> & -> & ->). rewrite IH. reflexivity.
  - rewrite P, IH. reflexivity.
Qed.
Lemma given_app a b o : given (a ++ b) o = match given b o with Some v => Some v | None => given a o end.
Proof.
  induction a as [|(w, v) a IH]; cbn [app given]; [destruct (given b o); reflexivity|]. rewrite IH. destruct (given b o); reflexivity.
Qed.
Definition maybe (c : bool) (o v : pystr) : pairs := if c then [(o, Some v)] else [].
Definition maybe_flag (c : bool) (o : pystr) : pairs := if c then [(o, None)] else [].
Lemma given_maybe c o v o' : given (maybe c o v) o' = if c && str_eqb o o' then Some (Some v) else None.
Proof. destruct c; [|reflexivity]. cbn. destruct (str_eqb o o'); reflexivity. Qed.
Lemma given_flag c o o' : given (maybe_flag c o) o' = if c && str_eqb o o' then Some None else None.
Proof. destruct c; [|reflexivity]. cbn. destruct (str_eqb o o'); reflexivity. Qed.

Section Args.
Variable a : grid_args.
Definition thread_pairs : pairs := match g_threads a with Some n => [(L"--threads", Some (z_to_str n))] | None => [] end.
Definition model_pairs (m : pystr) : pairs :=
  match g_version a m with
  | Some v => [(L"--" ++ m ++ L"-version", Some (z_to_str v))]
  | None => maybe (negb (str_eqb (g_model a m) (default_checkpoint m))) (L"--" ++ m) (g_model a m)
  end.
Definition c_seed := negb (g_seed a =? 0).
Definition c_h5 := negb (fpath_eqb (g_h5_dir a) (parse_path (L"h5_data"))).
Definition c_icm := negb (str_eqb (g_icm_json a) default_icm).
Definition c_check := negb (str_eqb (g_checkpoint a) (L"checkpoints")).
Definition c_input := negb (fpath_eqb (g_input a) (parse_path (L"corpus_data"))).
Definition static_pairs : pairs :=
  thread_pairs ++ maybe c_seed (L"--seed") (z_to_str (g_seed a)) ++
  maybe c_h5 (L"-h5") (path_text (g_h5_dir a)) ++ maybe c_icm (L"--icm-json") (g_icm_json a) ++
  maybe c_check (L"--checkpoint") (g_checkpoint a) ++ maybe_flag (g_xml a) (L"-x") ++ maybe_flag (g_test a) (L"--test") ++
  maybe c_input (L"--input") (path_text (g_input a)) ++
  model_pairs (L"ccm") ++ model_pairs (L"ctm") ++ model_pairs (L"csm") ++ model_pairs (L"ktm") ++ model_pairs (L"ksm").
Definition setting_pairs (vs : list pystr) : pairs :=
  [(L"--output", Some (out_path a vs)); (L"--log", Some (L"test.log"))] ++ combine param_options (map Some vs).
Definition all_pairs (vs : list pystr) : pairs := static_pairs ++ setting_pairs vs.

Lemma static_words : static_args a = words_of static_pairs.
Proof.
  unfold static_args, static_pairs. rewrite !words_of_app.
  f_equal; [unfold thread_pairs; destruct (g_threads a); reflexivity|].
  f_equal; [unfold maybe, c_seed; destruct (negb _); reflexivity|].
  f_equal; [unfold maybe, c_h5; destruct (negb _); reflexivity|].
  f_equal; [unfold maybe, c_icm; destruct (negb _); reflexivity|].
  f_equal; [unfold maybe, c_check; destruct (negb _); reflexivity|].
  f_equal; [destruct (g_xml a); reflexivity|]. f_equal; [destruct (g_test a); reflexivity|].
  f_equal; [unfold maybe, c_input; destruct (negb _); reflexivity|].
  cbn [flat_map MODEL_NAMES]. rewrite app_nil_r.
  assert (M : forall m, model_args a m = words_of (model_pairs m)).
  { intros m. unfold model_args, model_pairs. destruct (g_version a m); [reflexivity|]. unfold maybe. destruct (negb _); reflexivity. }
  rewrite !M. reflexivity.
Qed.
Lemma all_words vs : List.length vs = List.length param_options -> this_args a ABBRS vs = words_of (all_pairs vs).
Proof.
  intros E. unfold this_args, all_pairs, setting_pairs. rewrite !words_of_app, static_words. f_equal.
  change (path_text (join_path (g_output a) (parse_path (dir_name ABBRS vs)))) with (out_path a vs). generalize (out_path a vs). intros d.
  cbn [app]. cbn [words_of flat_map app]. do 4 f_equal.
  do 12 (destruct vs as [|? vs]; [discriminate E|]). destruct vs; [reflexivity|discriminate E].
Qed.

(* ---- the pairs are read back -------------------------------------------------------------- *)
Hypothesis P : plain_args a.
Lemma num_plain n : 0 <= n -> plain_word (z_to_str n).
Proof.
  intros H. split; [apply z_to_str_nonempty|]. split.
  - intros K. assert (C := z_to_str_chars n). rewrite Forall_forall in C. specialize (C _ K). destruct C as [C|C]; [vm_compute in C; discriminate C|discriminate C].
  - unfold z_to_str. destruct n as [|p|p]; [reflexivity| |lia]. cbn [Z.to_int].
    assert (D : Forall (fun c => char_is_digit c = true) (L (DecimalString.NilZero.string_of_uint (Pos.to_uint p)))) by apply nilzero_uint_chars.
    cbn [DecimalString.NilZero.string_of_int]. destruct (L _) as [|c s]; [reflexivity|]. inversion D as [|? ? C _]; subst.
    cbn [begins_with_dash]. destruct (Ascii.eqb c "-") eqn:F; [|reflexivity]. apply Ascii.eqb_eq in F. subst c. vm_compute in C. discriminate C.
Qed.
Lemma in_join (c : ascii) sep l : In c (str_join sep l) -> In c sep \/ exists w, In w l /\ In c w.
Proof.
  induction l as [|w r IH]; [intros []|]. destruct r as [|v r].
  - cbn [str_join]. intros H. right. exists w. split; [now left|exact H].
  - change (str_join sep (w :: v :: r)) with (w ++ sep ++ str_join sep (v :: r)). intros H. apply in_app_or in H. destruct H as [H|H].
    + right. exists w. split; [now left|exact H].
    + apply in_app_or in H. destruct H as [H|H]; [now left|]. destruct (IH H) as [K|(u & Hu & K)]; [now left|]. right. exists u. split; [now right|exact K].
Qed.
Lemma join_in (c : ascii) sep l w : In w l -> In c w -> In c (str_join sep l).
Proof.
  induction l as [|u r IH]; [intros []|]. intros H K. destruct r as [|v r].
  - destruct H as [->|[]]. exact K.
  - change (str_join sep (u :: v :: r)) with (u ++ sep ++ str_join sep (v :: r)). apply in_or_app. destruct H as [->|H]; [now left|].
    right. apply in_or_app. right. now apply IH.
Qed.
Lemma dir_no_space vs : Forall number_text vs -> ~ In " "%char (dir_name ABBRS vs).
Proof.
  intros F H. rewrite dir_name_eq in H. apply in_join in H. destruct H as [[H|[]]|(w & Hw & H)]; [discriminate H|].
  assert (K : Forall (fun w => ~ In " "%char w) (labelled_values ABBRS vs)).
  { apply labelled_no; [discriminate| |].
    - eapply Forall_impl; [|apply abbrs_ok]. intros x Hx. apply Hx.
    - eapply Forall_impl; [|exact F]. intros x Hx. apply Hx. }
  rewrite Forall_forall in K. now apply (K w).
Qed.
Lemma out_path_plain vs : List.length vs = List.length ABBRS -> Forall number_text vs -> plain_word (out_path a vs).
Proof.
  intros E F. destruct P as (_ & _ & _ & _ & _ & _ & _ & _ & Ps & Pd & Pp & _ & _ & _).
  destruct (out_path_eq a vs E F) as (-> & K).
  assert (N : p_parts (g_output a) ++ split_on "/" (dir_name ABBRS vs) <> []).
  { intros H. apply app_eq_nil in H. now apply (split_on_nonempty "/"%char (dir_name ABBRS vs)). }
  assert (A : Forall part (p_parts (g_output a) ++ split_on "/" (dir_name ABBRS vs))) by (apply Forall_app; split; assumption).
  repeat split.
  - intros H. apply app_eq_nil in H. destruct H as (_ & H). destruct (join_head _ N A) as (c & s & J & _). rewrite J in H. discriminate H.
  - intros H. apply in_app_or in H. destruct H as [H|H]; [apply repeat_spec in H; discriminate H|].
    apply in_join in H. destruct H as [[H|[]]|(w & Hw & H)]; [discriminate H|]. apply in_app_or in Hw. destruct Hw as [Hw|Hw].
    + apply Ps. unfold path_text. destruct (p_parts (g_output a)) as [|u us] eqn:Q; [destruct Hw|].
      destruct (p_root (g_output a)); apply in_or_app; right; now apply join_in with (w := w).
    + apply (dir_no_space vs F). rewrite <- (join_split "/"%char (dir_name ABBRS vs)). now apply join_in with (w := w).
  - destruct (p_root (g_output a)) as [|r] eqn:R; [|reflexivity]. cbn [repeat app].
    destruct (p_parts (g_output a)) as [|u us] eqn:Q.
    + cbn [app]. change (L"/") with ["/"%char]. rewrite join_split, dir_name_eq.
      destruct vs as [|v vs]; [discriminate E|]. destruct vs; reflexivity.
    + unfold path_text in Pd. rewrite R, Q in Pd. cbn [repeat app] in Pd.
      inversion Pp as [|? ? (U & _) _]; subst. destruct u as [|c u]; [now elim U|].
      destruct us; cbn [app str_join begins_with_dash] in Pd |- *;
        (destruct (split_on "/" (dir_name ABBRS vs)); exact Pd).
Qed.

Lemma maybe_ok c o v : member o flags = false -> member o valued = true -> plain_word v -> Forall pair_ok (maybe c o v).
Proof. intros A B (_ & _ & C). destruct c; [|constructor]. constructor; [|constructor]. repeat split; assumption. Qed.
Lemma model_ok m : In m MODEL_NAMES -> Forall pair_ok (model_pairs m).
Proof.
  destruct P as (_ & _ & _ & _ & _ & _ & Pm & Pv & _). intros H.
  assert (M : (member (L"--" ++ m ++ L"-version") flags = false /\ member (L"--" ++ m ++ L"-version") valued = true) /\
              (member (L"--" ++ m) flags = false /\ member (L"--" ++ m) valued = true)).
  { destruct H as [<-|[<-|[<-|[<-|[<-|[]]]]]]; repeat split; vm_compute; reflexivity. }
  destruct M as ((A & B) & C & D). unfold model_pairs. destruct (g_version a m) as [n|] eqn:E.
  - constructor; [|constructor]. split; [exact A|]. split; [exact B|]. apply num_plain. now apply (Pv m).
  - apply maybe_ok; [exact C|exact D|now apply Pm].
Qed.
Lemma static_ok : Forall pair_ok static_pairs.
Proof.
  assert (Q := P). destruct Q as (Pt & Ps & Ph & Pi & Pc & Pn & _).
  unfold static_pairs. repeat (apply Forall_app; split).
  - unfold thread_pairs. destruct (g_threads a) as [n|] eqn:E; [|constructor]. constructor; [|constructor].
    split; [reflexivity|]. split; [reflexivity|]. apply num_plain, Pt. reflexivity.
  - apply maybe_ok; [reflexivity|reflexivity|now apply num_plain].
  - apply maybe_ok; [reflexivity|reflexivity|exact Ph].
  - apply maybe_ok; [reflexivity|reflexivity|exact Pi].
  - apply maybe_ok; [reflexivity|reflexivity|exact Pc].
  - destruct (g_xml a); [constructor; [reflexivity|constructor]|constructor].
  - destruct (g_test a); [constructor; [reflexivity|constructor]|constructor].
  - apply maybe_ok; [reflexivity|reflexivity|exact Pn].
  - apply model_ok. cbn. tauto.
  - apply model_ok. cbn. tauto.
  - apply model_ok. cbn. tauto.
  - apply model_ok. cbn. tauto.
  - apply model_ok. cbn. tauto.
Qed.
Lemma params_ok vs : Forall plain_word vs -> Forall pair_ok (combine param_options (map Some vs)).
Proof.
  intros F. assert (O : Forall (fun o => member o flags = false /\ member o valued = true) param_options).
  { apply Forall_forall. assert (B : forallb (fun o => negb (member o flags) && member o valued) param_options = true) by (vm_compute; reflexivity).
    rewrite forallb_forall in B. intros o Ho. specialize (B o Ho). apply andb_true_iff in B. destruct B as (B & C). split; [now apply negb_true_iff in B|exact C]. }
  revert vs F. induction O as [|o os (A & B) O IH]; intros vs F; [constructor|]. destruct F as [|v vs V F]; [constructor|].
  cbn [map combine]. constructor; [|now apply IH]. split; [exact A|]. split; [exact B|apply V].
Qed.
Lemma all_ok vs : List.length vs = List.length ABBRS -> Forall (fun v => number_text v /\ plain_word v) vs -> Forall pair_ok (all_pairs vs).
Proof.
  intros E F. assert (Fn : Forall number_text vs) by (eapply Forall_impl; [|exact F]; intros v H; apply H).
  assert (Fp : Forall plain_word vs) by (eapply Forall_impl; [|exact F]; intros v H; apply H).
  unfold all_pairs, setting_pairs. apply Forall_app. split; [apply static_ok|]. apply Forall_app. split.
  - constructor; [|constructor; [|constructor]]; (split; [reflexivity|]; split; [reflexivity|]); [now apply out_path_plain|reflexivity].
  - now apply params_ok.
Qed.
(* the words have no spaces *)
Definition spaceless (l : pairs) : Prop := Forall (fun w => ~ In " "%char w) (words_of l).
Lemma spaceless_app l k : spaceless l -> spaceless k -> spaceless (l ++ k).
Proof. intros A B. unfold spaceless. rewrite words_of_app. apply Forall_app. split; assumption. Qed.
Lemma spaceless_maybe c o v : existsb (Ascii.eqb " ") o = false -> plain_word v -> spaceless (maybe c o v).
Proof.
  intros A (_ & B & _). destruct c; [|constructor]. unfold spaceless. cbn. constructor; [now apply not_in_list|]. constructor; [exact B|constructor].
Qed.
Lemma spaceless_model m : In m MODEL_NAMES -> spaceless (model_pairs m).
Proof.
  destruct P as (_ & _ & _ & _ & _ & _ & Pm & Pv & _). intros H. unfold model_pairs.
  assert (M : existsb (Ascii.eqb " ") (L"--" ++ m ++ L"-version") = false /\ existsb (Ascii.eqb " ") (L"--" ++ m) = false).
  { destruct H as [<-|[<-|[<-|[<-|[<-|[]]]]]]; split; vm_compute; reflexivity. }
  destruct M as (A & B). destruct (g_version a m) as [n|] eqn:E.
  - apply (spaceless_maybe true); [exact A|]. apply num_plain. now apply (Pv m).
  - apply spaceless_maybe; [exact B|now apply Pm].
Qed.
Lemma spaceless_all vs : List.length vs = List.length ABBRS -> Forall (fun v => number_text v /\ plain_word v) vs -> spaceless (all_pairs vs).
Proof.
  intros E F. assert (Fn : Forall number_text vs) by (eapply Forall_impl; [|exact F]; intros v H; apply H).
  assert (Q := P). destruct Q as (Pt & Ps & Ph & Pi & Pc & Pn & _).
  unfold all_pairs, static_pairs, setting_pairs. repeat apply spaceless_app.
  - unfold thread_pairs. destruct (g_threads a) as [n|] eqn:G; [|constructor]. apply (spaceless_maybe true); [reflexivity|]. apply num_plain, Pt. reflexivity.
  - apply spaceless_maybe; [reflexivity|now apply num_plain].
  - apply spaceless_maybe; [reflexivity|exact Ph].
  - apply spaceless_maybe; [reflexivity|exact Pi].
  - apply spaceless_maybe; [reflexivity|exact Pc].
  - destruct (g_xml a); [|constructor]. constructor; [now apply not_in_list|constructor].
  - destruct (g_test a); [|constructor]. constructor; [now apply not_in_list|constructor].
  - apply spaceless_maybe; [reflexivity|exact Pn].
  - apply spaceless_model. cbn. tauto.
  - apply spaceless_model. cbn. tauto.
  - apply spaceless_model. cbn. tauto.
  - apply spaceless_model. cbn. tauto.
  - apply spaceless_model. cbn. tauto.
  - apply (spaceless_app [_] [_]); apply (spaceless_maybe true); try reflexivity; [now apply out_path_plain|]. split; [discriminate|]. split; [now apply not_in_list|reflexivity].
  - assert (O : Forall (fun o => ~ In " "%char o) param_options).
    { apply Forall_forall. intros o Ho. apply not_in_list. revert o Ho. apply Forall_forall. repeat constructor. }
    clear E Fn. revert vs F. induction O as [|o os A O IH]; intros vs F; [constructor|]. destruct F as [|v vs (_ & V) F]; [constructor|].
    cbn [map combine]. apply (spaceless_app [_]); [|now apply IH]. unfold spaceless. cbn. constructor; [exact A|]. constructor; [apply V|constructor].
Qed.
Lemma command_words vs : List.length vs = List.length ABBRS -> Forall (fun v => number_text v /\ plain_word v) vs ->
  split_on " " (command a ABBRS vs) = L"python" :: L"test.py" :: words_of (all_pairs vs).
Proof.
  intros E F. unfold command. rewrite all_words by exact E.
  assert (Sp := spaceless_all vs E F).
  assert (N : words_of (all_pairs vs) <> []) by (unfold all_pairs, setting_pairs; rewrite words_of_app; intros H; apply app_eq_nil in H; discriminate (proj2 H)).
  destruct (words_of (all_pairs vs)) as [|w ws] eqn:Q; [now elim N|].
  change (L"python test.py " ++ str_join (L" ") (w :: ws)) with (str_join [" "%char] (L"python" :: L"test.py" :: w :: ws)).
  apply split_join_sep; [discriminate|]. constructor; [now apply not_in_list|]. constructor; [now apply not_in_list|].
  unfold spaceless in Sp. now rewrite Q in Sp.
Qed.
(* ---- what is given ------------------------------------------------------------------------- *)
Lemma given_params vs o : ~ In o param_options -> given (combine param_options (map Some vs)) o = None.
Proof.
  generalize param_options. intros os. revert vs. induction os as [|p os IH]; intros vs N; [reflexivity|]. destruct vs as [|v vs]; [reflexivity|].
  cbn [map combine given]. rewrite IH by (intros H; apply N; now right).
  destruct (str_eqb p o) eqn:E; [|reflexivity]. apply str_eqb_eq in E. elim N. now left.
Qed.
Lemma given_setting vs o : member o (L"--output" :: L"--log" :: param_options) = false -> given (setting_pairs vs) o = None.
Proof.
  intros M. unfold setting_pairs. rewrite given_app, given_params.
  - cbn [given]. unfold member in M. cbn [existsb] in M. apply orb_false_iff in M. destruct M as (A & M). apply orb_false_iff in M. destruct M as (B & _).
    assert (Sy : forall x y, str_eqb x y = false -> str_eqb y x = false).
    { intros x y H. destruct (str_eqb y x) eqn:E; [|reflexivity]. apply str_eqb_eq in E. subst y. rewrite (proj2 (str_eqb_eq x x) eq_refl) in H. discriminate H. }
    rewrite (Sy _ _ A), (Sy _ _ B). reflexivity.
  - intros H. unfold member in M. rewrite <- not_true_iff_false in M. apply M. apply existsb_exists. exists o. split; [right; right; exact H|]. now apply str_eqb_eq.
Qed.
Lemma given_threads o : given thread_pairs o = if str_eqb (L"--threads") o then option_map (fun n => Some (z_to_str n)) (g_threads a) else None.
Proof. unfold thread_pairs. destruct (g_threads a); cbn [given option_map]; destruct (str_eqb _ o); reflexivity. Qed.
Lemma given_model m o : given (model_pairs m) o =
  match g_version a m with
  | Some v => if str_eqb (L"--" ++ m ++ L"-version") o then Some (Some (z_to_str v)) else None
  | None => if negb (str_eqb (g_model a m) (default_checkpoint m)) && str_eqb (L"--" ++ m) o then Some (Some (g_model a m)) else None
  end.
Proof. unfold model_pairs. destruct (g_version a m); [reflexivity|apply given_maybe]. Qed.
End Args.

Lemma pairs_given a vs o : member o (L"--output" :: L"--log" :: param_options) = false ->
  given (all_pairs a vs) o = given (static_pairs a) o.
Proof. intros M. unfold all_pairs. rewrite given_app, given_setting by exact M. reflexivity. Qed.
Definition model_value (a : grid_args) (m o : pystr) : option (option pystr) :=
  match g_version a m with
  | Some v => if str_eqb (L"--" ++ m ++ L"-version") o then Some (Some (z_to_str v)) else None
  | None => if negb (str_eqb (g_model a m) (default_checkpoint m)) && str_eqb (L"--" ++ m) o then Some (Some (g_model a m)) else None
  end.
Definition first_of (l : list (option (option pystr))) : option (option pystr) :=
  fold_right (fun x y => match x with Some v => Some v | None => y end) None l.
Lemma static_given a o : given (static_pairs a) o = first_of
  [model_value a (L"ksm") o; model_value a (L"ktm") o; model_value a (L"csm") o; model_value a (L"ctm") o; model_value a (L"ccm") o;
   (if c_input a && str_eqb (L"--input") o then Some (Some (path_text (g_input a))) else None);
   (if g_test a && str_eqb (L"--test") o then Some None else None);
   (if g_xml a && str_eqb (L"-x") o then Some None else None);
   (if c_check a && str_eqb (L"--checkpoint") o then Some (Some (g_checkpoint a)) else None);
   (if c_icm a && str_eqb (L"--icm-json") o then Some (Some (g_icm_json a)) else None);
   (if c_h5 a && str_eqb (L"-h5") o then Some (Some (path_text (g_h5_dir a))) else None);
   (if c_seed a && str_eqb (L"--seed") o then Some (Some (z_to_str (g_seed a))) else None);
   (if str_eqb (L"--threads") o then option_map (fun n => Some (z_to_str n)) (g_threads a) else None)].
Proof.
  unfold static_pairs. rewrite !given_app. rewrite !(given_model a _ o), given_threads, !given_maybe, !given_flag.
  unfold first_of. cbn [fold_right].
  change (match g_version a ?m with Some v => if str_eqb (L"--" ++ ?m ++ L"-version") o then Some (Some (z_to_str v)) else None
          | None => if negb (str_eqb (g_model a ?m) (default_checkpoint ?m)) && str_eqb (L"--" ++ ?m) o then Some (Some (g_model a ?m)) else None end)
    with (model_value a m o).
  destruct (model_value a (L"ksm") o); [reflexivity|]. destruct (model_value a (L"ktm") o); [reflexivity|].
  destruct (model_value a (L"csm") o); [reflexivity|]. destruct (model_value a (L"ctm") o); [reflexivity|].
  destruct (model_value a (L"ccm") o); [reflexivity|].
  destruct (c_input a && _); [reflexivity|]. destruct (g_test a && _); [reflexivity|]. destruct (g_xml a && _); [reflexivity|].
  destruct (c_check a && _); [reflexivity|]. destruct (c_icm a && _); [reflexivity|]. destruct (c_h5 a && _); [reflexivity|].
  destruct (c_seed a && _); [reflexivity|]. destruct (str_eqb (L"--threads") o); [|reflexivity].
  destruct (option_map _ (g_threads a)); reflexivity.
Qed.

Lemma model_value_none a m o : str_eqb (L"--" ++ m ++ L"-version") o = false -> str_eqb (L"--" ++ m) o = false -> model_value a m o = None.
Proof. intros A B. unfold model_value. rewrite A, B, andb_false_r. destruct (g_version a m); reflexivity. Qed.
Lemma opt_id {A} (x : option A) : match x with Some v => Some v | None => None end = x.
Proof. destruct x; reflexivity. Qed.
Ltac decide_names :=
  repeat match goal with |- context[str_eqb ?x ?y] => let b := eval vm_compute in (str_eqb x y) in change (str_eqb x y) with b end;
  rewrite ?andb_false_r, ?andb_true_r; cbn [first_of fold_right]; rewrite ?opt_id.
Ltac static := rewrite pairs_given by (vm_compute; reflexivity); rewrite static_given;
  rewrite !model_value_none by (vm_compute; reflexivity); decide_names.
Lemma static_text (c : bool) (v d : pystr) : (c = false -> v = d) ->
  match (if c then Some (Some v) else None) with Some v => v | None => Some d end = Some v.
Proof. destruct c; intros H; [reflexivity|]. now rewrite H. Qed.
Lemma negb_str_eq x y : negb (str_eqb x y) = false -> x = y.
Proof. intros H. apply negb_false_iff in H. now apply str_eqb_eq. Qed.
Lemma negb_path_eq x y : negb (fpath_eqb x y) = false -> x = y.
Proof. intros H. apply negb_false_iff in H. now apply fpath_eqb_eq. Qed.

Lemma given_param vs a i o v : List.length vs = List.length param_options ->
  nth_error param_options i = Some o -> nth_error vs i = Some v -> given (all_pairs a vs) o = Some (Some v).
Proof.
  intros E Ho Hv. unfold all_pairs, setting_pairs. rewrite !given_app.
  assert (K : given (combine param_options (map Some vs)) o = Some (Some v)); [|now rewrite K].
  assert (N : NoDup param_options).
  { repeat (apply NoDup_cons; [intros H; repeat (destruct H as [H|H]; [vm_compute in H; discriminate H|]); destruct H|]). apply NoDup_nil. }
  clear E. revert vs i Ho Hv N. generalize param_options. intros os. induction os as [|p os IH]; intros vs i Ho Hv N; [destruct i; discriminate Ho|].
  destruct vs as [|u vs]; [destruct i; discriminate Hv|]. inversion N as [|? ? Np Nos]; subst. cbn [map combine given].
  destruct i as [|i]; cbn [nth_error] in Ho, Hv.
  - apply Some_inj in Ho, Hv. subst p u.
    assert (G : forall ws : list (option pystr), given (combine os ws) o = None).
    { clear -Np. induction os as [|p os IH]; intros ws; [reflexivity|]. destruct ws as [|w ws]; [reflexivity|]. cbn [combine given].
      rewrite IH by (intros H; apply Np; now right). destruct (str_eqb p o) eqn:E; [|reflexivity]. apply str_eqb_eq in E. elim Np. now left. }
    rewrite G, (proj2 (str_eqb_eq o o) eq_refl). reflexivity.
  - rewrite (IH vs i Ho Hv Nos). reflexivity.
Qed.
Lemma runs_setting a vs : plain_args a -> List.length vs = List.length ABBRS ->
  Forall (fun v => number_text v /\ plain_word v) vs -> runs a (command a ABBRS vs) vs (all_pairs a vs).
Proof.
  intros P E F. split; [exists (words_of (all_pairs a vs)); split; [now apply command_words|apply read_words; now apply all_ok]|].
  split; [exact E|]. split; [intros i o v; now apply given_param|].
  split; [static; destruct (g_threads a); reflexivity|].
  split; [unfold text_of; static; apply (static_text (c_seed a)); intros H; apply negb_false_iff, Z.eqb_eq in H; rewrite H; reflexivity|].
  split; [unfold text_of; static; apply (static_text (c_h5 a)); intros H; apply negb_path_eq in H; rewrite H; vm_compute; reflexivity|].
  split; [unfold text_of; static; apply (static_text (c_icm a)); intros H; apply negb_str_eq in H; rewrite H; vm_compute; reflexivity|].
  split; [unfold text_of; static; apply (static_text (c_check a)); intros H; apply negb_str_eq in H; rewrite H; reflexivity|].
  split; [static; destruct (g_xml a); reflexivity|].
  split; [static; destruct (g_test a); reflexivity|].
  split; [unfold text_of; static; apply (static_text (c_input a)); intros H; apply negb_path_eq in H; rewrite H; vm_compute; reflexivity|].
  split.
  - unfold all_pairs, setting_pairs. rewrite !given_app, given_params; [reflexivity|].
    intros H. repeat (destruct H as [H|H]; [vm_compute in H; discriminate H|]). destruct H.
  - intros m Hm. split.
    + destruct Hm as [<-|[<-|[<-|[<-|[<-|[]]]]]];
        (rewrite pairs_given by (vm_compute; reflexivity); rewrite static_given;
         match goal with |- first_of _ = option_map _ (g_version a ?m) => set (x := model_value a m _) end;
         rewrite ?model_value_none by (vm_compute; reflexivity); subst x; unfold model_value; decide_names;
         match goal with |- context[g_version a ?m] => destruct (g_version a m) end; reflexivity).
    + intros V. unfold text_of.
      assert (G : given (all_pairs a vs) (L"--" ++ m) = if negb (str_eqb (g_model a m) (default_checkpoint m)) then Some (Some (g_model a m)) else None).
      { destruct Hm as [<-|[<-|[<-|[<-|[<-|[]]]]]];
        (rewrite pairs_given by (vm_compute; reflexivity); rewrite static_given;
         match goal with |- _ = (if negb (str_eqb (g_model a ?m) _) then _ else _) => set (x := model_value a m _) end;
         rewrite ?model_value_none by (vm_compute; reflexivity); subst x; unfold model_value; rewrite V;
         match goal with |- context[negb ?e] => generalize (negb e); intros b end; decide_names; destruct b; reflexivity). }
      rewrite G. apply static_text. intros H. apply negb_str_eq in H. rewrite H.
      destruct Hm as [<-|[<-|[<-|[<-|[<-|[]]]]]]; vm_compute; reflexivity.
Qed.
