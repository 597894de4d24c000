(* C91: what a grid search is to print, and how test.py reads a command. *)
From Coq Require Import String Ascii.
From Verif Require Import Model_Grid.
From Coq Require Import List.
Import ListNotations.
Open Scope Z_scope.

(* a setting: one of the values for each parameter *)
Definition setting (lists : list (list pystr)) (values : list pystr) : Prop := Forall2 (fun v l => In v l) values lists.

(* the options of test.py that grid_search.py uses: without and with a value *)
Definition flags : list pystr := [L"-x"; L"--test"].
Definition valued : list pystr :=
  [L"--threads"; L"--seed"; L"-h5"; L"--icm-json"; L"--checkpoint"; L"--input"; L"--output"; L"--log";
   L"--ccm"; L"--ctm"; L"--csm"; L"--ktm"; L"--ksm";
   L"--ccm-version"; L"--ctm-version"; L"--csm-version"; L"--ktm-version"; L"--ksm-version";
   L"--min-chord-change-prob"; L"--max-no-chord-change-prob"; L"--max-chord-length"; L"--min-key-change-prob";
   L"--max-no-key-change-prob"; L"--beam-size"; L"--max-chord-branching-factor"; L"--target-chord-branch-prob";
   L"--max-key-branching-factor"; L"--target-key-branch-prob"; L"--hash-length"; L"--ksm-exponent"].
Definition member (w : pystr) (l : list pystr) : bool := existsb (str_eqb w) l.
Definition begins_with_dash (w : pystr) : bool := match w with c :: _ => Ascii.eqb c "-" | [] => false end.
(* reading the words of a command (a line is taken apart at its spaces; other characters that are
   special to a shell are not considered): options with their values; None: an error.  (argparse also takes
   negative numbers as values; here every value that begins with a dash is an error.) *)
Fixpoint read_args (words : list pystr) : option (list (pystr * option pystr)) :=
  match words with
  | [] => Some []
  | w :: r =>
      if member w flags then option_map (cons (w, None)) (read_args r)
      else if member w valued then
        match r with
        | v :: r' => if begins_with_dash v then None else option_map (cons (w, Some v)) (read_args r')
        | [] => None
        end
      else None
  end.
(* the value of an option (None: not given, given without value); the last one counts *)
Fixpoint given (opts : list (pystr * option pystr)) (o : pystr) : option (option pystr) :=
  match opts with
  | [] => None
  | (w, v) :: r => match given r o with Some v' => Some v' | None => if str_eqb w o then Some v else None end
  end.
(* the text an option has: the given one or the default of test.py *)
Definition text_of (opts : list (pystr * option pystr)) (o default : pystr) : option pystr :=
  match given opts o with Some v => v | None => Some default end.

(* a word: nothing in it that the shell or argparse would take apart *)
Definition plain_word (w : pystr) : Prop := w <> [] /\ ~ In " "%char w /\ begins_with_dash w = false.

(* the directory of a setting: its place in the output directory as printed *)
Definition setting_dir (opts : list (pystr * option pystr)) : option pystr :=
  match given opts (L"--output") with Some v => v | None => None end.

(* a number as it is printed: without "_", "/" or space; or a fraction of two such texts *)
Definition number_text (v : pystr) : Prop :=
  v <> [] /\ ~ In "_"%char v /\ ~ In " "%char v /\
  exists parts, parts <> [] /\ v = str_join (L"/") parts /\
    Forall (fun p => p <> [] /\ p <> L"." /\ ~ In "/"%char p) parts.

(* the options of the parameters, in their order *)
Definition param_options : list pystr :=
  [L"--min-chord-change-prob"; L"--max-no-chord-change-prob"; L"--max-chord-length"; L"--min-key-change-prob";
   L"--max-no-key-change-prob"; L"--beam-size"; L"--max-chord-branching-factor"; L"--target-chord-branch-prob";
   L"--max-key-branching-factor"; L"--target-key-branch-prob"; L"--hash-length"; L"--ksm-exponent"].

(* the line runs test.py with the setting and with everything else that was asked for *)
Definition runs (a : grid_args) (line : pystr) (values : list pystr) (opts : list (pystr * option pystr)) : Prop :=
  (exists words, split_on " " line = L"python" :: L"test.py" :: words /\ read_args words = Some opts) /\
  List.length values = List.length param_options /\
  (forall i o v, nth_error param_options i = Some o -> nth_error values i = Some v -> given opts o = Some (Some v)) /\
  given opts (L"--threads") = option_map (fun n => Some (z_to_str n)) (g_threads a) /\
  text_of opts (L"--seed") (L"0") = Some (z_to_str (g_seed a)) /\
  text_of opts (L"-h5") (L"h5_data") = Some (path_text (g_h5_dir a)) /\
  text_of opts (L"--icm-json") (L"`--checkpoint`/icm/initial_chord_prior.json") = Some (g_icm_json a) /\
  text_of opts (L"--checkpoint") (L"checkpoints") = Some (g_checkpoint a) /\
  given opts (L"-x") = (if g_xml a then Some None else None) /\
  given opts (L"--test") = (if g_test a then Some None else None) /\
  text_of opts (L"--input") (L"corpus_data") = Some (path_text (g_input a)) /\
  given opts (L"--log") = Some (Some (L"test.log")) /\
  (forall m, In m [L"ccm"; L"ctm"; L"csm"; L"ktm"; L"ksm"] ->
     given opts (L"--" ++ m ++ L"-version") = option_map (fun n => Some (z_to_str n)) (g_version a m) /\
     (g_version a m = None ->
      text_of opts (L"--" ++ m) (L"`--checkpoint`/" ++ m ++ L"/lightning_logs/version_*/checkpoints/*.ckpt") = Some (g_model a m))).

(* nothing in the arguments that the shell or argparse would take apart; numbers not negative *)
Definition plain_args (a : grid_args) : Prop :=
  (forall n, g_threads a = Some n -> 0 <= n) /\ 0 <= g_seed a /\
  plain_word (path_text (g_h5_dir a)) /\ plain_word (g_icm_json a) /\ plain_word (g_checkpoint a) /\
  plain_word (path_text (g_input a)) /\
  (forall m, In m [L"ccm"; L"ctm"; L"csm"; L"ktm"; L"ksm"] -> plain_word (g_model a m)) /\
  (forall m n, g_version a m = Some n -> 0 <= n) /\
  ~ In " "%char (path_text (g_output a)) /\ begins_with_dash (path_text (g_output a)) = false /\
  Forall (fun w => w <> [] /\ w <> L"." /\ ~ In "/"%char w) (p_parts (g_output a)) /\ (p_root (g_output a) <= 2)%nat /\
  List.length (g_values a) = List.length param_options /\
  Forall (Forall (fun v => number_text v /\ plain_word v)) (g_values a).
