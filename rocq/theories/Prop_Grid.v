(* C91: a grid search prints one command for every setting, with a directory of its own. *)
From Coq Require Import String Ascii.
From Verif Require Import Model_Grid Spec_Grid Spec_Output Proof_Base Proof_Strings Proof_Labels Proof_Output Proof_Grid.
From Coq Require Import List Lia.
Import ListNotations.
Open Scope Z_scope.

(* One line for every setting (in particular every setting once if no value is given twice), and
   the line runs test.py with this setting, all else as asked for, and a directory of its own. *)
Theorem C91_commands a : plain_args a ->
  exists lines settings, grid_search a = Ok lines /\
    (forall vs, In vs settings <-> setting (g_values a) vs) /\
    (Forall (@NoDup _) (g_values a) -> NoDup settings) /\
    List.length settings = fold_right Nat.mul 1%nat (map (@List.length _) (g_values a)) /\
    Forall2 (fun line vs => exists opts, runs a line vs opts) lines settings.
Proof.
  intros P. unfold grid_search. rewrite abbrs_eq. cbn [bind]. eexists _, (product (g_values a)). split; [reflexivity|].
  split; [intros vs; apply product_in|]. split; [apply product_NoDup|]. split.
  - generalize (g_values a). intros ls. induction ls as [|l r IH]; [reflexivity|]. cbn [product map fold_right]. rewrite <- IH.
    induction l as [|x l IHl]; [reflexivity|]. cbn [flat_map List.length Nat.mul]. rewrite app_length, map_length, IHl. reflexivity.
  - assert (K : forall vs, In vs (product (g_values a)) -> runs a (command a ABBRS vs) vs (all_pairs a vs)).
    { intros vs H. apply product_in in H. destruct P as (P1 & P2 & P3 & P4 & P5 & P6 & P7 & P8 & P9 & P10 & P11 & P12 & P13 & P14) eqn:EP. clear EP.
      assert (Ev : List.length vs = List.length ABBRS).
      { change (List.length ABBRS) with (List.length param_options). rewrite <- P13. clear -H. induction H; cbn [List.length]; congruence. }
      apply runs_setting; [repeat (split; [assumption|]); assumption|exact Ev|].
      clear -H P14. induction H as [|v l vs ls Hv H IH]; [constructor|]. inversion P14 as [|? ? Hl Hls]; subst.
      constructor; [|now apply IH]. rewrite Forall_forall in Hl. now apply Hl. }
    revert K. generalize (product (g_values a)). intros ss. induction ss as [|s ss IH]; intros K; [constructor|]. cbn [map].
    constructor; [exists (all_pairs a s); apply K; now left|]. apply IH. intros vs H. apply K. now right.
Qed.
Print Assumptions C91_commands.

(* Two lines whose runs write to the same directory have the same setting. *)
Theorem C91_directories a lines : plain_args a -> grid_search a = Ok lines ->
  forall line line' vs vs' opts opts', In line lines -> In line' lines ->
  runs a line vs opts -> runs a line' vs' opts' -> setting_dir opts = setting_dir opts' -> vs = vs'.
Proof.
  intros P H line line' vs vs' opts opts' Hl Hl' R R' D.
  unfold grid_search in H. rewrite abbrs_eq in H. cbn [bind] in H. apply Ok_inj in H. subst lines.
  assert (Pp : Forall part (p_parts (g_output a))) by apply P.
  assert (K : forall line vs opts, In line (map (command a ABBRS) (product (g_values a))) -> runs a line vs opts ->
    setting_dir opts = Some (out_path a vs) /\ List.length vs = List.length ABBRS /\ Forall number_text vs).
  { clear - P. intros line vs opts H R. apply in_map_iff in H. destruct H as (ws & <- & H). apply product_in in H.
    destruct P as (P1 & P2 & P3 & P4 & P5 & P6 & P7 & P8 & P9 & P10 & P11 & P12 & P13 & P14) eqn:EP. clear EP.
    assert (Ev : List.length ws = List.length ABBRS).
    { change (List.length ABBRS) with (List.length param_options). rewrite <- P13. clear -H. induction H; cbn [List.length]; congruence. }
    assert (Fv : Forall (fun v => number_text v /\ plain_word v) ws).
    { clear -H P14. induction H as [|v l vs ls Hv H IH]; [constructor|]. inversion P14 as [|? ? Hl Hls]; subst.
      constructor; [|now apply IH]. rewrite Forall_forall in Hl. now apply Hl. }
    assert (Pa : plain_args a) by (repeat (split; [assumption|]); assumption).
    assert (R2 := runs_setting a ws Pa Ev Fv).
    destruct R as ((words & Sp & Rd) & Lv & Gv & _). destruct R2 as ((words2 & Sp2 & Rd2) & Lv2 & Gv2 & _).
    rewrite Sp in Sp2. assert (words = words2) by (apply (f_equal (fun l => tl (tl l))) in Sp2; exact Sp2). subst words2.
    rewrite Rd in Rd2. apply Some_inj in Rd2. subst opts.
    assert (vs = ws).
    { apply nth_ext with (d := []) (d' := []); [now rewrite Lv, Lv2|]. intros i Hi.
      assert (Hi2 : (i < List.length ws)%nat) by (rewrite Lv2, <- Lv; exact Hi). assert (Hi3 : (i < List.length param_options)%nat) by (rewrite <- Lv; exact Hi).
      assert (A := nth_error_nth' vs [] Hi). assert (B := nth_error_nth' ws [] Hi2). assert (C := nth_error_nth' param_options [] Hi3).
      specialize (Gv _ _ _ C A). specialize (Gv2 _ _ _ C B). rewrite Gv in Gv2. apply Some_inj, Some_inj in Gv2. exact Gv2. }
    subst ws. split; [|split; [exact Ev|]].
    - unfold setting_dir, all_pairs, setting_pairs. rewrite !given_app, given_params; [reflexivity|].
      intros G. repeat (destruct G as [G|G]; [vm_compute in G; discriminate G|]). destruct G.
    - eapply Forall_impl; [|exact Fv]. intros v G. apply G. }
  destruct (K _ _ _ Hl R) as (E1 & L1 & F1). destruct (K _ _ _ Hl' R') as (E2 & L2 & F2).
  rewrite E1, E2 in D. apply Some_inj in D. exact (out_path_inj a vs vs' Pp L1 L2 F1 F2 D).
Qed.
Print Assumptions C91_directories.

(* ---- what goes wrong otherwise ---------------------------------------------------------- *)
Definition some_values : list (list pystr) :=
  [[L"0.25"]; [L"0.45"]; [L"8"]; [L"0.05"]; [L"0.75"]; [L"50"]; [L"5"]; [L"0.75"]; [L"2"]; [L"0.5"]; [L"5"]; [L"50"]].
Definition default_args : grid_args :=
  GridArgs None 0 (parse_path (L"h5_data")) default_icm (L"checkpoints") false false (parse_path (L"corpus_data"))
    default_checkpoint (fun _ => None) (parse_path (L"output")) some_values.
(* The words of a command are not quoted: a path with a space is taken apart. *)
Theorem C91_spaces_refuted : exists a line words, g_input a = parse_path (L"my data") /\ grid_search a = Ok [line] /\
  split_on " " line = L"python" :: L"test.py" :: words /\ read_args words = None.
Proof.
  exists (GridArgs None 0 (parse_path (L"h5_data")) default_icm (L"checkpoints") false false (parse_path (L"my data"))
    default_checkpoint (fun _ => None) (parse_path (L"output")) some_values).
  eexists _, _. split; [reflexivity|]. split; [vm_compute; reflexivity|]. split; [vm_compute; reflexivity|]. vm_compute. reflexivity.
Qed.
Print Assumptions C91_spaces_refuted.
(* plain texts, by computation *)
Definition plain_wordb (w : pystr) : bool :=
  negb (str_eqb w []) && negb (existsb (Ascii.eqb " ") w) && negb (begins_with_dash w).
Lemma plain_wordb_ok w : plain_wordb w = true -> plain_word w.
Proof.
  unfold plain_wordb. rewrite !andb_true_iff, !negb_true_iff. intros ((A & B) & C).
  split; [intros ->; discriminate A|]. split; [now apply not_in_list|exact C].
Qed.
Definition partsb (l : list pystr) : bool :=
  forallb (fun w => negb (str_eqb w []) && negb (str_eqb w (L".")) && negb (existsb (Ascii.eqb "/") w)) l.
Lemma partsb_ok l : partsb l = true -> Forall (fun w => w <> [] /\ w <> L"." /\ ~ In "/"%char w) l.
Proof.
  unfold partsb. rewrite forallb_forall, Forall_forall. intros H w Hw. specialize (H w Hw).
  rewrite !andb_true_iff, !negb_true_iff in H. destruct H as ((A & B) & C). split; [intros ->; discriminate A|].
  split; [intros ->; discriminate B|now apply not_in_list].
Qed.
Definition number_textb (v : pystr) : bool :=
  negb (str_eqb v []) && negb (existsb (Ascii.eqb "_") v) && negb (existsb (Ascii.eqb " ") v) && partsb (split_on "/" v).
Lemma number_textb_ok v : number_textb v = true -> number_text v.
Proof.
  unfold number_textb. rewrite !andb_true_iff, !negb_true_iff. intros (((A & B) & C) & D).
  split; [intros ->; discriminate A|]. split; [now apply not_in_list|]. split; [now apply not_in_list|].
  exists (split_on "/" v). split; [apply split_on_nonempty|]. split; [symmetry; apply (join_split "/"%char)|now apply partsb_ok].
Qed.
Definition plain_argsb (a : grid_args) : bool :=
  match g_threads a with Some n => 0 <=? n | None => true end && (0 <=? g_seed a) &&
  plain_wordb (path_text (g_h5_dir a)) && plain_wordb (g_icm_json a) && plain_wordb (g_checkpoint a) && plain_wordb (path_text (g_input a)) &&
  forallb (fun m => plain_wordb (g_model a m)) MODEL_NAMES &&
  plain_wordb (path_text (g_output a)) && partsb (p_parts (g_output a)) && (p_root (g_output a) <=? 2)%nat &&
  (List.length (g_values a) =? 12)%nat && forallb (forallb (fun v => number_textb v && plain_wordb v)) (g_values a).
Lemma plain_argsb_ok a : (forall m n, g_version a m = Some n -> 0 <= n) -> plain_argsb a = true -> plain_args a.
Proof.
  intros V. unfold plain_argsb. rewrite !andb_true_iff. intros (((((((((((H1 & H2) & H3) & H4) & H5) & H6) & H7) & H8) & H9) & H10) & H11) & H12).
  split; [intros n E; rewrite E in H1; now apply Z.leb_le|]. split; [now apply Z.leb_le|].
  do 4 (split; [now apply plain_wordb_ok|]). split; [intros m Hm; apply plain_wordb_ok; rewrite forallb_forall in H7; now apply H7|].
  split; [exact V|]. apply plain_wordb_ok in H8. split; [apply H8|]. split; [apply H8|]. split; [now apply partsb_ok|].
  split; [now apply Nat.leb_le|]. split; [now apply Nat.eqb_eq|].
  rewrite forallb_forall in H12. apply Forall_forall. intros l Hl. specialize (H12 l Hl). rewrite forallb_forall in H12. apply Forall_forall.
  intros v Hv. specialize (H12 v Hv). apply andb_true_iff in H12. split; [now apply number_textb_ok|now apply plain_wordb_ok].
Qed.
(* A value given twice: the same command is printed twice, and the two runs write to the same
   directory. *)
Theorem C91_twice_refuted : exists a line, plain_args a /\ grid_search a = Ok [line; line].
Proof.
  exists (GridArgs None 0 (parse_path (L"h5_data")) default_icm (L"checkpoints") false false (parse_path (L"corpus_data"))
    default_checkpoint (fun _ => None) (parse_path (L"output"))
    [[L"0.25"]; [L"0.45"]; [L"8"]; [L"0.05"]; [L"0.75"]; [L"50"; L"50"]; [L"5"]; [L"0.75"]; [L"2"]; [L"0.5"]; [L"5"]; [L"50"]]).
  eexists. split; [apply plain_argsb_ok; [discriminate|vm_compute; reflexivity]|]. vm_compute. reflexivity.
Qed.
Print Assumptions C91_twice_refuted.

(* ---- examples ------------------------------------------------------------------------------ *)
Definition ex_args : grid_args :=
  GridArgs (Some 4) 1 (parse_path (L"h5_data")) default_icm (L"my_ckpts") false true (parse_path (L"corpus_data"))
    (fun m => if str_eqb m (L"ccm") then L"best.ckpt" else default_checkpoint m)
    (fun m => if str_eqb m (L"csm") then Some 2 else None) (parse_path (L"/tmp/grid"))
    [[L"0.25"; L"1e-05"]; [L"0.45"]; [L"8"; L"1/2"]; [L"0.05"]; [L"0.75"]; [L"50"]; [L"5"]; [L"0.75"]; [L"2"]; [L"0.5"]; [L"5"]; [L"50"]].
Example ex_plain : plain_args ex_args.
Proof.
  apply plain_argsb_ok; [|vm_compute; reflexivity]. intros m n. cbn [g_version ex_args]. destruct (str_eqb m (L"csm")); intros H; [injection H as <-; lia|discriminate H].
Qed.
Example ex_lines : exists l1 l2 l3 l4, grid_search ex_args = Ok [l1; l2; l3; l4] /\
  l4 = L"python test.py --threads 4 --seed 1 --checkpoint my_ckpts --test --ccm best.ckpt --csm-version 2 --output /tmp/grid/mccp-1e-05_mnccp-0.45_mcl-1/2_mkcp-0.05_mnkcp-0.75_bs-50_mcbf-5_tcbp-0.75_mkbf-2_tkbp-0.5_hl-5_ke-50 --log test.log --min-chord-change-prob 1e-05 --max-no-chord-change-prob 0.45 --max-chord-length 1/2 --min-key-change-prob 0.05 --max-no-key-change-prob 0.75 --beam-size 50 --max-chord-branching-factor 5 --target-chord-branch-prob 0.75 --max-key-branching-factor 2 --target-key-branch-prob 0.5 --hash-length 5 --ksm-exponent 50".
Proof. eexists _, _, _, _. split; vm_compute; reflexivity. Qed.
