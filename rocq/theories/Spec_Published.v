(* C110: the published directories, and what their models are. *)
From Coq Require Export String Ascii QArith Permutation.
From Verif Require Export Model_Published Spec_Models Spec_Checkpoints.
From Coq Require Export List. Export ListNotations.
Close Scope Q_scope.
Open Scope Z_scope.

(* one version of every network, three of the chord sequence model *)
Definition versions (name : pystr) : list Z := if str_eqb name (L"csm") then [0; 1; 2] else [0].
(* where the checkpoint of a version is *)
Definition checkpoint_file (dir name : pystr) (v : Z) (file : pystr) : pystr :=
  dir ++ L"/" ++ name ++ L"/lightning_logs/version_" ++ z_to_str v ++ L"/checkpoints/" ++ file.
(* the files are found, in any order, and can be read; their names are not fixed *)
Record published_files (dir : pystr) (glob : pystr -> list pystr) (load : model_class -> pystr -> option component)
  (file : pystr -> Z -> pystr) : Prop := {
  pub_dir : ~ within (L"_*") dir;
  pub_all : forall name, known name ->
    Permutation (glob (default_pattern dir name)) (map (fun v => checkpoint_file dir name v (file name v)) (versions name));
  pub_one : forall name v, known name -> In v (versions name) ->
    glob (version_pattern dir name v) = [checkpoint_file dir name v (file name v)];
  pub_none : forall name v, known name -> ~ In v (versions name) -> glob (version_pattern dir name v) = [];
  pub_load : forall name c classes v m, In (name, c :: classes) MODEL_CLASSES -> stored name v = Some m ->
    load c (checkpoint_file dir name v (file name v)) = Some m
}.
(* the version of the chord sequence model that is used *)
Definition used_version (csm_version : option Z) : Z := match csm_version with Some v => v | None => 2 end.
(* 29 roots in a key, 44 chords on each *)
Record published_icm (json_file : list (pystr * json)) (major minor : list Q) : Prop := {
  pi_file : json_file = icm_best major minor \/ json_file = icm_fh major minor;
  pi_major : zlen major = 1276; pi_minor : zlen minor = 1276
}.
(* the triad of a chord: its type without the seventh *)
Definition triad_of (t : chord_type) : chord_type :=
  match t with
  | Maj | Maj_Maj7 | Maj_Min7 => Maj
  | Min | Min_Maj7 | Min_Min7 => Min
  | Dim | Dim7 | Half_Dim7 => Dim
  | Aug | Aug_Min7 | Aug_Maj7 => Aug
  end.
(* what the chord sequence model tells apart: all chords, all types of chords, or all triads *)
Record tells_apart (v : Z) (m : csm) : Prop := {
  ta_inv : cs_out_inv m = true <-> v = 0;
  ta_red : forall t, cs_out_red m t = if v =? 2 then triad_of t else t;
  ta_size : csm_output_dim m = if v =? 0 then 1276 else if v =? 1 then 29 * 12 else 29 * 4
}.
