(* C93: which checkpoints are to be loaded. *)
From Coq Require Import String Ascii.
From Verif Require Import Model_Checkpoints.
From Coq Require Import List.
Import ListNotations.
Open Scope Z_scope.

(* dictionary order: a continues to b, or they differ first at a character that is smaller in a *)
Definition before (a b : pystr) : Prop :=
  (exists r, b = a ++ r) \/
  exists p x a' y b', a = p ++ x :: a' /\ b = p ++ y :: b' /\ (nat_of_ascii x < nat_of_ascii y)%nat.
Definition greatest (l : list pystr) (c : pystr) : Prop := In c l /\ forall c', In c' l -> before c' c.

(* the pattern asked for *)
Definition default_pattern (dir name : pystr) : pystr :=
  dir ++ L"/" ++ name ++ L"/lightning_logs/version_*/checkpoints/*.ckpt".
Definition version_pattern (dir name : pystr) (v : Z) : pystr :=
  dir ++ L"/" ++ name ++ L"/lightning_logs/version_" ++ z_to_str v ++ L"/checkpoints/*.ckpt".
Definition asked_pattern (dir name arg : pystr) (version : option Z) (p : pystr) : Prop :=
  match version with
  | Some v => p = version_pattern dir name v
  | None =>
      (arg = L"`--checkpoint`/" ++ name ++ L"/lightning_logs/version_*/checkpoints/*.ckpt" -> p = default_pattern dir name) /\
      (arg <> L"`--checkpoint`/" ++ name ++ L"/lightning_logs/version_*/checkpoints/*.ckpt" -> p = arg)
  end.

(* the model of the first class that accepts the checkpoint *)
Definition first_that_loads {C M} (load : C -> pystr -> option M) (classes : list C) (ckpt : pystr) (m : M) : Prop :=
  exists before_ c after_, classes = before_ ++ c :: after_ /\ load c ckpt = Some m /\
    forall c', In c' before_ -> load c' ckpt = None.

(* the model under a name: from the greatest of the paths found for the pattern *)
Definition loaded_as_asked {C M} (glob : pystr -> list pystr) (load : C -> pystr -> option M) (dir : pystr)
  (arg : pystr -> pystr) (version : pystr -> option Z) (entry : pystr * list C) (got : pystr * M) : Prop :=
  fst got = fst entry /\
  exists p ckpt, asked_pattern dir (fst entry) (arg (fst entry)) (version (fst entry)) p /\
    greatest (glob p) ckpt /\ first_that_loads load (snd entry) ckpt (snd got).

(* the names in MODEL_CLASSES that have checkpoints *)
Definition known (name : pystr) : Prop := In name [L"ccm"; L"ctm"; L"csm"; L"ktm"; L"ksm"].

(* a number written with digits *)
Definition digits (s : pystr) : Prop := Forall (fun c => char_is_digit c = true) s.
Definition digits_value (s : pystr) : Z := fold_left (fun n c => 10 * n + (Z.of_nat (nat_of_ascii c) - 48)) s 0.

(* the text s has the text t in it *)
Definition within (t s : pystr) : Prop := exists a b, s = a ++ t ++ b.

(* MODEL_CLASSES without icm *)
Definition neural {C} (classes : list (pystr * list C)) : list (pystr * list C) :=
  filter (fun e => negb (str_eqb (fst e) (L"icm"))) classes.
