(* Which checkpoints are loaded: harmonic_inference/utils/data_utils.py:200-262
   load_models_from_argparse.
   Simplifications: glob and load_from_checkpoint are given from outside (a function from a pattern to
   the paths found, in any order; a function from a class and a path to a model, None if it raises);
   characters compare by their codes, which are at most 255; freeze() and the messages are left out;
   MODEL_CLASSES is a list of (name, classes). *)
From Coq Require Import String Ascii.
From Verif Require Export Model_Grid.
From Coq Require Import List.
Import ListNotations.
Open Scope Z_scope.

(* text.replace(old, new): from the left, without overlap; skip: characters of a match still to be
   dropped *)
Fixpoint is_prefix (p s : pystr) : bool :=
  match p, s with
  | [], _ => true
  | a :: p', b :: s' => Ascii.eqb a b && is_prefix p' s'
  | _ :: _, [] => false
  end.
(* str.replace, character by character *)
Fixpoint replace_go (old new s : pystr) (skip : nat) : pystr :=
  match s with
  | [] => []
  | c :: r =>
      match skip with
      | S k => replace_go old new r k
      | O => if is_prefix old s then new ++ replace_go old new r (Nat.pred (List.length old)) else c :: replace_go old new r 0
      end
  end.
(* for a non-empty text old *)
Definition str_replace (old new s : pystr) : pystr := replace_go old new s 0.

(* a <= b on texts *)
Fixpoint str_leb (a b : pystr) : bool :=
  match a, b with
  | [], _ => true
  | _ :: _, [] => false
  | x :: a', y :: b' =>
      if (nat_of_ascii x <? nat_of_ascii y)%nat then true
      else if (nat_of_ascii y <? nat_of_ascii x)%nat then false else str_leb a' b'
  end.
(* sorted(texts) *)
Fixpoint str_insert (w : pystr) (l : list pystr) : list pystr :=
  match l with
  | [] => [w]
  | v :: r => if str_leb w v then w :: l else v :: str_insert w r
  end.
(* insertion of every element *)
Definition str_sorted (l : list pystr) : list pystr := fold_right str_insert [] l.

(* 220-231: the pattern for glob *)
Definition checkpoint_pattern (checkpoint model_name checkpoint_arg : pystr) (version_arg : option Z) : pystr :=
  let DEFAULT_PATH := default_checkpoint model_name in
  if str_eqb checkpoint_arg DEFAULT_PATH || match version_arg with Some _ => true | None => false end then
    let checkpoint_arg := str_replace (L"`--checkpoint`") checkpoint DEFAULT_PATH in
    match version_arg with
    | Some v => str_replace (L"_*") (L"_" ++ z_to_str v) checkpoint_arg
    | None => checkpoint_arg
    end
  else checkpoint_arg.

Section Models.
Context {C M : Type}.                                 (* classes, models *)
Variable glob : pystr -> list pystr.
Variable load_from_checkpoint : C -> pystr -> option M.

(* sys.exit(2), or the dictionary *)
Inductive loaded := Exit (code : Z) | Models (models : list (pystr * M)).
(* 233-244: the checkpoint of a model; None: sys.exit(2) *)
Definition choose_checkpoint (pattern : pystr) : option pystr :=
  let possible_checkpoints := str_sorted (glob pattern) in
  match possible_checkpoints with
  | [] => None
  | [checkpoint] => Some checkpoint
  | _ => Some (last possible_checkpoints [])
  end.
(* 246-253 *)
Fixpoint first_class (classes : list C) (checkpoint : pystr) : option M :=
  match classes with
  | [] => None
  | c :: r => match load_from_checkpoint c checkpoint with Some m => Some m | None => first_class r checkpoint end
  end.
(* 216-255, the loop *)
Fixpoint load_loop (checkpoint_dir : pystr) (arg : pystr -> pystr) (version : pystr -> option Z)
  (classes : list (pystr * list C)) (models : list (pystr * M)) : res loaded :=
  match classes with
  | [] => Ok (Models models)
  | (model_name, model_classes) :: r =>
      if str_eqb model_name (L"icm") then load_loop checkpoint_dir arg version r models
      else
        match choose_checkpoint (checkpoint_pattern checkpoint_dir model_name (arg model_name) (version model_name)) with
        | None => Ok (Exit 2)
        | Some checkpoint =>
            match first_class model_classes checkpoint with
            | None => Raise AssertionError
            | Some m => load_loop checkpoint_dir arg version r (models ++ [(model_name, m)])
            end
        end
  end.
(* 200-262; load_icm: SimpleInitialChordModel(load_kwargs_from_json(path)) *)
Definition load_models_from_argparse (checkpoint_dir : pystr) (arg : pystr -> pystr) (version : pystr -> option Z)
  (icm_json : pystr) (load_icm : pystr -> res M) (MODEL_CLASSES : list (pystr * list C)) : res loaded :=
  let! l := load_loop checkpoint_dir arg version MODEL_CLASSES [] in
  match l with
  | Exit code => Ok (Exit code)
  | Models models =>
      let! m := load_icm (str_replace (L"`--checkpoint`") checkpoint_dir icm_json) in
      Ok (Models (models ++ [(L"icm", m)]))
  end.
End Models.
Arguments loaded M : clear implicits.
