(* C90: the files in which the tables of a piece are to be found. *)
From Coq Require Import String Ascii.
From Verif Require Import Model_Output.
From Coq Require Import List.
Import ListNotations.
Open Scope Z_scope.

(* a name of a directory or file: one component of a path, and no space in it *)
Definition component (w : pystr) : Prop :=
  w <> [] /\ w <> L"." /\ w <> L".." /\ ~ In "/"%char w /\ ~ In " "%char w.

(* a piece: its id, the directories below the input directory, the file name without its
   extension, the tables of the piece if there are any *)
Record filed {T : Type} := Filed { f_id : Z; f_dirs : list pystr; f_base : pystr; f_out : option T }.
Arguments filed T : clear implicits.

(* the places in the output directory *)
Definition below (dir : fpath) (dirs : list pystr) (file : pystr) : fpath :=
  FPath (p_root dir) (p_parts dir ++ dirs ++ [file]).

(* names that are components, each (directories, name) once, none the name of another's results *)
Definition well_named {T} (ext : pystr) (l : list (filed T)) : Prop :=
  List.length ext = 4%nat /\
  (forall x, In x l -> Forall component (f_dirs x) /\ component (f_base x ++ ext)) /\
  (forall i j x y, nth_error l i = Some x -> nth_error l j = Some y ->
     f_dirs x = f_dirs y -> f_base x = f_base y -> i = j) /\
  (ext = L".tsv" -> forall x y, In x l -> In y l -> f_dirs x = f_dirs y ->
     f_base x <> f_base y ++ L"_results" /\ f_base x <> f_base y ++ L"_results_midi").

(* names for annotate: an extension, and no base name twice in the whole input *)
Definition well_named_flat {T} (ext : pystr) (l : list (filed T)) : Prop :=
  (exists e, ext = "."%char :: e /\ e <> [] /\ ~ In "."%char e) /\
  (forall x, In x l -> Forall component (f_dirs x) /\ component (f_base x ++ ext) /\ f_base x <> []) /\
  (forall i j x y, nth_error l i = Some x -> nth_error l j = Some y -> f_base x = f_base y -> i = j).

(* the pieces as the scripts see them, from scores and from the tables of the corpora *)
Definition named_scores {T} (ext : pystr) (l : list (filed T)) : list (option pystr * option T) :=
  map (fun x => (Some (score_name (f_id x) (f_dirs x ++ [f_base x ++ ext])), f_out x)) l.
Definition named_frames {T} (l : list (Z * pystr * pystr * option T)) : list (option pystr * option T) :=
  map (fun '(id, corpus, file, out) => (Some (frame_name id corpus file), out)) l.
Definition framed {T} (l : list (Z * pystr * pystr * option T)) : list (filed T) :=
  map (fun '(id, corpus, base, out) => Filed T id [corpus] base out) l.
Definition with_ext {T} (ext : pystr) (l : list (Z * pystr * pystr * option T)) :=
  map (fun '(id, corpus, base, out) => (id, corpus, base ++ ext, out)) l.

(* the table c is in no file *)
Definition lost {T} (writes : list (fpath * T)) (c : T) : Prop := forall p, file_content writes p <> Some c.
