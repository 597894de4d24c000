(* Vocabulary for writing labels onto scores. *)
From Coq Require Import String Ascii.
From Verif Require Import Model_Output Model_Scores Spec_Output Spec_Checkpoints.
From Coq Require Import List.
Import ListNotations.
Open Scope Z_scope.

(* the name of a file or directory; one that does not begin with a dot *)
Definition entry (w : pystr) : Prop := w <> [] /\ w <> L"." /\ ~ In "/"%char w.
Definition visible (w : pystr) : Prop := exists c r, w = c :: r /\ c <> "."%char.
(* all there is: different paths of entries *)
Definition file_system (fs : list fpath) : Prop :=
  NoDup fs /\ forall p, In p fs -> (p_root p <= 2)%nat /\ Forall entry (p_parts p).
(* no character special to glob *)
Definition plain_text (s : pystr) : Prop := ~ In "*"%char s /\ ~ In "?"%char s /\ ~ In "["%char s.

(* a file of labels: the directories between the output directory and the file, the name without .tsv *)
Notation label_file := (list pystr * pystr)%type.
Definition place (dir : fpath) (f : label_file) : fpath := below dir (fst f) (snd f ++ L".tsv").
(* the directory with the same name below another one *)
Definition inside (dir : fpath) (dirs : list pystr) : fpath := FPath (p_root dir) (p_parts dir ++ dirs).

(* The attempt to write a file of labels onto its score: all operations, or those up to the first that raises, and
   then a message. *)
Definition attempt (fails : list ms3_op -> bool) (dir annotations : fpath) (f : label_file) (es : list score_event) : Prop :=
  let labels := path_text (inside dir (fst f)) in
  let re := snd f ++ L"\.(mscx|tsv)" in
  let ops := [Compile re; Parse (path_text (inside annotations (fst f))) re; AddDir labels (L"labels") re; ParseAll;
              AddDetached (L"MS3") (L"labels"); Attach 2 1 false; Store labels (L"_inferred") true] in
  exists k, (k < 7)%nat /\ (forall i, (i < k)%nat -> fails (firstn (S i) ops) = false) /\
    ((fails (firstn (S k) ops) = true /\ es = map Op (firstn (S k) ops) ++ [Message (L"Error writing score out to " ++ labels)]) \/
     (k = 6%nat /\ fails ops = false /\ es = map Op ops)).

(* The names in which the expression re.compile(base + "\\.(mscx|tsv)") is found (re.search), for a base of ordinary
   characters and dots; a dot stands for any character but the end of a line. *)
Definition ordinary (c : ascii) : Prop := ~ In c (list_ascii_of_string "\.^$*+?{}[]|()").
Definition searched (base name : pystr) : Prop :=
  exists pre m ext post, name = pre ++ m ++ "."%char :: ext ++ post /\ (ext = L"mscx" \/ ext = L"tsv") /\
    Forall2 (fun c d => if Ascii.eqb c "." then d <> ascii_of_nat 10 else c = d) base m.
