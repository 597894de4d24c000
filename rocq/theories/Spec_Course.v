(* Vocabulary for the data of the course. *)
From Coq Require Import String Ascii.
From Verif Require Import Model_Output.
From Coq Require Import List.
Import ListNotations.

(* the two directories of data *)
Definition data_file (p : fpath) : Prop :=
  exists q, p = FPath 0 (L"ML_course_data" :: L"chord" :: q) \/ p = FPath 0 (L"ML_course_data" :: L"key" :: q).
(* the files of vocabularies *)
Definition vocabularies : list fpath :=
  map (fun name => FPath 0 [L"ML_course_data"; name])
    [L"chord_vocab_major.txt"; L"chord_vocab_minor.txt"; L"chord_vocab_full.txt"; L"key_vocab_major.txt"; L"key_vocab_minor.txt"; L"key_vocab_full.txt"].
