(* Specification vocabulary for C84: notes, chords and keys as dictionaries. *)
From Coq Require Import QArith String Ascii.
From Verif Require Import PyBase Model_Types Model_Strings Model_Dict.
From Coq Require Import List.
Import ListNotations.
Close Scope Q_scope.
Open Scope Z_scope.

(* The number that a value is. *)
Definition number (v : pyval) : option Q :=
  match v with VInt z => Some (inject_Z z) | VFrac q => Some q | _ => None end.
(* Two values are the same: equal numbers, the same position, or the same thing. *)
Definition same_value (a b : pyval) : Prop :=
  a = b \/ (exists q r, number a = Some q /\ number b = Some r /\ (q == r)%Q) \/
  (exists m q r, a = VPos m q /\ b = VPos m r /\ (q == r)%Q).

(* o comes out of the constructor of class c *)
Definition built (c : class) (o : obj) : Prop := exists kwargs, construct c kwargs = Ok o.
(* the value of a field *)
Definition has (o : obj) (f : pystr) (v : pyval) : Prop := getattr o f = Ok v.

(* The fields that an object must be given, those that may be left out, the pitches among
   them, and the field with their type. *)
Definition required (c : class) : list pystr :=
  match c with
  | CNote => [L"pitch_class"; L"octave"; L"onset"; L"onset_level"; L"duration"; L"offset"; L"offset_level"; L"pitch_type"]
  | CChord => [L"root"; L"bass"; L"key_tonic"; L"key_mode"; L"chord_type"; L"inversion"; L"onset"; L"onset_level";
               L"offset"; L"offset_level"; L"duration"; L"pitch_type"]
  | CKey => [L"relative_tonic"; L"local_tonic"; L"global_tonic"; L"relative_mode"; L"local_mode"; L"global_mode"; L"tonic_type"]
  end.
Definition fields_of (c : class) : list pystr :=
  required c ++ match c with CNote => [L"mc_onset"] | CChord => [L"suspension"] | CKey => [] end.
Definition pitches_of (c : class) : list pystr :=
  match c with
  | CNote => [L"pitch_class"]
  | CChord => [L"root"; L"bass"; L"key_tonic"]
  | CKey => [L"relative_tonic"; L"local_tonic"; L"global_tonic"]
  end.
Definition type_of (c : class) : pystr :=
  match c with CNote | CChord => L"pitch_type" | CKey => L"tonic_type" end.
