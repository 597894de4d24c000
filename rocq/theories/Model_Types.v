(* Enumerations: harmonic_inference/data/data_types.py *)
From Verif Require Export PyBase.
Open Scope Z_scope.

(* data_types.py:20-33 (class PitchType) *)
Inductive pitch_type := TPC | MIDI.
(* data_types.py:35-47 (class KeyMode) *)
Inductive key_mode := MAJOR | MINOR.
(* data_types.py:49-70 (class ChordType) *)
Inductive chord_type :=
| Maj | Min | Dim | Aug
| Maj_Maj7 | Maj_Min7 | Min_Maj7 | Min_Min7 | Dim7 | Half_Dim7 | Aug_Min7 | Aug_Maj7.

(* == on pitch types *)
Definition pt_eqb (a b : pitch_type) : bool :=
  match a, b with TPC, TPC | MIDI, MIDI => true | _, _ => false end.
(* == on modes *)
Definition km_eqb (a b : key_mode) : bool :=
  match a, b with MAJOR, MAJOR | MINOR, MINOR => true | _, _ => false end.

(* KeyMode.value: data_types.py:35-41 *)
Definition mode_value (m : key_mode) : Z := match m with MAJOR => 0 | MINOR => 1 end.
(* iteration order of the Enum *)
Definition all_modes : list key_mode := [MAJOR; MINOR].

(* ChordType.value: data_types.py:54-65 *)
Definition ct_value (t : chord_type) : Z :=
  match t with
  | Maj => 0 | Min => 1 | Dim => 2 | Aug => 3
  | Maj_Maj7 => 4 | Maj_Min7 => 5 | Min_Maj7 => 6 | Min_Min7 => 7
  | Dim7 => 8 | Half_Dim7 => 9 | Aug_Min7 => 10 | Aug_Maj7 => 11
  end.
(* Enum iteration order, which is also the order of __lt__ (data_types.py:67-70) *)
Definition all_chord_types : list chord_type :=
  [Maj; Min; Dim; Aug; Maj_Maj7; Maj_Min7; Min_Maj7; Min_Min7; Dim7; Half_Dim7; Aug_Min7; Aug_Maj7].
(* == on chord types *)
Definition ct_eqb (a b : chord_type) : bool := ct_value a =? ct_value b.

(* A reduction is a dict ChordType -> ChordType.  Simplification: it is total on the 12
   types (both reductions of data_types.py:73-105 are), so no KeyError arises on lookup. *)
Definition reduction := chord_type -> chord_type.
(* data_types.py:73 *)
Definition NO_REDUCTION : reduction := fun t => t.
(* data_types.py:76-89 *)
Definition TRIAD_REDUCTION : reduction := fun t =>
  match t with
  | Maj | Maj_Maj7 | Maj_Min7 => Maj
  | Min | Min_Maj7 | Min_Min7 => Min
  | Dim | Dim7 | Half_Dim7 => Dim
  | Aug | Aug_Min7 | Aug_Maj7 => Aug
  end.
(* data_types.py:92-105 *)
Definition ALL_ONE_TYPE_REDUCTION : reduction := fun _ => Maj.
