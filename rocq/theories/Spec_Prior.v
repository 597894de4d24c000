(* Vocabulary for the statements about the initial chord model and the options in json files. *)
From Coq Require Import QArith String Ascii.
From Verif Require Import Model_Strings Spec_Music.
From Coq Require Import List.
Import ListNotations.
Close Scope Q_scope.
Open Scope Z_scope.

(* a chord as a relative vocabulary sees it: interval from the tonic to the root, type, inversion *)
Definition in_its_key (c : chord) : Z * chord_type * Z :=
  (relative_pitch (c_pt c) (c_root c) (c_tonic c), c_type c, c_inv c).
Definition same_label (x y : Z * chord_type * Z) : bool :=
  let '(a, t, i) := x in let '(b, u, j) := y in (a =? b) && ct_eqb t u && (i =? j).

(* how many of the chords are in the mode; how many of these are the given relative chord *)
Definition in_mode (m : key_mode) (chords : list chord) : Z :=
  Z.of_nat (List.length (filter (fun c => km_eqb (c_mode c) m) chords)).
Definition times_seen (m : key_mode) (x : Z * chord_type * Z) (chords : list chord) : Z :=
  Z.of_nat (List.length (filter (fun c => km_eqb (c_mode c) m && same_label (in_its_key c) x) chords)).

(* a vocabulary has 4 triad types with 3 positions and 8 types of sevenths with 4, per root *)
Definition vocabulary (pt : pitch_type) : Z := 44 * root_count pt true false.
(* a chord that the relative vocabulary contains *)
Definition in_vocabulary (c : chord) : Prop :=
  0 <= c_inv c < positions (c_type c) /\
  match c_pt c with TPC => -14 <= c_root c - c_tonic c <= 14 | MIDI => True end.

(* sum of a list of numbers *)
Definition sum_of (l : list Q) : Q := fold_right Qplus 0%Q l.

(* the first position of the largest entry *)
Definition first_largest (l : list Q) (i : Z) : Prop :=
  exists x, nth_error l (Z.to_nat i) = Some x /\ 0 <= i /\
    (forall j y, nth_error l j = Some y -> (y <= x)%Q) /\
    (forall j y, nth_error l j = Some y -> Z.of_nat j < i -> (y < x)%Q).

(* text of the members of the enumerations *)
Definition pitch_type_text (pt : pitch_type) : string :=
  match pt with TPC => "PitchType.TPC" | MIDI => "PitchType.MIDI" end.
Definition chord_type_text (t : chord_type) : string :=
  match t with
  | Maj => "ChordType.MAJOR" | Min => "ChordType.MINOR"
  | Dim => "ChordType.DIMINISHED" | Aug => "ChordType.AUGMENTED"
  | Maj_Maj7 => "ChordType.MAJ_MAJ7" | Maj_Min7 => "ChordType.MAJ_MIN7"
  | Min_Maj7 => "ChordType.MIN_MAJ7" | Min_Min7 => "ChordType.MIN_MIN7"
  | Dim7 => "ChordType.DIM7" | Half_Dim7 => "ChordType.HALF_DIM7"
  | Aug_Min7 => "ChordType.AUG_MIN7" | Aug_Maj7 => "ChordType.AUG_MAJ7"
  end%string.

(* a piece on which the model is evaluated: the first chord and the mode of the first key *)
Definition starts_with_chord (piece : list chord * list key_mode) (c : chord) (m : key_mode) : Prop :=
  hd_error (fst piece) = Some c /\ hd_error (snd piece) = Some m.
Definition starts_as (major minor : Z * chord_type * Z) (piece : list chord * list key_mode) : bool :=
  match fst piece, snd piece with
  | c :: _, m :: _ => same_label (in_its_key c) (match m with MAJOR => major | MINOR => minor end)
  | _, _ => false
  end.
Definition share (k n : Z) : Q := (inject_Z k / inject_Z n)%Q.
Definition contains_text (s part : list ascii) : Prop := exists a b, s = a ++ part ++ b.
