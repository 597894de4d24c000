(* Small independent vocabulary for the statements about pitches, chords and keys.
   Nothing here is taken from the code; the numbers are music theory or the documented
   sizes of the representations. *)
From Verif Require Import Model_Types.
From Coq Require Import String Ascii List.
From Coq Require DecimalString.
Import ListNotations.
Open Scope Z_scope.

(* Pitches of a representation: 35 spelled pitch classes (line of fifths) or 12 keys. *)
Definition pitch_count (pt : pitch_type) : Z := match pt with TPC => 35 | MIDI => 12 end.

(* Lowest root of a chord vocabulary, and number of roots.  Absolute vocabularies start at
   0; relative line-of-fifths ones run over -14..14, or -19..19 when padded. *)
Definition lowest_root (pt : pitch_type) (relative pad : bool) : Z :=
  match pt, relative, pad with
  | TPC, true, false => -14
  | TPC, true, true => -19
  | _, _, _ => 0
  end.
Definition root_count (pt : pitch_type) (relative pad : bool) : Z :=
  match pt, relative, pad with
  | TPC, true, false => 29
  | TPC, true, true => 39
  | TPC, false, _ => 35
  | MIDI, _, _ => 12
  end.

(* Triads have three positions, seventh chords four. *)
Definition is_triad (t : chord_type) : bool :=
  match t with Maj | Min | Dim | Aug => true | _ => false end.
Definition positions (t : chord_type) : Z := if is_triad t then 3 else 4.

(* The interval from tonic to root as the relative vocabularies see it. *)
Definition relative_pitch (pt : pitch_type) (pitch tonic : Z) : Z :=
  match pt with TPC => pitch - tonic | MIDI => (pitch - tonic) mod 12 end.

(* Line-of-fifths positions of the natural letters relative to C. *)
Definition letter_fifths (c : ascii) : option Z :=
  match c with
  | "F" | "f" => Some (-1) | "C" | "c" => Some 0 | "G" | "g" => Some 1
  | "D" | "d" => Some 2 | "A" | "a" => Some 3 | "E" | "e" => Some 4
  | "B" | "b" => Some 5 | _ => None
  end%char.

(* a letter followed by [sharps] sharps and then [flats] flats *)
Definition spelling (c : ascii) (sharps flats : nat) : list ascii :=
  (c :: repeat "#"%char sharps ++ repeat "b"%char flats).

(* Scale degrees 1..7 of the major / natural minor scale in fifths above the tonic. *)
Definition degree_fifths (m : key_mode) (d : Z) : Z :=
  match m with
  | MAJOR => match d with 1 => 0 | 2 => 2 | 3 => 4 | 4 => -1 | 5 => 1 | 6 => 3 | _ => 5 end
  | MINOR => match d with 1 => 0 | 2 => 2 | 3 => -3 | 4 => -1 | 5 => 1 | 6 => -4 | _ => -2 end
  end.

(* A roman numeral with accidentals in front: [acc] is sharps (if positive) or flats. *)
Record numeral := { n_acc : Z; n_degree : Z; n_minor : bool }.
Definition numeral_ok (n : numeral) : bool := (1 <=? n_degree n) && (n_degree n <=? 7).
Definition roman (d : Z) (lower : bool) : string :=
  match d, lower with
  | 1, false => "I" | 2, false => "II" | 3, false => "III" | 4, false => "IV"
  | 5, false => "V" | 6, false => "VI" | 7, false => "VII"
  | 1, true => "i" | 2, true => "ii" | 3, true => "iii" | 4, true => "iv"
  | 5, true => "v" | 6, true => "vi" | 7, true => "vii"
  | _, _ => ""
  end%string.
Definition numeral_text (n : numeral) : list ascii :=
  (if n_acc n <? 0 then repeat "b"%char (Z.to_nat (- n_acc n))
   else repeat "#"%char (Z.to_nat (n_acc n)))
  ++ list_ascii_of_string (roman (n_degree n) (n_minor n)).

(* The interval a numeral denotes in a key of the given mode: degree + 7 fifths per
   accidental on the line of fifths; in semitones a fifth is 7 and an accidental 1, and the
   semitone interval is only meaningful modulo 12. *)
Definition numeral_fifths (m : key_mode) (n : numeral) : Z :=
  degree_fifths m (n_degree n) + 7 * n_acc n.
Definition numeral_semitones (m : key_mode) (n : numeral) : Z :=
  (7 * degree_fifths m (n_degree n)) mod 12 + n_acc n.

(* Resolving an applied key path "n1/n2/.../nk": the last component is read in the given
   key, the one before it in the result, and so on.  None: the key leaves the pitch range. *)
Definition apply_numeral (pt : pitch_type) (n : numeral) (k : Z * key_mode)
  : option (Z * key_mode) :=
  let '(tonic, mode) := k in
  let mode' := if n_minor n then MINOR else MAJOR in
  match pt with
  | TPC => let t := tonic + numeral_fifths mode n in
           if (0 <=? t) && (t <? 35) then Some (t, mode') else None
  | MIDI => Some ((tonic + numeral_semitones mode n) mod 12, mode')
  end.
Fixpoint resolve_path (pt : pitch_type) (path : list numeral) (k : Z * key_mode)
  : option (Z * key_mode) :=
  match path with
  | [] => Some k
  | n :: rest =>
      match resolve_path pt rest k with
      | Some k' => apply_numeral pt n k'
      | None => None
      end
  end.
Fixpoint path_text (path : list numeral) : list ascii :=
  match path with
  | [] => []
  | [n] => numeral_text n
  | n :: rest => numeral_text n ++ "/"%char :: path_text rest
  end.

(* ---- readable labels -------------------------------------------------------------- *)
Definition type_text (t : chord_type) : string :=
  match t with
  | Maj => "M" | Min => "m" | Dim => "o" | Aug => "+"
  | Maj_Maj7 => "MM7" | Maj_Min7 => "Mm7" | Min_Maj7 => "mM7" | Min_Min7 => "mm7"
  | Dim7 => "o7" | Half_Dim7 => "%7" | Aug_Min7 => "+7" | Aug_Maj7 => "+M7"
  end%string.

(* decimal notation of an integer *)
Definition is_decimal_of (s : list ascii) (z : Z) : Prop :=
  exists d, DecimalString.NilZero.int_of_string (string_of_list_ascii s) = Some d
            /\ Z.of_int d = z.

(* ---- chords as pitch sets --------------------------------------------------------- *)
(* Chord members in fifths above the root. *)
Definition triad_fifths (t : chord_type) : list Z :=
  match t with
  | Maj | Maj_Maj7 | Maj_Min7 => [0; 4; 1]
  | Min | Min_Maj7 | Min_Min7 => [0; -3; 1]
  | Dim | Dim7 | Half_Dim7 => [0; -3; -6]
  | Aug | Aug_Min7 | Aug_Maj7 => [0; 4; 8]
  end.
Definition seventh_fifths (t : chord_type) : list Z :=
  match t with
  | Maj | Min | Dim | Aug => []
  | Maj_Maj7 | Min_Maj7 | Aug_Maj7 => [5]
  | Maj_Min7 | Min_Min7 | Half_Dim7 | Aug_Min7 => [-2]
  | Dim7 => [-9]
  end.
Definition chord_fifths (t : chord_type) : list Z := triad_fifths t ++ seventh_fifths t.

(* transposing a presence vector: what is found at position p afterwards *)
Definition moved (pt : pitch_type) (v : list Z) (interval p : Z) : Z :=
  match pt with
  | MIDI => nth (Z.to_nat ((p - interval) mod Z.of_nat (length v))) v 0
  | TPC => if (0 <=? p - interval) && (p - interval <? Z.of_nat (length v))
           then nth (Z.to_nat (p - interval)) v 0 else 0
  end.
