(* Vocabulary for statements about pitch alterations of chords.  Pitches are counted in
   fifths; two pitches have the same letter iff they differ by a multiple of 7, and a step up
   in letters is two fifths (C-D, D-E, ...) modulo 7. *)
From Coq Require Import String Ascii.
From Verif Require Import Model_Strings Spec_Music.
From Coq Require Import List.
Import ListNotations.
Open Scope Z_scope.

(* one alteration: "^" / "v" / nothing, then sharps (positive) or flats, then a number *)
Inductive mark := Above | Below | NoMark.
Record change := { c_mark : mark; c_acc : Z; c_num : Z }.

Definition digit (n : Z) : ascii := ascii_of_nat (48 + Z.to_nat n).
Definition number_text (n : Z) : list ascii :=
  if n <? 10 then [digit n] else ["1"%char; digit (n - 10)].
Definition change_text (c : change) : list ascii :=
  match c_mark c with Above => L"^" | Below => L"v" | NoMark => [] end
  ++ (if c_acc c <? 0 then repeat "b"%char (Z.to_nat (- c_acc c))
      else repeat "#"%char (Z.to_nat (c_acc c)))
  ++ number_text (c_num c).

Definition even_tone (n : Z) : Prop := n = 2 \/ n = 4 \/ n = 6.
(* the alterations covered: numbers 2..19 (no 1), marks on 2, 4 and 6 only *)
Definition change_ok (c : change) : Prop :=
  2 <= c_num c <= 19 /\ match c_mark c with NoMark => True | _ => even_tone (c_num c) end.

Definition same_letter (p q : Z) : Prop := (p - q) mod 7 = 0.
(* the note of the key's scale (or: of the scale shifted) *)
Definition in_scale (tonic : Z) (m : key_mode) (q : Z) : Prop :=
  exists d, 1 <= d <= 7 /\ q = tonic + degree_fifths m d.

(* the altered note: the scale note whose letter is c_num - 1 steps above the root's, with
   the accidentals of the alteration *)
Definition altered_note (root tonic : Z) (m : key_mode) (c : change) (p : Z) : Prop :=
  exists q, in_scale tonic m q /\ same_letter q (root + 2 * (c_num c - 1)) /\ p = q + 7 * c_acc c.

(* which neighbour is replaced: Some true = the chord tone one step above *)
Definition replaces (c : change) : option bool :=
  match c_mark c with
  | Above => Some true
  | Below => Some false
  | NoMark => if existsb (Z.eqb (c_num c)) [2; 4; 6] then Some (0 <? c_acc c) else None
  end.

(* "#6" *)
Definition sharp_six (c : change) : Prop := c_mark c = NoMark /\ c_acc c = 1 /\ c_num c = 6.

(* the chord tone [p] is the neighbour (above / below) of the altered note, by letter *)
Definition neighbour (root : Z) (t : chord_type) (c : change) (up : bool) (p : Z) : Prop :=
  exists f, In f (chord_fifths t) /\ p = root + f
    /\ same_letter p (root + 2 * (c_num c - 1) + if up then 2 else -2).

(* one entry of the result: (replaced, new) *)
Definition change_entry (root : Z) (t : chord_type) (tonic : Z) (m : key_mode) (c : change)
  (e : list ascii * list ascii) : Prop :=
  (exists p s, altered_note root tonic m c p /\ is_decimal_of s p
      /\ snd e = (if 8 <=? c_num c then L"+" else []) ++ s)
  /\ match replaces c with
     | None => fst e = []
     | Some up =>
         if up && (c_num c =? 6) && (positions t =? 3) then sharp_six c /\ fst e = []
         else exists p, neighbour root t c up p /\ is_decimal_of (fst e) p
     end.

(* there is no tone above the sixth in a triad; only "#6" is allowed there *)
Definition has_tone (t : chord_type) (c : change) : Prop :=
  replaces c = Some true -> c_num c = 6 -> positions t = 3 -> sharp_six c.

(* the value of a key in a list of assignments made in order *)
Fixpoint last_value {V} (k : list ascii) (l : list (list ascii * V)) : option V :=
  match l with
  | [] => None
  | (k', v) :: r => match last_value k r with
                    | Some w => Some w
                    | None => if list_eq_dec ascii_dec k k' then Some v else None
                    end
  end.
