(* Vocabulary for statements about texts (labels, change strings).  The only function of
   the code used here is the reader get_pitch_from_string, itself characterised by C06. *)
From Coq Require Import String Ascii.
From Verif Require Import Model_Strings Spec_Music.
From Coq Require Import List.
Import ListNotations.
Open Scope Z_scope.

(* what the text of a root says *)
Definition root_text_spec (pt : pitch_type) (relative : bool) (relative_to : option Z)
  (root : Z) (s : pystr) : Prop :=
  match relative, relative_to with
  | false, _ => get_pitch_from_string s pt = Ok root
  | true, None => is_decimal_of s root
  | true, Some k =>
      match pt with
      | MIDI => get_pitch_from_string s MIDI = Ok ((root + k) mod 12)
      | TPC => if (0 <=? root + k) && (root + k <? 35)
               then get_pitch_from_string s TPC = Ok (root + k)
               else is_decimal_of s root
      end
  end.

(* keys of the piano without accidental *)
Definition white_key (p : Z) : bool := existsb (Z.eqb p) [0; 2; 4; 5; 7; 9; 11].

(* one change: no digits, then one digit, or '1' and the character after it *)
Definition change_token (tok : pystr) : Prop :=
  exists pre d, Forall (fun c => char_is_digit c = false) pre /\ char_is_digit d = true /\
    ((d <> "1"%char /\ tok = pre ++ [d]) \/ (d = "1"%char /\ (tok = pre ++ [d] \/ exists x, tok = pre ++ [d; x]))).

