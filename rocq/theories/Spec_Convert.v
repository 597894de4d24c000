(* Vocabulary for the texts in the cells of a corpus. *)
From Coq Require Import QArith String Ascii.
From Verif Require Import Model_Prior Spec_Runs.
From Coq Require Import List.
Import ListNotations.
Close Scope Q_scope.
Open Scope Z_scope.

(* texts with ", " between them *)
Fixpoint listed (parts : list (list ascii)) : list ascii :=
  match parts with
  | [] => []
  | [p] => p
  | p :: r => p ++ L", " ++ listed r
  end.
(* the text says these numbers *)
Definition says_ints (s : list ascii) (zs : list Z) : Prop := exists parts, s = listed parts /\ Forall2 says_int parts zs.
(* as Python writes a tuple: "(1,)" or "(1, 2)" *)
Definition tuple_text (zs : list Z) : list ascii :=
  match zs with
  | [z] => L"(" ++ z_to_str z ++ L",)"
  | _ => L"(" ++ listed (map z_to_str zs) ++ L")"
  end.

(* the digits of a text *)
Definition digits (t : list ascii) (ds : list Z) : Prop := Forall2 (fun c d => 0 <= d <= 9 /\ c = digit_char d) t ds.
(* a sign, or none *)
Definition signed (sign : list ascii) (minus : bool) : Prop :=
  if minus then sign = L"-" else sign = [] \/ sign = L"+".
(* "3/4" *)
Definition says_ratio (t : list ascii) (q : Q) : Prop :=
  exists a b ad bd, t = a ++ L"/" ++ b /\ digits a ad /\ digits b bd /\ ad <> [] /\ bd <> [] /\
    decimal_value bd <> 0 /\ (q * inject_Z (decimal_value bd) == inject_Z (decimal_value ad))%Q.
(* "", or "." and digits *)
Definition says_places (t : list ascii) (ds : list Z) : Prop :=
  t = [] /\ ds = [] \/ exists t', t = L"." ++ t' /\ digits t' ds.
(* "", or "e" or "E" with a number *)
Definition says_power (t : list ascii) (e : Z) : Prop :=
  t = [] /\ e = 0 \/
  exists letter sign minus t' ds, t = letter ++ sign ++ t' /\ (letter = L"e" \/ letter = L"E") /\ signed sign minus /\
    digits t' ds /\ ds <> [] /\ e = if minus then - decimal_value ds else decimal_value ds.
(* "12", "0.75", ".5e-2" *)
Definition says_decimal (t : list ascii) (q : Q) : Prop :=
  exists a p x ad pd e, t = a ++ p ++ x /\ digits a ad /\ says_places p pd /\ says_power x e /\ (ad <> [] \/ pd <> []) /\
    (q == (inject_Z (decimal_value ad) + inject_Z (decimal_value pd) / Qpower 10 (zlen pd)) * Qpower 10 e)%Q.
(* blanks around a number that may have a sign *)
Definition says_fraction (s : list ascii) (q : Q) : Prop :=
  exists w1 sign minus t w2 m, s = w1 ++ sign ++ t ++ w2 /\ Forall blank w1 /\ Forall blank w2 /\ signed sign minus /\
    (says_ratio t m \/ says_decimal t m) /\ (q == if minus then - m else m)%Q.
(* as Python writes a fraction: "3/4", or "3" if it is a whole number *)
Definition fraction_text (q : Q) : list ascii :=
  if (Qden (Qred q) =? 1)%positive then z_to_str (Qnum (Qred q))
  else z_to_str (Qnum (Qred q)) ++ L"/" ++ z_to_str (Z.pos (Qden (Qred q))).
