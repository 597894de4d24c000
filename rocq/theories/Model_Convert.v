(* The texts in the cells of a corpus: the converters of
   harmonic_inference/data/corpus_constants.py:12-73.
   Simplifications: characters are those with codes up to 255; int() has no limit on the number
   of digits.  pd.NA is None.  Fraction is that of Python 3.8 to 3.10: later versions also read
   underscores between digits and blanks around the slash.  Fractions are rationals, equal
   if == . *)
From Coq Require Import QArith String Ascii.
From Verif Require Export Model_Runs.
From Coq Require Import List.
Import ListNotations.
Close Scope Q_scope.
Open Scope Z_scope.

(* corpus_constants.py:28-31 str2inttuple *)
Definition str2inttuple (s : pystr) : list Z :=
  match (if str_eqb s [] then Ok [] else let! parts := str_split (L", ") s in mapM py_int parts) with
  | Ok l => l
  | Raise _ => []
  end.
(* corpus_constants.py:50-53 int2bool *)
Definition int2bool (s : pystr) : option bool :=
  match py_int s with
  | Ok z => Some (negb (z =? 0))
  | Raise _ => None
  end.

(* \d* at the beginning of a text, and the rest *)
Fixpoint take_digits (s : pystr) : pystr * pystr :=
  match s with
  | [] => ([], [])
  | c :: r => if char_is_digit c then let (d, t) := take_digits r in (c :: d, t) else ([], s)
  end.
(* [-+]? at the beginning of a text: whether there is a minus, and the rest *)
Definition take_sign (s : pystr) : bool * pystr :=
  match s with
  | [] => (false, [])
  | c :: r => if Ascii.eqb c "-" then (true, r) else if Ascii.eqb c "+" then (false, r) else (false, s)
  end.
(* (?=\d|\.\d) *)
Definition number_ahead (s : pystr) : bool :=
  match s with
  | c :: r => char_is_digit c || (Ascii.eqb c "." && match r with c' :: _ => char_is_digit c' | [] => false end)
  | [] => false
  end.
(* \s*\Z *)
Definition only_space (s : pystr) : bool := forallb is_space s.
(* an optional point with digits, (?P<decimal>\d* ) in the pattern *)
Definition take_decimal (s : pystr) : pystr * pystr :=
  match s with
  | c :: r => if Ascii.eqb c "." then take_digits r else ([], s)
  | [] => ([], [])
  end.
(* an optional exponent E[-+]?\d+ and int(exp); no digits after the letter: the group is left out and
   the text does not match, as the letter is still there *)
Definition take_exponent (s : pystr) : res (Z * pystr) :=
  match s with
  | c :: r =>
      if Ascii.eqb c "E" || Ascii.eqb c "e" then
        let (minus, r) := take_sign r in
        let (ds, t) := take_digits r in
        let! e := py_int ds in
        Ok (if minus then - e else e, t)
      else Ok (0, s)
  | [] => Ok (0, [])
  end.
(* int(num or "0") and the same for the digits after the point: an empty text is 0 *)
Definition int_or_0 (s : pystr) : res Z :=
  match s with [] => Ok 0 | _ => py_int s end.
(* numerator and denominator of the number at the beginning, after its sign *)
Definition read_ratio (s : pystr) : res (Z * Z) :=
  let (num, r) := take_digits s in
  let! n := int_or_0 num in
  let ratio := match r with
               | c :: r' => if Ascii.eqb c "/" then Some r' else None
               | [] => None
               end in
  match ratio with
  | Some r' =>
      let (den, t) := take_digits r' in
      let! d := py_int den in
      if only_space t then Ok (n, d) else Raise ValueError
  | None =>
      let (dec, r) := take_decimal r in
      let! f := int_or_0 dec in
      let! et := take_exponent r in
      let (e, t) := (et : Z * pystr) in
      if only_space t then
        let scale := 10 ^ zlen dec in
        let n := n * scale + f in
        if 0 <=? e then Ok (n * 10 ^ e, scale) else Ok (n, scale * 10 ^ (- e))
      else Raise ValueError
  end.
(* Fraction(text): the pattern _RATIONAL_FORMAT and Fraction.__new__ of Python's library *)
Definition py_fraction (s : pystr) : res Q :=
  let (minus, s) := take_sign (lstrip s) in
  if negb (number_ahead s) then Raise ValueError else
  let! nd := read_ratio s in
  let (n, d) := (nd : Z * Z) in
  if d =? 0 then Raise ZeroDivisionError
  else Ok (Qmake (if minus then - n else n) (Z.to_pos d)).
(* corpus_constants.py:70-73 str2frac *)
Definition str2frac (s : pystr) : option Q :=
  match py_fraction s with
  | Ok q => Some q
  | Raise _ => None
  end.
