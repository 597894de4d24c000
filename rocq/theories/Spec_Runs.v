(* Vocabulary for the statements about the evaluation script: forced labels from a json file
   and the averages of a log. *)
From Coq Require Import QArith String Ascii.
From Verif Require Import Model_Prior Spec_Prior.
From Coq Require Import List.
Import ListNotations.
Close Scope Q_scope.
Open Scope Z_scope.

(* ---- numbers in texts -------------------------------------------------------------- *)
Definition blank (c : ascii) : Prop :=
  In (Z.of_nat (nat_of_ascii c)) [9; 10; 11; 12; 13; 28; 29; 30; 31; 32; 133; 160].
Definition digit_char (d : Z) : ascii := ascii_of_nat (48 + Z.to_nat d).
(* digits, possibly with single underscores between them *)
Inductive numeral : list ascii -> list Z -> Prop :=
| Num_one d : 0 <= d <= 9 -> numeral [digit_char d] [d]
| Num_more d s ds : 0 <= d <= 9 -> numeral s ds -> numeral (digit_char d :: s) (d :: ds)
| Num_under d s ds : 0 <= d <= 9 -> numeral s ds -> numeral (digit_char d :: "_"%char :: s) (d :: ds).
Definition decimal_value (ds : list Z) : Z := fold_left (fun a d => 10 * a + d) ds 0.
(* blanks around a numeral that may have a sign *)
Definition says_int (s : list ascii) (z : Z) : Prop :=
  exists w1 sign t ds w2, s = w1 ++ sign ++ t ++ w2 /\ Forall blank w1 /\ Forall blank w2 /\
    numeral t ds /\
    ((sign = [] \/ sign = L"+") /\ z = decimal_value ds \/ sign = L"-" /\ z = - decimal_value ds).
Fixpoint with_commas (parts : list (list ascii)) : list ascii :=
  match parts with
  | [] => []
  | [p] => p
  | p :: r => p ++ L"," ++ with_commas r
  end.
(* numbers between two more characters, whatever these are *)
Definition denotes (s : list ascii) (r : list Z) : Prop :=
  r <> [] /\ exists first last parts, s = first :: with_commas parts ++ [last] /\ Forall2 says_int parts r.
(* "(a, b)" *)
Definition range_text (a b : Z) : list ascii := L"(" ++ z_to_str a ++ L", " ++ z_to_str b ++ L")".

(* ---- fields of the file ------------------------------------------------------------ *)
Definition change_names : list (list ascii) :=
  [L"forced_chord_changes"; L"forced_chord_non_changes"; L"forced_key_changes"; L"forced_key_non_changes"].
Definition label_names : list (list ascii) := [L"forced_chords"; L"forced_keys"].
Definition field (raw : list (list ascii * json)) (n : list ascii) (j : json) : Prop :=
  exists a b, raw = a ++ (n, j) :: b /\ forall j', ~ In (n, j') a.

(* elements of a set: truth values count as 1 and 0 *)
Definition number_of (j : json) : option Q :=
  match j with JNum q => Some q | JBool true => Some 1%Q | JBool false => Some 0%Q | _ => None end.
Definition same_elem (x y : json) : Prop :=
  x = y \/ exists p q, number_of x = Some p /\ number_of y = Some q /\ (p == q)%Q.
Definition hashable (j : json) : Prop :=
  match j with JList _ | JDict _ => False | _ => True end.
Definition elements (j : json) (l : list json) : Prop :=
  match j with
  | JList l' => l = l'
  | JStr s => l = map (fun c => JStr [c]) s
  | JDict d => l = map (fun kv => JStr (fst kv)) d
  | _ => False
  end.
(* l has the elements of the value, each once *)
Definition is_set_of (els l : list json) : Prop :=
  (forall x, In x els -> exists y, In y l /\ same_elem x y) /\
  (forall y, In y l -> In y els) /\
  (forall i j x y, nth_error l i = Some x -> nth_error l j = Some y -> same_elem x y -> i = j).

(* the label given to the range r: that of the last field whose name denotes r *)
Definition labelled (fields : list (list ascii * json)) (r : list Z) (v : json) : Prop :=
  exists a t b, fields = a ++ (t, v) :: b /\ denotes t r /\ forall t' v', In (t', v') b -> ~ denotes t' r.
Definition entry {V} (d : list (list Z * V)) (r : list Z) (v : V) : Prop := In (r, v) d.
Definition int_list (zs : list Z) : json := JList (map (fun z => JNum (inject_Z z)) zs).
Definition label_object (ls : list (Z * Z * json)) : json :=
  JDict (map (fun x => let '(a, b, v) := x in (range_text a b, v)) ls).

(* ---- lines of a log ---------------------------------------------------------------- *)
Definition trimmed (s t : list ascii) : Prop :=
  exists w1 w2, s = w1 ++ t ++ w2 /\ Forall blank w1 /\ Forall blank w2 /\
    (forall c r, t = c :: r -> ~ blank c) /\ (forall r c, t = r ++ [c] -> ~ blank c).
(* the line is "key sep value" with one sep, and the key is about an accuracy *)
Definition line_says (sep line key value : list ascii) : Prop :=
  exists a, line = a ++ sep ++ value /\
    (forall a' b', line = a' ++ sep ++ b' -> (List.length a <= List.length a')%nat) /\
    ~ contains_text value sep /\ trimmed a key /\ contains_text key (L"accuracy").
(* the values of the lines about the key, in order *)
Inductive readings (float_of : list ascii -> option Q) (sep key : list ascii)
  : list (list ascii) -> list Q -> Prop :=
| Read_none : readings float_of sep key [] []
| Read_it line v q lines qs : line_says sep line key v -> float_of v = Some q ->
    readings float_of sep key lines qs -> readings float_of sep key (line :: lines) (q :: qs)
| Read_other line lines qs : (forall v, ~ line_says sep line key v) ->
    readings float_of sep key lines qs -> readings float_of sep key (line :: lines) qs.
Definition average (qs : list Q) : Q := (sum_of qs / inject_Z (Z.of_nat (List.length qs)))%Q.

(* the accuracies that the script logs for a piece *)
Definition accuracy_names : list (list ascii) :=
  [L"Chord accuracy"; L"Chord accuracy, no inversions"; L"Chord accuracy, triads";
   L"Chord accuracy, triad, no inversions"; L"Chord accuracy, root only"; L"Key accuracy";
   L"Key accuracy, tonic only"; L"Full accuracy"].
Definition newline : ascii := ascii_of_nat 10.
Definition log_line (name text : list ascii) : list ascii :=
  L"INFO:root:" ++ name ++ L" = " ++ text ++ [newline].
