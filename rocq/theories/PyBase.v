(* Shared vocabulary: Python exceptions as values, Python list indexing and slicing,
   ranges.  These model the semantics of the Python language / numpy operations that the
   code in /repo uses; they do not correspond to a file in /repo. *)
From Coq Require Export List Arith ZArith Lia Bool.
From Coq Require Export ZifyBool ZifyNat.
Export ListNotations.
Open Scope Z_scope.

(* Exception classes that the modelled code can raise.  OutOfFuel is not a Python
   exception: it marks a loop that did not finish within the fuel given to the model.
   Unmodelled is not one either: it marks runs that go on with a value the model does not
   represent (a NaN in a column of fractions). *)
Inductive exn :=
| ValueError | IndexError | KeyError | TypeError | AttributeError
| AssertionError | UnboundLocalError | ZeroDivisionError | RuntimeError | OutOfFuel | Unmodelled.

(* a result or an exception *)
Inductive res (A : Type) := Ok (a : A) | Raise (e : exn).
Arguments Ok {A} a.
Arguments Raise {A} e.

(* what follows is done if there was no exception *)
Definition bind {A B} (x : res A) (f : A -> res B) : res B :=
  match x with Ok a => f a | Raise e => Raise e end.
Notation "'let!' x := a 'in' b" := (bind a (fun x => b))
  (at level 200, x pattern, a at level 100, b at level 200, right associativity).

(* no exception *)
Definition is_ok {A} (x : res A) : bool := match x with Ok _ => true | _ => false end.

(* [mapM f l]: a Python loop / comprehension that stops at the first exception. *)
Fixpoint mapM {A B} (f : A -> res B) (l : list A) : res (list B) :=
  match l with
  | [] => Ok []
  | a :: r => let! b := f a in let! bs := mapM f r in Ok (b :: bs)
  end.

(* len(l) *)
Definition zlen {A} (l : list A) : Z := Z.of_nat (length l).

(* l[i] with Python's negative indexing. *)
Definition py_nth {A} (l : list A) (i : Z) : res A :=
  let n := zlen l in
  let j := if i <? 0 then i + n else i in
  if (j <? 0) || (n <=? j) then Raise IndexError
  else match nth_error l (Z.to_nat j) with Some a => Ok a | None => Raise IndexError end.

(* Python's clamping of a slice bound. *)
Definition py_bound (n i : Z) : Z :=
  let j := if i <? 0 then i + n else i in
  Z.max 0 (Z.min n j).

(* l[a:b]. *)
Definition py_slice {A} (l : list A) (a b : Z) : list A :=
  let n := zlen l in
  let s := py_bound n a in
  let e := py_bound n b in
  firstn (Z.to_nat (e - s)) (skipn (Z.to_nat s) l).

(* list(range(lo, hi)). *)
Definition zrange (lo hi : Z) : list Z :=
  map (fun k => lo + Z.of_nat k) (seq 0 (Z.to_nat (hi - lo))).

(* l[i] = v for a list of fixed length (numpy assignment, negative index allowed). *)
Fixpoint upd_nat {A} (l : list A) (i : nat) (v : A) : list A :=
  match l, i with
  | [], _ => []
  | _ :: r, O => v :: r
  | x :: r, S j => x :: upd_nat r j v
  end.
(* l[i] = v; IndexError outside *)
Definition py_upd {A} (l : list A) (i : Z) (v : A) : res (list A) :=
  let n := zlen l in
  let j := if i <? 0 then i + n else i in
  if (j <? 0) || (n <=? j) then Raise IndexError
  else Ok (upd_nat l (Z.to_nat j) v).

(* sum(l) *)
Fixpoint zsum (l : list Z) : Z :=
  match l with [] => 0 | x :: r => x + zsum r end.
