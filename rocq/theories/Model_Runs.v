(* The evaluation script: forced labels from a json file (test.py:35-150), their choice for a
   piece (test.py:205-228), and the averaging of a log
   (harmonic_inference/utils/eval_utils.py:941-974).
   Simplifications: characters are those with codes up to 255; int() has no limit on the
   number of digits; the messages logged while reading are left out; float() of a text is a
   function given from outside with rational values (no infinities, no NaN), and means are
   rationals. *)
From Coq Require Import QArith String Ascii.
From Verif Require Export Model_Prior.
From Coq Require Import List.
Import ListNotations.
Close Scope Q_scope.
Open Scope Z_scope.

(* ---- texts ------------------------------------------------------------------------- *)
Definition char_code (c : ascii) : Z := Z.of_nat (nat_of_ascii c).
(* str.isspace() on one character *)
Definition is_space (c : ascii) : bool :=
  let n := char_code c in
  ((9 <=? n) && (n <=? 13)) || ((28 <=? n) && (n <=? 32)) || (n =? 133) || (n =? 160).
(* str.lstrip(), str.strip() *)
Fixpoint lstrip (s : pystr) : pystr :=
  match s with
  | [] => []
  | c :: r => if is_space c then lstrip r else s
  end.
(* str.strip() *)
Definition strip (s : pystr) : pystr := rev (lstrip (rev (lstrip s))).

(* int(text): the digits; after_digit says whether the character before was a digit (an
   underscore must stand between two digits) *)
Fixpoint int_digits (s : pystr) (acc : Z) (after_digit : bool) : res Z :=
  match s with
  | [] => if after_digit then Ok acc else Raise ValueError
  | c :: r =>
      if char_is_digit c then int_digits r (10 * acc + (char_code c - 48)) true
      else if Ascii.eqb c "_" && after_digit then int_digits r acc false
      else Raise ValueError
  end.
(* int(text) *)
Definition py_int (s : pystr) : res Z :=
  match strip s with
  | c :: r =>
      if Ascii.eqb c "-" then let! n := int_digits r 0 false in Ok (- n)
      else if Ascii.eqb c "+" then int_digits r 0 false
      else int_digits (c :: r) 0 false
  | [] => Raise ValueError
  end.

(* ---- forced labels ----------------------------------------------------------------- *)
(* a value of the dictionary of keyword arguments: a set (its elements, each once, in the
   order of their first occurrence), or a dictionary from tuples *)
Inductive force := FSet (l : list json) | FDict (d : list (list Z * json)).

(* iter(value) for the value of a json field *)
Definition json_iter (j : json) : res (list json) :=
  match j with
  | JList l => Ok l
  | JStr s => Ok (map (fun c => JStr [c]) s)
  | JDict d => Ok (map (fun kv => JStr (fst kv)) d)
  | JNull | JBool _ | JNum _ => Raise TypeError
  end.
(* x == y for elements of a set: True == 1 and False == 0 *)
Definition elem_eqb (x y : json) : bool :=
  match x, y with
  | JNull, JNull => true
  | JStr a, JStr b => str_eqb a b
  | JNum p, JNum q => Qeq_bool p q
  | JBool a, JBool b => Bool.eqb a b
  | JBool a, JNum q | JNum q, JBool a => Qeq_bool q (if a then 1 else 0)%Q
  | _, _ => false
  end.
(* s.add(x): lists and dictionaries are not hashable *)
Definition set_add (s : list json) (x : json) : res (list json) :=
  match x with
  | JList _ | JDict _ => Raise TypeError
  | _ => Ok (if existsb (elem_eqb x) s then s else s ++ [x])
  end.
(* set(value) *)
Definition py_set (j : json) : res (list json) :=
  let! l := json_iter j in foldM set_add l [].

(* == on tuples of numbers *)
Fixpoint tuple_eqb (a b : list Z) : bool :=
  match a, b with
  | [], [] => true
  | x :: a', y :: b' => (x =? y) && tuple_eqb a' b'
  | _, _ => false
  end.
(* d[k] = v *)
Fixpoint put_range (d : list (list Z * json)) (k : list Z) (v : json) : list (list Z * json) :=
  match d with
  | [] => [(k, v)]
  | (k', v') :: r => if tuple_eqb k' k then (k', v) :: r else (k', v') :: put_range r k v
  end.
(* test.py:95: tuple(map(int, s[1:-1].split(","))) *)
Definition parse_range (s : pystr) : res (list Z) := mapM py_int (split_on "," (py_slice s 1 (-1))).
(* test.py:94-97 *)
Definition range_item (d : list (list Z * json)) (kv : pystr * json) : res (list (list Z * json)) :=
  let! r := parse_range (fst kv) in Ok (put_range d r (snd kv)).
(* test.py:94-97, all entries *)
Definition load_ranges (j : json) : res (list (list Z * json)) :=
  match j with
  | JDict fields => foldM range_item fields []
  | _ => Raise AttributeError
  end.

(* test.py:82-90: the names of the sets *)
Definition SET_NAMES : list pystr :=
  [L"forced_chord_changes"; L"forced_chord_non_changes"; L"forced_key_changes"; L"forced_key_non_changes"].
(* test.py:91-97: the names of the dictionaries *)
Definition DICT_NAMES : list pystr := [L"forced_chords"; L"forced_keys"].

(* test.py:82-97 for an object *)
Definition set_field (raw : list (pystr * json)) (d : list (pystr * force)) (n : pystr)
  : res (list (pystr * force)) :=
  match str_lookup n raw with
  | Some j => let! l := py_set j in Ok (d ++ [(n, FSet l)])
  | None => Ok d
  end.
(* test.py:91-97, one name *)
Definition dict_field (raw : list (pystr * json)) (d : list (pystr * force)) (n : pystr)
  : res (list (pystr * force)) :=
  match str_lookup n raw with
  | Some j => let! l := load_ranges j in Ok (d ++ [(n, FDict l)])
  | None => Ok d
  end.
(* the names of the json value that are asked for with "in": keys of an object, elements of a
   list, parts of a text; other values are a TypeError *)
Definition json_has (j : json) (n : pystr) : res bool :=
  match j with
  | JDict d => Ok (match str_lookup n d with Some _ => true | None => false end)
  | JList l => Ok (existsb (elem_eqb (JStr n)) l)
  | JStr s => Ok (substring_of n s)
  | JNull | JBool _ | JNum _ => Raise TypeError
  end.
(* any of the six names, as in test.py:128-135 *)
Fixpoint has_any (j : json) (names : list pystr) : res bool :=
  match names with
  | [] => Ok false
  | n :: r => let! b := json_has j n in if b then Ok true else has_any j r
  end.
(* test.py:67-121 load_forces_from_nested_json; j["name"] of a list or text is a TypeError *)
Definition load_nested (j : json) : res (list (pystr * force)) :=
  match j with
  | JDict raw =>
      let! d := foldM (set_field raw) SET_NAMES [] in
      foldM (dict_field raw) DICT_NAMES d
  | _ =>
      let! b := has_any j (SET_NAMES ++ DICT_NAMES) in
      if b then Raise TypeError else Ok []
  end.
(* test.py:35-150 load_forces_from_json; the argument is what json.load returns *)
Definition load_forces (j : json) : res (list (pystr * list (pystr * force))) :=
  let! b := has_any j (SET_NAMES ++ DICT_NAMES) in
  let j := if b then JDict [(L"default", j)] else j in
  match j with
  | JDict d => mapM (fun kv : pystr * json => let! f := load_nested (snd kv) in Ok (fst kv, f)) d
  | _ => Raise AttributeError
  end.

(* test.py:215-226; order is the order in which the set of the keys without "default" is
   gone through (it depends on the hashes of the texts) *)
Definition choose_forces (order : list pystr) (all : list (pystr * list (pystr * force)))
  (name : option pystr) : res (list (pystr * force)) :=
  let default := Ok (match str_lookup (L"default") all with Some f => f | None => [] end) in
  match name with
  | None => default
  | Some nm =>
      match find (fun key => substring_of key nm) order with
      | Some key => dict_get all key
      | None => default
      end
  end.

(* ---- averaging --------------------------------------------------------------------- *)
(* s.split(sep): skip counts the characters of a separator still to be passed *)
Fixpoint split_go (sep s : pystr) (skip : nat) (cur : pystr) : list pystr :=
  match s with
  | [] => [rev cur]
  | c :: r =>
      match skip with
      | S k => split_go sep r k cur
      | O => if starts_with sep s then rev cur :: split_go sep r (List.length sep - 1) []
             else split_go sep r 0 (c :: cur)
      end
  end.
(* s.split(sep); an empty separator is a ValueError *)
Definition str_split (sep s : pystr) : res (list pystr) :=
  match sep with [] => Raise ValueError | _ => Ok (split_go sep s 0 []) end.

(* averages[key].append(value) on a defaultdict(list) *)
Fixpoint append_to (d : list (pystr * list Q)) (k : pystr) (v : Q) : list (pystr * list Q) :=
  match d with
  | [] => [(k, [v])]
  | (k', l) :: r => if str_eqb k' k then (k', l ++ [v]) :: r else (k', l) :: append_to r k v
  end.

Section Average.
(* float(text); None: ValueError *)
Variable float_of : pystr -> option Q.

(* eval_utils.py:959-972, one line *)
Definition average_line (sep : pystr) (d : list (pystr * list Q)) (line : pystr)
  : res (list (pystr * list Q)) :=
  if negb (substring_of sep line) then Ok d else
  let! parts := str_split sep line in
  match parts with
  | [k; v] =>
      let key := strip k in
      if substring_of (L"accuracy") key then
        match float_of v with
        | Some q => Ok (append_to d key q)
        | None => Raise ValueError
        end
      else Ok d
  | _ => Ok d
  end.
(* np.mean; the lists are not empty *)
Definition np_mean (l : list Q) : Q := Qdiv (np_sum l) (inject_Z (zlen l)).
(* eval_utils.py:941-974 average_results; the lines of the file with their ends *)
Definition average_results (lines : list pystr) (sep : pystr) : res (list (pystr * Q)) :=
  let! d := foldM (average_line sep) lines [] in
  Ok (map (fun kl => (fst kl, np_mean (snd kl))) d).
End Average.
