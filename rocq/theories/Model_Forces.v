(* Forced labels written into a score: harmonic_inference/utils/forces.py.
   Reading the score (ms3) is not modelled: a row is a position and the text of a label or of a
   lyric (rows without text are dropped, 113-117). *)
From Coq Require Import QArith String Ascii.
From Verif Require Export Model_Strings Model_Rhythm Model_Piece.
From Coq Require Import List.
Import ListNotations.
Close Scope Q_scope.
Open Scope Z_scope.

(* ---- regular expressions without repetition, as read by re: alternatives are tried from left to
   right, the first success counts ---- *)
Inductive regex :=
| RChar (f : ascii -> bool) | REps | RSeq (a b : regex) | RAlt (a b : regex) | RGroup (n : nat) (a : regex).
Notation caps := (list (nat * pystr)).
(* the ways to match at the beginning of s, in the order in which re tries them: the text matched,
   the groups, and the rest of s *)
Fixpoint matches (r : regex) (s : pystr) (c : caps) : list (pystr * caps * pystr) :=
  match r with
  | RChar f => match s with x :: t => if f x then [([x], c, t)] else [] | [] => [] end
  | REps => [([], c, s)]
  | RSeq a b => flat_map (fun m => let '(t, c', s') := m in
                  map (fun m' => let '(t', c'', s'') := m' in (t ++ t', c'', s'')) (matches b s' c')) (matches a s c)
  | RAlt a b => matches a s c ++ matches b s c
  | RGroup n a => map (fun m => let '(t, c', s') := m in (t, (n, t) :: c', s')) (matches a s c)
  end.
(* re.search: the leftmost match *)
Fixpoint search (r : regex) (s : pystr) : option caps :=
  match matches r s [] with
  | (_, c, _) :: _ => Some c
  | [] => match s with [] => None | _ :: t => search r t end
  end.
(* str.contains: there is a match *)
Definition contains (r : regex) (s : pystr) : bool := match search r s with Some _ => true | None => false end.
(* a pattern beginning with ^ *)
Definition contains_at_start (r : regex) (s : pystr) : bool := match matches r s [] with _ :: _ => true | [] => false end.
(* the text of a group of a match *)
Fixpoint group (n : nat) (c : caps) : option pystr :=
  match c with [] => None | (m, s) :: r => if (m =? n)%nat then Some s else group n r end.

(* a text matched literally *)
Definition RLit (s : pystr) : regex := fold_right (fun x r => RSeq (RChar (Ascii.eqb x)) r) REps s.
(* r{0,2}, greedy *)
Definition RUpto2 (r : regex) : regex := RAlt (RSeq r (RAlt r REps)) REps.
(* "|".join(texts) *)
Definition RAny (l : list pystr) : regex :=
  match map RLit l with [] => RChar (fun _ => false) | r :: rs => fold_left RAlt rs r end.

(* lines 19-22; NO_CHORD_CHANGE_REGEX is anchored *)
Definition NO_CHORD_CHANGE_REGEX := RLit (L"=C").
(* line 20 *)
Definition NO_KEY_CHANGE_REGEX := RLit (L"=K").
(* line 21 *)
Definition CHORD_CHANGE_REGEX := RLit (L"!C").
(* line 22 *)
Definition KEY_CHANGE_REGEX := RLit (L"!K").
(* line 24; the group in it is number g *)
Definition in_range (a b : ascii) (x : ascii) : bool :=
  (nat_of_ascii a <=? nat_of_ascii x)%nat && (nat_of_ascii x <=? nat_of_ascii b)%nat.
(* line 24 *)
Definition PITCH_REGEX (g : nat) : regex :=
  RSeq (RChar (fun x => in_range "A" "G" x || in_range "a" "g" x))
       (RGroup g (RAlt (RUpto2 (RChar (Ascii.eqb "#"))) (RUpto2 (RChar (Ascii.eqb "b"))))).
(* lines 26-30; groups counted from 0, as columns of str.extract.  The types are the values of
   CHORD_TYPE_TO_STRING in order. *)
Definition CHORD_TYPES : list chord_type :=
  [Maj; Min; Dim; Aug; Maj_Maj7; Maj_Min7; Min_Maj7; Min_Min7; Dim7; Half_Dim7; Aug_Min7; Aug_Maj7].
(* lines 26-30 *)
Definition CHORD_REGEX : regex :=
  RSeq (RLit (L"C=")) (RSeq (RGroup 0 (PITCH_REGEX 1)) (RSeq
    (RGroup 2 (RAny (map get_chord_string CHORD_TYPES)))
    (RAlt (RGroup 3 (RSeq (RChar (Ascii.eqb "_")) (RChar (in_range "0" "3")))) REps))).
(* line 31 *)
Definition KEY_REGEX : regex := RSeq (RLit (L"K=")) (PITCH_REGEX 0).

(* ---- lines 166-180: the chord of a label with this match.  A group that did not take part is
   NaN, and len of it is a TypeError. ---- *)
Definition chord_of (c : caps) : res Z :=
  let! t := match group 2 c with Some s => dict_get STRING_TO_CHORD_TYPE s | None => Raise KeyError end in
  let! p := match group 0 c with Some s => get_pitch_from_string s TPC | None => Raise TypeError end in
  let! inv := match group 3 c with
              | None => Raise TypeError
              | Some [] => Ok 0
              | Some s => Ok (Z.of_nat (nat_of_ascii (last s "0"%char)) - 48)
              end in
  get_chord_one_hot_index t p TPC inv true false false NO_REDUCTION.
(* str.isupper() of a letter; label[2] is an IndexError on a short label *)
Definition key_of (label : pystr) : res Z :=
  match nth_error label 2 with
  | None => Raise IndexError
  | Some x => let! p := get_pitch_from_string (skipn 2 label) TPC in
              get_key_one_hot_index (if in_range "A" "Z" x then MAJOR else MINOR) p TPC
  end.

(* ---- lines 111-208: the rows of the labels followed by those of the lyrics ---- *)
Definition row := (pos * pystr)%type.
(* the positions of the rows whose label matches, forces.py:111-150 *)
Definition marked (p : pystr -> bool) (rows : list row) : list pos := map fst (filter (fun r => p (snd r)) rows).
(* forces.py:71-208 after the score is read *)
Definition extract_forces (labels lyrics : list row)
  : res (list pos * list pos * list pos * list pos * list (pos * Z) * list (pos * Z)) :=
  let rows := labels ++ lyrics in
  let! chords := mapM (fun r => match search CHORD_REGEX (snd r) with
                                | Some c => let! x := chord_of c in Ok (fst r, x)
                                | None => Raise TypeError end)
                      (filter (fun r => contains CHORD_REGEX (snd r)) rows) in
  let! keys := mapM (fun r => let! x := key_of (snd r) in Ok (fst r, x))
                    (filter (fun r => contains KEY_REGEX (snd r)) rows) in
  Ok (marked (contains CHORD_CHANGE_REGEX) rows, marked (contains_at_start NO_CHORD_CHANGE_REGEX) rows,
      marked (contains KEY_CHANGE_REGEX) rows, marked (contains NO_KEY_CHANGE_REGEX) rows, chords, keys).

(* ---- lines 34-68 convert_score_positions_to_note_indexes: onsets are those of the notes; a force
   is a position and, for labels, an id ---- *)
Definition convert_score_positions (onsets : list pos) (forces : list (pos * option Z)) : res (list (nat * option Z)) :=
  mapM (fun f => let! i := bisect_left pos_lt onsets (fst f) 0 in
                 match nth_error onsets i with
                 | None => Raise IndexError
                 | Some x => if pos_eqb x (fst f) then Ok (i, snd f) else Raise ValueError
                 end) forces.
