(* Texts of marks in a score, and notes at score positions. *)
From Coq Require Import QArith String Ascii.
From Verif Require Export Model_Forces Spec_Music Spec_Piece.
From Coq Require Import List.
Import ListNotations.
Close Scope Q_scope.
Open Scope Z_scope.

(* accidentals: up to two, of one kind *)
Inductive accidental := DoubleFlat | Flat | Natural | Sharp | DoubleSharp.
Definition acc_text (a : accidental) : pystr :=
  match a with DoubleFlat => L"bb" | Flat => L"b" | Natural => [] | Sharp => L"#" | DoubleSharp => L"##" end.
Definition acc_fifths (a : accidental) : Z :=
  match a with DoubleFlat => -14 | Flat => -7 | Natural => 0 | Sharp => 7 | DoubleSharp => 14 end.
Definition digit (i : Z) : ascii := ascii_of_nat (48 + Z.to_nat i).

(* what a user writes *)
Inductive mark :=
| ChordChange | NoChordChange | KeyChange | NoKeyChange
| AChord (letter : ascii) (a : accidental) (t : chord_type) (inv : Z)
| AKey (letter : ascii) (a : accidental).
Definition chord_text (letter : ascii) (a : accidental) (t : chord_type) : pystr :=
  L"C=" ++ [letter] ++ acc_text a ++ get_chord_string t.
Definition mark_text (m : mark) : pystr :=
  match m with
  | ChordChange => L"!C" | NoChordChange => L"=C" | KeyChange => L"!K" | NoKeyChange => L"=K"
  | AChord c a t inv => chord_text c a t ++ L"_" ++ [digit inv]
  | AKey c a => L"K=" ++ [c] ++ acc_text a
  end.
(* the types whose text is not the beginning of another one: triads and the half-diminished seventh *)
Definition readable (t : chord_type) : bool :=
  match t with Maj | Min | Dim | Aug | Half_Dim7 => true | _ => false end.
Definition good_mark (m : mark) : Prop :=
  match m with
  | AChord c _ t inv => letter_fifths c <> None /\ readable t = true /\ 0 <= inv < positions t
  | AKey c _ => letter_fifths c <> None
  | _ => True
  end.
(* the pitch written *)
Definition pitch_written (c : ascii) (a : accidental) (p : Z) : Prop :=
  exists v, letter_fifths c = Some v /\ p = 15 + v + acc_fifths a.
(* the id is that of the chord or key written *)
Definition id_of_mark (m : mark) (i : Z) : Prop :=
  match m with
  | AChord c a t inv => exists p, pitch_written c a p
      /\ get_chord_from_one_hot_index i TPC true false false NO_REDUCTION = Ok (p, t, inv)
  | AKey c a => exists p, pitch_written c a p
      /\ get_key_from_one_hot_index i TPC false = Ok (p, if char_is_lower c then MINOR else MAJOR)
  | _ => False
  end.
Definition is_chord (m : mark) : bool := match m with AChord _ _ _ _ => true | _ => false end.
Definition is_key (m : mark) : bool := match m with AKey _ _ => true | _ => false end.
Definition is_chord_change (m : mark) : bool := match m with ChordChange => true | _ => false end.
Definition is_no_chord_change (m : mark) : bool := match m with NoChordChange => true | _ => false end.
Definition is_key_change (m : mark) : bool := match m with KeyChange => true | _ => false end.
Definition is_no_key_change (m : mark) : bool := match m with NoKeyChange => true | _ => false end.
(* positions of the marks of one kind *)
Definition at_marks (k : mark -> bool) (ms : list (pos * mark)) : list pos := map fst (filter (fun m => k (snd m)) ms).
(* labels given for the marks of one kind, in order *)
Definition labels_of (k : mark -> bool) (ms : list (pos * mark)) (l : list (pos * Z)) : Prop :=
  Forall2 (fun m x => fst x = fst m /\ id_of_mark (snd m) (snd x)) (filter (fun m => k (snd m)) ms) l.
Definition written (ms : list (pos * mark)) : list (pos * pystr) := map (fun m => (fst m, mark_text (snd m))) ms.

(* ---- positions ---- *)
Definition never_back (onsets : list pos) : Prop :=
  forall i j a b, (i <= j)%nat -> nth_error onsets i = Some a -> nth_error onsets j = Some b -> ~ before b a.
(* i is the first note at p *)
Definition first_at (onsets : list pos) (p : pos) (i : nat) : Prop :=
  (exists a, nth_error onsets i = Some a /\ same_pos a p)
  /\ forall j a, (j < i)%nat -> nth_error onsets j = Some a -> ~ same_pos a p.
