(* What the accuracies of a verbose run are meant to count.  Stated with the annotations of the piece and the
   outputs of the networks. *)
From Coq Require Export QArith List Permutation. Export ListNotations.
From Verif Require Export PyBase Model_Piece Model_Debug.
Close Scope Q_scope.
Open Scope Z_scope.

Definition count {A} (P : A -> bool) (l : list A) : Z := Z.of_nat (List.length (filter P l)).
(* an input at which a chord can change: not the first, and time has passed since the one before *)
Definition can_change (durs : list Z) (i : nat) : bool :=
  match i with
  | O => false
  | S k => match nth_error durs k with Some d => negb (d =? 0) | None => false end
  end.
(* the inputs, each with the probability of a change *)
Definition moments (probs : list Q) : list (nat * Q) := combine (seq 0 (List.length probs)) probs.
(* the inputs where the annotation changes, and where it does not *)
Definition change_at (durs changes : list Z) (x : nat * Q) : bool := can_change durs (fst x) && existsb (Z.eqb (Z.of_nat (fst x))) changes.
Definition no_change_at (durs changes : list Z) (x : nat * Q) : bool := can_change durs (fst x) && negb (existsb (Z.eqb (Z.of_nat (fst x))) changes).

(* changes from 0 on, one after the other *)
Fixpoint increasing (l : list Z) : Prop :=
  match l with x :: (y :: _) as r => x < y /\ increasing r | _ => True end.
Definition from_start (changes : list Z) : Prop := increasing changes /\ nth_error changes 0 = Some 0.
(* the range is that of the k-th chord and ends where the next chord begins *)
Definition own_range (changes : list Z) (range : Z * Z) (k : nat) : Prop :=
  nth_error changes k = Some (fst range) /\ nth_error changes (S k) = Some (snd range).
(* the entry that is in force just before an index *)
Definition before (changes values : list Z) (i : Z) (v : Z) : Prop :=
  exists k c, nth_error changes k = Some c /\ c < i /\ (forall c', nth_error changes (S k) = Some c' -> i <= c') /\ nth_error values k = Some v.
(* the chord of the annotation whose range this is; the last chord has no end in the annotation *)
Fixpoint own_chord {A} (changes : list Z) (chords : list A) (range : Z * Z) : option A :=
  match changes, chords with
  | a :: (b :: _) as r, c :: cs => if (a =? fst range) && (b =? snd range) then Some c else own_chord r cs range
  | _, _ => None
  end.
(* the classifier's best class for the range is the annotated chord *)
Definition best_is {A} (encode : A -> res Z) (argsort : list Q -> list Z) (probs : list Q) (c : A) : bool :=
  match encode c, argsort probs with Ok k, b :: _ => b =? k | _, _ => false end.
(* what the networks give for a range: an order of all the classes, each chord of the piece being one of them *)
Definition scored {A} (encode : A -> res Z) (argsort : list Q -> list Z) (chords : list A) (x : (Z * Z) * list Q) : Prop :=
  0 <= fst (fst x) <= snd (fst x) /\ Permutation (argsort (snd x)) (zrange 0 (zlen (snd x)))
  /\ forall c, In c chords -> exists k, encode c = Ok k /\ 0 <= k < zlen (snd x).
(* annotations as the piece gives them *)
Definition proper (an : annotation) : Prop :=
  from_start (an_key_changes an) /\ List.length (an_keys an) = List.length (an_key_changes an)
  /\ from_start (an_chord_changes an) /\ List.length (an_chords an) = List.length (an_chord_changes an).

(* the number of classes before this one in the order *)
Fixpoint place (order : list Z) (x : Z) : nat :=
  match order with [] => O | y :: r => if y =? x then O else S (place r x) end.
(* the first n classes with their ranks and probabilities; the right one is starred *)
Definition shown (order : list Z) (probs : list Q) (right_one : Z) (n : nat) : list message :=
  map (fun x => TopChord (snd x =? right_one) (Z.of_nat (fst x)) (snd x) (nth (Z.to_nat (snd x)) probs 0%Q)) (combine (seq 0 n) (firstn n order)).
(* the classes down to the right one, at most mx *)
Definition down_to (mx : Z) (order : list Z) (probs : list Q) (right_one : Z) : list message :=
  shown order probs right_one (Nat.min (Z.to_nat mx) (S (place order right_one))).
