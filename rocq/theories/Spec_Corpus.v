(* Specification vocabulary for the corpus properties. *)
From Coq Require Import QArith Permutation.
From Verif Require Import PyBase Model_Rhythm Model_Corpus.
Close Scope Q_scope.
Open Scope Z_scope.

(* ---- repeats ---- *)
Definition first_of_file (rows : list crow) (i : nat) : Prop :=
  i = 0%nat \/ exists r r', nth_error rows (i - 1) = Some r /\ nth_error rows i = Some r' /\
                            c_file r <> c_file r'.
Definition last_of_file (rows : list crow) (i : nat) : Prop :=
  S i = List.length rows \/ exists r r', nth_error rows i = Some r /\ nth_error rows (S i) = Some r' /\
                                    c_file r <> c_file r'.
(* the corpus starts and ends with different pieces *)
Definition several_files (rows : list crow) : Prop :=
  forall a b, nth_error rows 0 = Some a -> nth_error rows (List.length rows - 1) = Some b ->
  c_file a <> c_file b.
Definition one_file (rows : list crow) : Prop :=
  forall a b, In a rows -> In b rows -> c_file a = c_file b.

(* The measure that follows row i when the last option is taken at every repeat: n is the
   largest option listed.  Nothing follows the last row of a file, nor a row listing -1 or
   nothing. *)
Definition follows (rows : list crow) (i : nat) (n : Z) : Prop :=
  exists r, nth_error rows i = Some r /\ ~ last_of_file rows i /\
    ~ In (-1) (c_nexts r) /\ In n (c_nexts r) /\ (forall x, In x (c_nexts r) -> x <= n).
(* Measures played, starting with the first measure of each file. *)
Inductive played (rows : list crow) : Z -> Z -> Prop :=
| pl_start i r : nth_error rows i = Some r -> first_of_file rows i -> played rows (c_file r) (c_mc r)
| pl_next i r n : nth_error rows i = Some r -> played rows (c_file r) (c_mc r) ->
    follows rows i n -> played rows (c_file r) n.
(* Following never comes back to the same measure. *)
Definition acyclic (rows : list crow) : Prop :=
  exists rank : Z -> Z -> Z, forall i r n, nth_error rows i = Some r -> follows rows i n ->
  rank (c_file r) (c_mc r) < rank (c_file r) n.
(* On the way played, measure numbers increase and are in the table. *)
Definition forward_rows (rows : list crow) : Prop :=
  forall i r n, nth_error rows i = Some r -> played rows (c_file r) (c_mc r) -> follows rows i n -> c_mc r < n.
Definition closed_rows (rows : list crow) : Prop :=
  forall i r n, nth_error rows i = Some r -> played rows (c_file r) (c_mc r) -> follows rows i n ->
  exists r', In r' rows /\ c_file r' = c_file r /\ c_mc r' = n.
Definition unique_rows (rows : list crow) : Prop := NoDup (map (fun r => (c_file r, c_mc r)) rows).

(* ---- ties ---- *)
(* consecutive notes of a chain: same piece, same pitch, the second starts where the first
   ends *)
Definition continues (a b : tnote) : Prop :=
  n_file a = n_file b /\ n_midi a = n_midi b /\ n_off_mc a = n_mc b /\ (n_off_beat a == n_on b)%Q.
Fixpoint linked (a : tnote) (l : list tnote) : Prop :=
  match l with [] => True | b :: r => continues a b /\ linked b r end.
Fixpoint total_dur (l : list tnote) : Q :=
  match l with [] => 0%Q | n :: r => (n_dur n + total_dur r)%Q end.

(* everything but duration, offset and tied is that of the first note *)
Definition same_onset (n f : tnote) : Prop :=
  n_file n = n_file f /\ n_id n = n_id f /\ n_midi n = n_midi f /\ n_mc n = n_mc f /\
  n_on n = n_on f /\ n_staff n = n_staff f /\ n_voice n = n_voice f /\ n_grace n = n_grace f.

(* [n] stands for the chain f :: r of written notes. *)
Definition merged_from (n : tnote) (chain : list tnote) : Prop :=
  exists f r, chain = f :: r /\ same_onset n f /\ linked f r /\
    (n_dur n == total_dur chain)%Q /\
    n_off_mc n = n_off_mc (last r f) /\ n_off_beat n = n_off_beat (last r f).

(* The tied column of a merged note and of the notes it stands for. *)
Definition tie_shape (n : tnote) (chain : list tnote) : Prop :=
  match chain with
  | [] => False
  | f :: r =>
      (* the chain starts with a tie onset: inner notes are tied on both sides, and the
         chain is complete (NA) exactly when it ends with a tie end *)
      (n_tied f = Some 1 /\
        ((n_tied n = Some 1 /\ Forall (fun x => n_tied x = Some 0) r) \/
         (n_tied n = None /\ exists mid e, r = mid ++ [e] /\ n_tied e = Some (-1) /\
            Forall (fun x => n_tied x = Some 0) mid))) \/
      (* the chain starts with a note tied on both sides whose beginning is missing *)
      (n_tied f = Some 0 /\ Forall (fun x => n_tied x = Some 0 \/ n_tied x = Some (-1)) r /\
        let ends := List.length (filter (tied_is (-1)) r) in
        (ends = 0%nat /\ n_tied n = Some 0 \/ ends = 1%nat /\ n_tied n = Some (-1) \/
         ends = 2%nat /\ n_tied n = None))
  end.

(* The note takes time: it ends after it starts. *)
Definition sounds (n : tnote) : Prop :=
  n_mc n < n_off_mc n \/ n_mc n = n_off_mc n /\ (n_on n < n_off_beat n)%Q.

(* the same staff and voice *)
Definition one_voice (a b : tnote) : Prop := n_staff a = n_staff b /\ n_voice a = n_voice b.

(* A complete chain of tied notes of the table: tie onset, notes tied on both sides, tie
   end; each note is the only one that can continue the one before, and continues no
   other. *)
Fixpoint clear_links (tied : list tnote) (a : tnote) (l : list tnote) : Prop :=
  match l with
  | [] => True
  | b :: r => continues a b /\ In b tied /\
      (forall b', In b' tied -> continues a b' -> b' = b) /\
      (forall a', In a' tied -> continues a' b -> a' = a) /\
      clear_links tied b r
  end.
Definition complete_chain (notes : list tnote) (f : tnote) (mid : list tnote) (e : tnote) : Prop :=
  let tied := filter (fun n => negb (n_grace n) && match n_tied n with Some _ => true | None => false end) notes in
  In f tied /\ n_tied f = Some 1 /\ Forall (fun x => n_tied x = Some 0) mid /\ n_tied e = Some (-1) /\
  clear_links tied f (mid ++ [e]).
