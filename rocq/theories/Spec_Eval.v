(* Vocabulary for the properties of the evaluation and of the tables of labels. *)
From Coq Require Import QArith String Ascii.
From Verif Require Import Model_Strings Model_Rhythm Model_Piece Model_Search Spec_Piece.
From Coq Require Import List.
Import ListNotations.
Close Scope Q_scope.
Open Scope Z_scope.

(* The time taken by the inputs that are marked. *)
Fixpoint marked_time (durs : list Q) (flags : list bool) : Q :=
  match durs, flags with
  | d :: ds, b :: bs => ((if b then d else 0) + marked_time ds bs)%Q
  | _, _ => 0%Q
  end.

(* A chord (root, type, inversion) of the estimate is right, as far as the options ask. *)
Definition right_chord (use_inversion : bool) (red : chord_type -> chord_type) (gold : pchord)
  (est : Z * chord_type * Z) : Prop :=
  let '(root, t, inv) := est in
  c_root (pc gold) = root /\ red (c_type (pc gold)) = red t /\ (use_inversion = true -> c_inv (pc gold) = inv).
Definition right_key (tonic_only : bool) (gold : key_obj) (est : Z * key_mode) : Prop :=
  k_rel gold = fst est /\ (tonic_only = false -> k_rel_mode gold = snd est).

(* The piece has chords from its first note on; each is in force from its change to the next. *)
Definition covered (p : piece) : Prop :=
  length (p_changes p) = length (p_chords p) /\ nth_error (p_changes p) 0 = Some 0%nat /\
  non_decreasing (map Z.of_nat (p_changes p)) /\ Forall (fun c => c_pt (pc c) = TPC) (p_chords p).
Definition chord_in_force (p : piece) (i : nat) (c : pchord) : Prop :=
  last_up_to (combine (p_changes p) (p_chords p)) i c.
(* Keys change with chords; the key of an input is that of the last key change up to it. *)
Definition keyed (p : piece) : Prop :=
  length (p_key_changes p) = length (p_keys p) /\ nth_error (p_key_changes p) 0 = Some 0%nat /\
  strictly_increasing (p_key_changes p) /\ Forall (fun k => k_pt k = TPC) (p_keys p).
Definition key_in_force (p : piece) (i : nat) (k : key_obj) : Prop :=
  exists inputs, Forall2 (fun j a => nth_error (p_changes p) j = Some a) (p_key_changes p) inputs /\
    last_up_to (combine inputs (p_keys p)) i k.

(* ---- tables of labels ---- *)
(* A row of the table gives a text and a position (that of a note).  Key texts end with a mode. *)
Definition key_text (t : pystr) : bool :=
  existsb (fun m => str_eqb (skipn (List.length t - List.length m) t) m) [L":KeyMode.MAJOR"; L":KeyMode.MINOR"].
(* Reading the table at a position: the last row up to there. *)
Definition reads (rows : list (pystr * note)) (at_ : pos) (t : pystr) : Prop :=
  exists l1 n l2, rows = l1 ++ (t, n) :: l2 /\ ~ before at_ (no_on n) /\
    forall r, In r l2 -> before at_ (no_on (snd r)).
