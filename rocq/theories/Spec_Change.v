(* Specification vocabulary for C83: the rows and targets of the chord transition model. *)
From Coq Require Import QArith.
From Verif Require Import PyBase Model_Piece Spec_Piece.
Close Scope Q_scope.
Open Scope Z_scope.

(* The row of a note, by itself: pitch, octave, metrical levels, the distances to the notes before
   and after it, octave again and height.  The entries about a chord are 0. *)
Definition plainly_describes (n : note) (prev next : Q) (v : list Q) : Prop :=
  exists P O L1 L2 R h,
    v = P ++ O ++ L1 ++ L2 ++ [0%Q; 0%Q; 0%Q; prev; next; 0%Q] ++ R ++ [h; 0%Q] /\
    one_hot_at P 35 (no_pitch n) /\ one_hot_at O 10 (no_octave n) /\
    one_hot_at L1 4 (no_on_level n) /\ one_hot_at L2 4 (no_off_level n) /\
    one_hot_at R 10 (no_octave n) /\ (h == inject_Z (spelled_midi n) / 127)%Q.

(* i is one of the indexes, which may count from the end of n places *)
Definition listed (l : list Z) (n i : nat) : Prop :=
  In (Z.of_nat i) l \/ In (Z.of_nat i - Z.of_nat n) l.
