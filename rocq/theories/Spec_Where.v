(* Specification vocabulary for the places that tables of labels name. *)
From Coq Require Import QArith.
From Verif Require Import PyBase Model_Strings Model_Rhythm Model_Piece Model_Xml Model_Where.
Close Scope Q_scope.
Open Scope Z_scope.

(* The row names the place of the row r of the notes table, whose column mc_onset is q. *)
Definition at_row (r : note_row) (q : Q) (c : label_columns) : Prop :=
  col_mc c = fst (nr_on r) /\ col_mc_onset c = q /\ col_mn_onset c = snd (nr_on r).
(* In the measure mc, which starts [offset mc] after the start of the bar it belongs to, onsets are counted from the
   start of the measure (mc_onset) and of the bar (mn_onset). *)
Definition same_place (offset : Z -> Q) (mc : Z) (mc_onset mn_onset : Q) : Prop := (mn_onset == mc_onset + offset mc)%Q.
(* The row names the place of the item in the k-th measure of the table of measures. *)
Definition at_item (t : xtable) (k : nat) (it : m21_item) (c : label_columns) : Prop :=
  exists x, nth_error t k = Some x /\ col_mc c = Z.of_nat k /\ (col_mc_onset c == it_offset it / 4)%Q /\
    (col_mn_onset c == it_offset it / 4 + m_off (x_row x))%Q.
(* where a row is *)
Definition place (c : label_columns) : pos := (col_mc c, col_mn_onset c).
