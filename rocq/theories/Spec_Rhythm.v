(* Specification vocabulary for the rhythm properties. *)
From Coq Require Import QArith Qround.
From Verif Require Import PyBase Model_Rhythm.
Close Scope Q_scope.
Open Scope Z_scope.

(* m is the row of measure [mc]. *)
Definition row_of (ms : table) (mc : Z) (m : measure) : Prop :=
  In m ms /\ m_mc m = mc.
(* each measure number names one row *)
Definition unique_mcs (ms : table) : Prop := NoDup (map m_mc ms).
(* the next column only points forward, to measures of the table *)
Definition forward (ms : table) : Prop :=
  forall m, In m ms -> forall n, m_next m = NextMc n -> m_mc m < n /\ In n (map m_mc ms).

(* Playing from measure a one reaches measure b (following next pointers). *)
Inductive plays_to (ms : table) : Z -> Z -> Prop :=
| pt_refl a : plays_to ms a a
| pt_step a m n b : row_of ms a m -> m_next m = NextMc n -> plays_to ms n b -> plays_to ms a b.

(* [T] gives the time at which each measure starts, counted in whole notes along the
   measures: a measure that follows another starts when that one is over. *)
Definition clock (ms : table) (T : Z -> Q) : Prop :=
  forall m n, In m ms -> m_next m = NextMc n -> (T n == T (m_mc m) + m_dur m)%Q.

(* The time of a score position: beats are counted from the measure's offset. *)
Definition at_time (ms : table) (T : Z -> Q) (p : pos) (t : Q) : Prop :=
  exists m, row_of ms (fst p) m /\ (t == T (fst p) + snd p - m_off m)%Q.

(* The position lies within its measure. *)
Definition within (ms : table) (p : pos) : Prop :=
  exists m, row_of ms (fst p) m /\ (m_off m <= snd p)%Q /\ (snd p < m_off m + m_dur m)%Q.

(* x is a whole multiple of y *)
Definition multiple (x y : Q) : Prop := exists k : Z, (x == inject_Z k * y)%Q.
