(* Independent description of the admissible chord ranges. *)
From Verif Require Export Model_Ranges.
Open Scope nat_scope.

Section Spec.
Variables (cfg : range_cfg) (a : range_in).
Let n := length (probs a).

(* all arrays have one entry per input *)
Definition well_shaped : Prop :=
  length (change_log a) = n /\ length (no_change_log a) = n /\ length (durs a) = n
  /\ length (forced_c a) = n /\ length (forced_k a) = n.

(* the first input of an onset, other than the very first input *)
Definition onset_at (i : nat) : Prop := 0 < i < n /\ nth (i - 1) (durs a) 0%Z <> 0%Z.
Definition prob_at (i : nat) : Z := nth i (probs a) 0%Z.

(* time from the onset of input i to the onset of input j *)
Definition span (i j : nat) : Z := zsum (firstn (j - i) (skipn i (durs a))).

(* labels forced on the last input of each onset group of (s, e) that ends by e are equal *)
Definition one_label (forced : list Z) (s e : nat) : Prop :=
  forall i j, onset_at i -> onset_at j -> s < i <= e -> s < j <= e ->
    nth (i - 1) forced (-1)%Z <> (-1)%Z -> nth (j - 1) forced (-1)%Z <> (-1)%Z ->
    nth (i - 1) forced (-1)%Z = nth (j - 1) forced (-1)%Z.

(* what get_chord_ranges counts as the length of (s, i): the first duration is counted
   twice for the range starting at 0 *)
Definition counted (s i : nat) : Z :=
  ((if (s =? 0)%nat then nth 0 (durs a) 0%Z else 0%Z) + span s i)%Z.

(* may a chord last from input s to input e *)
Definition admissible (s e : nat) : Prop :=
  s < e <= n
  /\ (e < n -> onset_at e /\ (min_change cfg <= prob_at e)%Z)
  /\ (forall i, onset_at i -> s < i < e -> ~ (max_no_change cfg < prob_at i)%Z)
  /\ one_label (forced_c a) s e /\ one_label (forced_k a) s e
  /\ (forall i, onset_at i -> s < i <= e -> (counted s i <= max_length cfg)%Z).

(* range starts that can be reached from input 0 through admissible ranges *)
Inductive reachable : nat -> Prop :=
| reach_0 : reachable 0
| reach_step s e : reachable s -> admissible s e -> e < n -> reachable e.

(* log probability of a range: no change at the onsets inside, change at its end *)
Definition onset_atb (i : nat) : bool :=
  (0 <? i) && (i <? n) && negb (Z.eqb (nth (i - 1) (durs a) 0%Z) 0%Z).
Definition log_of (s e : nat) : Z :=
  (zsum (map (fun i => if onset_atb i then nth i (no_change_log a) 0%Z else 0%Z) (seq (S s) (e - S s)))
   + if (e <? n)%nat then nth e (change_log a) 0%Z else 0%Z)%Z.
End Spec.

(* a chain of ranges leading from input s to input e *)
Inductive chain : nat -> list (nat * nat) -> nat -> Prop :=
| chain_nil s : chain s [] s
| chain_cons s m e l : chain m l e -> chain s ((s, m) :: l) e.

(* lexicographic order on ranges *)
Definition range_lt (x y : nat * nat) : Prop := fst x < fst y \/ (fst x = fst y /\ snd x < snd y).
