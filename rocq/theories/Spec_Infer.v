(* What a request for forced labels means, and when it makes sense. *)
From Verif Require Export Model_Infer Spec_Search Spec_Ranges.
Open Scope Z_scope.

(* a label forces input i to x *)
Definition forced_to (labels : list (Z * Z * Z)) (i x : Z) : Prop :=
  exists a b, In (a, b, x) labels /\ a <= i < b.

(* no index counts from the end *)
Definition natural (q : request) : Prop :=
  (forall c, In c (q_chord_changes q ++ q_chord_non q ++ q_key_changes q ++ q_key_non q) -> 0 <= c)
  /\ (forall a b x, In (a, b, x) (q_chords q ++ q_keys q) -> 0 <= a /\ 0 <= b).

(* the forces of one type (chords or keys) do not contradict each other: changes happen at the first
   input of an onset (change at 0 is ignored), between different labels *)
Definition consistent_type (durs : list Z) (max_id : Z) (changes non_changes : list Z)
  (labels : list (Z * Z * Z)) : Prop :=
  (forall c, In c changes -> 0 < c ->
     c < zlen durs /\ nth (Z.to_nat (c - 1)) durs 0 <> 0 /\ ~ In c non_changes
     /\ forall x, ~ (forced_to labels (c - 1) x /\ forced_to labels c x))
  /\ (forall c, In c non_changes ->
        c < zlen durs /\ (0 < c -> forall x y, forced_to labels (c - 1) x -> forced_to labels c y -> x = y))
  /\ (forall a b x, In (a, b, x) labels -> 0 <= x < max_id)
  /\ (forall i x y, 0 <= i < zlen durs -> forced_to labels i x -> forced_to labels i y -> x = y).

(* and chords do not contradict keys: a key change is a chord change *)
Definition consistent (durs : list Z) (max_chord max_key : Z) (q : request) : Prop :=
  consistent_type durs max_chord (q_chord_changes q) (q_chord_non q) (q_chords q)
  /\ consistent_type durs max_key (q_key_changes q) (q_key_non q) (q_keys q)
  /\ (forall c, In c (q_key_changes q) -> 0 < c ->
        ~ In c (q_chord_non q) /\ forall x, ~ (forced_to (q_chords q) (c - 1) x /\ forced_to (q_chords q) c x))
  /\ (forall c, In c (q_chord_non q) -> 0 < c ->
        forall x y, forced_to (q_keys q) (c - 1) x -> forced_to (q_keys q) c y -> x = y).

(* the array holds, for each of n inputs, the label it is forced to, or -1 *)
Definition loaded (ids : list Z) (labels : list (Z * Z * Z)) (n : nat) : Prop :=
  length ids = n
  /\ forall i, (i < n)%nat -> exists x, nth_error ids i = Some x
       /\ forall y, forced_to labels (Z.of_nat i) y <-> y = x /\ x <> -1.

(* get_harmony returned a harmony for a request, with a positive beam size, the threshold order the
   constructor asserts, and one chord change probability for each input *)
Definition inferred (g : search_cfg) (cfg : range_cfg) (w : networks) (o : oracle) (durs levels : list Z)
  (q : request) (s : state) : Prop :=
  1 <= g_beam_size g /\ min_change cfg <= max_no_change cfg /\ length (n_change w) = length durs
  /\ natural q /\ get_harmony g cfg w o durs levels q = Ok (Some s).

(* inputs with the same onset are forced to the same label *)
Definition same_in_onset (durs : list Z) (labels : list (Z * Z * Z)) : Prop :=
  forall i x, (S i < length durs)%nat -> nth i durs 0 = 0 ->
    forced_to labels (Z.of_nat i) x <-> forced_to labels (Z.of_nat (S i)) x.
(* input i belongs to the last onset *)
Definition last_onset (durs : list Z) (i : nat) : Prop :=
  (i < length durs)%nat /\ forall j, (i <= j)%nat -> (S j < length durs)%nat -> nth j durs 0 = 0.
