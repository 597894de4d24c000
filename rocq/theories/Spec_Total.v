(* What the search needs of its inputs in order to run to its end.  Stated with the inputs of
   beam_search, the outputs of the networks and the vocabulary of Spec_Music only. *)
From Verif Require Export Spec_Search.
From Coq Require Export Permutation.
Open Scope Z_scope.

(* sizes of the vocabularies: 4 triads in 3 positions and 8 seventh chords in 4 per root; major
   and minor per tonic; the same for the intervals of a key change *)
Definition chord_count (pt : pitch_type) : Z := 44 * pitch_count pt.
Definition key_count (pt : pitch_type) : Z := 2 * pitch_count pt.
Definition key_change_count (pt : pitch_type) : Z := 2 * root_count pt true false.

(* the chord with this id is forced on some input, or is among the first options of some range *)
Definition tried (g : search_cfg) (o : oracle) (pd : piece_data) (classifications : list (list Z)) (c : Z) : Prop :=
  (c <> -1 /\ In c (p_forced_c pd))
  \/ exists row rank, In row classifications /\ Z.of_nat rank < Z.max 2 (g_max_chord g)
       /\ nth_error (o_argsort o (map (o_exp o) row)) rank = Some c.
(* the bass note of the chord can be spelled: on the line of fifths it may leave the range *)
Definition playable (pt : pitch_type) (c : Z) : Prop :=
  pt = TPC -> forall root t inv f, py_nth (chord_labels pt) c = Ok (root, t, inv) ->
    nth_error (chord_fifths t) (Z.to_nat inv) = Some f -> 0 <= root + f < 35.

Record well_formed (g : search_cfg) (o : oracle) (pd : piece_data) (chord_ranges : list (nat * nat))
  (classifications : list (list Z)) : Prop := {
  (* parameters *)
  sb_types : g_cpt g = g_kpt g;
  sb_beam : 1 <= g_beam_size g;
  sb_branch : 1 <= g_max_chord g;
  (* the piece *)
  sb_piece : p_durs pd <> [];
  sb_levels : length (p_levels pd) = S (length (p_durs pd)) /\ forall l, In l (p_levels pd) -> 0 <= l < 4;
  sb_forced_k : length (p_forced_k pd) = length (p_durs pd)
     /\ forall k, In k (p_forced_k pd) -> k = -1 \/ 0 <= k < key_count (g_kpt g);
  sb_forced_c : forall c, In c (p_forced_c pd) -> c = -1 \/ 0 <= c < chord_count (g_cpt g);
  sb_ranges : valid_ranges chord_ranges (length (p_durs pd));
  (* the networks *)
  sb_rows : forall row, In row classifications -> zlen row = chord_count (g_cpt g);
  sb_ksm : forall step l i, zlen (o_ksm o step l i) = key_change_count (g_kpt g);
  sb_icm : forall m, zlen (o_icm o m) = 44 * root_count (g_cpt g) true false;
  sb_csm : forall step l i, zlen (o_csm o step l i)
     = if g_pitch_based g then root_count (g_cpt g) true false
       else get_chord_vector_length (g_cpt g) true true (g_use_inv g) false (g_red g);
  sb_sort : forall l, Permutation (o_argsort o l) (zrange 0 (zlen l))
}.
Record searchable (g : search_cfg) (o : oracle) (pd : piece_data) (chord_ranges : list (nat * nat))
  (classifications : list (list Z)) : Prop := {
  sb_base : well_formed g o pd chord_ranges classifications;
  (* the vocabulary of the chord sequence model has the inversions of the chords *)
  sb_inv : g_use_inv g = true -> forall t, positions t <= positions (g_red g t);
  sb_playable : forall c, tried g o pd classifications c -> playable (g_cpt g) c
}.

(* the ranges lead from a to b *)
Inductive covered (chord_ranges : list (nat * nat)) (a : nat) : nat -> Prop :=
| covered_none : covered chord_ranges a a
| covered_more b c : covered chord_ranges a b -> In (b, c) chord_ranges -> covered chord_ranges a c.

(* on the line of fifths the root and the bass are at most 14 from the tonic: relative to the key,
   a chord is only spelled that far (constants.py MIN_RELATIVE_TPC, MAX_RELATIVE_TPC) *)
Definition near (pt : pitch_type) (c k : Z) : Prop :=
  pt = TPC -> forall root t inv f tonic mode, py_nth (chord_labels pt) c = Ok (root, t, inv) ->
    nth_error (chord_fifths t) (Z.to_nat inv) = Some f -> py_nth (key_labels pt) k = Ok (tonic, mode) ->
    -14 <= root - tonic <= 14 /\ -14 <= root + f - tonic <= 14.
(* the tonics of the two keys are at most 14 fifths apart *)
Definition near_keys (pt : pitch_type) (k k' : Z) : Prop :=
  pt = TPC -> forall tonic mode tonic' mode', py_nth (key_labels pt) k = Ok (tonic, mode) -> py_nth (key_labels pt) k' = Ok (tonic', mode') ->
    -14 <= tonic' - tonic <= 14.
(* The caller gives the keys: the first one, and either all of them or no key change model ever
   wants another; and the chords that are tried can be spelled in every one of these keys. *)
Record keys_given (g : search_cfg) (o : oracle) (pd : piece_data) (classifications : list (list Z)) : Prop := {
  kg_first : nth_error (p_forced_k pd) 0 <> Some (-1);
  kg_only : ~ In (-1) (p_forced_k pd) \/ (0 < g_min_key g /\ forall step l i, o_ktm o step l i < g_min_key g);
  kg_chords : forall c k, tried g o pd classifications c -> In k (p_forced_k pd) -> k <> -1 -> near (g_cpt g) c k;
  kg_keys : forall k k', In k (p_forced_k pd) -> In k' (p_forced_k pd) -> k <> -1 -> k' <> -1 -> near_keys (g_kpt g) k k'
}.
