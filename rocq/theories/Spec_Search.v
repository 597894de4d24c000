(* What the properties of the search are stated with.  Independent of the search itself: only
   the fields of a state and the inputs of beam_search are used. *)
From Verif Require Export Model_Search Spec_Music.
Open Scope Z_scope.

(* [changes] cuts [0, n) into one non-empty interval for each label *)
Definition segmentation {A} (labels : list A) (changes : list nat) (n : nat) : Prop :=
  length changes = S (length labels)
  /\ nth_error changes 0 = Some 0%nat
  /\ nth_error changes (length labels) = Some n
  /\ forall k a b, nth_error changes k = Some a -> nth_error changes (S k) = Some b -> (a < b)%nat.
(* input [i] has the label [x] *)
Definition labelled {A} (labels : list A) (changes : list nat) (i : nat) (x : A) : Prop :=
  exists k a b, nth_error labels k = Some x /\ nth_error changes k = Some a
    /\ nth_error changes (S k) = Some b /\ (a <= i < b)%nat.
Definition no_adjacent_equal {A} (l : list A) : Prop :=
  forall k x y, nth_error l k = Some x -> nth_error l (S k) = Some y -> x <> y.

(* the chord analyses behind a state: (state before, state after), oldest first *)
Fixpoint steps_of (s : state) : list (state * state) :=
  match st_prev s with None => [] | Some p => steps_of p ++ [(p, s)] end.
(* (key, chord) of a state and its predecessors, newest first *)
Fixpoint newest (s : state) : list (option Z * option Z) :=
  (Some (st_key s), st_chord s) :: match st_prev s with None => [] | Some p => newest p end.
(* the [n] newest of them, padded with None *)
Definition recent (n : nat) (s : state) : list (option (option Z * option Z)) :=
  firstn n (map Some (newest s) ++ repeat None n).

(* the ranges given to beam_search *)
Section Inputs.
Variables (chord_ranges : list (nat * nat)) (logs rejoins : list Z) (priors : list (list Z)).
(* range [a, b) is offered with log probability lg, rejoin correction rj and chord prior *)
Definition offered (a b : nat) (lg rj : Z) (prior : list Z) : Prop :=
  exists i, nth_error chord_ranges i = Some (a, b) /\ nth_error logs i = Some lg
    /\ nth_error rejoins i = Some rj /\ nth_error priors i = Some prior.

(* chord c on [a, b), made of one or more offered ranges, scores w.  Each range counts once,
   with its chord prior per input; each junction adds the correction of the later range. *)
Inductive joined (c : Z) : nat -> nat -> Z -> Prop :=
| joined_one a b lg rj prior pr : offered a b lg rj prior -> py_nth prior c = Ok pr ->
    joined c a b (lg + pr * (Z.of_nat b - Z.of_nat a))
| joined_more a b e w lg rj prior pr : joined c a b w -> offered b e lg rj prior ->
    py_nth prior c = Ok pr ->
    joined c a e (w + (lg + pr * (Z.of_nat e - Z.of_nat b)) + rj).
End Inputs.

(* every range is non-empty and inside the piece *)
Definition valid_ranges (chord_ranges : list (nat * nat)) (n : nat) : Prop :=
  forall a b, In (a, b) chord_ranges -> (a < b <= n)%nat.

(* the key transition model gives no probability for which a state may both keep and change
   its key *)
Definition never_both (g : search_cfg) (o : oracle) : Prop :=
  ~ (g_min_key g <= 0 <= g_max_no_key g)
  /\ forall step l i, ~ (g_min_key g <= o_ktm o step l i <= g_max_no_key g).

(* all forced ids on [a, b) are x (or absent, -1) *)
Definition only_forced (forced : list Z) (a b : nat) (x : Z) : Prop :=
  forall i y, (a <= i < b)%nat -> nth_error forced i = Some y -> y = x \/ y = -1.

Definition the_length (p f : state) : Z := Z.of_nat (st_change f) - Z.of_nat (st_change p).
(* n is the state for the chord of f after p before the models of keys and chord sequences are
   asked: the chord and the end of f, the key of p *)
Definition uncharged (p n f : state) : Prop :=
  st_prev n = Some p /\ st_chord n = st_chord f /\ st_change n = st_change f /\ st_key n = st_key p.
(* prob is the output of the key transition model for this chord; 0 for the first chord *)
Definition ktm_output (o : oracle) (p f : state) (prob : Z) : Prop :=
  (st_prev p = None /\ prob = 0)
  \/ (st_prev p <> None /\ exists step l i n, nth_error l i = Some n /\ uncharged p n f
        /\ prob = o_ktm o step l i).
(* the key [to] is the key [from] moved by the interval, with the given mode *)
Definition moved_key (kpt : pitch_type) (from to interval : Z) (mode : key_mode) : Prop :=
  exists t0 m0 t1, py_nth (key_labels kpt) from = Ok (t0, m0)
    /\ py_nth (key_labels kpt) to = Ok (t1, mode)
    /\ t1 = match kpt with MIDI => (t0 + interval) mod 12 | TPC => t0 + interval end.
(* x is the output of the key sequence model for this chord, at the entry for the change from the
   key of p to the key of f *)
Definition ksm_output (g : search_cfg) (o : oracle) (p f : state) (x : Z) : Prop :=
  exists step l i m rid mode interval, nth_error l i = Some m /\ uncharged p m f
    /\ py_nth (o_ksm o step l i) rid = Ok x
    /\ py_nth (relative_key_labels (g_kpt g)) rid = Ok (mode, interval)
    /\ moved_key (g_kpt g) (st_key p) (st_key f) interval mode.
(* the prior of a state that is branched on: the initial chord model's for the mode of the first
   key, else the output of the chord sequence model for this state *)
Definition csm_output (g : search_cfg) (o : oracle) (p : state) : Prop :=
  (st_prev p = None /\ exists tonic mode, py_nth (key_labels (g_kpt g)) (st_key p) = Ok (tonic, mode)
     /\ st_prior p = o_icm o mode)
  \/ (st_prev p <> None /\ exists l i p0, nth_error l i = Some p0 /\ p = set_prior p0 (st_prior p)
        /\ st_prior p = o_csm o (st_change p) l i).
(* x is the charge of the chord sequence model for the chord of f: the entry of the prior of the
   preceding state for this chord in this key (in the model's vocabulary; the first chord's prior
   has the full vocabulary), times the length.  For the pitch-based model x is not described. *)
Definition csm_charge (g : search_cfg) (p f : state) (x : Z) : Prop :=
  g_pitch_based g = false \/ st_change p = 0%nat ->
  let red := if (st_change p =? 0)%nat then NO_REDUCTION else g_red g in
  let use_inv := if (st_change p =? 0)%nat then true else g_use_inv g in
  exists c root t inv tonic mode idx pr, st_chord f = Some c
    /\ py_nth (chord_labels (g_cpt g)) c = Ok (root, t, inv)
    /\ py_nth (key_labels (g_kpt g)) (st_key f) = Ok (tonic, mode)
    /\ get_chord_from_one_hot_index idx (g_cpt g) use_inv true false red
       = Ok (relative_pitch (g_cpt g) root tonic, red t, if use_inv then inv else 0)
    /\ 0 <= idx /\ py_nth (st_prior p) idx = Ok pr /\ x = pr * the_length p f.

(* root and bass lie in the range of pitches relative to the tonic (joint tables cover it) *)
Definition inside (root bass tonic : Z) : Prop :=
  -14 <= root - tonic < 15 /\ -14 <= bass - tonic < 15.

(* some id is forced on [a, b), and k is one of those *)
Definition forced_on (forced : list Z) (a b : nat) (k : Z) : Prop :=
  k <> -1 /\ exists i, (a <= i < b)%nat /\ nth_error forced i = Some k.

(* beam_search up to the beginning of step n *)
Definition run_until (g : search_cfg) (o : oracle) (pd : piece_data) (ranges : list range_data) (n : nat)
  : res search :=
  let! keys := initial_keys g pd in
  let! sr := add_initial g o {| sr_beams := repeat (new_any (g_hash_length g) (g_beam_size g)) (S (length (p_durs pd)));
                                sr_store := [] |} keys in
  search_loop g o pd ranges sr (seq 0 n).

(* n options are taken: as many of the sorted probabilities as reach the target, at most
   max_branch; one if the target is not reached *)
Definition branch_limit (target max_branch : Z) (probs : list Z) (n : Z) : Prop :=
  (exists k, (1 <= k <= length probs)%nat /\ target <= zsum (firstn k probs)
     /\ (forall j, (1 <= j < k)%nat -> zsum (firstn j probs) < target) /\ n = Z.min (Z.of_nat k) max_branch)
  \/ ((forall j, (1 <= j <= length probs)%nat -> zsum (firstn j probs) < target) /\ n = 1).

(* the key reached from a key by the change with this id *)
Definition key_reached (kpt : pitch_type) (from rid : Z) : list Z :=
  match py_nth (relative_key_labels kpt) rid, py_nth (key_labels kpt) from with
  | Ok (mode, interval), Ok (t0, _) =>
      match get_key_one_hot_index mode (match kpt with MIDI => (t0 + interval) mod 12 | TPC => t0 + interval end) kpt with
      | Ok k => [k] | Raise _ => [] end
  | _, _ => []
  end.
(* root and bass of the chord are inside the relative range of the key *)
Definition chord_fits (g : search_cfg) (c key : Z) : bool :=
  match py_nth (chord_labels (g_cpt g)) c, py_nth (key_labels (g_kpt g)) key with
  | Ok (root, t, inv), Ok (tonic, _) =>
      match get_bass_note t root inv (g_kpt g) false with
      | Ok bass => (-14 <=? root - tonic) && (root - tonic <? 15) && (-14 <=? bass - tonic) && (bass - tonic <? 15)
      | Raise _ => false end
  | _, _ => false
  end.
(* the keys a state with chord c and key k0 can change to, in the order of the change ids *)
Definition keys_open (g : search_cfg) (c k0 : Z) (order : list Z) : list Z :=
  filter (fun k => negb (k =? k0) && chord_fits g c k) (flat_map (key_reached (g_kpt g) k0) order).
