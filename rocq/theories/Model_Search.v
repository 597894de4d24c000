(* The search states and the beam search:
   harmonic_inference/utils/beam_search_utils.py:17-883 (class State) and
   harmonic_inference/models/joint_model.py:839-1378.

   Simplifications, for the whole file:
   - Probabilities and log probabilities are integers (scaled), added exactly.  log and exp
     are arbitrary functions (o_log, o_exp); log 0 is whatever o_log returns, so -inf and NaN
     arithmetic are not modelled.
   - The neural networks are arbitrary functions of the step number and the batch of states
     (o_ktm, o_ksm, o_csm).  Their hidden states are not fields of the model: a hidden state
     only influences later outputs, which are arbitrary here anyway.
   - States are values.  In Python they are mutable objects, but beam_search changes a state
     only before it becomes the prev_state of another (add_ktm_log_prob, add_csm_prior and the
     CSM prior are written before the state is branched on), with one exception, the aliasing
     of state and change_state in joint_model.py:1056-1071, which is modelled as it runs.
   - The caches key_obj and chord_obj are not stored; Model_Cache has them, and C77 shows that
     they make no difference. *)
From Verif Require Export Model_Vectors Model_Beam Model_Ranges.
Open Scope Z_scope.

(* beam_search_utils.py:25-113 State.__init__, the fields that are used.  The type of a hash
   tuple is that of Model_Beam (a (key, chord) pair or None per entry). *)
Inductive state := mkState {
  st_chord : option Z;      (* chord *)
  st_key : Z;               (* key *)
  st_change : nat;          (* change_index *)
  st_logp : Z;              (* log_prob *)
  st_prev : option state;   (* prev_state *)
  st_hash : option (list (option (option Z * option Z)));  (* hash_tuple *)
  st_prior : list Z;        (* csm_log_prior *)
  st_must : bool;           (* _must_key_transition *)
  st_csm : option Z; st_ksm : option Z; st_ktm : option Z  (* most_recent_* *)
}.

(* 96-100: the hash tuple; [hl] is the argument hash_length *)
Definition make_hash (hl : option Z) (prev : option state) (key : Z) (chord : option Z)
  : res (option (list (option (option Z * option Z)))) :=
  match hl with
  | None => Ok None
  | Some n =>
      match prev with
      | None => Ok (Some (repeat None (Z.to_nat (n - 1)) ++ [Some (Some key, chord)]))
      | Some p =>
          match st_hash p with
          | None => Raise AttributeError
          | Some h => Ok (Some (py_slice h 1 (zlen h) ++ [Some (Some key, chord)]))
          end
      end
  end.
(* len(self.hash_tuple) if hasattr(self, "hash_tuple") else None *)
Definition hash_len (s : state) : option Z :=
  match st_hash s with None => None | Some h => Some (zlen h) end.

(* joint_model.py:270-283, LABELS *)
Definition chord_labels (pt : pitch_type) : list (Z * chord_type * Z) :=
  chord_list pt true false false NO_REDUCTION.
(* labels["key"], joint_model.py:270-283 *)
Definition key_labels (pt : pitch_type) : list (Z * key_mode) := key_list pt false.

(* root, chord_type, inversion = labels["chord"][chord]; bass = get_bass_note(...) *)
Definition chord_notes (pt : pitch_type) (chord : Z) : res (Z * chord_type * Z * Z) :=
  let! (rt, inv) := py_nth (chord_labels pt) chord in
  let (root, t) := rt : Z * chord_type in
  let! bass := get_bass_note t root inv pt false in
  Ok (root, t, inv, bass).
(* labels["chord"][None] is a TypeError *)
Definition the_chord (s : state) : res Z :=
  match st_chord s with Some c => Ok c | None => Raise TypeError end.
(* attributes of prev_state when it is None *)
Definition the_prev (s : state) : res state :=
  match st_prev s with Some p => Ok p | None => Raise AttributeError end.

Section Types.
Variables cpt kpt : pitch_type.     (* CHORD_OUTPUT_TYPE, KEY_OUTPUT_TYPE: joint_model.py:266-267 *)

(* State.get_key(..).relative_tonic / relative_mode, lines 749-776 *)
Definition state_key (s : state) : res (Z * key_mode) := py_nth (key_labels kpt) (st_key s).

(* beam_search_utils.py:163-232: one of two numbers is out of bounds *)
Definition outside (lo hi x y : Z) : bool := (x <? lo) || (y <? lo) || (hi <=? x) || (hi <=? y).

(* beam_search_utils.py:163-232 State.chord_transition *)
Definition chord_transition (s : state) (chord : Z) (change : nat) (lp : Z) : res (option state) :=
  let! (x, bass) := chord_notes cpt chord in
  let '(root, _, _) := x : Z * chord_type * Z in
  let! (tonic, _) := state_key s in
  if outside (MIN_RELATIVE_TPC - RELATIVE_TPC_EXTRA) (MAX_RELATIVE_TPC + RELATIVE_TPC_EXTRA)
       (root - tonic) (bass - tonic)
  then Ok None
  else
    let must := outside MIN_RELATIVE_TPC MAX_RELATIVE_TPC (root - tonic) (bass - tonic) in
    let! h := make_hash (hash_len s) (Some s) (st_key s) (Some chord) in
    Ok (Some {| st_chord := Some chord; st_key := st_key s; st_change := change;
                st_logp := st_logp s + lp; st_prev := Some s; st_hash := h;
                st_prior := st_prior s; st_must := must;
                st_csm := None; st_ksm := None; st_ktm := None |}).

(* 234-246 State.can_key_transition *)
Definition can_key_transition (s : state) : bool :=
  match st_prev s with
  | None => false
  | Some p => match st_prev p with None => false | Some _ => true end
  end.

(* 248-308 State.key_transition; labels["key"] and the pitch type of the call are those of
   the keys (joint_model.py:1300-1305 passes KEY_OUTPUT_TYPE) while labels["chord"] has the
   chord pitch type. *)
Definition key_transition (s : state) (key : Z) (lp : Z) : res (option state) :=
  let! chord := the_chord s in
  let! (rt, inv) := py_nth (chord_labels cpt) chord in
  let (root, t) := rt : Z * chord_type in
  let! bass := get_bass_note t root inv kpt false in
  let! (tonic, _) := py_nth (key_labels kpt) key in
  if outside MIN_RELATIVE_TPC MAX_RELATIVE_TPC (root - tonic) (bass - tonic) then Ok None
  else
    let! h := make_hash (hash_len s) (st_prev s) key (st_chord s) in
    let! _ := the_prev s in
    Ok (Some {| st_chord := st_chord s; st_key := key; st_change := st_change s;
                st_logp := st_logp s + lp; st_prev := st_prev s; st_hash := h;
                st_prior := st_prior s; st_must := false;
                st_csm := st_csm s; st_ksm := Some lp; st_ktm := st_ktm s |}).

(* a sum over what is not None *)
Definition opt_sum (l : list (option Z)) : Z :=
  zsum (map (fun o => match o with Some x => x | None => 0 end) l).

(* 310-381 State.rejoin *)
Definition rejoin (s : state) (new_end : nat) (lp : Z) : res state :=
  let! chord := the_chord s in
  let! (x, bass) := chord_notes cpt chord in
  let '(root, _, _) := x : Z * chord_type * Z in
  let! p := the_prev s in
  let! (tonic, _) := py_nth (key_labels kpt) (st_key p) in
  let must := outside MIN_RELATIVE_TPC MAX_RELATIVE_TPC (root - tonic) (bass - tonic) in
  let adjustment := opt_sum [st_csm s; st_ksm s; st_ktm s] in
  let! h := make_hash (hash_len s) (Some p) (st_key p) (st_chord s) in
  Ok {| st_chord := st_chord s; st_key := st_key p; st_change := new_end;
        st_logp := st_logp s + lp - adjustment; st_prev := Some p; st_hash := h;
        st_prior := st_prior p; st_must := must;
        st_csm := None; st_ksm := None; st_ktm := None |}.

(* 139-161 State.copy: the most_recent_* fields are not passed on *)
Definition copy_state (s : state) : res state :=
  let! h := make_hash (hash_len s) (st_prev s) (st_key s) (st_chord s) in
  Ok {| st_chord := st_chord s; st_key := st_key s; st_change := st_change s;
        st_logp := st_logp s; st_prev := st_prev s; st_hash := h;
        st_prior := st_prior s; st_must := st_must s;
        st_csm := None; st_ksm := None; st_ktm := None |}.

(* 383-394 State.add_ktm_log_prob *)
Definition add_ktm (s : state) (lp : Z) : state :=
  {| st_chord := st_chord s; st_key := st_key s; st_change := st_change s;
     st_logp := st_logp s + lp; st_prev := st_prev s; st_hash := st_hash s;
     st_prior := st_prior s; st_must := st_must s;
     st_csm := st_csm s; st_ksm := st_ksm s; st_ktm := Some lp |}.

(* the caches of the piece: duration_cache, onset_level_cache (joint_model.py:561-568) *)
Variables (durs levels : list Z).

(* 696-747 State.get_chord; onset_cache is not needed *)
Definition state_chord (s : state) : res full_chord :=
  let! (tonic, mode) := state_key s in
  let! chord := the_chord s in
  let! (x, bass) := chord_notes cpt chord in
  let '(root, t, inv) := x : Z * chord_type * Z in
  let! p := the_prev s in
  let! on := py_nth levels (Z.of_nat (st_change p)) in
  let! off := py_nth levels (Z.of_nat (st_change s)) in
  Ok {| fc := {| c_root := root; c_bass := bass; c_tonic := tonic; c_mode := mode;
                 c_type := t; c_inv := inv; c_pt := cpt |};
        fc_onset_level := on; fc_offset_level := off;
        fc_duration := zsum (py_slice durs (Z.of_nat (st_change p)) (Z.of_nat (st_change s))) |}.

(* 521-527, 575-580: the key change vector and a flag; zeros if the key is that of prev_state *)
Definition key_part (s : state) : res (list Z) :=
  let zeros := repeat 0 (Z.to_nat (get_key_change_vector_length cpt false)) in
  match st_prev s with
  | None => Ok (zeros ++ [0])
  | Some p =>
      if st_key p =? st_key s then Ok (zeros ++ [0])
      else let! (t0, _) := state_key p in
           let! (t1, m1) := state_key s in
           let! v := key_change_vector cpt t0 t1 m1 in
           Ok (v ++ [1])
  end.
(* 492-544 get_csm_input, 546-596 get_ktm_input *)
Definition csm_input (s : state) : res (list Z) :=
  let! k := key_part s in
  let! c := state_chord s in let! v := to_vec c None false NO_REDUCTION in Ok (v ++ k).
(* beam_search_utils.py:546-596 State.get_ktm_input *)
Definition ktm_input (s : state) : res (list Z) :=
  let! k := key_part s in
  let! c := state_chord s in let! v := to_vec c None true NO_REDUCTION in Ok (v ++ k).
(* 598-694 get_ksm_input: the inputs of this state and of earlier ones, up to where the KSM
   was run last; [stop] tells where the hidden states of a state and its predecessor differ.
   The list is given from the newest to the oldest input. *)
Fixpoint ksm_input (stop : state -> bool) (s : state) {struct s} : res (list (list Z)) :=
  let! v := ktm_input s in
  match st_prev s with
  | None => Ok [v]
  | Some p =>
      match st_prev p with
      | None => Ok [v]
      | Some _ => if stop s then Ok [v] else let! vs := ksm_input stop p in Ok (v :: vs)
      end
  end.

(* 778-813 State.get_relative_chord_index *)
Definition relative_chord_index (s : state) : res Z :=
  let! c := state_chord s in chord_one_hot (fc c) true true false NO_REDUCTION.

(* 396-490 State.add_csm_prior.  o_pitch_log prior vector is the sum of np.log over the set
   and unset entries in lines 482-485 (boolean indexing needs equal lengths). *)
Definition add_csm_prior (pitch_based use_inv : bool) (red : reduction)
  (o_pitch_log : list Z -> list Z -> Z) (s : state) : res state :=
  let! p := the_prev s in
  let first := (st_change p =? 0)%nat in
  let use_inv := if first then true else use_inv in
  let red := if first then NO_REDUCTION else red in
  let range_length := Z.of_nat (st_change s) - Z.of_nat (st_change p) in
  let! relative_index := relative_chord_index s in
  let! idx := reduce_one_hot false cpt true NO_REDUCTION true red use_inv relative_index in
  let! prior :=
    (if pitch_based && negb first then
       let num := match cpt with MIDI => NUM_PITCHES MIDI
                               | TPC => MAX_RELATIVE_TPC - MIN_RELATIVE_TPC end in
       let! (rt, _) := get_chord_from_one_hot_index idx cpt use_inv true false red in
       let (root, t) := rt : Z * chord_type in
       let! v := get_vector_from_chord_type t cpt (Some root) in
       let v := py_slice v 0 num in
       if zlen v =? zlen (st_prior s) then Ok (o_pitch_log (st_prior s) v) else Raise IndexError
     else py_nth (st_prior s) idx) in
  let x := prior * range_length in
  Ok {| st_chord := st_chord s; st_key := st_key s; st_change := st_change s;
        st_logp := st_logp s + x; st_prev := st_prev s; st_hash := st_hash s;
        st_prior := st_prior s; st_must := st_must s;
        st_csm := Some x; st_ksm := st_ksm s; st_ktm := st_ktm s |}.
End Types.

(* 815-834 State.get_chords *)
Fixpoint get_chords (s : state) : list (option Z) * list nat :=
  match st_prev s with
  | None => ([], [st_change s])
  | Some p => let (chords, changes) := get_chords p in
              (chords ++ [st_chord s], changes ++ [st_change s])
  end.

(* l[-1] = x for a list known to be non-empty *)
Definition set_last {A} (l : list A) (x : A) : list A := removelast l ++ [x].
(* 836-860 State.get_keys *)
Fixpoint get_keys (s : state) : list Z * list nat :=
  match st_prev s with
  | None => ([], [st_change s])
  | Some p =>
      let (keys, changes) := get_keys p in
      match rev keys with
      | [] => (keys ++ [st_key s], changes ++ [st_change s])
      | k :: _ => if st_key s =? k then (keys, set_last changes (st_change s))
                  else (keys ++ [st_key s], changes ++ [st_change s])
      end
  end.

(* ---- beams: Beam if hash_length is None else HashedBeam (joint_model.py:909-912) ---- *)
Inductive any_beam := PB (b : beam) | HB (b : hbeam).
(* joint_model.py:909-912: an empty beam *)
Definition new_any (hl : option Z) (size : Z) : any_beam :=
  match hl with None => PB (new_beam size) | Some _ => HB (new_hbeam size) end.
(* len(beam) *)
Definition ab_len (b : any_beam) : Z := match b with PB b => b_len b | HB b => hb_len b end.
(* list(beam) *)
Definition ab_list (b : any_beam) : res (list bstate) :=
  match b with PB b => Ok (b_states b) | HB b => hb_states b end.
(* beam.beam *)
Definition ab_heap (b : any_beam) : list bstate :=
  match b with PB b => b_heap b | HB b => hb_heap b end.
(* beam.fits_in_beam(state, check_hash) *)
Definition ab_fits (b : any_beam) (s : bstate) (check_hash : bool) : res bool :=
  match b with PB b => fits_in_beam b s | HB b => hfits_in_beam b s check_hash end.
(* beam.add(state, force) *)
Definition ab_add (b : any_beam) (s : bstate) (force : bool) : res any_beam :=
  match b with
  | PB b => let! (b', _) := beam_add b s force in Ok (PB b')
  | HB b => let! (b', _) := hbeam_add b s force in Ok (HB b')
  end.
(* beam.get_top_state() *)
Definition ab_top (b : any_beam) : res (option bstate) :=
  match b with PB b => Ok (get_top_state b) | HB b => hget_top_state b end.
(* beam.empty() *)
Definition ab_empty (b : any_beam) : any_beam :=
  match b with PB b => PB (beam_empty b) | HB b => HB (hbeam_empty b) end.

(* ---- the joint model ---- *)
(* joint_model.py:287-319: parameters used by the search, and the attributes of the models *)
Record search_cfg := {
  g_cpt : pitch_type; g_kpt : pitch_type;
  g_beam_size : Z; g_hash_length : option Z;
  g_min_key : Z; g_max_no_key : Z;               (* min_key_change_prob, max_no_key_change_prob *)
  g_target_chord : Z; g_max_chord : Z;           (* target_chord_branch_prob, max_chord_branching_factor *)
  g_target_key : Z; g_max_key : Z; g_ksm_exp : Z;
  g_use_inv : bool; g_red : reduction; g_pitch_based : bool   (* of the chord sequence model *)
}.

(* What the networks and numpy contribute.  o_ktm, o_ksm, o_csm: output for the i-th state of
   the batch run in a step; o_stop: where get_ksm_input stops; o_icm: initial chord prior;
   o_argsort: np.argsort(-row); o_pick: rank, in the iteration order of the set, of
   list(set)[0]. *)
Record oracle := {
  o_ktm : nat -> list state -> nat -> Z;
  o_ksm : nat -> list state -> nat -> list Z;
  o_csm : nat -> list state -> nat -> list Z;
  o_stop : nat -> state -> bool;
  o_icm : key_mode -> list Z;
  o_argsort : list Z -> list Z;
  o_exp : Z -> Z; o_log : Z -> Z; o_one : Z;
  o_pitch_log : list Z -> list Z -> Z;
  o_pick : list Z -> nat
}.

(* forced_chord_ids, forced_key_ids, duration_cache, onset_level_cache of the piece *)
Record piece_data := { p_forced_c : list Z; p_forced_k : list Z; p_durs : list Z; p_levels : list Z }.

(* cumsum *)
Fixpoint cumsum (acc : Z) (l : list Z) : list Z :=
  match l with [] => [] | x :: r => (acc + x) :: cumsum (acc + x) r end.
(* np.argmax of a boolean row: first True, 0 if there is none *)
Fixpoint first_true (l : list bool) : option nat :=
  match l with [] => None | b :: r => if b then Some O else option_map S (first_true r) end.
(* np.argmax of truth values *)
Definition argmax_bool (l : list bool) : Z :=
  match first_true l with Some i => Z.of_nat i | None => 0 end.
(* np.clip(x, 1, m) *)
Definition clip1 (x m : Z) : Z := Z.min (Z.max x 1) m.
(* joint_model.py:870-883 and 1243-1256: how many of the sorted options are branched on *)
Definition branch_count (target max_branch : Z) (sorted_probs : list Z) : Z :=
  clip1 (argmax_bool (map (fun c => target <=? c) (cumsum 0 sorted_probs)) + 1) max_branch.

(* np.take_along_axis(row, order) *)
Definition take_along (l order : list Z) : res (list Z) := mapM (py_nth l) order.

(* one entry of chord_ranges_dict[start] (883-907) *)
Record range_data := {
  r_start : nat; r_end : nat; r_log : Z; r_rejoin : Z;
  r_prior : list Z; r_order : list Z; r_max : Z
}.
(* joint_model.py:883-907, one range *)
Definition make_range (g : search_cfg) (o : oracle)
  (x : (nat * nat) * Z * Z * list Z) : res range_data :=
  let '(se, lg, rj, prior) := x in
  let (s, e) := se : nat * nat in
  let probs := map (o_exp o) prior in
  let order := o_argsort o probs in
  let! sorted := take_along probs order in
  Ok {| r_start := s; r_end := e; r_log := lg; r_rejoin := rj; r_prior := prior;
        r_order := order; r_max := branch_count (g_target_chord g) (g_max_chord g) sorted |}.
(* zip of the four lists *)
Fixpoint zip4 {A B C D} (a : list A) (b : list B) (c : list C) (d : list D) : list (A * B * C * D) :=
  match a, b, c, d with
  | x :: a', y :: b', z :: c', w :: d' => (x, y, z, w) :: zip4 a' b' c' d'
  | _, _, _, _ => []
  end.

(* set(forced[a:b]) - {-1}, and list(that)[0] *)
Definition forced_set (forced : list Z) (a b : nat) : list Z :=
  nodup Z.eq_dec (filter (fun x => negb (x =? -1)) (py_slice forced (Z.of_nat a) (Z.of_nat b))).
(* list(set)[0]: some element, chosen by the oracle *)
Definition pick (o : oracle) (l : list Z) : option Z :=
  nth_error l (o_pick o l mod length l)%nat.

(* all_states, and every state ever added to a beam (a beam holds indices into it) *)
Record search := { sr_beams : list any_beam; sr_store : list state }.

(* what a beam sees of a state *)
Definition to_bstate (id : nat) (s : state) : bstate :=
  {| s_id := id; s_score := st_logp s; s_tuple := st_hash s |}.

(* beams[i].fits_in_beam(state) *)
Definition fits (sr : search) (at_ : nat) (s : state) (check_hash : bool) : res bool :=
  let! b := hget (sr_beams sr) at_ in
  ab_fits b (to_bstate (length (sr_store sr)) s) check_hash.
(* beams[i].add(state) *)
Definition add_state (sr : search) (at_ : nat) (s : state) (force : bool) : res search :=
  let! b := hget (sr_beams sr) at_ in
  let! b' := ab_add b (to_bstate (length (sr_store sr)) s) force in
  Ok {| sr_beams := upd_nat (sr_beams sr) at_ b'; sr_store := sr_store sr ++ [s] |}.
(* several states, each added to the beam of its change index *)
Fixpoint add_all (sr : search) (l : list state) : res search :=
  match l with
  | [] => Ok sr
  | s :: r => let! sr' := add_state sr (st_change s) s false in add_all sr' r
  end.

(* list(beam) as states *)
Definition beam_content (sr : search) (b : any_beam) : res (list state) :=
  let! l := ab_list b in mapM (fun x => hget (sr_store sr) (s_id x)) l.

Section Search.
Variables (g : search_cfg) (o : oracle) (pd : piece_data).
Let cpt := g_cpt g.
Let kpt := g_kpt g.
Let csm_in := csm_input cpt kpt (p_durs pd) (p_levels pd).
Let ktm_in := ktm_input cpt kpt (p_durs pd) (p_levels pd).

(* state.csm_log_prior = prior (beam_search_utils.py:396-490) *)
Definition set_prior (s : state) (prior : list Z) : state :=
  {| st_chord := st_chord s; st_key := st_key s; st_change := st_change s;
     st_logp := st_logp s; st_prev := st_prev s; st_hash := st_hash s;
     st_prior := prior; st_must := st_must s;
     st_csm := st_csm s; st_ksm := st_ksm s; st_ktm := st_ktm s |}.

(* enumerate *)
Fixpoint mapi {A B} (f : nat -> A -> B) (i : nat) (l : list A) : list B :=
  match l with [] => [] | a :: r => f i a :: mapi f (S i) r end.

(* joint_model.py:1325-1377 run_csm_batched *)
Definition run_csm (step : nat) (l : list state) : res (list state) :=
  let! _ := mapM csm_in l in
  Ok (mapi (fun i s => set_prior s (o_csm o step l i)) 0 l).

(* 986-1021 the loop over the chords of one (state, range) pair *)
Fixpoint branch_chords (sr : search) (step : nat) (s : state) (r : range_data) (chords : list Z)
  : res (list state) :=
  match chords with
  | [] => Ok []
  | c :: rest =>
      let range_length := Z.of_nat (r_end r) - Z.of_nat step in
      let! p := py_nth (r_prior r) c in
      let! new :=
        (if match st_chord s with Some c' => c =? c' | None => false end then
           let! n := rejoin cpt kpt s (r_end r) (r_log r + p * range_length + r_rejoin r) in Ok (Some n)
         else chord_transition cpt kpt s c (r_end r) (r_log r + p * range_length)) in
      match new with
      | None => branch_chords sr step s r rest
      | Some n =>
          let! ok := (if (step =? 0)%nat then Ok true else fits sr (r_end r) n false) in
          if ok : bool then let! more := branch_chords sr step s r rest in Ok (n :: more)
          else Ok []
      end
  end.

(* 954-984 *)
Definition branch_range (sr : search) (step : nat) (s : state) (r : range_data) : res (list state) :=
  let! b := hget (sr_beams sr) (r_end r) in
  let! quick :=
    (if negb (step =? 0)%nat && (0 <? ab_len b) then
       let! top := hget (ab_heap b) 0 in Ok (st_logp s + r_log r <=? s_score top)
     else Ok false) in
  if quick : bool then Ok [] else
  let! max_index :=
    (if r_max r =? 1 then
       let! c := hget (r_order r) 0 in
       Ok (if match st_chord s with Some c' => c =? c' | None => false end then 2 else r_max r)
     else Ok (r_max r)) in
  match pick o (forced_set (p_forced_c pd) step (r_end r)) with
  | Some c => let! _ := hget (r_order r) 0 in branch_chords sr step s r [c]
  | None => branch_chords sr step s r (py_slice (r_order r) 0 max_index)
  end.

(* 1105-1181 get_key_change_probs: the probability is 0 for states that cannot change key *)
Definition key_change_probs (step : nat) (l : list state) : res (list Z) :=
  let! _ := mapM ktm_in l in
  Ok (mapi (fun i s => if can_key_transition s then o_ktm o step l i else 0) 0 l).

(* 1032-1071 the loop body: (appended to to_ksm_states, appended to to_csm_prior_states) *)
Definition key_branch (sr : search) (step : nat) (prob : Z) (s : state)
  : res (list state * list state) :=
  let! p := the_prev s in
  let range_length := Z.of_nat (st_change s) - Z.of_nat (st_change p) in
  let change_lp := o_log o prob * range_length in
  let no_change_lp := o_log o (o_one o - prob) * range_length in
  let can_not_change := (prob <=? g_max_no_key g) && negb (st_must s) in
  let can_change := g_min_key g <=? prob in
  let (can_change, can_not_change) :=
    match pick o (forced_set (p_forced_k pd) (st_change p) (st_change s)) with
    | Some k => if st_key s =? k then (false, negb (st_must s)) else (true, false)
    | None => (can_change, can_not_change)
    end in
  let! change_state := (if can_change && can_not_change then copy_state s else Ok s) in
  if can_change then
    let cs := add_ktm change_state change_lp in
    let! ok := (if (step =? 0)%nat then Ok true else fits sr (st_change cs) cs false) in
    if can_not_change then
      (* change_state is the copy, also when it is already in to_ksm_states *)
      let cs' := add_ktm cs no_change_lp in
      let! ok' := (if (step =? 0)%nat then Ok true else fits sr (st_change s) s true) in
      Ok (if ok : bool then [cs'] else [], if ok' : bool then [s] else [])
    else Ok (if ok : bool then [cs] else [], [])
  else if can_not_change then
    (* change_state is state *)
    let s' := add_ktm change_state no_change_lp in
    let! ok' := (if (step =? 0)%nat then Ok true else fits sr (st_change s') s' true) in
    Ok ([], if ok' : bool then [s'] else [])
  else Ok ([], []).

(* joint_model.py:1032-1071: the states that may change key, and those that stay *)
Fixpoint key_branch_all (sr : search) (step : nat) (l : list (Z * state))
  : res (list state * list state) :=
  match l with
  | [] => Ok ([], [])
  | (p, s) :: r =>
      let! (a, b) := key_branch sr step p s in
      let! (a', b') := key_branch_all sr step r in
      Ok (a ++ a', b ++ b')
  end.

(* 1275-1321 the loop over relative keys for one state; [n] counts valid_states *)
Fixpoint key_loop (s : state) (log_priors : list Z) (max_index : Z) (forced : option Z)
  (order : list Z) (n : Z) : res (list state) :=
  match order with
  | [] => Ok []
  | rid :: rest =>
      let! (mode, interval) := py_nth (relative_key_labels kpt) rid in
      let! (t0, _) := state_key kpt s in
      let tonic := match kpt with MIDI => (t0 + interval) mod 12 | TPC => t0 + interval end in
      if match kpt with MIDI => false
                      | TPC => (tonic <? 0) || (NUM_PITCHES TPC <=? tonic) end
      then key_loop s log_priors max_index forced rest n
      else
        let! key_id := get_key_one_hot_index mode tonic kpt in
        if match forced with Some f => negb (f =? key_id) | None => false end
        then key_loop s log_priors max_index forced rest n
        else if key_id =? st_key s then key_loop s log_priors max_index forced rest n
        else
          let! p := the_prev s in
          let range_length := Z.of_nat (st_change s) - Z.of_nat (st_change p) in
          let! lp := py_nth log_priors rid in
          let! new := key_transition cpt kpt s key_id (lp * g_ksm_exp g * range_length) in
          let is_forced := match forced with Some f => f =? key_id | None => false end in
          match new with
          | Some ns =>
              let n := n + 1 in
              if (max_index <=? n) || is_forced then Ok [ns]
              else let! more := key_loop s log_priors max_index forced rest n in Ok (ns :: more)
          | None =>
              if is_forced then Ok []
              else key_loop s log_priors max_index forced rest n
          end
  end.

(* 1183-1323 get_key_change_states; [hidden_only] runs only the inputs *)
Definition ksm_inputs (step : nat) (l : list state) : res unit :=
  let! _ := mapM (ksm_input cpt kpt (p_durs pd) (p_levels pd) (o_stop o step)) l in Ok tt.
(* joint_model.py:1244-1323: the new keys of one state *)
Definition key_change_one (step : nat) (l : list state) (i : nat) (s : state) : res (list state) :=
  let log_priors := o_ksm o step l i in
  let order := o_argsort o log_priors in
  let! sorted := take_along (map (o_exp o) log_priors) order in
  let max_index := branch_count (g_target_key g) (g_max_key g) sorted in
  let! p := the_prev s in
  let forced := pick o (forced_set (p_forced_k pd) (st_change p) (st_change s)) in
  key_loop s log_priors max_index forced order 0.
(* joint_model.py:1183-1323 *)
Definition key_change_states (step : nat) (l : list state) : res (list state) :=
  let! _ := ksm_inputs step l in
  let! ls := mapM (fun x => x) (mapi (key_change_one step l) 0 l) in
  Ok (concat ls).

(* one iteration of the main loop, 938-1101 *)
Definition search_step (ranges : list range_data) (sr : search) (step : nat) : res search :=
  let! cur := hget (sr_beams sr) step in
  if ab_len cur =? 0 then Ok sr else
  let! states := beam_content sr cur in
  let! states := (if (step =? 0)%nat then Ok states else run_csm step states) in
  let here := filter (fun r => (r_start r =? step)%nat) ranges in
  let! branched := mapM (fun x => branch_range sr step (fst x) (snd x)) (list_prod states here) in
  let to_check := concat branched in
  let! probs := key_change_probs step to_check in
  let! (to_ksm, to_csm) := key_branch_all sr step (combine probs to_check) in
  let! changed := key_change_states step to_ksm in
  let! _ := mapM ktm_in changed in
  let! _ := ksm_inputs step changed in
  let! sr := add_all sr changed in
  let! finished := mapM (add_csm_prior cpt kpt (p_durs pd) (p_levels pd) (g_pitch_based g)
                           (g_use_inv g) (g_red g) (o_pitch_log o)) to_csm in
  let! sr := add_all sr finished in
  let! cur := hget (sr_beams sr) step in
  Ok {| sr_beams := upd_nat (sr_beams sr) step (ab_empty cur); sr_store := sr_store sr |}.

(* 914-926 the initial states *)
Definition initial_state (key : Z) : res state :=
  let! (_, mode) := py_nth (key_labels kpt) key in
  let! h := make_hash (g_hash_length g) None key None in
  Ok {| st_chord := None; st_key := key; st_change := 0; st_logp := 0; st_prev := None;
        st_hash := h; st_prior := o_icm o mode; st_must := false;
        st_csm := None; st_ksm := None; st_ktm := None |}.
(* joint_model.py:914-919: the keys to begin with *)
Definition initial_keys : res (list Z) :=
  let! k := hget (p_forced_k pd) 0 in
  Ok (if k =? -1 then zrange 0 (zlen (key_labels kpt)) else [k]).
(* joint_model.py:920-926: one state per key *)
Fixpoint add_initial (sr : search) (l : list Z) : res search :=
  match l with
  | [] => Ok sr
  | k :: r => let! s := initial_state k in
              let! sr' := add_state sr 0 s true in add_initial sr' r
  end.

(* joint_model.py:938-1101: the loop over the steps *)
Fixpoint search_loop (ranges : list range_data) (sr : search) (steps : list nat) : res search :=
  match steps with
  | [] => Ok sr
  | i :: r => let! sr' := search_step ranges sr i in search_loop ranges sr' r
  end.

(* 839-1103 beam_search *)
Definition run_search (ranges : list range_data) : res search :=
  let n := length (p_durs pd) in
  let! keys := initial_keys in
  let! sr := add_initial {| sr_beams := repeat (new_any (g_hash_length g) (g_beam_size g)) (S n);
                            sr_store := [] |} keys in
  search_loop ranges sr (seq 0 n).
(* joint_model.py:839-1103 *)
Definition beam_search (chord_ranges : list (nat * nat)) (logs rejoins : list Z)
  (classifications : list (list Z)) : res (option state) :=
  let! ranges := mapM (make_range g o) (zip4 chord_ranges logs rejoins classifications) in
  let! sr := run_search ranges in
  let! b := hget (sr_beams sr) (length (p_durs pd)) in
  let! top := ab_top b in
  match top with
  | None => Ok None
  | Some x => let! s := hget (sr_store sr) (s_id x) in Ok (Some s)
  end.
End Search.
