(* One HarmonicInferenceModel object used for several pieces: harmonic_inference/models/joint_model.py:505-629
   with the attributes of the object and the sets of the caller, which get_harmony keeps and changes
   (575-584, 391).  What is computed from them is that of Model_Infer. *)
From Verif Require Export Model_Infer.
Open Scope Z_scope.

(* A set given by the caller is a location among the caller's sets; None is the new empty set
   that takes its place (575-582). *)
Definition set_ref := option nat.
(* the members of a set; a location that is not there is outside the model *)
Definition members (h : list (list Z)) (r : set_ref) : res (list Z) :=
  match r with
  | None => Ok []
  | Some i => match nth_error h i with Some l => Ok l | None => Raise Unmodelled end
  end.
(* set.remove(0) *)
Definition remove_zero (h : list (list Z)) (r : set_ref) : list (list Z) :=
  match r with
  | None => h
  | Some i => match nth_error h i with
              | Some l => upd_nat h i (filter (fun c => negb (c =? 0)) l)
              | None => h
              end
  end.

(* The piece, the networks' answers for it and the arguments of one call (505-514).  u_type is
   piece.DATA_TYPE, as a number. *)
Record call := {
  u_type : Z; u_durs : list Z; u_levels : list Z; u_nets : networks; u_oracle : oracle;
  u_chord_changes : set_ref; u_chord_non : set_ref; u_key_changes : set_ref; u_key_non : set_ref;
  u_chords : option (list (Z * Z * Z)); u_keys : option (list (Z * Z * Z))
}.

(* The attributes get_harmony leaves on the object (555-586).  onset_cache is only used by the
   debugger (see Model_Debug); the debugger is new in each call (559-563). *)
Record object := {
  b_piece : bool;                       (* current_piece is not None *)
  b_durs : list Z; b_levels : list Z;   (* duration_cache, onset_level_cache *)
  b_chord_changes : set_ref; b_chord_non : set_ref; b_key_changes : set_ref; b_key_non : set_ref;
  b_chords : list (Z * Z * Z); b_keys : list (Z * Z * Z);
  b_chord_ids : list Z; b_key_ids : list Z
}.

(* joint_model.py:555-556: current_piece, before anything is checked *)
Definition hold_piece (b : object) (held : bool) : object :=
  {| b_piece := held; b_durs := b_durs b; b_levels := b_levels b;
     b_chord_changes := b_chord_changes b; b_chord_non := b_chord_non b;
     b_key_changes := b_key_changes b; b_key_non := b_key_non b;
     b_chords := b_chords b; b_keys := b_keys b; b_chord_ids := b_chord_ids b; b_key_ids := b_key_ids b |}.
(* dict() if forced is None else forced (583-584) *)
Definition given_labels (l : option (list (Z * Z * Z))) : list (Z * Z * Z) :=
  match l with None => [] | Some l => l end.
(* joint_model.py:565-586 *)
Definition store_call (b : object) (u : call) : object :=
  {| b_piece := b_piece b; b_durs := u_durs u; b_levels := u_levels u;
     b_chord_changes := u_chord_changes u; b_chord_non := u_chord_non u;
     b_key_changes := u_key_changes u; b_key_non := u_key_non u;
     b_chords := given_labels (u_chords u); b_keys := given_labels (u_keys u);
     b_chord_ids := repeat (-1) (length (u_durs u)); b_key_ids := repeat (-1) (length (u_durs u)) |}.
(* forced_chord_ids and forced_key_ids once they are filled (449).  The arrays are filled in place;
   what an exception leaves in them is not modelled. *)
Definition fill_ids (b : object) (chord_ids key_ids : list Z) : object :=
  {| b_piece := b_piece b; b_durs := b_durs b; b_levels := b_levels b;
     b_chord_changes := b_chord_changes b; b_chord_non := b_chord_non b;
     b_key_changes := b_key_changes b; b_key_non := b_key_non b;
     b_chords := b_chords b; b_keys := b_keys b; b_chord_ids := chord_ids; b_key_ids := key_ids |}.

(* One round of the loop 380-472: 0 is removed from the set itself (389-391), and the sets are read
   afterwards (393-472). *)
Definition load_type_at (durs : list Z) (max_id : Z) (changes non_changes : set_ref)
  (labels : list (Z * Z * Z)) (ids : list Z) (h : list (list Z)) : list (list Z) * res (list Z) :=
  match members h changes with
  | Raise e => (h, Raise e)
  | Ok before =>
      let h := if existsb (Z.eqb 0) before then remove_zero h changes else h in
      (h, let! changes := members h changes in
          let! non_changes := members h non_changes in
          let! _ := change_checks durs changes non_changes in
          let! ids := load_labels max_id ids labels in
          let! _ := check_labels changes non_changes ids in
          Ok ids)
  end.

(* joint_model.py:373-503 on the object and the caller's sets: both afterwards, and what was raised *)
Definition validate_at (g : search_cfg) (w : networks) (b : object) (h : list (list Z))
  : object * list (list Z) * res unit :=
  let max_chord := get_chord_vector_length (g_cpt g) true false (n_inv w) false (n_red w) in
  match load_type_at (b_durs b) max_chord (b_chord_changes b) (b_chord_non b) (b_chords b) (b_chord_ids b) h with
  | (h, Raise e) => (b, h, Raise e)
  | (h, Ok chord_ids) =>
      match load_type_at (b_durs b) (NUM_PITCHES (g_kpt g) * 2) (b_key_changes b) (b_key_non b) (b_keys b)
              (b_key_ids b) h with
      | (h, Raise e) => (b, h, Raise e)
      | (h, Ok key_ids) =>
          let b := fill_ids b chord_ids key_ids in
          (b, h, let! key_changes := members h (b_key_changes b) in
                 let! chord_non := members h (b_chord_non b) in
                 check_both key_changes chord_non (b_chord_ids b) (b_key_ids b))
      end
  end.

(* joint_model.py:590-627: from the attributes and the sets to the harmony *)
Definition harmony_at (g : search_cfg) (cfg : range_cfg) (w : networks) (o : oracle) (b : object)
  (h : list (list Z)) : res (option state) :=
  let! changes := members h (b_chord_changes b) in
  let! non_changes := members h (b_chord_non b) in
  let! ps := apply_forced_chord_changes (n_one w) (n_change w) changes non_changes in
  let! (y, rejoins) := get_chord_ranges cfg
       {| probs := ps; change_log := map (n_log w) ps; no_change_log := map (n_log_not w) ps;
          durs := b_durs b; forced_c := b_chord_ids b; forced_k := b_key_ids b |} in
  let (ranges, logs) := y : list (nat * nat) * list Z in
  beam_search g o {| p_forced_c := b_chord_ids b; p_forced_k := b_key_ids b; p_durs := b_durs b;
                     p_levels := b_levels b |}
    ranges logs rejoins (n_classify w ranges).

(* joint_model.py:505-629 get_harmony.  input_type is that of the model (318).  An ArgumentError would
   reset current_piece (589-591), but none is ever raised (see argument_error). *)
Definition get_harmony_at (g : search_cfg) (cfg : range_cfg) (input_type : Z) (b : object) (h : list (list Z)) (u : call)
  : object * list (list Z) * res (option state) :=
  let b := hold_piece b true in
  if negb (u_type u =? input_type) then (b, h, Raise AssertionError) else
  let b := store_call b u in
  match validate_at g (u_nets u) b h with
  | (b, h, Raise e) => (b, h, Raise e)
  | (b, h, Ok _) =>
      match harmony_at g cfg (u_nets u) (u_oracle u) b h with
      | Raise e => (b, h, Raise e)
      | Ok s => (hold_piece b false, h, Ok s)
      end
  end.

(* Calls one after the other on the same object, as in test.py:211-227 and annotate.py:152-156: the
   sets in the end, and what each call returned or raised.  A call that raises ends those scripts; here
   the caller goes on. *)
Fixpoint session (g : search_cfg) (cfg : range_cfg) (input_type : Z) (b : object) (h : list (list Z)) (l : list call)
  : list (list Z) * list (res (option state)) :=
  match l with
  | [] => (h, [])
  | u :: l =>
      let '(b, h, r) := get_harmony_at g cfg input_type b h u in
      let (h, rs) := session g cfg input_type b h l in (h, r :: rs)
  end.

(* The arguments test.py:67-97 makes from one entry of --forces-json; None: the entry does not have
   the name.  Members of sets are taken to be numbers (Model_Runs has the texts). *)
Record kwargs := {
  k_chord_changes : option (list Z); k_chord_non : option (list Z);
  k_key_changes : option (list Z); k_key_non : option (list Z);
  k_chords : option (list (Z * Z * Z)); k_keys : option (list (Z * Z * Z))
}.
(* test.py:82-90: the sets of an entry, each a new one; where there is none nothing refers to the place *)
Definition sets_of (k : kwargs) : list (list Z) :=
  map (fun s => match s with Some l => l | None => [] end)
    [k_chord_changes k; k_chord_non k; k_key_changes k; k_key_non k].
(* the place of set j of entry i *)
Definition set_at (i j : nat) (s : option (list Z)) : set_ref :=
  match s with Some _ => Some (4 * i + j)%nat | None => None end.
(* test.py:214-227: get_harmony(piece, **forces_dict) with entry i of the file, or with {} *)
Definition call_with (file : list kwargs) (x : Z * list Z * list Z * networks * oracle * option nat) : res call :=
  let '(t, durs, levels, w, o, entry) := x in
  match entry with
  | None => Ok {| u_type := t; u_durs := durs; u_levels := levels; u_nets := w; u_oracle := o;
                  u_chord_changes := None; u_chord_non := None; u_key_changes := None; u_key_non := None;
                  u_chords := None; u_keys := None |}
  | Some i =>
      let! k := match nth_error file i with Some k => Ok k | None => Raise KeyError end in
      Ok {| u_type := t; u_durs := durs; u_levels := levels; u_nets := w; u_oracle := o;
            u_chord_changes := set_at i 0 (k_chord_changes k); u_chord_non := set_at i 1 (k_chord_non k);
            u_key_changes := set_at i 2 (k_key_changes k); u_key_non := set_at i 3 (k_key_non k);
            u_chords := k_chords k; u_keys := k_keys k |}
  end.
(* test.py:209-227: the pieces of a run with one file of forces, on one model *)
Definition test_run (g : search_cfg) (cfg : range_cfg) (input_type : Z) (b : object) (file : list kwargs)
  (pieces : list (Z * list Z * list Z * networks * oracle * option nat)) : res (list (res (option state))) :=
  let! calls := mapM (call_with file) pieces in
  Ok (snd (session g cfg input_type b (flat_map sets_of file) calls)).
