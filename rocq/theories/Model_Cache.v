(* The objects of class State and their caches: harmonic_inference/utils/beam_search_utils.py.
   Here states are mutable objects on a heap, unlike in Model_Search, because get_key and
   get_chord write the caches key_obj and chord_obj, and new states take key_obj from others.
   Simplifications: only the fields read by these methods are kept (chord, key, change_index,
   prev_state, key_obj, chord_obj); the calls of a trace name a state by its number; labels are
   those of one joint model (joint_model.py:270-283); onset_cache is not needed.  Key and Chord
   objects are values: nothing writes their fields. *)
From Verif Require Export Model_Search Model_Piece.
Open Scope Z_scope.

(* 84-113 State.__init__ *)
Record cell := mkCell {
  ce_chord : option Z; ce_key : Z; ce_change : nat; ce_prev : option nat;
  ce_kobj : option key_obj; ce_cobj : option full_chord }.
(* all State objects made so far; a reference is a position *)
Definition heap := list cell.

(* a call may change caches and then raise *)
Definition eff (A : Type) : Type := heap -> heap * res A.
(* no effect on the caches *)
Definition eret {A} (x : res A) : eff A := fun h => (h, x).
(* one call after the other; an exception stops, the caches stay changed *)
Definition ebind {A B} (m : eff A) (f : A -> eff B) : eff B :=
  fun h => let (h', r) := m h in match r with Ok a => f a h' | Raise e => (h', Raise e) end.
Notation "'do' x <- m ; k" := (ebind m (fun x => k)) (at level 200, x pattern, m at level 100, k at level 200).

(* the object of a reference *)
Definition the_cell (i : nat) : eff cell :=
  fun h => (h, match nth_error h i with Some c => Ok c | None => Raise Unmodelled end).
(* self.key_obj = k, beam_search_utils.py:749-776 *)
Definition set_kobj (i : nat) (k : key_obj) : eff unit :=
  fun h => (match nth_error h i with
            | Some c => upd_nat h i (mkCell (ce_chord c) (ce_key c) (ce_change c) (ce_prev c) (Some k) (ce_cobj c))
            | None => h end, Ok tt).
(* self.chord_obj = c, beam_search_utils.py:696-747 *)
Definition set_cobj (i : nat) (x : full_chord) : eff unit :=
  fun h => (match nth_error h i with
            | Some c => upd_nat h i (mkCell (ce_chord c) (ce_key c) (ce_change c) (ce_prev c) (ce_kobj c) (Some x))
            | None => h end, Ok tt).
(* a new object; chord_obj is None *)
Definition new_cell (chord : option Z) (key : Z) (change : nat) (prev : option nat) (kobj : option key_obj) : eff nat :=
  fun h => (h ++ [mkCell chord key change prev kobj None], Ok (length h)).

Section Labels.
Variables cpt kpt : pitch_type.          (* of labels["chord"] and labels["key"] *)
Variables durs levels : list Z.          (* duration_cache, onset_level_cache *)

(* 749-776 State.get_key(pitch_type, labels) *)
Fixpoint get_key (fuel : nat) (pt : pitch_type) (i : nat) : eff key_obj :=
  match fuel with
  | O => eret (Raise OutOfFuel)
  | S fuel =>
      do c <- the_cell i;
      match ce_kobj c with
      | Some k => eret (Ok k)
      | None =>
          do (tonic, mode) <- eret (py_nth (key_labels kpt) (ce_key c));
          do (gtonic, gmode) <-
            match ce_prev c with
            | None => eret (Ok (tonic, mode))
            | Some p => do k <- get_key fuel pt p; eret (Ok (k_global k, k_global_mode k))
            end;
          let k := mkKey tonic tonic gtonic mode mode gmode pt in
          do _ <- set_kobj i k; eret (Ok k)
      end
  end.

(* 696-747 State.get_chord(pitch_type, ..) *)
Definition get_chord (pt : pitch_type) (i : nat) : eff full_chord :=
  do c <- the_cell i;
  match ce_cobj c with
  | Some x => eret (Ok x)
  | None =>
      do k <- get_key (S i) pt i;
      do chord <- eret (match ce_chord c with Some x => Ok x | None => Raise TypeError end);
      do (rt, inv) <- eret (py_nth (chord_labels cpt) chord);
      let (root, t) := rt : Z * chord_type in
      do p <- (match ce_prev c with Some p => the_cell p | None => eret (Raise AttributeError) end);
      do bass <- eret (get_bass_note t root inv pt false);
      do on <- eret (py_nth levels (Z.of_nat (ce_change p)));
      do off <- eret (py_nth levels (Z.of_nat (ce_change c)));
      let x := {| fc := {| c_root := root; c_bass := bass; c_tonic := k_rel k; c_mode := k_rel_mode k;
                           c_type := t; c_inv := inv; c_pt := pt |};
                  fc_onset_level := on; fc_offset_level := off;
                  fc_duration := zsum (py_slice durs (Z.of_nat (ce_change p)) (Z.of_nat (ce_change c))) |} in
      do _ <- set_cobj i x; eret (Ok x)
  end.

(* 163-232 State.chord_transition; None if the chord is too far from the key *)
Definition c_chord_transition (pt : pitch_type) (i : nat) (chord : Z) (change : nat) : eff (option nat) :=
  do _ <- the_cell i;
  do (rt, inv) <- eret (py_nth (chord_labels cpt) chord);
  let (root, t) := rt : Z * chord_type in
  do bass <- eret (get_bass_note t root inv pt false);
  do k <- get_key (S i) pt i;
  if outside (MIN_RELATIVE_TPC - RELATIVE_TPC_EXTRA) (MAX_RELATIVE_TPC + RELATIVE_TPC_EXTRA)
       (root - k_rel k) (bass - k_rel k)
  then eret (Ok None)
  else do c <- the_cell i;
       do j <- new_cell (Some chord) (ce_key c) change (Some i) (ce_kobj c);
       eret (Ok (Some j)).

(* 248-308 State.key_transition: key_obj=None *)
Definition c_key_transition (pt : pitch_type) (i : nat) (key : Z) : eff (option nat) :=
  do c <- the_cell i;
  do chord <- eret (match ce_chord c with Some x => Ok x | None => Raise TypeError end);
  do (rt, inv) <- eret (py_nth (chord_labels cpt) chord);
  let (root, t) := rt : Z * chord_type in
  do bass <- eret (get_bass_note t root inv pt false);
  do (tonic, _) <- eret (py_nth (key_labels kpt) key);
  if outside MIN_RELATIVE_TPC MAX_RELATIVE_TPC (root - tonic) (bass - tonic) then eret (Ok None)
  else do _ <- (match ce_prev c with Some p => the_cell p | None => eret (Raise AttributeError) end);
       do j <- new_cell (ce_chord c) key (ce_change c) (ce_prev c) None;
       eret (Ok (Some j)).

(* 310-381 State.rejoin: key and key_obj of prev_state *)
Definition c_rejoin (pt : pitch_type) (i : nat) (new_end : nat) : eff nat :=
  do c <- the_cell i;
  do chord <- eret (match ce_chord c with Some x => Ok x | None => Raise TypeError end);
  do (rt, inv) <- eret (py_nth (chord_labels cpt) chord);
  let (root, t) := rt : Z * chord_type in
  do _ <- eret (get_bass_note t root inv pt false);
  do p <- (match ce_prev c with Some p => the_cell p | None => eret (Raise AttributeError) end);
  do _ <- eret (py_nth (key_labels kpt) (ce_key p));
  new_cell (ce_chord c) (ce_key p) new_end (ce_prev c) (ce_kobj p).

(* 139-161 State.copy *)
Definition c_copy (i : nat) : eff nat :=
  do c <- the_cell i;
  new_cell (ce_chord c) (ce_key c) (ce_change c) (ce_prev c) (ce_kobj c).

(* the calls, and what they return *)
Inductive call :=
| CNew (key : Z)                                   (* State(key=..), joint_model.py:914-926 *)
| CChord (pt : pitch_type) (i : nat) (chord : Z) (change : nat)
| CKey (pt : pitch_type) (i : nat) (key : Z)
| CRejoin (pt : pitch_type) (i : nat) (new_end : nat)
| CCopy (i : nat)
| CGetKey (pt : pitch_type) (i : nat)
| CGetChord (pt : pitch_type) (i : nat).
(* what a call returns or raises *)
Inductive answer := AState (i : nat) | ANone | AKey (k : key_obj) | AChord (c : full_chord) | AError (e : exn).

(* a returned State *)
Definition of_state (r : res nat) : answer := match r with Ok i => AState i | Raise e => AError e end.
(* a returned State or None *)
Definition of_option (r : res (option nat)) : answer :=
  match r with Ok (Some i) => AState i | Ok None => ANone | Raise e => AError e end.
(* a call, by the method it calls *)
Definition run_call (h : heap) (x : call) : heap * answer :=
  match x with
  | CNew key => let (h, r) := new_cell None key 0 None None h in (h, of_state r)
  | CChord pt i chord change => let (h, r) := c_chord_transition pt i chord change h in (h, of_option r)
  | CKey pt i key => let (h, r) := c_key_transition pt i key h in (h, of_option r)
  | CRejoin pt i e => let (h, r) := c_rejoin pt i e h in (h, of_state r)
  | CCopy i => let (h, r) := c_copy i h in (h, of_state r)
  | CGetKey pt i => let (h, r) := get_key (S i) pt i h in (h, match r with Ok k => AKey k | Raise e => AError e end)
  | CGetChord pt i => let (h, r) := get_chord pt i h in (h, match r with Ok c => AChord c | Raise e => AError e end)
  end.
(* calls one after the other; all answers *)
Fixpoint run_calls (h : heap) (l : list call) : list answer :=
  match l with
  | [] => []
  | x :: l => let (h, a) := run_call h x in a :: run_calls h l
  end.
End Labels.
