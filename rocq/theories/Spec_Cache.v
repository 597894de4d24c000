(* States as values without caches: the key and the chord of a state are computed afresh at
   every call. *)
From Verif Require Export Model_Cache.
Open Scope Z_scope.

Inductive pstate := mkP (chord : option Z) (key : Z) (change : nat) (prev : option pstate).
Definition p_chord s := let 'mkP c _ _ _ := s in c.
Definition p_key s := let 'mkP _ k _ _ := s in k.
Definition p_change s := let 'mkP _ _ n _ := s in n.
Definition p_prev s := let 'mkP _ _ _ p := s in p.

(* the state the path of s starts with *)
Fixpoint origin (s : pstate) : pstate := match s with mkP _ _ _ None => s | mkP _ _ _ (Some p) => origin p end.

Definition or_type {A} (x : option A) : res A := match x with Some a => Ok a | None => Raise TypeError end.
Definition or_attr {A} (x : option A) : res A := match x with Some a => Ok a | None => Raise AttributeError end.

Section Plain.
Variables cpt kpt : pitch_type.
Variables durs levels : list Z.
Variable pt : pitch_type.                (* the pitch type given in the calls *)

(* its own tonic and mode; the global key is that of the origin *)
Definition own_key (s : pstate) : res key_obj :=
  let! (tonic, mode) := py_nth (key_labels kpt) (p_key s) in
  let! (gtonic, gmode) := py_nth (key_labels kpt) (p_key (origin s)) in
  Ok (mkKey tonic tonic gtonic mode mode gmode pt).
(* root and bass of the chord with this id *)
Definition notes_of (chord : Z) : res (Z * chord_type * Z) :=
  let! (rt, inv) := py_nth (chord_labels cpt) chord in Ok (rt, inv).
Definition own_chord (s : pstate) : res full_chord :=
  let! k := own_key s in
  let! chord := or_type (p_chord s) in
  let! (rt, inv) := notes_of chord in
  let (root, t) := rt : Z * chord_type in
  let! p := or_attr (p_prev s) in
  let! bass := get_bass_note t root inv pt false in
  let! on := py_nth levels (Z.of_nat (p_change p)) in
  let! off := py_nth levels (Z.of_nat (p_change s)) in
  Ok {| fc := {| c_root := root; c_bass := bass; c_tonic := k_rel k; c_mode := k_rel_mode k;
                 c_type := t; c_inv := inv; c_pt := pt |};
        fc_onset_level := on; fc_offset_level := off;
        fc_duration := zsum (py_slice durs (Z.of_nat (p_change p)) (Z.of_nat (p_change s))) |}.

Definition p_chord_transition (s : pstate) (chord : Z) (change : nat) : res (option pstate) :=
  let! (rt, inv) := notes_of chord in
  let (root, t) := rt : Z * chord_type in
  let! bass := get_bass_note t root inv pt false in
  let! k := own_key s in
  if outside (-19) 20 (root - k_rel k) (bass - k_rel k) then Ok None
  else Ok (Some (mkP (Some chord) (p_key s) change (Some s))).
Definition p_key_transition (s : pstate) (key : Z) : res (option pstate) :=
  let! chord := or_type (p_chord s) in
  let! (rt, inv) := notes_of chord in
  let (root, t) := rt : Z * chord_type in
  let! bass := get_bass_note t root inv pt false in
  let! (tonic, _) := py_nth (key_labels kpt) key in
  if outside (-14) 15 (root - tonic) (bass - tonic) then Ok None
  else let! p := or_attr (p_prev s) in Ok (Some (mkP (p_chord s) key (p_change s) (Some p))).
Definition p_rejoin (s : pstate) (new_end : nat) : res pstate :=
  let! chord := or_type (p_chord s) in
  let! (rt, inv) := notes_of chord in
  let (root, t) := rt : Z * chord_type in
  let! _ := get_bass_note t root inv pt false in
  let! p := or_attr (p_prev s) in
  let! _ := py_nth (key_labels kpt) (p_key p) in
  Ok (mkP (p_chord s) (p_key p) new_end (Some p)).

Definition the_state (l : list pstate) (i : nat) : res pstate :=
  match nth_error l i with Some s => Ok s | None => Raise Unmodelled end.
Definition made_opt (l : list pstate) (r : res (option pstate)) : list pstate * answer :=
  match r with
  | Ok (Some s) => (l ++ [s], AState (length l))
  | Ok None => (l, ANone)
  | Raise e => (l, AError e)
  end.
Definition made (l : list pstate) (r : res pstate) : list pstate * answer :=
  made_opt l (let! s := r in Ok (Some s)).
Definition p_call (l : list pstate) (x : call) : list pstate * answer :=
  match x with
  | CNew key => made l (Ok (mkP None key 0 None))
  | CChord _ i chord change => made_opt l (let! s := the_state l i in p_chord_transition s chord change)
  | CKey _ i key => made_opt l (let! s := the_state l i in p_key_transition s key)
  | CRejoin _ i e => made l (let! s := the_state l i in p_rejoin s e)
  | CCopy i => made l (the_state l i)
  | CGetKey _ i => (l, match (let! s := the_state l i in own_key s) with Ok k => AKey k | Raise e => AError e end)
  | CGetChord _ i => (l, match (let! s := the_state l i in own_chord s) with Ok c => AChord c | Raise e => AError e end)
  end.
Fixpoint p_calls (l : list pstate) (xs : list call) : list answer :=
  match xs with
  | [] => []
  | x :: xs => let (l, a) := p_call l x in a :: p_calls l xs
  end.
End Plain.

(* the pitch type given with a call *)
Definition call_type (x : call) : option pitch_type :=
  match x with
  | CNew _ | CCopy _ => None
  | CChord pt _ _ _ | CKey pt _ _ | CRejoin pt _ _ | CGetKey pt _ | CGetChord pt _ => Some pt
  end.
