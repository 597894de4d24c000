(* Beams: harmonic_inference/utils/beam_search_utils.py:862-1104. *)
From Verif Require Export Model_Heap.
Open Scope Z_scope.

(* What the beams use of a State (beam_search_utils.py:17-883): its identity (id(state)),
   log_prob and, if hash_length was given, its hash_tuple (lines 96-100): a tuple whose
   entries are None or a (key, chord) pair (chord is None for an initial state).
   Simplification: log_prob is an integer.  Beams only compare scores, and every finite set
   of floats without NaN embeds into the integers preserving <.  The score of a state is
   fixed while it is in a beam (beam_search adds all terms before Beam.add,
   joint_model.py:1040-1101). *)
Record bstate := {
  s_id : nat;
  s_score : Z;
  s_tuple : option (list (option (option Z * option Z)))
}.

(* beam_search_utils.py:862-880: the hash of a tuple, or id(state) *)
Inductive hash :=
| HTuple (t : list (option (option Z * option Z)))
| HId (n : nat).
(* Python == on hashes: a tuple never equals an int. *)
Definition hash_eq_dec (a b : hash) : {a = b} + {a <> b}.
Proof. repeat decide equality. Defined.
(* == of two hashes (1013-1091) *)
Definition hash_eqb (a b : hash) : bool := if hash_eq_dec a b then true else false.

(* beam_search_utils.py:862-880 State.get_hash *)
Definition get_hash (s : bstate) : hash :=
  match s_tuple s with Some t => HTuple t | None => HId (s_id s) end.

(* beam_search_utils.py:882-883 State.__lt__ *)
Definition state_lt (a b : bstate) : bool := s_score a <? s_score b.

(* max(iterable) for States: only __lt__ is defined, so `item > best` is evaluated as the
   reflected `best < item`; the first maximal element is kept. *)
Definition py_max (a : bstate) (l : list bstate) : bstate :=
  fold_left (fun best x => if state_lt best x then x else best) l a.

(* beam_search_utils.py:886-907 Beam.__init__ *)
Record beam := { b_size : Z; b_heap : list bstate }.
(* an empty Beam, 897-907 *)
Definition new_beam (size : Z) : beam := {| b_size := size; b_heap := [] |}.
(* 980-981 Beam.__len__ *)
Definition b_len (b : beam) : Z := zlen (b_heap b).
(* 977-978 Beam.__iter__ *)
Definition b_states (b : beam) : list bstate := b_heap b.

(* 909-930 Beam.fits_in_beam (check_hash is ignored) *)
Definition fits_in_beam (b : beam) (s : bstate) : res bool :=
  if b_len b <? b_size b then Ok true
  else let! top := hget (b_heap b) 0 in Ok (state_lt top s).

(* 932-957 Beam.add: (new beam, added) *)
Definition beam_add (b : beam) (s : bstate) (force : bool) : res (beam * bool) :=
  if negb force && (b_size b <=? b_len b) then
    let! top := hget (b_heap b) 0 in
    if state_lt top s then
      let! (_, h) := heappushpop state_lt (b_heap b) s in
      Ok ({| b_size := b_size b; b_heap := h |}, true)
    else Ok (b, false)
  else
    let! h := heappush state_lt (b_heap b) s in
    Ok ({| b_size := b_size b; b_heap := h |}, true).

(* 959-969 Beam.get_top_state *)
Definition get_top_state (b : beam) : option bstate :=
  match b_states b with [] => None | a :: l => Some (py_max a l) end.

(* 971-975 Beam.empty *)
Definition beam_empty (b : beam) : beam := {| b_size := b_size b; b_heap := [] |}.

(* A sequence of add calls *)
Fixpoint beam_run (b : beam) (ops : list (bstate * bool)) : res beam :=
  match ops with
  | [] => Ok b
  | (s, f) :: r => let! (b', _) := beam_add b s f in beam_run b' r
  end.

(* The attribute state_dict of a HashedBeam: a dict in insertion order, or the empty list
   that HashedBeam.empty() stores there (line 1098). *)
Inductive sdict := DDict (d : list (hash * bstate)) | DList.

(* state_dict[h], 1034, 1068 *)
Fixpoint assoc (d : list (hash * bstate)) (h : hash) : option bstate :=
  match d with
  | [] => None
  | (k, v) :: r => if hash_eqb k h then Some v else assoc r h
  end.
(* state_dict[h] = s, 1049-1091 *)
Fixpoint assoc_set (d : list (hash * bstate)) (h : hash) (s : bstate) : list (hash * bstate) :=
  match d with
  | [] => [(h, s)]
  | (k, v) :: r => if hash_eqb k h then (k, s) :: r else (k, v) :: assoc_set r h s
  end.
(* del state_dict[h], 1049-1091 *)
Fixpoint assoc_del (d : list (hash * bstate)) (h : hash) : list (hash * bstate) :=
  match d with
  | [] => []
  | (k, v) :: r => if hash_eqb k h then r else (k, v) :: assoc_del r h
  end.

(* `h in state_dict` *)
Definition d_in (d : sdict) (h : hash) : bool :=
  match d with DDict l => match assoc l h with Some _ => true | None => false end | DList => false end.
(* indexing or assigning a list with a tuple is a TypeError, with an int past the end an
   IndexError *)
Definition list_index_error (h : hash) : exn :=
  match h with HTuple _ => TypeError | HId _ => IndexError end.
(* state_dict[h] *)
Definition d_get (d : sdict) (h : hash) : res bstate :=
  match d with
  | DDict l => match assoc l h with Some s => Ok s | None => Raise KeyError end
  | DList => Raise (list_index_error h)
  end.
(* state_dict[h] = s *)
Definition d_set (d : sdict) (h : hash) (s : bstate) : res sdict :=
  match d with DDict l => Ok (DDict (assoc_set l h s)) | DList => Raise (list_index_error h) end.
(* del state_dict[h] *)
Definition d_del (d : sdict) (h : hash) : res sdict :=
  match d with
  | DDict l => match assoc l h with Some _ => Ok (DDict (assoc_del l h)) | None => Raise KeyError end
  | DList => Raise (list_index_error h)
  end.

(* 984-1011 HashedBeam; hb_invalid holds the identities of the states on which
   State.invalidate (lines 133-137) was called. *)
Record hbeam := {
  hb_size : Z; hb_heap : list bstate; hb_dict : sdict; hb_invalid : list nat
}.
(* an empty HashedBeam, 1001-1011 *)
Definition new_hbeam (size : Z) : hbeam :=
  {| hb_size := size; hb_heap := []; hb_dict := DDict []; hb_invalid := [] |}.

(* State.is_valid(check_key=False), lines 115-131 *)
Definition live (inv : list nat) (s : bstate) : bool :=
  negb (existsb (Nat.eqb (s_id s)) inv).

(* 1103-1104 HashedBeam.__len__ *)
Definition hb_len (b : hbeam) : Z :=
  match hb_dict b with DDict l => zlen l | DList => 0 end.
(* 1100-1101 HashedBeam.__iter__ *)
Definition hb_states (b : hbeam) : res (list bstate) :=
  match hb_dict b with DDict l => Ok (map snd l) | DList => Raise AttributeError end.

(* 1013-1039 HashedBeam.fits_in_beam *)
Definition hfits_in_beam (b : hbeam) (s : bstate) (check_hash : bool) : res bool :=
  let! global_check :=
    (if hb_len b <? hb_size b then Ok true
     else let! top := hget (hb_heap b) 0 in Ok (state_lt top s)) in
  if global_check && check_hash then
    let h := get_hash s in
    if negb (d_in (hb_dict b) h) then Ok true
    else let! o := d_get (hb_dict b) h in Ok (state_lt o s)
  else Ok global_check.

(* 1041-1047 HashedBeam._fix_beam_min; fuel bounds the number of pops *)
Fixpoint fix_beam_min (fuel : nat) (inv : list nat) (h : list bstate) : res (list bstate) :=
  match fuel with
  | O => Raise OutOfFuel
  | S f =>
      let! top := hget h 0 in
      if live inv top then Ok h
      else let! (_, h') := heappop state_lt h in fix_beam_min f inv h'
  end.

(* 1049-1091 HashedBeam.add *)
Definition hbeam_add (b : hbeam) (s : bstate) (force : bool) : res (hbeam * bool) :=
  let state_hash := get_hash s in
  if d_in (hb_dict b) state_hash then
    let! old := d_get (hb_dict b) state_hash in
    if state_lt old s then
      let inv := s_id old :: hb_invalid b in
      let! d := d_set (hb_dict b) state_hash s in
      let! h := heappush state_lt (hb_heap b) s in
      let! h := fix_beam_min (S (length h)) inv h in
      Ok ({| hb_size := hb_size b; hb_heap := h; hb_dict := d; hb_invalid := inv |}, true)
    else Ok (b, false)
  else if negb force && (hb_size b <=? hb_len b) then
    let! top := hget (hb_heap b) 0 in
    if state_lt top s then
      let! (removed, h) := heappushpop state_lt (hb_heap b) s in
      let! d := d_set (hb_dict b) state_hash s in
      let! d := d_del d (get_hash removed) in
      let! h := fix_beam_min (S (length h)) (hb_invalid b) h in
      Ok ({| hb_size := hb_size b; hb_heap := h; hb_dict := d; hb_invalid := hb_invalid b |}, true)
    else Ok (b, false)
  else
    let! h := heappush state_lt (hb_heap b) s in
    let! d := d_set (hb_dict b) state_hash s in
    Ok ({| hb_size := hb_size b; hb_heap := h; hb_dict := d; hb_invalid := hb_invalid b |}, true).

(* 959-969 get_top_state, inherited: max(self) if len(self) > 0 else None *)
Definition hget_top_state (b : hbeam) : res (option bstate) :=
  if 0 <? hb_len b then
    let! l := hb_states b in
    match l with [] => Raise ValueError | a :: r => Ok (Some (py_max a r)) end
  else Ok None.

(* 1093-1098 HashedBeam.empty *)
Definition hbeam_empty (b : hbeam) : hbeam :=
  {| hb_size := hb_size b; hb_heap := []; hb_dict := DList; hb_invalid := hb_invalid b |}.

(* a sequence of calls of add (1049-1091) on one beam *)
Fixpoint hbeam_run (b : hbeam) (ops : list (bstate * bool)) : res hbeam :=
  match ops with
  | [] => Ok b
  | (s, f) :: r => let! (b', _) := hbeam_add b s f in hbeam_run b' r
  end.
