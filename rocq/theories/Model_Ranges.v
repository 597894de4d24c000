(* Candidate chord ranges: harmonic_inference/models/joint_model.py:652-791.
   Simplifications: probabilities and thresholds are integers (numerators over a common
   denominator; floats are dyadic rationals, so any finite set has one), durations
   (Fractions) are integers over a common denominator; log probabilities are arbitrary
   integers given as arrays (change_log, no_change_log) and added exactly. *)
From Verif Require Export Model_Heap.
Open Scope nat_scope.

(* The parameters of HarmonicInferenceModel used here (joint_model.py:287-293; the
   constructor asserts min_chord_change_prob <= max_no_chord_change_prob). *)
Record range_cfg := { min_change : Z; max_no_change : Z; max_length : Z }.

(* The per-input arrays: change_probs, change_log_probs, no_change_log_probs (702-703),
   duration_cache, forced_chord_ids, forced_key_ids (-1: not forced; 585-586). *)
Record range_in := {
  probs : list Z; change_log : list Z; no_change_log : list Z;
  durs : list Z; forced_c : list Z; forced_k : list Z
}.

(* np.roll(duration_cache == 0, 1); invalid[0] = True (698-699) *)
Definition invalid_mask (ds : list Z) : list bool :=
  match rev (map (fun d => Z.eqb d 0) ds) with
  | [] => []
  | _ :: r => true :: rev r
  end.

(* set.add *)
Definition set_add (x : Z) (s : list Z) : list Z :=
  if existsb (Z.eqb x) s then s else x :: s.

(* What the loops update: the priority queue, in_starts, chord_ranges, range_log_probs. *)
Record wl := {
  w_starts : list nat; w_in : list bool; w_ranges : list (nat * nat); w_logs : list Z
}.

(* The for loop 725-779 over zip(...) with index counting from start + 1.  Result: the
   updated work list, reached_end and running_log_prob. *)
Fixpoint scan (cfg : range_cfg) (invalid : list bool) (start index : nat)
    (cps cls ncls ds fcs fks : list Z)
    (forced_chords forced_keys : list Z) (running_log running_dur : Z) (w : wl) {struct cps}
  : res (wl * bool * Z) :=
  match cps, cls, ncls, ds, fcs, fks with
  | cp :: cps', cl :: cls', ncl :: ncls', dur :: ds', fc :: fcs', fk :: fks' =>
      let! inv := hget invalid index in
      if inv : bool then
        scan cfg invalid start (S index) cps' cls' ncls' ds' fcs' fks'
          forced_chords forced_keys running_log running_dur w
      else
        let forced_chords := if Z.eqb fc (-1) then forced_chords else set_add fc forced_chords in
        if negb (Z.eqb fc (-1)) && (1 <? length forced_chords) then Ok (w, false, running_log) else
        let forced_keys := if Z.eqb fk (-1) then forced_keys else set_add fk forced_keys in
        if negb (Z.eqb fk (-1)) && (1 <? length forced_keys) then Ok (w, false, running_log) else
        let running_dur := (running_dur + dur)%Z in
        if Z.ltb (max_length cfg) running_dur then Ok (w, false, running_log) else
        if Z.leb (min_change cfg) cp then
          let! seen := hget (w_in w) index in
          let! starts' := (if seen : bool then Ok (w_starts w)
                           else heappush Nat.ltb (w_starts w) index) in
          let w := {| w_starts := starts';
                      w_in := if seen then w_in w else upd_nat (w_in w) index true;
                      w_ranges := w_ranges w ++ [(start, index)];
                      w_logs := w_logs w ++ [(running_log + cl)%Z] |} in
          if Z.ltb (max_no_change cfg) cp then Ok (w, false, running_log)
          else scan cfg invalid start (S index) cps' cls' ncls' ds' fcs' fks'
                 forced_chords forced_keys (running_log + ncl)%Z running_dur w
        else
          scan cfg invalid start (S index) cps' cls' ncls' ds' fcs' fks'
            forced_chords forced_keys (running_log + ncl)%Z running_dur w
  | _, _, _, _, _, _ => Ok (w, true, running_log)
  end.

(* The while loop 713-784. *)
Fixpoint ranges_loop (fuel : nat) (cfg : range_cfg) (a : range_in) (w : wl) : res wl :=
  match w_starts w with
  | [] => Ok w
  | _ =>
      match fuel with
      | O => Raise OutOfFuel
      | S f =>
          let! (start, starts) := heappop Nat.ltb (w_starts w) in
          let w := {| w_starts := starts; w_in := w_in w; w_ranges := w_ranges w; w_logs := w_logs w |} in
          let! running_dur := (if start =? 0 then hget (durs a) start else Ok 0%Z) in
          let! (w, reached_end, running_log) :=
            scan cfg (invalid_mask (durs a)) start (S start)
              (skipn (S start) (probs a)) (skipn (S start) (change_log a))
              (skipn (S start) (no_change_log a)) (skipn start (durs a))
              (skipn start (forced_c a)) (skipn start (forced_k a))
              [] [] 0%Z running_dur w in
          let w := if reached_end then
                     {| w_starts := w_starts w; w_in := w_in w;
                        w_ranges := w_ranges w ++ [(start, length (probs a))];
                        w_logs := w_logs w ++ [running_log] |}
                   else w in
          ranges_loop f cfg a w
      end
  end.

(* joint_model.py:669-791 get_chord_ranges: (chord_ranges, range_log_probs,
   rejoin_log_probs).  in_starts[0] = True on an empty piece is an IndexError.  The fuel is
   the number of inputs plus one; the theorems show it suffices. *)
Definition get_chord_ranges (cfg : range_cfg) (a : range_in)
  : res (list (nat * nat) * list Z * list Z) :=
  let n := length (probs a) in
  if n =? 0 then Raise IndexError else
  let w0 := {| w_starts := [0]; w_in := upd_nat (repeat false n) 0 true;
               w_ranges := []; w_logs := [] |} in
  let! w := ranges_loop (S n) cfg a w0 in
  let! rejoin := mapM (fun r => let! x := hget (no_change_log a) (fst r) in
                                let! y := hget (change_log a) (fst r) in Ok (x - y)%Z)
                      (w_ranges w) in
  Ok (w_ranges w, w_logs w, rejoin).

(* joint_model.py:652-667 _apply_forced_chord_changes: change_probs[list(set)] = 1.0 / 0.0.
   [one] is the integer standing for 1.0.  Indices are the elements of the Python sets;
   numpy accepts negative ones and raises IndexError out of range. *)
Fixpoint assign_all (ps : list Z) (idx : list Z) (v : Z) : res (list Z) :=
  match idx with
  | [] => Ok ps
  | i :: r => let! ps' := py_upd ps i v in assign_all ps' r v
  end.
(* joint_model.py:652-667 *)
Definition apply_forced_chord_changes (one : Z) (ps : list Z) (changes non_changes : list Z)
  : res (list Z) :=
  let! ps1 := assign_all ps changes one in
  assign_all ps1 non_changes 0%Z.
