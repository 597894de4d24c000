(* One model object used for several pieces: what a call asks for, taken by itself. *)
From Verif Require Export Model_Reuse Spec_Infer.
Open Scope Z_scope.

(* what the caller's sets and dictionaries say when the call is written down *)
Definition asked (h : list (list Z)) (u : call) (q : request) : Prop :=
  members h (u_chord_changes u) = Ok (q_chord_changes q)
  /\ members h (u_chord_non u) = Ok (q_chord_non q)
  /\ members h (u_key_changes u) = Ok (q_key_changes q)
  /\ members h (u_key_non u) = Ok (q_key_non q)
  /\ q_chords q = match u_chords u with None => [] | Some l => l end
  /\ q_keys q = match u_keys u with None => [] | Some l => l end.

(* what the call gives on a new model, with sets nobody else has *)
Definition alone (g : search_cfg) (cfg : range_cfg) (input_type : Z) (u : call) (q : request) : res (option state) :=
  if u_type u =? input_type then get_harmony g cfg (u_nets u) (u_oracle u) (u_durs u) (u_levels u) q
  else Raise AssertionError.

(* set i is used for changes in some call *)
Definition for_changes (l : list call) (i : nat) : Prop :=
  exists u, In u l /\ (u_chord_changes u = Some i \/ u_key_changes u = Some i).
(* set i is used for non-changes in some call *)
Definition for_non_changes (l : list call) (i : nat) : Prop :=
  exists u, In u l /\ (u_chord_non u = Some i \/ u_key_non u = Some i).
(* no set is used for both *)
Definition apart (l : list call) : Prop := forall i, for_changes l i -> for_non_changes l i -> False.

(* the same set, or the same set without 0 *)
Definition but_zero (before after : list Z) : Prop :=
  after = before \/ (In 0 before /\ after = filter (fun c => negb (c =? 0)) before).

(* the forces an entry of the file names; absent names are no forces *)
Definition named (k : option kwargs) : request :=
  let set (f : kwargs -> option (list Z)) := match k with Some k => match f k with Some l => l | None => [] end | None => [] end in
  let labels (f : kwargs -> option (list (Z * Z * Z))) := match k with Some k => match f k with Some l => l | None => [] end | None => [] end in
  {| q_chord_changes := set k_chord_changes; q_chord_non := set k_chord_non; q_key_changes := set k_key_changes;
     q_key_non := set k_key_non; q_chords := labels k_chords; q_keys := labels k_keys |}.
(* a piece of input type t gets the harmony for it and the entry of its own, whatever else is in the run *)
Definition by_itself (g : search_cfg) (cfg : range_cfg) (input_type : Z) (file : list kwargs)
  (x : Z * list Z * list Z * networks * oracle * option nat) : res (option state) :=
  let '(t, durs, levels, w, o, entry) := x in
  if t =? input_type
  then get_harmony g cfg w o durs levels (named (match entry with Some i => nth_error file i | None => None end))
  else Raise AssertionError.
