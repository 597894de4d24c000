(* C113: a copy of a search state stands for the original (beam_search_utils.py:139-161 State.copy,
   used in joint_model.py:1056). *)
From Verif Require Import Spec_Search Proof_Base Proof_Search.
Open Scope Z_scope.

(* Every state just made by a chord transition or a rejoin has a copy that agrees with it in all fields: anything done with the copy afterwards
   gives the same as with the original. *)
Theorem C113_built cpt kpt s c e lp n :
  chord_transition cpt kpt s c e lp = Ok (Some n) \/ rejoin cpt kpt s e lp = Ok n ->
  copy_state n = Ok n.
Proof.
  intros [H|H].
  - unfold chord_transition in H. apply bind_ok in H as ([[[root t] inv] bass] & _ & H).
    apply bind_ok in H as ([tonic md] & _ & H). destruct (outside _ _ _ _); [discriminate (Ok_inj _ _ H)|].
    apply bind_ok in H as (h & Eh & H). apply Ok_inj in H. injection H as <-. unfold copy_state, hash_len in *.
    cbn [st_hash st_prev st_key st_chord]. unfold make_hash in Eh |- *. destruct (st_hash s) as [h0|]; apply Ok_inj in Eh; subst h; reflexivity.
  - unfold rejoin in H. apply bind_ok in H as (ch & _ & H). apply bind_ok in H as ([[[root t] inv] bass] & _ & H).
    apply bind_ok in H as (p & _ & H). apply bind_ok in H as ([tonic md] & _ & H). apply bind_ok in H as (h & Eh & H).
    apply Ok_inj in H. subst n. unfold copy_state, hash_len in *. cbn [st_hash st_prev st_key st_chord].
    unfold make_hash in Eh |- *. destruct (st_hash s) as [h0|]; [|apply Ok_inj in Eh; subst h; reflexivity].
    destruct (st_hash p) as [h1|] eqn:E1; [|discriminate]. apply Ok_inj in Eh. subst h. cbn. rewrite ?E1. reflexivity.
Qed.
Print Assumptions C113_built.

(* These are the states that a step of the search copies: all that it gets by branching on a state s
   of the beam with a range r (joint_model.py:956-1026; line 1056 makes the copies). *)
Theorem C113_search g o pd sr step s r l n : st_change s = step ->
  branch_range g o pd sr step s r = Ok l -> In n l -> copy_state n = Ok n.
Proof.
  intros Hs H Hn. destruct (branch_range_rel g o pd sr step s r l Hs H n Hn) as (c & p & _ & _ & [[_ Hj]|[_ Ht]]).
  - exact (C113_built _ _ s c _ _ n (or_intror Hj)).
  - exact (C113_built _ _ s c _ _ n (or_introl Ht)).
Qed.
Print Assumptions C113_search.

(* What a copy always shares with the original, and what it never has. *)
Theorem C113_fields s c : copy_state s = Ok c ->
  st_chord c = st_chord s /\ st_key c = st_key s /\ st_change c = st_change s /\ st_logp c = st_logp s
  /\ st_prev c = st_prev s /\ st_prior c = st_prior s /\ st_must c = st_must s
  /\ st_csm c = None /\ st_ksm c = None /\ st_ktm c = None.
Proof.
  unfold copy_state. intros H. apply bind_ok in H as (h & _ & H). apply Ok_inj in H. subst c. repeat split; reflexivity.
Qed.
Print Assumptions C113_fields.

(* The continuations with another chord or another key from a copy have the scores, keys and ends
   of those from the original. *)
Theorem C113_go_on cpt kpt s c : copy_state s = Ok c ->
  (forall chord e lp n n', chord_transition cpt kpt s chord e lp = Ok n -> chord_transition cpt kpt c chord e lp = Ok n' ->
     match n, n' with
     | Some a, Some b => st_chord a = st_chord b /\ st_key a = st_key b /\ st_change a = st_change b
                         /\ st_logp a = st_logp b /\ st_prior a = st_prior b /\ st_must a = st_must b
     | None, None => True
     | _, _ => False
     end)
  /\ (forall key lp n n', key_transition cpt kpt s key lp = Ok n -> key_transition cpt kpt c key lp = Ok n' ->
     match n, n' with
     | Some a, Some b => st_chord a = st_chord b /\ st_key a = st_key b /\ st_change a = st_change b
                         /\ st_logp a = st_logp b /\ st_prior a = st_prior b /\ st_prev a = st_prev b
     | None, None => True
     | _, _ => False
     end).
Proof.
  intros Hc. destruct (C113_fields s c Hc) as (E1 & E2 & E3 & E4 & E5 & E6 & _). split.
  - intros chord e lp n n' H H'. unfold chord_transition, state_key in H, H'. rewrite E2 in H'.
    apply bind_ok in H as ([[[root t] inv] bass] & Ea & H). rewrite Ea in H'. cbn [bind] in H'.
    apply bind_ok in H as ([tonic md] & Eb & H). rewrite Eb in H'. cbn [bind] in H'.
    destruct (outside (MIN_RELATIVE_TPC - RELATIVE_TPC_EXTRA) _ _ _).
    { apply Ok_inj in H, H'. subst n n'. exact I. }
    apply bind_ok in H as (h & _ & H). apply bind_ok in H' as (h' & _ & H'). apply Ok_inj in H, H'. subst n n'.
    cbn [st_chord st_key st_change st_logp st_prior st_must]. rewrite E4, E6. repeat split; reflexivity.
  - intros key lp n n' H H'. unfold key_transition, the_chord in H, H'. rewrite E1 in H'.
    apply bind_ok in H as (ch & Ea & H). rewrite Ea in H'. cbn [bind] in H'.
    apply bind_ok in H as ([[root t] inv] & Eb & H). rewrite Eb in H'. cbn [bind] in H'.
    apply bind_ok in H as (bass & Ec & H). rewrite Ec in H'. cbn [bind] in H'.
    apply bind_ok in H as ([tonic md] & Ed & H). rewrite Ed in H'. cbn [bind] in H'.
    destruct (outside _ _ _ _).
    { apply Ok_inj in H, H'. subst n n'. exact I. }
    apply bind_ok in H as (h & _ & H). apply bind_ok in H as (u & _ & H). apply bind_ok in H' as (h' & _ & H').
    apply bind_ok in H' as (u' & _ & H'). apply Ok_inj in H, H'. subst n n'.
    cbn [st_chord st_key st_change st_logp st_prior st_prev]. rewrite E3, E4, E5, E6. repeat split; reflexivity.
Qed.
Print Assumptions C113_go_on.

(* The continuation with the same chord: from the copy it keeps the charges of the models that the
   original takes back. *)
Theorem C113_rejoin cpt kpt s c e lp n n' : copy_state s = Ok c ->
  rejoin cpt kpt s e lp = Ok n -> rejoin cpt kpt c e lp = Ok n' ->
  st_logp n' = st_logp n + match st_csm s with Some x => x | None => 0 end
                         + match st_ksm s with Some x => x | None => 0 end
                         + match st_ktm s with Some x => x | None => 0 end.
Proof.
  intros Hc H H'. destruct (C113_fields s c Hc) as (E1 & _ & _ & E4 & E5 & _ & _ & E7 & E8 & E9).
  unfold rejoin in H, H'. apply bind_ok in H as (ch & _ & H). apply bind_ok in H as ([[[root t] inv] bass] & _ & H).
  apply bind_ok in H as (p & _ & H). apply bind_ok in H as ([tonic md] & _ & H). apply bind_ok in H as (h & _ & H).
  apply bind_ok in H' as (ch' & _ & H'). apply bind_ok in H' as ([[[root' t'] inv'] bass'] & _ & H').
  apply bind_ok in H' as (p' & _ & H'). apply bind_ok in H' as ([tonic' md'] & _ & H'). apply bind_ok in H' as (h' & _ & H').
  apply Ok_inj in H, H'. subst n n'. cbn [st_logp]. rewrite E4, E7, E8, E9. unfold opt_sum, zsum. cbn [map fold_right fold_left]. lia.
Qed.
Print Assumptions C113_rejoin.

(* one state of a search: C major for one input, charged 7 by the key model and 5 by the chord model *)
Definition s0 : state := {| st_chord := None; st_key := 0; st_change := 0; st_logp := -3; st_prev := None;
  st_hash := Some [None; Some (Some 0, None)]; st_prior := repeat (-5) 600; st_must := false; st_csm := None; st_ksm := None; st_ktm := None |}.
(* the state s0 after these charges *)
Definition s1 : res state :=
  let! n := chord_transition MIDI MIDI s0 0 1 (-2) in
  match n with
  | Some n => add_csm_prior MIDI MIDI [1; 1; 1] [3; 2; 2; 3] false true NO_REDUCTION (fun _ _ => 0) (add_ktm n (-7))
  | None => Raise ValueError
  end.

(* "Return a deep copy of this State" is refuted for states that have been charged: going on with the
   same chord scores -6 from the original and -18 from its copy. *)
Theorem C113_refuted :
  (let! s := s1 in let! n := rejoin MIDI MIDI s 2 (-1) in Ok (st_logp s, st_logp n)) = Ok (-17, -6)
  /\ (let! s := s1 in let! c := copy_state s in let! n := rejoin MIDI MIDI c 2 (-1) in Ok (st_logp c, st_logp n)) = Ok (-17, -18).
Proof. split; vm_compute; reflexivity. Qed.
Print Assumptions C113_refuted.

Example C113_ex : exists n c m,
  chord_transition MIDI MIDI s0 0 1 (-2) = Ok (Some n) /\ copy_state n = Ok c /\ st_hash c = Some [Some (Some 0, None); Some (Some 0, Some 0)]
  /\ chord_transition MIDI MIDI c 5 2 (-4) = Ok (Some m) /\ st_logp m = -9.
Proof. do 3 eexists. split; [vm_compute; reflexivity|]. split; [vm_compute; reflexivity|]. split; [reflexivity|]. split; [vm_compute; reflexivity|reflexivity]. Qed.
