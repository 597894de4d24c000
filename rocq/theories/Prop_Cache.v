(* C77: the cached Key and Chord objects of the search states are invisible. *)
From Verif Require Import Spec_Cache Proof_Base Proof_Cache.
Open Scope Z_scope.

(* Any sequence of calls with one pitch type gets the answers it gets without caches: every key
   has the tonic and mode of its state and the global key of the first state of its path, and every
   chord is that of its state, in its key, from the end of the state before to its own end. *)
Theorem C77_transparent : forall cpt kpt durs levels pt xs,
  Forall (fun x => call_type x = None \/ call_type x = Some pt) xs ->
  run_calls cpt kpt durs levels [] xs = p_calls cpt kpt durs levels pt [] xs.
Proof. intros. apply calls_rel; [apply rel_nil|assumption]. Qed.
Print Assumptions C77_transparent.

(* So it makes no difference which keys and chords were asked for before: leaving out calls of
   get_key and get_chord leaves the other answers as they are. *)
Definition asks (x : call) : bool := match x with CGetKey _ _ | CGetChord _ _ => true | _ => false end.
Definition others (xs : list call) : list call := filter (fun x => negb (asks x)) xs.
Definition answers_of_others (xs : list call) (l : list answer) : list answer :=
  map snd (filter (fun p => negb (asks (fst p))) (combine xs l)).
Theorem C77_asking : forall cpt kpt durs levels pt xs,
  Forall (fun x => call_type x = None \/ call_type x = Some pt) xs ->
  run_calls cpt kpt durs levels [] (others xs) = answers_of_others xs (run_calls cpt kpt durs levels [] xs).
Proof.
  intros cpt kpt durs levels pt xs H. rewrite (C77_transparent _ _ _ _ pt xs H).
  rewrite (C77_transparent _ _ _ _ pt (others xs)).
  2:{ apply Forall_forall. intros x Hx. apply filter_In in Hx as [Hx _]. rewrite Forall_forall in H. exact (H x Hx). }
  clear H. generalize (@nil pstate). induction xs as [|x xs IH]; intros l; [reflexivity|].
  unfold others, answers_of_others. cbn [filter p_calls]. destruct (asks x) eqn:A; cbn [negb].
  - destruct x; try discriminate A; cbn [p_call combine filter fst asks negb map]; apply IH.
  - cbn [p_calls]. destruct (p_call cpt kpt durs levels pt l x) as [l' a]. cbn [combine filter fst]. rewrite A. cbn [negb map snd].
    f_equal. apply IH.
Qed.
Print Assumptions C77_asking.

(* The pitch type of the first call stays: asked again with another pitch type, a state answers
   with the object made for the first one. *)
Theorem C77_pitch_type_refuted : exists cpt kpt durs levels xs pt,
  run_calls cpt kpt durs levels [] (xs ++ [CGetKey pt 0]) <>
    run_calls cpt kpt durs levels [] xs ++ [AKey (mkKey 0 0 0 MAJOR MAJOR MAJOR pt)] /\
  xs = [CNew 0; CGetKey MIDI 0] /\
  run_calls cpt kpt durs levels [] [CNew 0; CGetKey pt 0] = [AState 0; AKey (mkKey 0 0 0 MAJOR MAJOR MAJOR pt)].
Proof.
  exists TPC, TPC, [1], [0; 0], [CNew 0; CGetKey MIDI 0], TPC. split; [vm_compute; discriminate|].
  split; [reflexivity|vm_compute; reflexivity].
Qed.
Print Assumptions C77_pitch_type_refuted.

(* C major; a chord of C; the key turns to G for it (state 2); its key is asked for; the chord is
   then taken to be longer (state 3, in C again); G major chord in G (state 4). *)
Definition trace : list call :=
  [CNew 15; CChord TPC 0 45 1; CKey TPC 1 16; CGetKey TPC 2; CRejoin TPC 2 2; CGetKey TPC 3;
   CGetChord TPC 2; CChord TPC 2 48 3; CGetKey TPC 4; CGetChord TPC 4; CCopy 4; CGetChord TPC 5].
Example C77_ex : Forall (fun x => call_type x = None \/ call_type x = Some TPC) trace /\
  run_calls TPC TPC [4; 5; 6] [3; 0; 1; 3] [] trace =
    [AState 0; AState 1; AState 2; AKey (mkKey 16 16 15 MAJOR MAJOR MAJOR TPC); AState 3;
     AKey (mkKey 15 15 15 MAJOR MAJOR MAJOR TPC);
     AChord {| fc := {| c_root := 15; c_bass := 15; c_tonic := 16; c_mode := MAJOR; c_type := Maj; c_inv := 0; c_pt := TPC |};
               fc_onset_level := 3; fc_offset_level := 0; fc_duration := 4 |};
     AState 4; AKey (mkKey 16 16 15 MAJOR MAJOR MAJOR TPC);
     AChord {| fc := {| c_root := 16; c_bass := 16; c_tonic := 16; c_mode := MAJOR; c_type := Maj; c_inv := 0; c_pt := TPC |};
               fc_onset_level := 0; fc_offset_level := 3; fc_duration := 11 |};
     AState 5;
     AChord {| fc := {| c_root := 16; c_bass := 16; c_tonic := 16; c_mode := MAJOR; c_type := Maj; c_inv := 0; c_pt := TPC |};
               fc_onset_level := 0; fc_offset_level := 3; fc_duration := 11 |}].
Proof. split; [repeat constructor; (left; reflexivity) || (right; reflexivity)|vm_compute; reflexivity]. Qed.
