(* Vocabulary for the debug log of a harmony. *)
From Coq Require Import QArith String Ascii.
From Verif Require Import Model_Strings Model_Rhythm Model_Piece Model_Search Model_Tables Model_Log
  Spec_Piece Spec_Search Spec_Eval Spec_Tables.
From Coq Require Import List.
Import ListNotations.
Close Scope Q_scope.
Open Scope Z_scope.

(* what an entry says is what there is at an input *)
Definition entry_says (h : heard) (l : log_line) : Prop :=
  key_says TPC (fst (h_est_key h)) (snd (h_est_key h)) (fst (lg_est l)) /\
  chord_text TPC (fst (fst (h_est h))) (snd (fst (h_est h))) (snd (h_est h)) (snd (lg_est l)) /\
  (lg_correct l = None <-> h_chord h = h_est h /\ h_key h = h_est_key h) /\
  (forall kt ct, lg_correct l = Some (kt, ct) ->
     key_says TPC (fst (h_key h)) (snd (h_key h)) kt /\
     chord_text TPC (fst (fst (h_chord h))) (snd (fst (h_chord h))) (snd (h_chord h)) ct).
(* the same chords and keys, in force and estimated *)
Definition same_structure (h h' : heard) : Prop :=
  h_chord h = h_chord h' /\ h_est h = h_est h' /\ h_key h = h_key h' /\ h_est_key h = h_est_key h'.
(* an entry for the inputs from a up to b *)
Definition entry_spans (p : piece) (durs : list Q) (a b : nat) (l : log_line) : Prop :=
  (exists n, nth_error (p_notes p) a = Some n /\ lg_start l = no_on n) /\
  ((exists n, nth_error (p_notes p) b = Some n /\ lg_end l = no_on n) \/
   (b = List.length (p_notes p) /\ exists n, nth_error (p_notes p) (b - 1) = Some n /\ lg_end l = no_off n)) /\
  lg_dur l = total (firstn (b - a) (skipn a durs)).
Definition is_right (l : log_line) : bool := match lg_correct l with None => true | Some _ => false end.
