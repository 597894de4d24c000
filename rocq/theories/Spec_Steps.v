(* What the steps of training and validation should say.  Used by Prop_Steps.v. *)
From Coq Require Import QArith.
From Verif Require Import PyBase Model_Types Model_Dataset Model_Batch Model_Steps Spec_Batch.
Close Scope Q_scope.
Open Scope Z_scope.

(* the loss of a step is the mean over these answers *)
Definition trained (r : res (option Q)) (l : list (bool * Q)) : Prop := exists m, r = Ok (Some m) /\ (m == mean_loss l)%Q.
(* what is logged is the mean loss and the percentage of right answers *)
Definition logs (v : logged) (l : list (bool * Q)) : Prop :=
  exists m a, v = mkLog (Some m) (Some a) /\ (m == mean_loss l)%Q /\ (a == share_right l)%Q.
(* an item of the classifier of [width] rows, whose chord is one of the classes or not known *)
Definition one_item_ok {R} (classes : Z) (width : nat) (d : one_item R) : Prop :=
  (1 <= width)%nat /\ length (oi_inputs d) = width /\ (oi_length d <= width)%nat /\
  (oi_target d = -1 \/ (1 <= oi_length d)%nat /\ 0 <= oi_target d < classes).
(* the items whose chord is known *)
Definition known_items {R} (b : list (one_item R)) : list (one_item R) := filter (fun d => 0 <=? oi_target d) b.

(* ---- the pitch-based chord sequence model ---- *)
(* After chord t: which pitches does the next chord have?  Not asked after the last chord, where the key changes
   (the row is -100), and if the next chord has the first pitch of the range in it (cf. C87_pitch_refuted). *)
Definition pitch_question (d : pitch_item) (t : nat) : option row :=
  if (S t <? pi_length d)%nat then
    match nth_error (pi_targets d) (S t) with Some (0 :: r) => Some (0 :: r) | _ => None end
  else None.
Definition pitch_answers (net : list row -> list (list Q)) (d : pitch_item) : list (list Q * row) :=
  flat_map (fun t => match nth_error (net (firstn (pi_length d) (pi_inputs d))) t, pitch_question d t with
                     | Some o, Some r => [(o, r)]
                     | _, _ => []
                     end) (seq 0 (pi_length d)).
(* an item padded to [width] rows, with targets for [pitches] pitches each: 0 or 1, or a blank row; the first row
   and the padding are blank *)
Definition pitch_item_ok (pitches width : nat) (d : pitch_item) : Prop :=
  (1 <= pi_length d <= width)%nat /\ length (pi_inputs d) = width /\ length (pi_targets d) = width /\ (1 <= pitches)%nat /\
  (forall t r, nth_error (pi_targets d) t = Some r -> length r = pitches /\ (Forall (fun x => x = 0 \/ x = 1) r \/ hd 0 r = -100)) /\
  (forall t r, nth_error (pi_targets d) t = Some r -> t = 0%nat \/ (pi_length d <= t)%nat -> hd 0 r = -100).
(* one answer for each pitch *)
Definition pitch_judged (bce : Q -> Z -> Q) (x : list Q * row) : list (bool * Q) := map (yes_no bce) (combine (fst x) (snd x)).
