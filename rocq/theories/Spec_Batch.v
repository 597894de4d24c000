(* What the batches of the neural models should contain and what their evaluation should say.
   Used by Prop_Batch.v. *)
From Coq Require Import QArith.
From Verif Require Import PyBase Model_Types Model_Harmony Model_Dataset Spec_Dataset Model_Batch.
Close Scope Q_scope.
Open Scope Z_scope.

(* Consecutive groups of [size] items; the last one may be smaller *)
Inductive grouped {A} (size : nat) : list A -> list (list A) -> Prop :=
| g_none : grouped size [] []
| g_last : forall l, l <> [] -> (length l <= size)%nat -> grouped size l [l]
| g_more : forall g l gs, length g = size -> l <> [] -> grouped size l gs -> grouped size (g ++ l) (g :: gs).

(* ---- accuracy and loss over a list of answers ---- *)
Definition share_right (l : list (bool * Q)) : Q :=
  (inject_Z (100 * zlen (filter fst l)) / inject_Z (zlen l))%Q.
Definition mean_loss (l : list (bool * Q)) : Q :=
  (fold_right Qplus 0 (map snd l) / inject_Z (zlen l))%Q.
(* the result of an evaluation: these two numbers *)
Definition says (r : res (option Q * option Q)) (l : list (bool * Q)) : Prop :=
  exists a m, r = Ok (Some a, Some m) /\ (a == share_right l)%Q /\ (m == mean_loss l)%Q.

(* the class chosen by a model: the first of the largest entries *)
Definition chosen (o : list Q) (t : Z) : bool :=
  (0 <=? t) &&
  match nth_error o (Z.to_nat t) with
  | None => false
  | Some x => forallb (fun y => Qle_bool y x) o
              && forallb (fun y => negb (Qle_bool x y)) (firstn (Z.to_nat t) o)
  end.
(* a probability is taken as a yes if it is above one half *)
Definition decided (o : Q) (t : Z) : bool :=
  if Qle_bool o (1 # 2) then t =? 0 else t =? 1.

(* ---- what the models are asked ---- *)
(* Chord sequence model: after chord t, which chord is the next?  Not asked after the last
   chord, and not where the key changes (the row of the next chord has 1 at its end). *)
Definition csm_target (d : item_data) (t : nat) : option Z :=
  if (S t <? id_length d)%nat then
    match nth_error (id_inputs d) (S t), nth_error (id_targets d) (S t) with
    | Some r, Some y => if last r 0 =? 1 then None else Some y
    | _, _ => None
    end
  else None.
(* An item of the chord sequence dataset, padded to [width] rows, with [classes] chord symbols *)
Definition csm_item (classes : Z) (width : nat) (d : item_data) : Prop :=
  id_target_length d = Some (id_length d) /\ (1 <= id_length d <= width)%nat /\
  length (id_inputs d) = width /\ length (id_targets d) = width /\
  Forall (fun r => r <> []) (id_inputs d) /\
  Forall (fun y => 0 <= y < classes) (firstn (id_length d) (id_targets d)).

(* the answers of a network to all questions about an item: [question t] is the right answer
   at position t, if there is one *)
Definition answers {O} (outs : list O) (question : nat -> option Z) (n : nat) : list (O * Z) :=
  flat_map (fun t => match nth_error outs t, question t with
                     | Some o, Some y => [(o, y)]
                     | _, _ => []
                     end) (seq 0 n).
Definition csm_answers (net : list row -> list (list Q)) (d : item_data) : list (list Q * Z) :=
  answers (net (firstn (id_length d) (id_inputs d))) (csm_target d) (id_length d).
Definition csm_judged (x : list Q * Z) : bool * Q := (chosen (fst x) (snd x), (- nth (Z.to_nat (snd x)) (fst x) 0)%Q).

(* Chord transition model: is there a chord change at note t?  Asked where the label is known. *)
Definition ctm_target (d : note_item) (t : nat) : option Z :=
  match nth_error (ni_targets d) t with
  | Some y => if y =? IGNORED then None else Some y
  | None => None
  end.
Definition ctm_item (width : nat) (d : note_item) : Prop :=
  ni_target_length d = ni_length d /\ (1 <= ni_length d <= width)%nat /\
  length (ni_inputs d) = width /\ length (ni_targets d) = width /\
  Forall (fun r => 0 < fold_right Qplus 0 r)%Q (firstn (ni_length d) (ni_inputs d)) /\
  Forall (fun r => fold_right Qplus 0 r == 0)%Q (skipn (ni_length d) (ni_inputs d)) /\
  Forall (fun y => y = 0 \/ y = 1 \/ y = IGNORED) (ni_targets d).
Definition ctm_answers (net : list (list Q) -> list Q) (d : note_item) : list (Q * Z) :=
  answers (net (firstn (ni_length d) (ni_inputs d))) (ctm_target d) (ni_length d).

(* Key transition model: does the key change at chord t?  Asked where the item has a 0 or 1. *)
Definition ktm_target (ts : list Z) (t : nat) : option Z :=
  match nth_error ts t with
  | Some y => if y =? IGNORED then None else Some y
  | None => None
  end.
Definition ktm_item (width : nat) (d : key_item) (ts : list Z) : Prop :=
  ki_target d = TransitionTargets ts /\ (1 <= ki_length d <= width)%nat /\
  length (ki_inputs d) = width /\ length ts = width /\
  Forall (fun y => y = 0 \/ y = 1 \/ y = IGNORED) ts /\
  Forall (fun y => y = IGNORED) (skipn (ki_length d) ts).
Definition ktm_answers (net : list row -> list Q) (x : key_item * list Z) : list (Q * Z) :=
  answers (net (firstn (ki_length (fst x)) (ki_inputs (fst x)))) (ktm_target (snd x)) (ki_length (fst x)).

Definition yes_no (bce : Q -> Z -> Q) (x : Q * Z) : bool * Q := (decided (fst x) (snd x), bce (fst x) (snd x)).

(* Models with one answer for each item *)
Definition one_ok {R} (classes : Z) (width : nat) (d : one_item R) : Prop :=
  (1 <= oi_length d <= width)%nat /\ length (oi_inputs d) = width /\ 0 <= oi_target d < classes.
Definition one_answer {R} (last : list R -> list Q) (d : one_item R) : list Q * Z :=
  (last (firstn (oi_length d) (oi_inputs d)), oi_target d).

(* some position of the item has a question *)
Definition asked (question : nat -> option Z) (n : nat) : Prop := exists t y, (t < n)%nat /\ question t = Some y.

(* chord y (its number, relative to the key) follows the chord at t, in the same key *)
Definition next_chord (p : dpiece) (t : nat) (y : Z) : Prop :=
  exists c, nth_error (dp_chords p) (S t) = Some c /\ ~ In (S t) (dp_changes p)
    /\ chord_one_hot (fc c) true true false NO_REDUCTION = Ok y.
(* the pieces have their keys in order and one pitch type *)
Definition good_pieces (pt : pitch_type) (pieces : list dpiece) : Prop :=
  Forall (fun p => valid_piece p /\ Forall (fun c => c_pt (fc c) = pt) (dp_chords p)) pieces.

(* the longest sequence of a batch *)
Definition longest {D} (len : D -> nat) (b : list D) : nat := fold_right Nat.max 0%nat (map len b).
(* an answer with its loss; the loss of log probabilities *)
Definition one_judged (ell : list Q -> Z -> Q) (x : list Q * Z) : bool * Q := (chosen (fst x) (snd x), ell (fst x) (snd x)).
Definition nll_of (o : list Q) (t : Z) : Q := (- nth (Z.to_nat t) o 0)%Q.
