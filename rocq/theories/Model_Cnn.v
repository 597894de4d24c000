(* The convolutional chord classifier, chord_classifier_models.py:324-427, its encoder and the model that joins
   them, 430-488, in evaluation mode (dropout does nothing, the batch norms work on each row by itself).
   The numbers and their sum, product and relu are arbitrary; the weights are those of some checkpoint. *)
From Verif Require Import PyBase.
Open Scope nat_scope.

Section Cnn.
Variable A : Type.
Variables add mul : A -> A -> A.
Variable relu : A -> A.

(* torch.nn.Linear: in_features, and the weights and the bias of each output *)
Record linear := { l_in : nat; l_rows : list (list A * A) }.
(* chord_classifier_models.py:353-398: for each channel of the convolution its kernels (one for each input channel)
   and its bias; the hidden layers with their batch norms *)
Record cnn := {
  cn_inputs : nat;
  cn_width : nat;
  cn_conv : list (list (list A) * A);
  cn_input : linear;
  cn_norm : option (list A -> list A);
  cn_hidden : list (linear * option (list A -> list A));
  cn_output : linear
}.
(* what forward is given: (batch x pitches) or (batch x channels x pitches), with the number of pitches *)
Inductive tensor :=
| T2 (width : nat) (rows : list (list A))
| T3 (width : nat) (rows : list (list (list A))).

(* the sum of a window with a kernel, from the bias *)
Definition dot (bias : A) (kernel window : list A) : A :=
  fold_left (fun s (kw : A * A) => add s (mul (fst kw) (snd kw))) (combine kernel window) bias.
(* padding_mode="circular", for a padding of at most the width *)
Definition circular (p : nat) (r : list A) : list A := skipn (length r - p) r ++ r ++ firstn p r.
(* the windows of a kernel of width p, stride 1 *)
Definition windows (p : nat) (r : list A) : list (list A) :=
  map (fun i => firstn p (skipn i r)) (seq 0 (length r + 1 - p)).
(* chord_classifier_models.py:370-376, 402: self.conv of one row with a single channel, then relu *)
Definition conv_row (net : cnn) (r : list A) : list (list A) :=
  map (fun c : list (list A) * A =>
         map (fun w => relu (dot (snd c) (concat (fst c)) w)) (windows (cn_width net) (circular (cn_width net) r)))
      (cn_conv net).
(* 402: data.unsqueeze(1) puts a channel between the batch and the rest; Conv1d takes three dimensions, the channels
   it was made for, a kernel that is not empty, and a padding that goes round at most once *)
Definition features (net : cnn) (x : tensor) : res (list (list (list A))) :=
  match x with
  | T3 _ _ => Raise RuntimeError
  | T2 w rows =>
      if negb (cn_inputs net =? 1) then Raise RuntimeError
      else if cn_width net =? 0 then Raise RuntimeError
      else if w <? cn_width net then Raise RuntimeError
      else Ok (map (conv_row net) rows)
  end.
(* torch.reshape(n, -1) of the entries: RuntimeError if -1 is not determined; gives the width too *)
Definition reshape (n : nat) (entries : list A) : res (nat * list (list A)) :=
  if n =? 0 then Raise RuntimeError
  else if negb (length entries mod n =? 0) then Raise RuntimeError
  else let q := length entries / n in
       Ok (q, map (fun i => firstn q (skipn (i * q) entries)) (seq 0 n)).
(* Linear of rows of width w, then relu *)
Definition lin (l : linear) (w : nat) (rows : list (list A)) : res (nat * list (list A)) :=
  if negb (w =? l_in l) then Raise RuntimeError
  else Ok (length (l_rows l), map (fun r => map (fun o : list A * A => relu (dot (snd o) (fst o) r)) (l_rows l)) rows).
(* 409-410, 416-417: a batch norm, if there is one *)
Definition norm (n : option (list A -> list A)) (rows : list (list A)) : list (list A) :=
  match n with None => rows | Some f => map f rows end.
(* 408-417: the input layer and the hidden ones *)
Definition layers (net : cnn) (w : nat) (rows : list (list A)) : res (nat * list (list A)) :=
  let! x := lin (cn_input net) w rows in
  fold_left (fun (acc : res (nat * list (list A))) (h : linear * option (list A -> list A)) =>
               let! y := acc in
               let! z := lin (fst h) (fst y) (snd y) in
               Ok (fst z, norm (snd h) (snd z)))
            (cn_hidden net) (Ok (fst x, norm (cn_norm net) (snd x))).
(* 407-420: the feed-forward network that is applied to each row *)
Definition parallel (net : cnn) (w : nat) (rows : list (list A)) : res (list (list A)) :=
  let! x := layers net w rows in
  let! y := lin (cn_output net) (fst x) (snd x) in
  Ok (snd y).
(* 423: reshape(shape[0] / 12, -1): the quotient is a float, and reshape takes integers only *)
Definition combine_out (rows : list (list A)) : res (list (list A)) := Raise TypeError.
(* chord_classifier_models.py:400-424 forward *)
Definition cnn_forward (net : cnn) (x : tensor) : res (list (list A)) :=
  let! conv := features net x in
  let! p := reshape (length conv * 12) (concat (map (@concat A) conv)) in
  let! out := parallel net (fst p) (snd p) in
  combine_out out.
End Cnn.
Arguments l_in {A}. Arguments l_rows {A}. Arguments cn_inputs {A}. Arguments cn_width {A}. Arguments cn_conv {A}.
Arguments cn_input {A}. Arguments cn_norm {A}. Arguments cn_hidden {A}. Arguments cn_output {A}.
Arguments Build_linear {A}. Arguments Build_cnn {A}. Arguments T2 {A}. Arguments T3 {A}.
Arguments dot {A}. Arguments circular {A}. Arguments windows {A}. Arguments conv_row {A}. Arguments features {A}.
Arguments reshape {A}. Arguments lin {A}. Arguments norm {A}. Arguments layers {A}. Arguments parallel {A}.
Arguments combine_out {A}. Arguments cnn_forward {A}.

(* chord_classifier_models.py:442-443 TransformerEncoder.forward returns None, whatever it is given *)
Definition encoder_forward {D} (data : option D) : res (option D) := Ok None.
(* a classifier that is given None: data.unsqueeze raises AttributeError *)
Definition on_tensor {D} (f : D -> res D) (data : option D) : res (option D) :=
  match data with None => Raise AttributeError | Some d => let! o := f d in Ok (Some o) end.
(* chord_classifier_models.py:468-488 MusicScoreJointModel.forward *)
Definition joint_forward {D} (encoder classifier : option D -> res (option D)) (data : option D) (stages : list nat)
  : res (option D) :=
  let! d := (if existsb (Nat.eqb 0) stages then encoder data else Ok data) in
  if existsb (Nat.eqb 1) stages then classifier d else Ok d.
