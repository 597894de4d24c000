(* Vocabulary for the runs of the evaluation script. *)
From Coq Require Import QArith Qabs String Ascii.
From Verif Require Import Model_Strings Model_Piece Model_Runs Model_Output Model_Tables Model_Eval Model_Script Spec_Runs.
From Coq Require Import List.
Import ListNotations.
Close Scope Q_scope.
Open Scope Z_scope.

(* the eight accuracies of a result, in the order of their names (Spec_Runs.accuracy_names) *)
Definition measured (root_type tonic_type : pitch_type) (x : subject) (s : state) (accs : list Q) : Prop :=
  let chords ui red := evaluate_chords (sj_piece x) (sj_durs x) s root_type ui red in
  let keys to := evaluate_keys (sj_piece x) (sj_durs x) s tonic_type to in
  Forall2 (fun r q => r = Ok q)
    [chords true NO_REDUCTION; chords false NO_REDUCTION; chords true TRIAD_REDUCTION; chords false TRIAD_REDUCTION;
     chords false ALL_ONE_TYPE_REDUCTION; keys false; keys true;
     evaluate_jointly (sj_piece x) (sj_durs x) s root_type tonic_type true NO_REDUCTION false] accs.
(* the tables of a result *)
Definition tabled (root_type tonic_type : pitch_type) (x : subject) (s : state) (t : @tables table) : Prop :=
  exists labels results midi,
    get_label_table (sj_piece x) (sj_durs x) s root_type tonic_type = Ok labels /\
    get_results (sj_piece x) (sj_durs x) s root_type tonic_type TPC TPC = Ok results /\
    get_results (sj_piece x) (sj_durs x) s root_type tonic_type MIDI MIDI = Ok midi /\
    t = Tables (TLabels labels) (TResults results) (TResults midi).

(* what became of a piece *)
Inductive fate := NoResult | Result (accs : list Q) (t : @tables table).
Definition fared infer (root_type tonic_type : pitch_type) order forces (x : subject) (w : fate) : Prop :=
  exists f said o, choose_forces order forces (sj_name x) = Ok f /\ infer x f = (said : list pystr, Ok o) /\
  match w with
  | NoResult => o = None
  | Result accs t => exists s, o = Some s /\ sj_annotated x = true /\ measured root_type tonic_type x s accs /\ tabled root_type tonic_type x s t
  end.
Definition tables_of (w : fate) : option (@tables table) := match w with NoResult => None | Result _ t => Some t end.
Definition found (ws : list fate) : list (list Q) := flat_map (fun w => match w with NoResult => [] | Result a _ => [a] end) ws.
(* the i-th accuracy of the pieces with a result *)
Definition column (i : nat) (ws : list fate) : list Q := map (fun a => nth i a 0%Q) (found ws).

(* the stricter the question the lower the accuracy *)
Definition graded (accs : list Q) : Prop :=
  match accs with
  | [chord; no_inv; triad; triad_no_inv; root; key; tonic; full] =>
      (0 <= full /\ full <= chord /\ chord <= no_inv /\ no_inv <= triad_no_inv /\ triad_no_inv <= root /\ root <= 1 /\
       chord <= triad /\ triad <= triad_no_inv /\ full <= key /\ key <= tonic /\ tonic <= 1)%Q
  | _ => False
  end.

(* the text of a number is read back as it is, up to eps *)
Definition reads_back (eps : Q) (float_of : pystr -> option Q) (text_of : Q -> pystr) : Prop :=
  forall q, ~ In "="%char (text_of q) /\ exists q', float_of (text_of q ++ [newline]) = Some q' /\ (Qabs (q' - q) <= eps)%Q.
(* lines without a value for the averages *)
Definition silent (lines : list pystr) : Prop := forall line k v, In line lines -> ~ line_says (L" = ") line k v.
(* a message about states in a verbose run, joint_model.py:1691-1696, for n of m states *)
Definition states_line (n m : Z) (value : pystr) : pystr :=
  L"DEBUG:root:    Correct key states accuracy: " ++ z_to_str n ++ L" / " ++ z_to_str m ++ L" = " ++ value ++ [newline].
