(* Vocabulary for the runs of the annotation script. *)
From Coq Require Import QArith String Ascii Permutation.
From Verif Require Import Model_Strings Model_Rhythm Model_Piece Model_Output Model_Tables Model_Infer Model_Models Model_Annotate
  Spec_Music Spec_Piece Spec_Search Spec_Total Spec_Models Spec_Eval.
From Coq Require Import List.
Import ListNotations.
Close Scope Q_scope.
Open Scope Z_scope.

Notation annotation := (list (pystr * note)).
(* What a table says: there is a division of the notes into chords and one into keys, both with known labels, and
   at the onset of every note (the last one of its onset, the others have no duration) the table gives the texts of
   its chord and its key. *)
Definition analysis (root_type tonic_type : pitch_type) (x : subject) (rows : annotation) : Prop :=
  let notes := p_notes (sj_piece x) in
  exists chord_texts key_texts (chords : list Z) chord_cuts (keys : list Z) key_cuts,
    get_chord_label_list root_type true false None false NO_REDUCTION = Ok chord_texts /\
    get_key_label_list tonic_type false None = Ok key_texts /\
    segmentation chords chord_cuts (length notes) /\ segmentation keys key_cuts (length notes) /\
    no_adjacent_equal chords /\ no_adjacent_equal keys /\
    (forall i, In i (chord_cuts ++ key_cuts) -> (0 < i < length notes)%nat -> ~ (nth (i - 1) (sj_durs x) 0 == 0)%Q) /\
    forall i n, nth_error notes i = Some n -> exists e f chord key,
      labelled chords chord_cuts i e /\ labelled keys key_cuts i f /\
      0 <= e /\ 0 <= f /\ nth_error chord_texts (Z.to_nat e) = Some chord /\ nth_error key_texts (Z.to_nat f) = Some key /\
      (~ (nth i (sj_durs x) 0 == 0)%Q ->
         reads (filter (fun r => negb (key_text (fst r))) rows) (no_on n) chord /\
         reads (filter (fun r => key_text (fst r)) rows) (no_on n) key).

(* what became of a piece *)
Definition answered (infer : subject -> list pystr * res (option state)) (root_type tonic_type : pitch_type) (x : subject)
  (w : option annotation) : Prop :=
  match w with
  | None => snd (infer x) = Ok None
  | Some rows => exists s, snd (infer x) = Ok (Some s) /\ get_annotation (sj_piece x) (sj_durs x) s root_type tonic_type = Ok rows
  end.

(* A piece the model can work on: it has notes, in order, with the durations of its cache; the networks give as many
   numbers as they should; the levels are levels; and the chords the classifier prefers have a bass that can be
   spelled. *)
Record workable (scale dscale : Q -> Z) (j : joint) (w : networks) (o : oracle) (levels : list Z) (x : subject) : Prop := {
  wk_notes : p_notes (sj_piece x) <> [];
  wk_durs : exists last ms, get_duration_cache (map no_on (p_notes (sj_piece x))) last ms = Ok (sj_durs x);
  wk_order : in_order (map no_on (p_notes (sj_piece x)));
  wk_scaled : forall d, In d (sj_durs x) -> (dscale d = 0 <-> (d == 0)%Q);
  wk_change : length (n_change w) = length (sj_durs x);
  wk_classify : forall ranges, length (n_classify w ranges) = length ranges;
  wk_outputs : forall ranges, outputs j o (n_classify w ranges);
  wk_levels : length levels = S (length (sj_durs x)) /\ forall l, In l levels -> 0 <= l < 4;
  wk_sort : forall l, Permutation (o_argsort o l) (zrange 0 (zlen l));
  wk_bass : forall ranges row rank c, In row (n_classify w ranges) ->
      Z.of_nat rank < Z.max 2 (max_chord_branching_factor (j_params j)) ->
      nth_error (o_argsort o (map (o_exp o) row)) rank = Some c -> playable (cs_out (j_csm j)) c
}.
(* A chord may change at every onset, and no note is longer than the longest chord (the first one, half as long:
   C27_start_refuted). *)
Definition divisible (scale dscale : Q -> Z) (j : joint) (w : networks) (x : subject) : Prop :=
  let ds := map dscale (sj_durs x) in
  let longest := dscale (max_chord_length (j_params j)) in
  (forall i, (0 < i < length ds)%nat -> nth (i - 1) ds 0 <> 0 -> scale (min_chord_change_prob (j_params j)) <= nth i (n_change w) 0) /\
  (forall d, In d ds -> 0 <= d <= longest) /\ 2 * nth 0 ds 0 <= longest.
