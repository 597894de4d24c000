(* Model of harmonic_inference/data/datasets.py, ChordTransitionDataset (lines 303-366): the
   input rows and the targets of the chord transition model.

   Entries are exact rationals; the code rounds every row to float16 (note.py:302), which is
   not modelled. *)
From Coq Require Import QArith.
From Verif Require Import PyBase Model_Types Model_Harmony Model_Rhythm Model_Piece.
Close Scope Q_scope.
Open Scope Z_scope.

(* note.py:135-302 Note.to_vec when only dur_from_prev and dur_to_next are given: no chord, no
   measures and no lowest or highest pitch. *)
Definition plain_vector (n : note) (from_prev : option Q) (to_next : Q) : res (list Q) :=
  let! pitch := qone_hot (NUM_PITCHES (no_pt n)) (no_pitch n) in
  let! octave := qone_hot NUM_OCTAVES (no_octave n) in
  let! on := qone_hot 4 (no_on_level n) in
  let! off := qone_hot 4 (no_off_level n) in
  let durations := [match from_prev with None => 0%Q | Some d => d end; to_next] in
  let! number := midi_note_number n in
  let! rel := qone_hot NUM_OCTAVES (no_octave n - 0) in
  let height := [Qdiv (inject_Z number) (127 # 1)%Q] in
  Ok (pitch ++ octave ++ on ++ off ++ [0%Q; 0%Q; 0%Q] ++ durations ++ [0%Q] ++ rel ++ height ++ [0%Q]).

(* What the dataset reads of a piece: notes, measures, chords (None for a piece without labels)
   and chord_changes (None likewise), piece.py:381-422. *)
Record cpiece := { cp_notes : list note; cp_measures : table;
                   cp_chords : option (list pchord); cp_changes : option (list Z) }.

(* piece.py:425-447 ScorePiece.get_duration_cache *)
Definition cp_durations (p : cpiece) : res (list Q) :=
  let! last := last_offset (cp_notes p) (cp_chords p) in
  get_duration_cache (map no_on (cp_notes p)) last (cp_measures p).

(* np.vstack: ValueError for an empty list or rows of unequal length *)
Definition vstack (rows : list (list Q)) : res (list (list Q)) :=
  match rows with
  | [] => Raise ValueError
  | r :: rs => if forallb (fun x => Nat.eqb (List.length x) (List.length r)) rs
               then Ok rows else Raise ValueError
  end.

(* datasets.py:331-345, one piece *)
Definition change_inputs (p : cpiece) : res (list (list Q)) :=
  let! durs := cp_durations p in
  let! rows := mapM (fun x => let '(n, from_prev, to_next) := x : note * option Q * Q in
                       plain_vector n from_prev to_next)
                 (combine (combine (cp_notes p) (None :: map Some durs)) durs) in
  vstack rows.

(* target[indexes] = 1.  An empty list of indexes is a float array, which numpy refuses
   (IndexError); target[None] = 1 sets every entry. *)
Definition set_ones (target : list Z) (indexes : option (list Z)) : res (list Z) :=
  match indexes with
  | None => Ok (map (fun _ => 1) target)
  | Some [] => Raise IndexError
  | Some l => fold_left (fun acc i => let! t := acc in py_upd t i 1) l (Ok target)
  end.

(* np.roll(mask, 1) *)
Definition roll {A} (l : list A) : list A :=
  match l with [] => [] | a :: r => last l a :: removelast l end.

(* target[mask] = v; IndexError when the lengths differ *)
Definition mask_set (target : list Z) (mask : list bool) (v : Z) : res (list Z) :=
  if Nat.eqb (List.length target) (List.length mask)
  then Ok (map (fun x => if snd x : bool then v else fst x) (combine target mask))
  else Raise IndexError.

(* the ignored target, datasets.py:347-352 *)
Definition NOT_MEASURED : Z := -100.

(* datasets.py:347-352, one piece with inputs of the given number *)
Definition change_targets (p : cpiece) (n : nat) : res (list Z) :=
  let! t := set_ones (repeat 0 n) (cp_changes p) in
  let! t := py_upd t 0 NOT_MEASURED in
  let! durs := cp_durations p in
  mask_set t (roll (map (fun d => Qeq_bool d 0%Q) durs)) NOT_MEASURED.

(* datasets.py:313-355: the inputs of all pieces are made before the targets *)
Definition change_dataset (pieces : list cpiece) (dummy_targets : bool)
  : res (list (list (list Q)) * list (list Z)) :=
  let! inputs := mapM change_inputs pieces in
  if dummy_targets then Ok (inputs, map (fun x => repeat 0 (List.length x)) inputs)
  else let! targets := mapM (fun x => change_targets (fst x) (List.length (snd x : list (list Q))))
                         (combine pieces inputs) in
       Ok (inputs, targets).

(* The piece that a corpus gives (get_score_piece of Model_Piece), with its measures. *)
Definition labelled (p : piece) (ms : table) : cpiece :=
  {| cp_notes := p_notes p; cp_measures := ms; cp_chords := Some (p_chords p);
     cp_changes := Some (map Z.of_nat (p_changes p)) |}.
