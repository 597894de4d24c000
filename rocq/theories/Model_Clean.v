(* data/corpus_reading.py:load_clean_corpus_dfs (lines 60-213), notes and chords, and
   utils/corpus_utils.py:add_chord_metrical_data. *)
From Coq Require Import QArith.
From Verif Require Import PyBase Model_Rhythm Model_Corpus.
Close Scope Q_scope.
Open Scope Z_scope.

(* ---- notes ---- *)
(* corpus_reading.py:194-196, corpus_utils.py:247-386 add_note_offsets for one note: the
   measures of its file are the rows with its file_id. *)
Definition with_offset (fuel : nat) (kept : list frow) (n : tnote) : res tnote :=
  let! (mc, beat) := add_note_offset fuel (piece_table kept (n_file n)) (n_mc n, n_on n) (n_dur n) in
  match beat with
  | Some b => Ok (mkN (n_file n) (n_id n) (n_midi n) (n_mc n) (n_on n) (n_dur n) mc b
                      (n_staff n) (n_voice n) (n_grace n) (n_tied n))
  | None => Raise Unmodelled
  end.

(* corpus_reading.py:132-199 for the notes: remove_repeats, remove_unmatched, drop invalid
   onsets, add offsets, merge ties.  (The columns offset_mc and offset_beat are taken to be
   absent from the input: they are overwritten.) *)
Definition clean_notes (fuel : nat) (shuffle : pairs -> pairs) (rows : list crow) (notes : list tnote)
    : res (list frow * list tnote) :=
  let! kept := remove_repeats true rows in
  let! notes := mapM (with_offset fuel kept)
                     (filter (valid_onset kept) (remove_unmatched kept notes)) in
  let! notes := merge_ties fuel shuffle notes in
  Ok (kept, notes).

(* ---- chords ---- *)
(* add_chord_metrical_data, corpus_utils.py:133-245, for the chords of one piece (the shift
   by one row and the test for the last chord never look into another file's chords when the
   corpus has more than one file; with one file np.roll finds no last chord). *)

(* lines 216-236: from measure mc on, add act_dur until mc_next or the last measure is
   reached.  A measure missing from the table makes the duration NaN. *)
Fixpoint chord_walk (fuel : nat) (ms : table) (mc mc_next : Z) (dur : Q) : res Q :=
  if mc =? mc_next then Ok dur
  else match lookup ms mc with
       | None => Raise Unmodelled
       | Some m =>
           match next_of m with
           | None => Ok (Qplus dur (m_dur m))
           | Some n => match fuel with
                       | O => Raise OutOfFuel
                       | S f => chord_walk f ms n mc_next (Qplus dur (m_dur m))
                       end
           end
       end.

(* lines 169-178: on_fixed *)
Definition on_fixed (ms : table) (p : pos) : res Q :=
  match lookup ms (fst p) with
  | None => Raise Unmodelled
  | Some m => Ok (Qminus (snd p) (m_off m))
  end.

(* The position after a chord: mc_next, onset_next, on_next_fixed (lines 181-208) and then
   the duration. *)
Definition chord_row (fuel : nat) (ms : table) (p next : pos) (next_fixed : Q) : res (pos * pos * Q) :=
  let! of := on_fixed ms p in
  let! d := chord_walk fuel ms (fst p) (fst next) (Qminus next_fixed of) in
  Ok (p, next, d).

(* last_measures, line 189.  Several of them give the last chord several rows, which pandas
   cannot assign back. *)
Definition last_measure (ms : table) : res measure :=
  match filter (fun m => match next_of m with None => true | _ => false end) ms with
  | [m] => Ok m
  | [] => Raise Unmodelled
  | _ => Raise ValueError
  end.

(* corpus_utils.py:133-244 add_chord_metrical_data: (onset, offset, duration) of every chord *)
Fixpoint chord_rows (fuel : nat) (ms : table) (chords : list pos) : res (list (pos * pos * Q)) :=
  match chords with
  | [] => Ok []
  | p :: r =>
      let! x := match r with
                | q :: _ => let! nf := on_fixed ms q in chord_row fuel ms p q nf
                | [] => let! m := last_measure ms in
                        chord_row fuel ms p (m_mc m, Qplus (m_dur m) (m_off m)) (m_dur m)
                end in
      let! xs := chord_rows fuel ms r in
      Ok (x :: xs)
  end.

(* corpus_reading.py:201-213: chords without positive duration are dropped *)
Definition positive_dur (x : pos * pos * Q) : bool := negb (Qle_bool (snd x) 0%Q).
(* corpus_reading.py:201-213 *)
Definition clean_chords (fuel : nat) (ms : table) (chords : list pos) : res (list (pos * pos * Q)) :=
  let! xs := chord_rows fuel ms chords in Ok (filter positive_dur xs).
