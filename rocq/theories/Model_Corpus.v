(* utils/corpus_utils.py: remove_repeats, remove_unmatched, merge_ties, and the filters of
   data/corpus_reading.py:load_clean_corpus_dfs.  DataFrames are lists of rows; the
   (file_id, ..._id) index of a row is part of the row and is taken to be unique.  pandas
   operations that only reorder rows (sort_index) are left out: statements are about
   membership or up to permutation. *)
From Coq Require Import QArith.
From Verif Require Import PyBase Model_Rhythm.
Close Scope Q_scope.
Open Scope Z_scope.

(* ---- remove_repeats, corpus_utils.py:52-130 ---- *)

(* A row of the measures table of a corpus: file_id and the columns used; "next" is the
   tuple of possible next measures. *)
Record crow := mkC { c_file : Z; c_mc : Z; c_dur : Q; c_off : Q; c_nexts : list Z }.

(* np.roll(l, -1) and np.roll(l, 1) *)
Definition roll_back {A} (l : list A) : list A :=
  match l with [] => [] | x :: r => r ++ [x] end.
(* np.roll(l, 1) *)
Definition roll_forth {A} (l : list A) : list A :=
  match rev l with [] => [] | x :: r => x :: rev r end.

(* max(next_mc), corpus_utils.py:82 *)
Definition zmax (l : list Z) : Z := fold_right Z.max (hd 0 l) (tl l).

(* lines 69-94: the new "next" of a row, [next_file] being the file_id of the following row
   (cyclically).  A row is a last measure if next is empty or contains -1 or the file
   changes; otherwise the largest mc is taken. *)
Definition new_next (r : crow) (next_file : Z) : next_cell :=
  if match c_nexts r with [] => true | _ => false end
     || existsb (Z.eqb (-1)) (c_nexts r)
     || negb (next_file =? c_file r)
  then NextNA
  else NextMc (zmax (c_nexts r)).

(* The rows of the resulting table: file_id and the measure columns. *)
Notation frow := (Z * measure)%type.
(* corpus_utils.py:69-92, all rows *)
Definition resolve_nexts (rows : list crow) : list frow :=
  map (fun p => let '(r, nf) := p : crow * Z in
                (c_file r, mkM (c_mc r) (c_dur r) (c_off r) (new_next r nf)))
      (combine rows (roll_back (map c_file rows))).

(* lines 99-102: start_measures, by comparing each file_id with the previous one
   (cyclically) *)
Definition start_mask (rows : list crow) : list bool :=
  map (fun p => negb (fst p =? snd p)) (combine (roll_forth (map c_file rows)) (map c_file rows)).

(* lines 109-117: some row of the same file has this measure as its next *)
Definition pointed (rows : list (frow * bool)) (f : Z) (mc : Z) : bool :=
  existsb (fun p => let '((f', m), _) := p : frow * bool in
                    (f' =? f) && match m_next m with NextMc n => n =? mc | _ => false end) rows.

(* lines 108-126: the while loop.  Each row carries whether it is a start measure. *)
Fixpoint prune (fuel : nat) (rows : list (frow * bool)) : res (list (frow * bool)) :=
  let kept := filter (fun p => let '((f, m), start) := p : frow * bool in
                               start || pointed rows f (m_mc m)) rows in
  if (List.length kept =? List.length rows)%nat then Ok rows
  else match fuel with
       | O => Raise OutOfFuel
       | S f => prune f kept
       end.

(* corpus_utils.py:52-130 *)
Definition remove_repeats (remove_unreachable : bool) (rows : list crow) : res (list frow) :=
  let resolved := resolve_nexts rows in
  if remove_unreachable then
    let! kept := prune (List.length rows) (combine resolved (start_mask rows)) in
    Ok (map fst kept)
  else Ok resolved.

(* The measures of one piece (measures_df.loc[file_id]). *)
Definition piece_table (rows : list frow) (f : Z) : table :=
  map snd (filter (fun p => fst p =? f) rows).

(* ---- notes ---- *)
(* A row of the notes table.  The tied column: None is pd.NA.  gracenote is not null: grace. *)
Record tnote := mkN {
  n_file : Z; n_id : Z; n_midi : Z; n_mc : Z; n_on : Q; n_dur : Q;
  n_off_mc : Z; n_off_beat : Q; n_staff : Z; n_voice : Z; n_grace : bool; n_tied : option Z }.

(* remove_unmatched, corpus_utils.py:17-49: inner merge with the measures on (file_id, mc)
   (measures have unique mcs per file, so no row is duplicated). *)
Definition remove_unmatched (measures : list frow) (notes : list tnote) : list tnote :=
  filter (fun n => existsb (fun p => (fst p =? n_file n) && (m_mc (snd p) =? n_mc n)) measures) notes.

(* corpus_reading.py:145-166: notes whose onset lies in their measure *)
Definition valid_onset (measures : list frow) (n : tnote) : bool :=
  match lookup (piece_table measures (n_file n)) (n_mc n) with
  | None => false
  | Some m => Qle_bool (m_off m) (n_on n) && negb (Qle_bool (Qplus (m_dur m) (m_off m)) (n_on n))
  end.

(* ---- merge_ties, corpus_utils.py:389-802 ---- *)
Notation key := (Z * Z)%type.
(* the index of a note: (file_id, note_id) *)
Definition nkey (n : tnote) : key := (n_file n, n_id n).
(* equal indexes *)
Definition key_eqb (a b : key) : bool := (fst a =? fst b) && (snd a =? snd b).
(* index.isin *)
Definition kmem (k : key) (l : list key) : bool := existsb (key_eqb k) l.

(* notes["tied"] == v *)
Definition tied_is (v : Z) (n : tnote) : bool :=
  match n_tied n with Some t => t =? v | None => false end.

(* The merge condition: left_on file_id, midi, offset_mc, offset_beat; right_on file_id,
   midi, mc, onset (lines 681-688). *)
Definition ties (o i : tnote) : bool :=
  (n_file o =? n_file i) && (n_midi o =? n_midi i) &&
  (n_off_mc o =? n_mc i) && Qeq_bool (n_off_beat o) (n_on i).

(* pd.merge(..., how="inner"): all matching pairs. *)
Notation pairs := (list (tnote * tnote)).
(* corpus_utils.py:681-688, all rows *)
Definition join (outs ins : list tnote) : pairs :=
  flat_map (fun o => map (fun i => (o, i)) (filter (ties o) ins)) outs.

(* lines 481-499 and 604-621: the updated tied_out note of a pair *)
Definition new_tied (o i : tnote) : option Z :=
  if tied_is 0 o || tied_is 0 i
  then match n_tied o, n_tied i with Some a, Some b => Some (a + b) | _, _ => None end
  else None.
(* 481-499 add_new_tied_values, 604-621 *)
Definition absorb (o i : tnote) : tnote :=
  mkN (n_file o) (n_id o) (n_midi o) (n_mc o) (n_on o) (Qplus (n_dur o) (n_dur i))
      (n_off_mc i) (n_off_beat i) (n_staff o) (n_voice o) (n_grace o) (new_tied o i).

(* tied_out_notes, tied_in_notes, finished notes: lines 671-675 *)
Record mstate := mkMS { s_out : list tnote; s_in : list tnote; s_fin : list tnote }.

(* repopulate_tied_out_notes, lines 440-479 *)
Definition repopulate (ins fin : list tnote) : mstate :=
  let merged := join (filter (tied_is 0) ins) ins in
  let outs_k := map (fun p => nkey (fst p)) merged in
  let ins_k := map (fun p => nkey (snd p)) merged in
  let move n := kmem (nkey n) outs_k && negb (kmem (nkey n) ins_k) in
  mkMS (filter move ins) (filter (fun n => negb (move n)) ins) fin.

(* update_step, lines 623-663, with update_tied_out_notes (604-621) and remove_finished
   (501-530).  [rows] holds at most one row per tied_out note. *)
Definition upd_out (rows : pairs) (o : tnote) : tnote :=
  match find (fun p => key_eqb (nkey (fst p)) (nkey o)) rows with
  | Some (a, i) => absorb a i
  | None => o
  end.
(* the new tied value is NA (501-530, 623-663) *)
Definition finished (o : tnote) : bool := match n_tied o with None => true | Some _ => false end.
(* lines 623-663 *)
Definition update_step (rows : pairs) (s : mstate) : mstate :=
  let out := map (upd_out rows) (s_out s) in
  mkMS (filter (fun o => negb (finished o)) out)
       (filter (fun i => negb (kmem (nkey i) (map (fun p => nkey (snd p)) rows))) (s_in s))
       (s_fin s ++ filter finished out).

(* drop_duplicates(subset=...), keep first *)
Fixpoint drop_dups {A} (k : A -> key) (seen : list key) (l : list A) : list A :=
  match l with
  | [] => []
  | x :: r => if kmem (k x) seen then drop_dups k seen r
              else x :: drop_dups k (k x :: seen) r
  end.
(* naive_duplicate_drop, lines 554-602 *)
Definition naive_drop (rows : pairs) : pairs :=
  drop_dups (fun p => nkey (snd p)) [] (drop_dups (fun p => nkey (fst p)) [] rows).

(* value_counts, lines 699-704 *)
Definition count (k : key) (l : list key) : nat := List.length (filter (key_eqb k) l).

(* the indexes (file_id, note_id_out) of the rows, line 550 *)
Definition outs_of (rows : pairs) : list key := map (fun p => nkey (fst p)) rows.
(* the indexes (file_id, note_id_in) of the rows, line 551 *)
Definition ins_of (rows : pairs) : list key := map (fun p => nkey (snd p)) rows.

(* 687-692: unmatched tied_out notes are finished *)
Definition drop_unmatched (merged : pairs) (s : mstate) : mstate :=
  mkMS (filter (fun o => kmem (nkey o) (outs_of merged)) (s_out s)) (s_in s)
       (s_fin s ++ filter (fun o => negb (kmem (nkey o) (outs_of merged))) (s_out s)).

(* 694-701: rows whose two notes are matched once *)
Definition single (merged : pairs) (p : tnote * tnote) : bool :=
  (count (nkey (fst p)) (outs_of merged) =? 1)%nat &&
  (count (nkey (snd p)) (ins_of merged) =? 1)%nat.

(* 718-724 *)
Definition same_voice (doubly : pairs) : pairs :=
  naive_drop (filter (fun p => (n_staff (fst p) =? n_staff (snd p)) &&
                               (n_voice (fst p) =? n_voice (snd p))) doubly).

(* 735-742: the tied_out notes all of whose rows were dropped *)
Definition need_force (doubly more : pairs) : list key :=
  filter (fun k => negb (kmem k (outs_of more))) (outs_of doubly).

(* 744-765; tied_out_notes.loc[list(need)] is a KeyError for a missing label *)
Definition force_step (shuffle : pairs -> pairs) (need : list key) (s : mstate) : res mstate :=
  match need with
  | [] => Ok s
  | _ =>
      if forallb (fun k => kmem k (map nkey (s_out s))) need then
        Ok (update_step
              (naive_drop (shuffle (join (filter (fun o => kmem (nkey o) need) (s_out s)) (s_in s)))) s)
      else Raise KeyError
  end.

(* 713-765 *)
Definition double_step (shuffle : pairs -> pairs) (doubly : pairs) (s : mstate) : res mstate :=
  match doubly with
  | [] => Ok s
  | _ => let more := same_voice doubly in
         force_step shuffle (need_force doubly more) (update_step more s)
  end.

(* One iteration of the while loop, lines 680-774.  [shuffle] stands for the row order of
   pd.merge and of list(set(...)), which decides what drop_duplicates keeps: any
   permutation. *)
Definition merge_iter (shuffle : pairs -> pairs) (s : mstate) : res mstate :=
  let merged := shuffle (join (s_out s) (s_in s)) in
  let s := update_step (filter (single merged) merged) (drop_unmatched merged s) in
  let! s := double_step shuffle (filter (fun p => negb (single merged p)) merged) s in
  Ok match s_out s with [] => repopulate (s_in s) (s_fin s) | _ => s end.

(* the while loop, lines 677-774 *)
Fixpoint merge_loop (fuel : nat) (shuffle : pairs -> pairs) (s : mstate) : res mstate :=
  match s_out s with
  | [] => Ok s
  | _ => match fuel with
         | O => Raise OutOfFuel
         | S f => let! s' := merge_iter shuffle s in merge_loop f shuffle s'
         end
  end.

(* changing_notes_mask, line 666 *)
Definition changing (n : tnote) : bool :=
  negb (n_grace n) && match n_tied n with Some _ => true | None => false end.

(* lines 665-678 and 776 *)
Definition merge_start (notes : list tnote) : mstate :=
  let ch := filter changing notes in
  let outs := filter (tied_is 1) ch in
  let ins := filter (fun n => tied_is 0 n || tied_is (-1) n) ch in
  match outs with [] => repopulate ins [] | _ => mkMS outs ins [] end.
(* lines 389-802 *)
Definition merge_ties (fuel : nat) (shuffle : pairs -> pairs) (notes : list tnote) : res (list tnote) :=
  let! s := merge_loop fuel shuffle (merge_start notes) in
  Ok (filter (fun n => negb (changing n)) notes ++ s_in s ++ s_fin s).
