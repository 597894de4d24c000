(* Datasets: harmonic_inference/data/datasets.py.
   Numbers are integers (scaled), as in Model_Vectors; dtype conversions are the argument f16
   where they are modelled at all.  A numpy array of rows is a list of lists.  Datasets are
   values; where __getitem__ writes to an array that is also stored in the dataset, the new
   dataset is returned as well. *)
From Coq Require Import QArith Qround.
From Verif Require Import PyBase Model_Types Model_Harmony Model_Heap.
From Verif Require Export Model_Vectors.
Close Scope Q_scope.
Open Scope Z_scope.

Notation row := (list Z).

(* Piece.get_chords(), get_keys() (each key as relative tonic and mode), get_key_change_indices(),
   and the common tonic_type of the keys *)
Record dpiece := mkDP {
  dp_chords : list full_chord; dp_keys : list (Z * key_mode); dp_changes : list nat; dp_pt : pitch_type }.

(* np.zeros(n) *)
Definition zeros (n : Z) : row := repeat 0 (Z.to_nat n).
(* chords[start:end] for indices that are not negative *)
Definition between {A} (l : list A) (a b : nat) : list A := firstn (b - a) (skipn a l).

(* ---- ChordSequenceDataset and KeyTransitionDataset, the rows of one piece ---- *)
(* lines 664-672 (pad=False), 943-965 (pad=True): the rows of the chords of one key; np.vstack
   of no rows is a ValueError *)
Definition section_rows (pt : pitch_type) (pad : bool) (chords : list full_chord)
  (prev : option (Z * key_mode)) (key : Z * key_mode) (start stop : nat) : res (list row) :=
  let! vs := mapM (fun c => to_vec c None pad NO_REDUCTION) (between chords start stop) in
  let blank := zeros (1 + get_key_change_vector_length pt false) in
  match vs with
  | [] => Raise ValueError
  | v :: rest =>
      let! k := (match prev with
                 | None => Ok blank
                 | Some p => let! c := key_change_vector pt (fst p) (fst key) (snd key) in Ok (c ++ [1])
                 end) in
      Ok ((v ++ k) :: map (fun w => w ++ blank) rest)
  end.

(* lines 661-663, 940-942: zip([None] + keys[:-1], keys, key_changes, key_changes[1:] + [len(chords)]) *)
Definition sections (keys : list (Z * key_mode)) (changes : list nat) (n : nat)
  : list (option (Z * key_mode) * (Z * key_mode) * (nat * nat)) :=
  combine (combine (None :: map Some (removelast keys)) keys)
          (combine changes (tl changes ++ [n])).

(* lines 648-674: keys[0] is looked at before anything else *)
Definition piece_rows (pad : bool) (p : dpiece) : res (list row) :=
  match dp_keys p with
  | [] => Raise IndexError
  | _ =>
      let! rs := mapM (fun s => let '(prev, key, (a, b)) := s in
                                section_rows (dp_pt p) pad (dp_chords p) prev key a b)
                      (sections (dp_keys p) (dp_changes p) (length (dp_chords p))) in
      match rs with [] => Raise ValueError | _ => Ok (concat rs) end
  end.

(* lines 675-682 *)
Definition csd_targets (p : dpiece) : res (list Z) :=
  mapM (fun c => chord_one_hot (fc c) true true false NO_REDUCTION) (dp_chords p).


(* A dataset with ragged inputs, and targets that are ragged too or one number per item *)
Inductive targets := Ragged (l : list (list Z)) | Scalars (l : list Z).
(* the fields of HarmonicDataset: datasets.py:44-85 *)
Record hds := mkHD { hd_inputs : list (list row); hd_input_lengths : list nat;
                     hd_targets : targets; hd_target_lengths : option (list nat) }.
(* lines 644-686 ChordSequenceDataset.__init__ *)
Definition csd (pieces : list dpiece) : res hds :=
  let! l := mapM (fun p => let! x := piece_rows false p in let! t := csd_targets p in Ok (x, t)) pieces in
  Ok (mkHD (map fst l) (map (fun y => length (fst y)) l)
           (Ragged (map snd l)) (Some (map (fun y => length (snd y)) l))).

(* ---- the key datasets ---- *)
Record key_ds := mkKD {
  kd_inputs : list (list row);   (* one array per piece *)
  kd_pieces : list nat;          (* piece_lengths *)
  kd_lengths : list nat;         (* input_lengths, one per item *)
  kd_targets : list Z;           (* one per item *)
  kd_repl : list row }.          (* key_change_replacements, one per item *)

(* lines 952-961, 1046-1053; chords[end] is an IndexError past the last chord *)
Definition replacement (pt : pitch_type) (chords : list full_chord) (key : Z * key_mode) (stop : nat)
  : res row :=
  match nth_error chords stop with
  | None => Raise IndexError
  | Some c => let! v := to_vec c (Some key) true NO_REDUCTION in
              Ok (v ++ zeros (1 + get_key_change_vector_length pt false))
  end.

Notation key_piece := (list row * nat * list nat * list Z * list row)%type.
(* lines 920-965 KeyTransitionDataset.__init__, one piece.  np.zeros(chord_vectors.shape[1] + ...)
   is a row of the width of the rows of the section. *)
Definition ktd_piece (p : dpiece) : res key_piece :=
  match dp_keys p with
  | [] => Raise IndexError
  | _ =>
      let n := length (dp_chords p) in
      let! rs := mapM (fun s => let '(prev, key, (a, b)) := s in
                       let! rows := section_rows (dp_pt p) true (dp_chords p) prev key a b in
                       let! repl := (if (b =? n)%nat
                                     then Ok (zeros (zlen (match rows with r :: _ => r | [] => [] end)))
                                     else replacement (dp_pt p) (dp_chords p) key b) in
                       Ok (rows, repl))
                      (sections (dp_keys p) (dp_changes p) n) in
      match rs with
      | [] => Raise ValueError
      | _ => Ok (concat (map fst rs), length (dp_keys p), tl (dp_changes p) ++ [n],
                 repeat 1 (length (dp_keys p) - 1) ++ [0], map snd rs)
      end
  end.

(* lines 1018-1064 KeySequenceDataset.__init__, one piece; None for `continue` *)
Definition ksd_piece (p : dpiece) : res (option key_piece) :=
  match dp_keys p with
  | [] => Raise IndexError
  | [_] => Ok None
  | k0 :: k1 :: _ =>
      let keys := dp_keys p in
      let ss := combine (combine (None :: map Some (removelast (removelast keys))) (removelast keys))
                        (combine (removelast (dp_changes p)) (tl (dp_changes p))) in
      let! rs := mapM (fun s => let '(prev, key, (a, b)) := s in
                       let! rows := section_rows (dp_pt p) true (dp_chords p) prev key a b in
                       let! t := (match prev with
                                  | None => Ok []
                                  | Some q => let! i := key_change_one_hot (fst q) (dp_pt p) (fst key) (snd key) in Ok [i]
                                  end) in
                       let! repl := replacement (dp_pt p) (dp_chords p) key b in
                       Ok (rows, t, repl)) ss in
      let! t := key_change_one_hot (fst (last (removelast keys) k0)) (dp_pt p) (fst (last keys k0)) (snd (last keys k0)) in
      match rs with
      | [] => Raise ValueError
      | _ => Ok (Some (concat (map (fun x => fst (fst x)) rs), (length keys - 1)%nat, tl (dp_changes p),
                       concat (map (fun x => snd (fst x)) rs) ++ [t], map snd rs))
      end
  end.

(* lines 893-971, 991-1067: the lists over all pieces *)
Definition key_ds_of (l : list key_piece) : key_ds :=
  mkKD (map (fun x => fst (fst (fst (fst x)))) l) (map (fun x => snd (fst (fst (fst x)))) l)
       (concat (map (fun x => snd (fst (fst x))) l)) (concat (map (fun x => snd (fst x)) l))
       (concat (map (fun x => snd x) l)).
(* lines 893-971 KeyTransitionDataset.__init__ *)
Definition ktd (pieces : list dpiece) : res key_ds :=
  let! l := mapM ktd_piece pieces in Ok (key_ds_of l).
(* lines 991-1067 KeySequenceDataset.__init__ *)
Definition ksd (pieces : list dpiece) : res key_ds :=
  let! l := mapM ksd_piece pieces in
  Ok (key_ds_of (concat (map (fun x => match x with Some y => [y] | None => [] end) l))).

(* lines 817-821 get_piece_index *)
Fixpoint piece_index (i : nat) (lengths : list nat) (item : nat) : res (nat * bool) :=
  match lengths with
  | [] => Raise ValueError
  | n :: r => if (item <? n)%nat then Ok (i, (0 <? item)%nat) else piece_index (S i) r (item - n)
  end.

(* array[i] = x, i not negative *)
Definition set_row {A} (l : list A) (i : nat) (x : A) : res (list A) :=
  if (i <? length l)%nat then Ok (upd_nat l i x) else Raise IndexError.
(* array[a:b] = x *)
Fixpoint fill {A} (l : list A) (a b : nat) (x : A) : list A :=
  match l with
  | [] => []
  | y :: r => match b with
              | O => l
              | S b' => match a with
                        | O => x :: fill r 0 b' x
                        | S a' => y :: fill r a' b' x
                        end
              end
  end.

(* np.max; ValueError for an empty array *)
Definition np_max (l : list nat) : res nat :=
  match l with [] => Raise ValueError | x :: r => Ok (fold_left Nat.max r x) end.

(* lines 870-873 KeyHarmonicDataset.reduce: no pitch type is passed on *)
Definition key_reduce (red : option reduction) (use_inv : bool) (rows : list row) : res (list row) :=
  let! rows := reduce_chord_types rows red true None in
  if use_inv then Ok rows else remove_chord_inversions rows true None.

(* one target per position, or one for the item (lines 792-868) *)
Inductive key_target := TransitionTargets (l : list Z) | SequenceTarget (t : Z).
(* what __getitem__ gives, lines 792-868 *)
Record key_item := mkKI { ki_inputs : list row; ki_length : nat; ki_target : key_target }.

(* lines 792-868 KeyHarmonicDataset.__getitem__ in ram, without hidden states and transform.
   - item is not negative.  max_input_length is the maximum of input_lengths, which never
     changes once set.
   - A piece of full length is not copied (lines 844-847): the writes go to self.inputs. *)
Definition key_getitem (transition : bool) (red : option reduction) (use_inv : bool)
  (ds : key_ds) (item : nat) : res (key_item * key_ds) :=
  let! (pi, prev_in_piece) := piece_index 0 (kd_pieces ds) item in
  let! stored := hget (kd_inputs ds) pi in
  let! input_length := hget (kd_lengths ds) item in
  let! start := (if prev_in_piece : bool then hget (kd_lengths ds) (item - 1) else Ok 0%nat) in
  let! max_len := np_max (kd_lengths ds) in
  let! repl := hget (kd_repl ds) item in
  let! target := hget (kd_targets ds) item in
  let copied := (length stored <? max_len)%nat in
  let! inputs := (if copied then
                    let! r := hget stored 0 in
                    Ok (stored ++ repeat (zeros (zlen r)) (S max_len - length stored))
                  else Ok stored) in
  let! tg := (if transition then
                let ts := fill (repeat (-100) (length inputs)) (S start) input_length 0 in
                let! ts := (if target =? 1 then set_row ts input_length 1 else Ok ts) in
                Ok (TransitionTargets ts)
              else Ok (SequenceTarget target)) in
  let replace := (target =? 1) || negb transition in
  let! inputs := (if replace then set_row inputs input_length repl else Ok inputs) in
  let! inputs := key_reduce red use_inv inputs in
  let item_ := mkKI inputs (if replace then S input_length else input_length) tg in
  Ok (item_, if copied then ds
             else mkKD (upd_nat (kd_inputs ds) pi inputs) (kd_pieces ds) (kd_lengths ds)
                       (kd_targets ds) (kd_repl ds)).

(* ---- HarmonicDataset ---- *)
(* padded[: len(item)] = item for padded = np.zeros(n, ...) *)
Definition pad_to {A} (zero : A) (n : nat) (l : list A) : res (list A) :=
  if (length l <=? n)%nat then Ok (l ++ repeat zero (n - length l)) else Raise ValueError.

(* lines 1148-1179 pad_array; max([]) is a ValueError.  [zero] is the zero of the shape of one
   entry; all entries have the shape of the first. *)
Definition pad_array {A} (zero : A) (array : list (list A)) : res (list (list A) * list nat) :=
  let lengths := map (@length A) array in
  let! n := np_max lengths in
  let! rows := mapM (pad_to zero n) array in
  Ok (rows, lengths).

(* what __getitem__ gives, lines 169-222 *)
Record item_data := mkID { id_inputs : list row; id_length : nat;
                           id_targets : list Z; id_target_length : option nat }.

(* The object: the data, self.padded, and the cached max_input_length and max_target_length *)
Record hobj := mkHO { ho_ds : hds; ho_padded : bool; ho_max_in : option nat; ho_max_t : option nat }.
(* a new dataset: not padded, nothing cached (lines 44-85) *)
Definition fresh (ds : hds) : hobj := mkHO ds false None None.
(* a cached maximum, or the maximum (lines 169-222) *)
Definition cached (c : option nat) (lengths : list nat) : res nat :=
  match c with Some n => Ok n | None => np_max lengths end.
(* self.targets[item]; a scalar is a list of one number here *)
Definition target_at (ds : hds) (item : nat) : res (list Z) :=
  match hd_targets ds with
  | Scalars l => let! t := hget l item in Ok [t]
  | Ragged l => hget l item
  end.
(* lines 202-215: inputs padded to the maximal length; the shape is that of the first row *)
Definition padded_inputs (ds : hds) (inputs : list row) (n item : nat) : res (list row * nat) :=
  let! r := hget inputs 0 in
  let! padded := pad_to (zeros (zlen r)) n inputs in
  let! len := hget (hd_input_lengths ds) item in
  Ok (padded, len).
(* lines 169-222 HarmonicDataset.__getitem__ in ram, before finalize_data.  np.zeros makes new
   arrays, so later writes to the item do not reach the dataset. *)
Definition hd_read (o : hobj) (item : nat) : res item_data * hobj :=
  let ds := ho_ds o in
  match hget (hd_inputs ds) item, target_at ds item with
  | Raise e, _ | Ok _, Raise e => (Raise e, o)
  | Ok inputs, Ok t =>
      match cached (ho_max_in o) (hd_input_lengths ds) with
      | Raise e => (Raise e, o)
      | Ok n =>
          let o := mkHO ds (ho_padded o) (Some n) (ho_max_t o) in
          match padded_inputs ds inputs n item with
          | Raise e => (Raise e, o)
          | Ok (padded, len) =>
              match hd_target_lengths ds with
              | None => (Ok (mkID padded len t None), o)
              | Some tl =>
                  match cached (ho_max_t o) tl with
                  | Raise e => (Raise e, o)
                  | Ok m =>
                      (let! _ := hget t 0 in
                       let! pt := pad_to 0 m t in
                       let! tlen := hget tl item in
                       Ok (mkID padded len pt (Some tlen)),
                       mkHO ds (ho_padded o) (ho_max_in o) (Some m))
                  end
              end
          end
      end
  end.
(* an item of a dataset that has not been used *)
Definition hd_getitem (ds : hds) (item : nat) : res item_data := fst (hd_read (fresh ds) item).

(* lines 224-251 pad, for datasets that pad and save both lengths (all but the key datasets).
   Scalar targets are modelled for pad_targets off (line 407).  pad_array stores float16. *)
Definition pad_ds (f16 : Z -> Z) (ds : hds) : res hds :=
  let width := match hd_inputs ds with (r :: _) :: _ => zlen r | _ => 0 end in
  let! (t, tl) := (match hd_targets ds with
                   | Ragged l => let! (x, n) := pad_array 0 l in Ok (Ragged (map (map f16) x), Some n)
                   | Scalars l => Ok (Scalars l, hd_target_lengths ds)
                   end) in
  let! (x, n) := pad_array (zeros width) (hd_inputs ds) in
  Ok (mkHD (map (map (map f16)) x) n t tl).
(* lines 224-251 pad *)
Definition hd_pad (f16 : Z -> Z) (o : hobj) : res hobj :=
  if ho_padded o then Ok o
  else let! ds := pad_ds f16 (ho_ds o) in Ok (mkHO ds true (ho_max_in o) (ho_max_t o)).

(* The h5 file: to_h5 (lines 253-300), for a dataset that was not read from a file *)
Record h5 := mkH5 { h_inputs : list (list row); h_targets : targets;
                    h_input_lengths : list nat; h_target_lengths : option (list nat) }.
(* lines 253-300 *)
Definition to_h5 (f16 : Z -> Z) (o : hobj) : res (h5 * hobj) :=
  let! o := hd_pad f16 o in
  let ds := ho_ds o in
  Ok (mkH5 (hd_inputs ds) (hd_targets ds) (hd_input_lengths ds) (hd_target_lengths ds), o).

(* lines 1102-1145 h5_to_dataset, when the data fits into memory.  Reading in chunks of
   chunk_size is reading everything; np.array(..., dtype=np.float16) converts. *)
Definition load_ragged {A} (conv : A -> A) (arrays : list (list A)) (lengths : list nat) : list (list A) :=
  map (fun x => map conv (firstn (snd x) (fst x))) (combine arrays lengths).
(* lines 1070-1145 *)
Definition h5_to_dataset (f16 : Z -> Z) (h : h5) : res hds :=
  let inputs := load_ragged (map f16) (h_inputs h) (h_input_lengths h) in
  match h_targets h, h_target_lengths h with
  | Ragged l, Some tl => Ok (mkHD inputs (h_input_lengths h) (Ragged (load_ragged f16 l tl)) (Some tl))
  | Scalars l, None => Ok (mkHD inputs (h_input_lengths h) (Scalars (map f16 l)) None)
  | _, _ => Raise Unmodelled
  end.
(* lines 193-200: an item read from the file *)
Definition h5_getitem (h : h5) (item : nat) : res item_data :=
  let! inputs := hget (h_inputs h) item in
  let! len := hget (h_input_lengths h) item in
  match h_targets h, h_target_lengths h with
  | Scalars l, None => let! t := hget l item in Ok (mkID inputs len [t] None)
  | Ragged l, Some tl => let! t := hget l item in let! tlen := hget tl item in
                         Ok (mkID inputs len t (Some tlen))
  | _, _ => Raise Unmodelled
  end.

(* The key datasets: pad_targets and save_padded_input_lengths are off (line 778), so
   input_lengths has one entry per item while inputs has one array per piece *)
Definition key_to_h5 (f16 : Z -> Z) (ds : key_ds) : res key_ds :=
  let width := match kd_inputs ds with (r :: _) :: _ => zlen r | _ => 0 end in
  let! (x, _) := pad_array (zeros width) (kd_inputs ds) in
  Ok (mkKD (map (map (map f16)) x) (kd_pieces ds) (kd_lengths ds) (kd_targets ds) (kd_repl ds)).
(* lines 1070-1145 for the key datasets *)
Definition h5_to_key_dataset (f16 : Z -> Z) (h : key_ds) : key_ds :=
  mkKD (load_ragged (map f16) (kd_inputs h) (kd_lengths h)) (kd_pieces h) (kd_lengths h)
       (map f16 (kd_targets h)) (kd_repl h).

(* ---- ChordSequenceDataset.reduce, lines 688-746, without pitch_based ---- *)
Definition csd_reduce (pt : pitch_type) (in_red : option reduction) (inv_in : bool)
  (out_red : reduction) (inv_out : bool) (d : item_data) : res item_data :=
  let! x := reduce_chord_types (id_inputs d) in_red false None in
  let! x := (if inv_in then Ok x else remove_chord_inversions x false None) in
  let! t := reduce_chord_one_hots (id_targets d) false pt true NO_REDUCTION true out_red inv_out in
  Ok (mkID x (id_length d) t (id_target_length d)).

(* lines 708-746: the pitch-based targets, one row per target; rows that are not measured are
   filled with -100 *)
Definition pitch_row (pt : pitch_type) (red : reduction) (use_inv : bool) (target : Z) : res row :=
  let num := match pt with MIDI => NUM_PITCHES MIDI | TPC => MAX_RELATIVE_TPC - MIN_RELATIVE_TPC end in
  let! (rt, _) := get_chord_from_one_hot_index target pt use_inv true false red in
  let (root, t) := rt : Z * chord_type in
  let root := match pt with TPC => root - MIN_RELATIVE_TPC | MIDI => root end in
  let! v := get_vector_from_chord_type t pt (Some root) in
  if zsum (py_slice v num (zlen v)) =? 0 then Ok (py_slice v 0 num) else Raise AssertionError.
(* lines 708-746 *)
Definition pitch_targets (pt : pitch_type) (red : reduction) (use_inv : bool)
  (targets : list Z) (inputs : list row) (len : nat) : res (list row) :=
  let num := match pt with MIDI => NUM_PITCHES MIDI | TPC => MAX_RELATIVE_TPC - MIN_RELATIVE_TPC end in
  let blank := repeat (-100) (Z.to_nat num) in
  let! rows := mapM (fun x : Z * row =>
                       let! flag := py_nth (snd x) (-1) in
                       if flag =? 1 then Ok blank else pitch_row pt red use_inv (fst x))
                    (combine (between targets 1 len) (between inputs 1 len)) in
  Ok (firstn 1 (map (fun _ => blank) targets) ++ rows
      ++ repeat blank (length targets - 1 - length rows)).

(* ---- ChordClassificationDataset ---- *)
(* lines 455-462 *)
Definition num_transpositions (lo hi : Z) : Z := hi - lo + 1.
(* lines 455-456 __len__ *)
Definition ccd_len (lo hi : Z) (n : Z) : Z := n * num_transpositions lo hi.
(* lines 458-462 __getitem__: piece and transposition *)
Definition ccd_index (lo hi item : Z) : Z * Z :=
  (item / num_transpositions lo hi, lo + item mod num_transpositions lo hi).

(* the fields of an item of ChordClassificationDataset, lines 507-577 *)
Record ccd_item := mkCI { ci_inputs : list row; ci_length : Z; ci_target : Z;
                          ci_root : Z; ci_bass : Z; ci_pitches : row }.
(* lines 464-505 generate_intermediate_targets *)
Definition intermediate_targets (pt : pitch_type) (red : reduction) (use_inv : bool) (target : Z)
  : res (Z * Z * row) :=
  let! (rt, inv) := get_chord_from_one_hot_index target pt use_inv false false red in
  let (root, t) := rt : Z * chord_type in
  let! bass := get_bass_note t root inv pt false in
  let! pitches := get_vector_from_chord_type t pt (Some root) in
  Ok (root, bass, pitches).

(* lines 507-577 reduce, with targets.  The ValueError handler does not cover the reduction of
   the target (lines 520-531). *)
Definition transpose_rows (pt : pitch_type) (transposition : Z) (rows : list row) (len : nat)
  : res (list row) :=
  let! rs := mapM (fun v => if zsum v =? 0 then Ok v
                            else transpose_note_vector v transposition (Some pt)) (firstn len rows) in
  Ok (rs ++ skipn len rows).
(* lines 507-577 *)
Definition ccd_reduce (pt : pitch_type) (red : reduction) (use_inv : bool) (transposition : Z)
  (rows : list row) (len : nat) (target : Z) : res ccd_item :=
  let! ts := reduce_chord_one_hots [target] false pt true NO_REDUCTION false red use_inv in
  let! target := hget ts 0 in
  match
    (let! (target, rows) :=
       (if transposition =? 0 then Ok (target, rows)
        else
          let! (rt, inv) := get_chord_from_one_hot_index target pt use_inv false false red in
          let (root, t) := rt : Z * chord_type in
          let! target := get_chord_one_hot_index t (root + transposition) pt inv use_inv false false red in
          let! rows := transpose_rows pt transposition rows len in
          Ok (target, rows)) in
     let! (rb, pitches) := intermediate_targets pt red use_inv target in
     let (root, bass) := rb : Z * Z in
     Ok (mkCI rows (Z.of_nat len) target root bass pitches))
  with
  | Raise ValueError =>
      Ok (mkCI (map (map (fun _ => 0)) rows) (-1) (-1) (-1) (-1) (zeros (NUM_PITCHES pt)))
  | r => r
  end.

(* ---- splits, lines 1182-1285 ---- *)
(* Python's round: to the nearest integer, halves to the even one *)
Definition py_round (x : Q) : Z :=
  let f := Qfloor x in
  let d := Qminus x (inject_Z f) in
  match Qcompare d (1 # 2) with
  | Lt => f
  | Gt => f + 1
  | Eq => if Z.even f then f else f + 1
  end.
(* Parsing: None for a file that is skipped.  perm is the shuffled index array. *)
Section Splits.
Context {P : Type}.
Variables (fadd fmul fdiv : Q -> Q -> Q).        (* float arithmetic *)
(* lines 1212-1213; sum adds from left to right, beginning with 0 *)
Definition normalise (splits : list Q) : res (list Q) :=
  let total := fold_left fadd splits 0%Q in
  if Qeq_bool total 0%Q then Raise AssertionError else Ok (map (fun s => fdiv s total) splits).
(* lines 1266-1283: the pieces of one split *)
Definition split_one (pieces : list P) (start stop : Z) : res (list P) :=
  if stop - start =? 0 then Ok []
  else if stop - start =? 1 then let! p := py_nth pieces start in Ok [p]
  else Ok (py_slice pieces start stop).
(* lines 1266-1283: all splits, one after the other *)
Fixpoint split_loop (ids : list Z) (pieces : list P) (prop : Q) (splits : list Q)
  : res (list (list Z) * list (list P)) :=
  match splits with
  | [] => Ok ([], [])
  | s :: r =>
      let n := inject_Z (zlen pieces) in
      let start := py_round (fmul prop n) in
      let prop := fadd prop s in
      let stop := py_round (fmul prop n) in
      let! ps := split_one pieces start stop in
      let! is := (if stop - start =? 0 then Ok []
                  else if stop - start =? 1 then let! i := py_nth ids start in Ok [i]
                  else Ok (py_slice ids start stop)) in
      let! (ri, rp) := split_loop ids pieces prop r in
      Ok (is :: ri, ps :: rp)
  end.
(* lines 1215-1259: what could be parsed, in the order of the files *)
Definition parsed (parse : Z -> option P) (files : list Z) : list (Z * P) :=
  concat (map (fun i => match parse i with Some p => [(i, p)] | None => [] end) files).
(* lines 1182-1285 get_split_file_ids_and_pieces *)
Definition get_splits (parse : Z -> option P) (perm : list nat) (splits : list Q) (files : list Z)
  : res (list (list Z) * list (list P)) :=
  let! splits := normalise splits in
  let l := parsed parse files in
  let! shuffled := mapM (hget l) perm in
  split_loop (map fst shuffled) (map snd shuffled) 0%Q splits.
End Splits.
