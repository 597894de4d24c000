(* What the properties of the datasets are stated with. *)
From Coq Require Import QArith Permutation.
From Verif Require Export Spec_Search Model_Dataset.
Close Scope Q_scope.
Open Scope Z_scope.

(* c describes the chord analysed between the states p and f: root, type and inversion of the
   label, the bass they give, the key of f, and the time between the changes of p and f *)
Definition describes (g : search_cfg) (pd : piece_data) (pf : state * state) (c : full_chord) : Prop :=
  let (p, f) := pf in
  exists i, st_chord f = Some i
    /\ py_nth (chord_labels (g_cpt g)) i = Ok (c_root (fc c), c_type (fc c), c_inv (fc c))
    /\ get_bass_note (c_type (fc c)) (c_root (fc c)) (c_inv (fc c)) (g_cpt g) false = Ok (c_bass (fc c))
    /\ py_nth (key_labels (g_kpt g)) (st_key f) = Ok (c_tonic (fc c), c_mode (fc c))
    /\ c_pt (fc c) = g_cpt g
    /\ nth_error (p_levels pd) (st_change p) = Some (fc_onset_level c)
    /\ nth_error (p_levels pd) (st_change f) = Some (fc_offset_level c)
    /\ fc_duration c = zsum (firstn (st_change f - st_change p) (skipn (st_change p) (p_durs pd))).

(* the positions at which a key begins, with the key *)
Fixpoint key_starts (i : nat) (prev : option Z) (ks : list Z) : list (nat * Z) :=
  match ks with
  | [] => []
  | k :: r => if match prev with Some p => p =? k | None => false end then key_starts (S i) (Some k) r
              else (i, k) :: key_starts (S i) (Some k) r
  end.

(* the piece has the chords and keys of the analysis s *)
Definition analysed_as (g : search_cfg) (pd : piece_data) (p : dpiece) (s : state) : Prop :=
  let runs := key_starts 0 None (map (fun pf => st_key (snd pf)) (steps_of s)) in
  Forall2 (describes g pd) (steps_of s) (dp_chords p)
  /\ dp_changes p = map fst runs
  /\ Forall2 (fun r k => py_nth (key_labels (g_kpt g)) (snd r) = Ok k) runs (dp_keys p)
  /\ dp_pt p = g_cpt g.
(* the first chord has the key of the initial state *)
Definition first_key_kept (s : state) : Prop :=
  match steps_of s with [] => False | (p, f) :: _ => st_key p = st_key f end.

(* float addition, multiplication and division, as far as the splits need them *)
Definition float_like (fadd fmul fdiv : Q -> Q -> Q) : Prop :=
  (forall x s, 0 <= s -> x <= fadd x s)%Q
  /\ (forall x y n, 0 <= n -> x <= y -> fmul x n <= fmul y n)%Q
  /\ (forall n, 0 <= n -> fmul 0 n == 0)%Q
  /\ (forall x y, 0 <= x -> 0 < y -> 0 <= fdiv x y)%Q.
(* the files that can be parsed *)
Definition parsable {P} (parse : Z -> option P) (files : list Z) : list Z :=
  filter (fun i => match parse i with Some _ => true | None => false end) files.
(* ids and pieces of the splits: each parsable file in one place, with its own piece *)
Definition partition_of {P} (parse : Z -> option P) (files : list Z) (ids : list (list Z)) (ps : list (list P)) : Prop :=
  Forall2 (Forall2 (fun i p => parse i = Some p)) ids ps
  /\ Permutation (concat ids) (parsable parse files).

(* a dataset as the constructors make it: the lengths belong to the arrays, no array is empty, and
   all rows have the same width *)
Definition well_formed (ds : hds) : Prop :=
  hd_input_lengths ds = map (@length row) (hd_inputs ds)
  /\ Forall (fun x => x <> []) (hd_inputs ds)
  /\ (exists w, Forall (Forall (fun r : row => length r = w)) (hd_inputs ds))
  /\ match hd_targets ds, hd_target_lengths ds with
     | Ragged l, Some tl => tl = map (@length Z) l /\ length l = length (hd_inputs ds) /\ Forall (fun t => t <> []) l
     | Scalars l, None => length l = length (hd_inputs ds)
     | _, _ => False
     end.
(* the conversion to float16 changes no number of the dataset *)
Definition exact (f16 : Z -> Z) (ds : hds) : Prop :=
  f16 0 = 0 /\ Forall (Forall (Forall (fun x => f16 x = x))) (hd_inputs ds)
  /\ match hd_targets ds with
     | Ragged l => Forall (Forall (fun x => f16 x = x)) l
     | Scalars l => Forall (fun x => f16 x = x) l
     end.
(* the uses of a dataset: reading an item, writing it to a file *)
Inductive use := Read (i : nat) | Save.

(* a piece with chords: the keys begin at increasing indexes, the first with the first chord *)
Definition valid_piece (p : dpiece) : Prop :=
  length (dp_keys p) = length (dp_changes p)
  /\ nth_error (dp_changes p) 0 = Some 0%nat
  /\ (forall i a b, nth_error (dp_changes p) i = Some a -> nth_error (dp_changes p) (S i) = Some b -> (a < b)%nat)
  /\ (forall i a, nth_error (dp_changes p) i = Some a -> (a < length (dp_chords p))%nat).
(* item i of a dataset is item j of piece number pi, where the pieces have ns items *)
Definition item_at (ns : list nat) (i pi j : nat) : Prop :=
  (i = fold_right Nat.add 0 (firstn pi ns) + j)%nat /\ exists n, nth_error ns pi = Some n /\ (j < n)%nat.

(* reading an item of a key dataset (without reductions): the item, and the dataset afterwards *)
Definition read_key (transition : bool) (ds : key_ds) (i : nat) : res key_item :=
  match key_getitem transition None true ds i with Ok (it, _) => Ok it | Raise e => Raise e end.
Definition after_read (transition : bool) (ds : key_ds) (i : nat) : key_ds :=
  match key_getitem transition None true ds i with Ok (_, ds') => ds' | Raise _ => ds end.

(* the note an interval higher, everything else unchanged *)
Definition shifted (x : note_vec_in) (interval : Z) : note_vec_in :=
  {| nv_pitch := nv_pitch x + interval; nv_octave := nv_octave x; nv_onset_level := nv_onset_level x;
     nv_offset_level := nv_offset_level x; nv_metrical := nv_metrical x; nv_durations := nv_durations x;
     nv_is_min := nv_is_min x; nv_relative_octave := nv_relative_octave x; nv_height := nv_height x;
     nv_relative_height := nv_relative_height x; nv_pt := nv_pt x |}.
(* an item that is marked as unusable *)
Definition refused (d : ccd_item) : Prop :=
  ci_target d = -1 /\ ci_length d = -1 /\ ci_root d = -1 /\ ci_bass d = -1
  /\ Forall (Forall (fun x => x = 0)) (ci_inputs d).
