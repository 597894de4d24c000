(* Specification vocabulary for pieces read from scores and csv labels. *)
From Coq Require Import QArith Qround String Ascii.
From Verif Require Import PyBase Model_Types Model_Strings Model_Rhythm Model_Piece Model_Xml Spec_Music Spec_Rhythm Spec_Piece.
From Coq Require Import List.
Import ListNotations.
Close Scope Q_scope.
Open Scope Z_scope.

(* The measure is under a bracket with number 1. *)
Definition first_time_only (bs : list bracket) (m : m21_measure) : bool :=
  existsb (fun b => match br_number b with
                    | Some n => (n =? 1) && (br_first b <=? mm_number m) && (mm_number m <=? br_last b)
                    | None => false
                    end) bs.
(* The other measures, in order. *)
Definition kept (bs : list bracket) (ms : list m21_measure) : list m21_measure :=
  filter (fun m => negb (first_time_only bs m)) ms.

(* The time signature in force after the measures of ms: that of the last measure that has one. *)
Fixpoint in_force (ts : Z * Z) (ms : list m21_measure) : Z * Z :=
  match ms with
  | [] => ts
  | m :: r => in_force (match mm_ts m with Some ts' => ts' | None => ts end) r
  end.
(* The length of a bar in whole notes. *)
Definition bar (ts : Z * Z) : Q := Qdiv (inject_Z (fst ts)) (inject_Z (snd ts)).

(* Each measure of the score starts where the one before ends; the first one starts at t. *)
Fixpoint gapless (t : Q) (ms : list m21_measure) : Prop :=
  match ms with
  | [] => True
  | m :: r => (mm_offset m == t)%Q /\ gapless (Qplus t (mm_ql m)) r
  end.
Definition whole (m : m21_measure) : Q := Qdiv (mm_ql m) 4.

(* The time at which the measure with index mc starts. *)
Definition start_of (t : xtable) (mc : Z) : Q :=
  match nth_error t (Z.to_nat mc) with Some x => x_start x | None => 0%Q end.

(* The name of a pitch in music21: a letter, sharps and flats. *)
Definition m21_name (c : ascii) (sharps flats : nat) : pystr :=
  c :: repeat "#"%char sharps ++ repeat "-"%char flats.
(* The note n is the one with name and octave p in the item, in the k-th measure of the table. *)
Definition note_of (t : xtable) (k : nat) (it : m21_item) (p : pystr * Z) (n : note) : Prop :=
  exists x, nth_error t k = Some x /\ no_pt n = TPC /\
    same_pos (no_on n) (Z.of_nat k, (m_off (x_row x) + it_offset it / 4)%Q) /\
    (no_dur n == it_ql it / 4)%Q /\ no_octave n = snd p /\
    (forall c v sharps flats, fst p = m21_name c sharps flats -> letter_fifths c = Some v ->
       no_pitch n = 15 + v + 7 * (Z.of_nat sharps - Z.of_nat flats)).
(* The first row with that measure number. *)
Definition first_row (t : xtable) (number : Z) (k : nat) : Prop :=
  exists x, nth_error t k = Some x /\ x_mn x = number /\
    forall j y, (j < k)%nat -> nth_error t j = Some y -> x_mn y <> number.
(* All the notes of a measure: items in order, pitches in order. *)
Definition pitches_of (items : list m21_item) : list (m21_item * (pystr * Z)) :=
  flat_map (fun it => map (pair it) (it_pitches it)) items.

(* ---- csv labels ---- *)
(* A key: a letter with sharps and flats; upper case for major. *)
Definition csv_key (c : ascii) (sharps flats : nat) : pystr :=
  c :: repeat "+"%char sharps ++ repeat "-"%char flats.
Definition upper (c : ascii) : bool := (65 <=? Z.of_nat (nat_of_ascii c)) && (Z.of_nat (nat_of_ascii c) <=? 90).
(* A degree: a sharps (or -a flats) and a digit. *)
Definition digit (d : Z) : ascii :=
  match d with 1 => "1" | 2 => "2" | 3 => "3" | 4 => "4" | 5 => "5" | 6 => "6" | _ => "7" end%char.
Definition csv_degree (a d : Z) : pystr :=
  (if a <? 0 then repeat "-"%char (Z.to_nat (- a)) else repeat "+"%char (Z.to_nat a)) ++ [digit d].
(* The degree on the line of fifths above the tonic: of the major scale, or of the minor scale with
   the raised seventh degree.  Two or more sharps before a six in minor are one too many. *)
Definition csv_fifths (m : key_mode) (a d : Z) : Z :=
  match m with
  | MAJOR => degree_fifths MAJOR d + 7 * a
  | MINOR => if d =? 7 then 5 + 7 * a
             else if (d =? 6) && (2 <=? a) then degree_fifths MINOR 6 + 7 * (a - 1)
             else degree_fifths MINOR d + 7 * a
  end.
(* The key applied at a degree: its tonic above the tonic, in fifths (sharps before a six in minor are
   one too many), and its mode. *)
Definition applied_fifths (m : key_mode) (a d : Z) : Z :=
  match m with
  | MAJOR => degree_fifths MAJOR d + 7 * a
  | MINOR => if d =? 7 then 5 + 7 * a
             else if (d =? 6) && (1 <=? a) then degree_fifths MINOR 6 + 7 * (a - 1)
             else degree_fifths MINOR d + 7 * a
  end.
Definition applied_modes (m : key_mode) : list (Z * Z * key_mode) :=
  match m with
  | MAJOR => [(0, 1, MAJOR); (1, 1, MINOR); (-1, 2, MAJOR); (0, 2, MINOR); (-1, 3, MAJOR); (0, 3, MINOR);
              (-1, 4, MINOR); (0, 4, MAJOR); (1, 4, MAJOR); (0, 5, MAJOR); (1, 5, MAJOR); (0, 6, MINOR);
              (-1, 7, MAJOR); (0, 7, MINOR)]
  | MINOR => [(-1, 1, MAJOR); (0, 1, MINOR); (-1, 2, MAJOR); (0, 2, MINOR); (0, 3, MAJOR); (-1, 4, MINOR);
              (0, 4, MINOR); (-1, 5, MINOR); (0, 5, MINOR); (0, 6, MAJOR); (1, 6, MAJOR); (-2, 7, MINOR);
              (-1, 7, MAJOR); (0, 7, MAJOR)]
  end.
(* The types of csv labels; augmented sixth chords are read as major triads in root position. *)
Definition csv_type_names : list (string * chord_type * bool) :=
  [("D7", Maj_Min7, true); ("M", Maj, true); ("M7", Maj_Maj7, true); ("d", Dim, true); ("a", Aug, true);
   ("d7", Dim7, true); ("m", Min, true); ("m7", Min_Min7, true); ("h7", Half_Dim7, true);
   ("Gr+6", Maj, false); ("Fr+6", Maj, false); ("It+6", Maj, false)]%string.
Definition applied_mode (m : key_mode) (a d : Z) : option key_mode :=
  option_map snd (find (fun e => (fst (fst e) =? a) && (snd (fst e) =? d)) (applied_modes m)).
(* The key of a degree "d" or "d/d2" in a key. *)
Definition csv_applied (tonic : Z) (m : key_mode) (by_ : option (Z * Z)) : option (Z * key_mode) :=
  match by_ with
  | None => Some (tonic, m)
  | Some (a, d) =>
      match applied_mode m a d with
      | Some m' => let p := tonic + applied_fifths m a d in
                   if (0 <=? p) && (p <? 35) then Some (p, m') else None
      | None => None
      end
  end.
Definition csv_degree_text (a d : Z) (by_ : option (Z * Z)) : pystr :=
  csv_degree a d ++ match by_ with None => [] | Some (a2, d2) => "/"%char :: csv_degree a2 d2 end.

(* How a degree may be written: also with a plus after it, as far as five. *)
Definition csv_reads (text : pystr) (a d : Z) (by_ : option (Z * Z)) : Prop :=
  1 <= d <= 7 /\ (forall a2 d2, by_ = Some (a2, d2) -> 1 <= d2 <= 7) /\
  (text = csv_degree_text a d by_ \/ (a = 0 /\ d <= 5 /\ by_ = None /\ text = [digit d; "+"%char])).
(* The label: a key, a degree in it and a chord type. *)
Record csv_label := mkLabel { cl_letter : ascii; cl_v : Z; cl_sharps : nat; cl_flats : nat;
                              cl_a : Z; cl_d : Z; cl_by : option (Z * Z); cl_type : chord_type; cl_inverts : bool }.
Definition says (r : csv_row) (x : csv_label) : Prop :=
  letter_fifths (cl_letter x) = Some (cl_v x) /\ r_key r = csv_key (cl_letter x) (cl_sharps x) (cl_flats x) /\
  csv_reads (r_degree r) (cl_a x) (cl_d x) (cl_by x) /\
  exists name, In (name, cl_type x, cl_inverts x) csv_type_names /\ r_type r = list_ascii_of_string name.
(* Its key on the line of fifths, and the key it is applied in. *)
Definition label_tonic (x : csv_label) : Z := 15 + cl_v x + 7 * (Z.of_nat (cl_sharps x) - Z.of_nat (cl_flats x)).
Definition label_mode (x : csv_label) : key_mode := if upper (cl_letter x) then MAJOR else MINOR.
Definition label_key (x : csv_label) : option (Z * key_mode) := csv_applied (label_tonic x) (label_mode x) (cl_by x).
(* The labels that are used: those in the piece, with a duration. *)
Definition label_used (r : csv_row) : bool := Qle_bool 0 (r_on r) && negb (Qle_bool (r_off r) (r_on r)).
