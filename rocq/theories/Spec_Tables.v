(* Vocabulary for the tables of labels and results. *)
From Coq Require Import QArith String Ascii.
From Verif Require Import Model_Strings Model_Rhythm Model_Piece Model_Search Model_Tables Spec_Music Spec_Piece Spec_Search Spec_Eval.
From Coq Require Import List.
Import ListNotations.
Close Scope Q_scope.
Open Scope Z_scope.

(* the numbers of the inputs that last, in order *)
Fixpoint sounding_from (k : nat) (durs : list Q) : list nat :=
  match durs with
  | [] => []
  | d :: r => if Qeq_bool d 0%Q then sounding_from (S k) r else k :: sounding_from (S k) r
  end.
Definition sounding (durs : list Q) : list nat := sounding_from 0 durs.

(* a pitch of one type said in another: fifths from C (15) are seven semitones each *)
Definition said_as (from_pt to_pt : pitch_type) (p q : Z) : Prop :=
  match from_pt, to_pt with
  | TPC, TPC => q = p
  | MIDI, MIDI => q = p mod 12
  | TPC, MIDI => q = (7 * (p - 15)) mod 12
  | MIDI, TPC => 0 <= q < 35 /\ (7 * (q - 15)) mod 12 = p mod 12
  end.

(* what a chord or key text says *)
Definition chord_text (pt : pitch_type) (root : Z) (t : chord_type) (inv : Z) (s : pystr) : Prop :=
  exists root_text inv_text,
    s = root_text ++ L":" ++ list_ascii_of_string (type_text t) ++ L", inv:" ++ inv_text
    /\ get_pitch_from_string root_text pt = Ok root /\ is_decimal_of inv_text inv.
Definition key_says (pt : pitch_type) (tonic : Z) (m : key_mode) (s : pystr) : Prop :=
  exists tonic_text,
    s = tonic_text ++ match m with MAJOR => L":KeyMode.MAJOR" | MINOR => L":KeyMode.MINOR" end
    /\ get_pitch_from_string tonic_text pt = Ok tonic.

(* the time taken by the rows of a table that satisfy a test *)
Fixpoint row_time {A} (dur : A -> Q) (test : A -> bool) (rows : list A) : Q :=
  match rows with
  | [] => 0%Q
  | r :: l => ((if test r then dur r else 0) + row_time dur test l)%Q
  end.

(* ---- the table of coloured labels ---- *)
(* What there is at an input: its note, the chord and key in force, the estimated ones. *)
Record heard := mkHeard {
  h_note : note; h_chord : Z * chord_type * Z; h_est : Z * chord_type * Z;
  h_key : Z * key_mode; h_est_key : Z * key_mode }.
Definition heard_at (p : piece) (s : state) (i : nat) (h : heard) : Prop :=
  nth_error (p_notes p) i = Some (h_note h) /\
  (exists c, chord_in_force p i c /\ h_chord h = (c_root (pc c), c_type (pc c), c_inv (pc c))) /\
  (exists k, key_in_force p i k /\ h_key h = (k_rel k, k_rel_mode k)) /\
  (exists e, labelled (fst (get_chords s)) (snd (get_chords s)) i (Some e) /\
     get_chord_from_one_hot_index e TPC true false false NO_REDUCTION = Ok (h_est h)) /\
  (exists f, labelled (fst (get_keys s)) (snd (get_keys s)) i f /\
     get_key_from_one_hot_index f TPC false = Ok (h_est_key h)).

(* green: right; yellow: right but for the inversion and the seventh, or but for the mode; red: wrong *)
Definition chord_verdict (gold est : Z * chord_type * Z) (c : colour) : Prop :=
  let almost := fst (fst gold) = fst (fst est) /\ TRIAD_REDUCTION (snd (fst gold)) = TRIAD_REDUCTION (snd (fst est)) in
  match c with Green => gold = est | Yellow => gold <> est /\ almost | Red => ~ almost end.
Definition key_verdict (gold est : Z * key_mode) (c : colour) : Prop :=
  match c with
  | Green => gold = est
  | Yellow => gold <> est /\ fst gold = fst est
  | Red => fst gold <> fst est
  end.

(* A row is written where the label in force or the estimate differs from that of the input before
   (the last one that lasts); an estimate that goes on is written "--". *)
Definition key_part (prev : option heard) (h : heard) (rows : list label_row_out) : Prop :=
  let same f := option_map f prev = Some (f h) in
  (same h_key /\ same h_est_key /\ rows = [])
  \/ (~ (same h_key /\ same h_est_key) /\ exists text c, rows = [(text, h_note h, c)]
       /\ key_verdict (h_key h) (h_est_key h) c
       /\ (same h_est_key -> text = L"--")
       /\ (~ same h_est_key -> key_says TPC (fst (h_est_key h)) (snd (h_est_key h)) text)).
Definition chord_part (prev : option heard) (h : heard) (rows : list label_row_out) : Prop :=
  let same f := option_map f prev = Some (f h) in
  (same h_chord /\ same h_est /\ rows = [])
  \/ (~ (same h_chord /\ same h_est) /\ exists text c, rows = [(text, h_note h, c)]
       /\ chord_verdict (h_chord h) (h_est h) c
       /\ (same h_est -> text = L"--")
       /\ (~ same h_est -> chord_text TPC (fst (fst (h_est h))) (snd (fst (h_est h))) (snd (h_est h)) text)).
Inductive written : option heard -> list heard -> list label_row_out -> Prop :=
| written_nil prev : written prev [] []
| written_cons prev h l k c rows : key_part prev h k -> chord_part prev h c -> written (Some h) l rows ->
    written prev (h :: l) (k ++ c ++ rows).

(* ---- the table of labels ---- *)
(* an alteration of a chord, "replaced:new" (or ":new"), its pitches said by [say]; a new note that is
   merely added has a "+" *)
Definition says_alteration (say : Z -> Z) (e : pystr * pystr) (t : pystr) : Prop :=
  exists a plus b s n, t = a ++ L":" ++ plus ++ b /\ (plus = [] \/ plus = L"+") /\
    snd e = plus ++ s /\ is_decimal_of s n /\ is_decimal_of b (say n) /\
    ((fst e = [] /\ a = []) \/ exists o, is_decimal_of (fst e) o /\ is_decimal_of a (say o)).
Fixpoint semicolons (l : list pystr) : pystr :=
  match l with [] => [] | [x] => x | x :: r => x ++ L";" ++ semicolons r end.
