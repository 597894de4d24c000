(* Specification vocabulary for the piece properties. *)
From Coq Require Import String QArith.
From Verif Require Import PyBase Model_Types Model_Harmony Model_Strings Model_Rhythm Model_Piece Spec_Music Spec_Rhythm.
From Coq Require Import List.
Import ListNotations.
Close Scope Q_scope.
Open Scope Z_scope.

(* [gs] cuts [l] into runs: each group is a first element and the elements that follow it and
   repeat it, and the next group starts with an element that does not repeat the group's
   first one. *)
Fixpoint heads_differ {A} (R : A -> A -> Prop) (gs : list (A * list A)) : Prop :=
  match gs with
  | g :: ((g' :: _) as r) => ~ R (fst g') (fst g) /\ heads_differ R r
  | _ => True
  end.
Definition maximal_runs {A} (R : A -> A -> Prop) (l : list A) (gs : list (A * list A)) : Prop :=
  concat (map (fun g => fst g :: snd g) gs) = l /\
  (forall g x, In g gs -> In x (snd g) -> R x (fst g)) /\
  heads_differ R gs.

(* Two chord labels name the same chord, as far as the options ask. *)
Definition same_chord (use_inversion use_suspension : bool) (a b : pchord) : Prop :=
  c_root (pc a) = c_root (pc b) /\ c_type (pc a) = c_type (pc b) /\ c_pt (pc a) = c_pt (pc b) /\
  (use_inversion = true -> c_inv (pc a) = c_inv (pc b)) /\
  (use_suspension = true -> pc_susp a = pc_susp b).
Definition same_key (use_relative : bool) (a b : key_obj) : Prop :=
  k_pt a = k_pt b /\
  (use_relative = true -> k_rel a = k_rel b /\ k_rel_mode a = k_rel_mode b) /\
  (use_relative = false -> k_local a = k_local b /\ k_local_mode a = k_local_mode b).

(* Positions in score order (measure number, then beat). *)
Definition before (a b : pos) : Prop := fst a < fst b \/ (fst a = fst b /\ (snd a < snd b)%Q).
Definition same_pos (a b : pos) : Prop := fst a = fst b /\ (snd a == snd b)%Q.
Fixpoint in_order (l : list pos) : Prop :=
  match l with
  | a :: ((b :: _) as r) => ~ before b a /\ in_order r
  | _ => True
  end.

(* k is the first index of l that satisfies P, or the last index of l if none does. *)
Definition first_or_last {A} (P : A -> Prop) (l : list A) (k : nat) : Prop :=
  (k < List.length l)%nat /\
  (forall j x, (j < k)%nat -> nth_error l j = Some x -> ~ P x) /\
  (forall x, nth_error l k = Some x -> P x \/ S k = List.length l).

Definition total (l : list Q) : Q := fold_right Qplus 0%Q l.

(* Each chord ends where the next one starts. *)
Fixpoint touching (l : list pchord) : Prop :=
  match l with
  | a :: ((b :: _) as r) => same_pos (pc_off a) (pc_on b) /\ touching r
  | _ => True
  end.

(* The i-th chord sounds from its change index up to the next chord's change index (the last
   one: for ever).  It meets the range [start, stop) of inputs if it starts inside it or is
   sounding at [start]. *)
Definition meets (changes : list Z) (start : Z) (stop : option Z) (i : nat) : bool :=
  match nth_error changes i with
  | None => false
  | Some c =>
      match stop with Some s => c <? s | None => true end &&
      ((start <=? c) || match nth_error changes (S i) with Some c' => start <? c' | None => true end)
  end.
Fixpoint non_decreasing (l : list Z) : Prop :=
  match l with
  | a :: ((b :: _) as r) => a <= b /\ non_decreasing r
  | _ => True
  end.

(* a row of zeros *)
Definition zeros (v : list Q) : Prop := forall x, In x v -> x = 0%Q.
(* n entries, 1 at index i and 0 elsewhere *)
Definition one_hot_at (v : list Q) (n i : Z) : Prop :=
  zlen v = n /\ 0 <= i < n /\
  forall j x, nth_error v j = Some x -> x = (if Z.of_nat j =? i then 1 else 0)%Q.

(* A note with a tonal pitch class, whose octave and metrical levels have a place in the
   vectors. *)
Definition good_note (n : note) : Prop :=
  no_pt n = TPC /\ 0 <= no_pitch n < 35 /\ 0 <= no_octave n < 10 /\
  0 <= no_on_level n <= 3 /\ 0 <= no_off_level n <= 3.
(* The MIDI number of a spelled pitch: C is 15 on the line of fifths, a fifth is 7 semitones. *)
Definition spelled_midi (n : note) : Z := 12 * no_octave n + (7 * (no_pitch n - 15)) mod 12.
Definition lowest (win : list note) (n : note) : Prop :=
  In n win /\ forall m, In m win -> spelled_midi n <= spelled_midi m.
Definition highest (win : list note) (n : note) : Prop :=
  In n win /\ forall m, In m win -> spelled_midi m <= spelled_midi n.

(* The row of note n in a window of notes: its pitch, octave and metrical levels, three
   rhythmic entries, the distances to its neighbours, and its height among the notes. *)
Definition describes (win : list note) (n : note) (on off du prev next : Q) (v : list Q) : Prop :=
  exists P O L1 L2 low R h rel,
    v = P ++ O ++ L1 ++ L2 ++ [on; off; du; prev; next; low] ++ R ++ [h; rel] /\
    one_hot_at P 35 (no_pitch n) /\ one_hot_at O 10 (no_octave n) /\
    one_hot_at L1 4 (no_on_level n) /\ one_hot_at L2 4 (no_off_level n) /\
    ((low = 1%Q /\ lowest win n) \/ (low = 0%Q /\ ~ lowest win n)) /\
    (forall b, lowest win b -> one_hot_at R 10 (no_octave n - no_octave b)) /\
    (h == inject_Z (spelled_midi n) / 127)%Q /\
    (0 <= rel)%Q /\ (rel <= 1)%Q /\ (rel == 0 <-> lowest win n)%Q /\
    (forall b t, lowest win b -> highest win t ->
       (rel * inject_Z (spelled_midi t - spelled_midi b) ==
        inject_Z (spelled_midi n - spelled_midi b))%Q).

(* The rhythmic entries of a note that starts at time t and lasts d, relative to a chord that
   starts at t0 and lasts D. *)
Definition relative_to (t d t0 D on off du : Q) : Prop :=
  (~ D == 0 -> on == (t - t0) / D /\ off == (t + d - t0) / D /\ du == d / D)%Q /\
  (D == 0 -> on == 1 /\ off == 1 /\ du == 1)%Q.

(* The tensor m of a chord with notes [a, b) and window w.  tt are the onset times of all notes
   of the piece followed by the end of the piece; the chord starts at time t0 and lasts D. *)
Definition window_notes (notes : list note) (a b w : Z) : list note :=
  py_slice notes (Z.max (a - w) 0) (Z.min (b + w) (zlen notes)).
Definition window_tensor (notes : list note) (tt : list Q) (a b w : Z) (t0 D : Q)
  (m : list (list Q)) : Prop :=
  zlen m = b - a + 2 * w /\
  forall j v, nth_error m j = Some v ->
    let i := a - w + Z.of_nat j in
    List.length v = 71%nat /\
    (~ (0 <= i < zlen notes) -> zeros v) /\
    (0 <= i < zlen notes -> exists n t tn on off du prev next,
       nth_error notes (Z.to_nat i) = Some n /\
       nth_error tt (Z.to_nat i) = Some t /\ nth_error tt (S (Z.to_nat i)) = Some tn /\
       describes (window_notes notes a b w) n on off du prev next v /\
       relative_to t (no_dur n) t0 D on off du /\
       (next == tn - t)%Q /\
       (i = 0 -> (prev == 0)%Q) /\
       (forall tp, 0 < i -> nth_error tt (Z.to_nat (i - 1)) = Some tp -> (prev == t - tp)%Q)).

(* Of a list of (index, value) pairs, v is the value of the last one whose index is at most k. *)
Definition last_up_to {V} (l : list (nat * V)) (k : nat) (v : V) : Prop :=
  exists before_ c after, l = before_ ++ (c, v) :: after /\ (c <= k)%nat /\
    forall x, In x after -> (k < fst x)%nat.
Fixpoint strictly_increasing (l : list nat) : Prop :=
  match l with
  | a :: ((b :: _) as r) => (a < b)%nat /\ strictly_increasing r
  | _ => True
  end.

(* What is needed to know about the chord that belongs to a range: it starts and ends at known
   times, and its duration is the time between. *)
Definition chord_times (ms : table) (T : Z -> Q) (s : Z) (ch : pchord) (t0 : Q) : Prop :=
  exists t1, plays_to ms s (fst (pc_on ch)) /\ plays_to ms s (fst (pc_off ch)) /\
    at_time ms T (pc_on ch) t0 /\ at_time ms T (pc_off ch) t1 /\ (pc_dur ch == t1 - t0)%Q.

(* The end of the piece: the end of its last chord, or without chords the latest end of a note. *)
Definition ends_at (notes : list note) (chords : option (list pchord)) (last : pos) : Prop :=
  match chords with
  | Some cs => exists cs' c, cs = cs' ++ [c] /\ last = pc_off c
  | None => In last (map no_off notes) /\ forall n, In n notes -> ~ before last (no_off n)
  end.

(* What the figures under a bass note say about the inversion. *)
Definition figures : list (string * Z) :=
  [("", 0); ("7", 0); ("6", 1); ("65", 1); ("64", 2); ("43", 2); ("2", 3)]%string.
(* The names of chord types in labels; the augmented sixth chords are read as the chords they
   are written on. *)
Definition label_types : list (string * chord_type) :=
  [("M", Maj); ("m", Min); ("o", Dim); ("+", Aug); ("MM7", Maj_Maj7); ("Mm7", Maj_Min7);
   ("mM7", Min_Maj7); ("mm7", Min_Min7); ("o7", Dim7); ("%7", Half_Dim7); ("+7", Aug_Min7);
   ("+M7", Aug_Maj7); ("It", Dim); ("Ger", Dim7); ("Fr", Maj_Min7)]%string.

(* The cells of a label row: a global key by name, a local key as a path of numerals in it, and
   possibly an applied key as a path of numerals in the local key. *)
Definition row_key (r : label_row) (k : key_obj) : Prop :=
  k_pt k = TPC /\ 0 <= k_global k < 35 /\
  (exists c v sharps flats, letter_fifths c = Some v /\ lr_globalkey r = spelling c sharps flats /\
     k_global k = 15 + v + 7 * (Z.of_nat sharps - Z.of_nat flats)) /\
  k_global_mode k = (if lr_global_minor r then MINOR else MAJOR) /\
  (exists path, path <> [] /\ forallb numeral_ok path = true /\ lr_localkey r = path_text path /\
     resolve_path TPC path (k_global k, k_global_mode k) = Some (k_local k, k_local_mode k)) /\
  match lr_relroot r with
  | None => k_rel k = k_local k /\ k_rel_mode k = k_local_mode k
  | Some s => exists path, path <> [] /\ forallb numeral_ok path = true /\ s = path_text path /\
      resolve_path TPC path (k_local k, k_local_mode k) = Some (k_rel k, k_rel_mode k)
  end.
(* The chord such a row names, of type t with the given figures, read with the options. *)
Definition row_chord (red : chord_type -> chord_type) (ui ur : bool) (r : label_row) (k : key_obj)
  (t : chord_type) (fig : Z) (c : pchord) : Prop :=
  let inv := if ui then fig mod positions (red t) else 0 in
  c_pt (pc c) = TPC /\ c_root (pc c) = k_local k + lr_root r /\ c_type (pc c) = red t /\
  c_inv (pc c) = inv /\
  (exists f, nth_error (chord_fifths (red t)) (Z.to_nat inv) = Some f /\ c_bass (pc c) = c_root (pc c) + f) /\
  c_tonic (pc c) = (if ur then k_rel k else k_local k) /\
  c_mode (pc c) = (if ur then k_rel_mode k else k_local_mode k) /\
  pc_on c = lr_on r /\ pc_off c = lr_off r /\ pc_dur c = lr_dur r /\ pc_susp c = lr_changes r.
