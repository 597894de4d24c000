(* Vocabulary for decoded vectors. *)
From Verif Require Import Model_Decode Model_Dataset Spec_Music.
Open Scope Z_scope.

(* what can be read from the vector of a chord: the distance to its tonic *)
Definition chord_read (c : full_chord) : decoded_chord :=
  {| d_root := relative_pitch (c_pt (fc c)) (c_root (fc c)) (c_tonic (fc c));
     d_bass := relative_pitch (c_pt (fc c)) (c_bass (fc c)) (c_tonic (fc c));
     d_mode := c_mode (fc c); d_type := c_type (fc c); d_inv := c_inv (fc c);
     d_onset_level := fc_onset_level c; d_offset_level := fc_offset_level c; d_pt := c_pt (fc c) |}.
(* what can be read from the vector of a change of key *)
Definition change_read (pt : pitch_type) (tonic next_tonic : Z) (next_mode : key_mode) : decoded_key :=
  {| dk_tonic := relative_pitch pt next_tonic tonic; dk_modes := [next_mode]; dk_pt := pt |}.
(* the changes of key that vectors have a place for *)
Definition near (pt : pitch_type) (tonic next_tonic : Z) : Prop := pt = TPC -> -14 <= next_tonic - tonic < 15.
(* a chord with an inversion and levels *)
Definition readable (pt : pitch_type) (c : full_chord) : Prop :=
  c_pt (fc c) = pt /\ 0 <= c_inv (fc c) /\ 0 <= fc_onset_level c /\ 0 <= fc_offset_level c.
