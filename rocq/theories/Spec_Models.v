(* What it means that six models fit together, and what the options of the scripts ask for.
   Stated with the attributes of the models and the arguments of the scripts. *)
From Coq Require Export String Ascii QArith.
From Verif Require Export Model_Types Model_Strings Model_Harmony Model_Vectors Model_Prior Model_Models Spec_Total.
From Coq Require Export List. Export ListNotations.
Close Scope Q_scope.
Open Scope Z_scope.

(* the notes, the chords and the keys are each of one kind *)
Record agree (cc : ccm) (ct : ctm) (cs : csm) (kt : ktm) (ks : ksm) (ic : icm) : Prop := {
  ag_input : cc_input cc = ct_input ct;
  ag_notes : cc_in cc = ct_pitch ct;
  ag_chords : cc_out cc = cs_out cs /\ cs_chord cs = cs_out cs /\ ks_chord ks = cs_out cs /\ icm_pt ic = cs_out cs;
  ag_keys : cs_key cs = ks_out ks /\ kt_key kt = ks_out ks /\ ks_key ks = ks_out ks
}.
(* chords and keys are of the same kind, for the key transition model too *)
Record one_kind (j : joint) : Prop := {
  ok_keys : ks_out (j_ksm j) = cs_out (j_csm j);
  ok_ktm : kt_chord (j_ktm j) = cs_out (j_csm j)
}.
(* the classifier distinguishes all chords, a pitch-based model is about spelled pitches, and the
   prior is about all relative chords in all positions *)
Record full_models (j : joint) : Prop := {
  fm_ccm : cc_inv (j_ccm j) = true /\ forall t, cc_red (j_ccm j) t = t;
  fm_csm : cs_pitch_based (j_csm j) = true -> cs_out (j_csm j) = TPC;
  fm_icm : forall minor, zlen (get_prior (j_icm j) minor) = 44 * root_count (icm_pt (j_icm j)) true false
}.
(* every network returns as many numbers as it has outputs *)
Record outputs (j : joint) (o : oracle) (classifications : list (list Z)) : Prop := {
  out_ccm : forall row, In row classifications -> zlen row = ccm_classes (j_ccm j);
  out_csm : forall step l i, zlen (o_csm o step l i) = csm_output_dim (j_csm j);
  out_ksm : forall step l i, zlen (o_ksm o step l i) = ksm_output_dim (j_ksm j);
  out_icm : forall m, zlen (o_icm o m) = zlen (get_prior (j_icm j) (match m with MINOR => true | MAJOR => false end))
}.
(* the piece, what is forced on it and the ranges fit (cf. well_formed) *)
Record piece_fits (j : joint) (o : oracle) (pd : piece_data) (chord_ranges : list (nat * nat)) : Prop := {
  pf_piece : p_durs pd <> [];
  pf_levels : length (p_levels pd) = S (length (p_durs pd)) /\ forall l, In l (p_levels pd) -> 0 <= l < 4;
  pf_forced_k : length (p_forced_k pd) = length (p_durs pd)
     /\ forall k, In k (p_forced_k pd) -> k = -1 \/ 0 <= k < key_count (KEY_OUTPUT_TYPE j);
  pf_forced_c : forall c, In c (p_forced_c pd) -> c = -1 \/ 0 <= c < ccm_classes (j_ccm j);
  pf_ranges : valid_ranges chord_ranges (length (p_durs pd));
  pf_sort : forall l, Permutation (o_argsort o l) (zrange 0 (zlen l))
}.

(* options: at least one of the two flags; the versions they are for *)
Definition flagged (a : args) : Prop := a_defaults a = true \/ a_fh_defaults a = true.
Definition known_version (a : args) : Prop :=
  a_csm_version a = None \/ exists v, a_csm_version a = Some v /\ 0 <= v <= 2.
(* parameters with which a search can be run *)
Record usable (p : params) : Prop := {
  us_chord : (0 <= min_chord_change_prob p /\ min_chord_change_prob p <= max_no_chord_change_prob p /\ max_no_chord_change_prob p <= 1)%Q;
  us_key : (0 <= min_key_change_prob p /\ min_key_change_prob p <= max_no_key_change_prob p /\ max_no_key_change_prob p <= 1)%Q;
  us_length : (0 < max_chord_length p)%Q;
  us_beam : 1 <= beam_size p;
  us_chords : 1 <= max_chord_branching_factor p /\ (0 < target_chord_branch_prob p <= 1)%Q;
  us_keys : 1 <= max_key_branching_factor p /\ (0 < target_key_branch_prob p <= 1)%Q;
  us_hash : forall n, hash_length p = Some n -> 1 <= n;
  us_ksm : (0 < ksm_exponent p)%Q
}.
