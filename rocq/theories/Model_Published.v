(* The systems that are published with the code: the options stored beside the checkpoints in
   checkpoints-best and checkpoints-fh-best (the same in both but for the initial chord model), and the
   files of initial chord models.  What is not modelled: the weights; the numbers of the priors are
   arguments. *)
From Coq Require Import String Ascii QArith.
From Verif Require Import PyBase Model_Types Model_Strings Model_Harmony Model_Vectors Model_Prior Model_Search Model_Grid Model_Checkpoints Model_Models Model_Debug.
From Coq Require Import List. Import ListNotations.
Close Scope Q_scope.
Open Scope Z_scope.

(* joint_model.py:31-38 MODEL_CLASSES *)
Inductive model_class := SimpleCcm | SimpleCtm | SimpleCsm | PitchBasedCsm | SimpleKtm | SimpleKsm | SimpleIcm.
(* joint_model.py:31-38 *)
Definition MODEL_CLASSES : list (pystr * list model_class) :=
  [(L"ccm", [SimpleCcm]); (L"ctm", [SimpleCtm]); (L"csm", [SimpleCsm; PitchBasedCsm]); (L"ktm", [SimpleKtm]);
   (L"ksm", [SimpleKsm]); (L"icm", [SimpleIcm])].

(* checkpoints-best/csm/lightning_logs/version_2/hparams.yaml:12-48, the same in checkpoints-fh-best *)
Definition stored_triads : list (chord_type * chord_type) :=
  [(Maj, Maj); (Min, Min); (Dim, Dim); (Aug, Aug); (Maj_Maj7, Maj); (Maj_Min7, Maj); (Min_Maj7, Min); (Min_Min7, Min);
   (Dim7, Dim); (Half_Dim7, Dim); (Aug_Min7, Aug); (Aug_Maj7, Aug)].
(* d[t], where every type is a key *)
Definition reduction_of (d : list (chord_type * chord_type)) : reduction :=
  fun t => match type_lookup t d with Some v => v | None => t end.
(* checkpoints-best/*/lightning_logs/version_*/hparams.yaml, the same in checkpoints-fh-best: the attributes
   of the model in the checkpoint of that version *)
Definition stored (name : pystr) (version : Z) : option component :=
  if str_eqb name (L"ccm") && (version =? 0) then Some (Ccm (mkCcm PScore TPC TPC true NO_REDUCTION))
  else if str_eqb name (L"ctm") && (version =? 0) then Some (Ctm (mkCtm PScore TPC))
  else if str_eqb name (L"csm") && (version =? 0) then Some (Csm (mkCsm TPC TPC TPC true NO_REDUCTION true NO_REDUCTION false))
  else if str_eqb name (L"csm") && (version =? 1) then Some (Csm (mkCsm TPC TPC TPC true NO_REDUCTION false NO_REDUCTION false))
  else if str_eqb name (L"csm") && (version =? 2) then Some (Csm (mkCsm TPC TPC TPC true NO_REDUCTION false (reduction_of stored_triads) false))
  else if str_eqb name (L"ktm") && (version =? 0) then Some (Ktm (mkKtm TPC TPC true NO_REDUCTION))
  else if str_eqb name (L"ksm") && (version =? 0) then Some (Ksm (mkKsm TPC TPC TPC true NO_REDUCTION))
  else None.

(* checkpoints-best/icm/initial_chord_prior.json:1-20, with the numbers as arguments *)
Definition icm_best (major minor : list Q) : list (pystr * json) :=
  [(L"pitch_type", JStr (L"PitchType.TPC")); (L"inversions_present", JBool true); (L"reduction_present", JNull);
   (L"use_inversions", JBool false);
   (L"reduction", JDict
      [(L"ChordType.MAJOR", JStr (L"ChordType.MAJOR")); (L"ChordType.MINOR", JStr (L"ChordType.MINOR"));
       (L"ChordType.DIMINISHED", JStr (L"ChordType.DIMINISHED")); (L"ChordType.AUGMENTED", JStr (L"ChordType.AUGMENTED"));
       (L"ChordType.MAJ_MAJ7", JStr (L"ChordType.MAJOR")); (L"ChordType.MAJ_MIN7", JStr (L"ChordType.MAJOR"));
       (L"ChordType.MIN_MAJ7", JStr (L"ChordType.MINOR")); (L"ChordType.MIN_MIN7", JStr (L"ChordType.MINOR"));
       (L"ChordType.DIM7", JStr (L"ChordType.DIMINISHED")); (L"ChordType.HALF_DIM7", JStr (L"ChordType.DIMINISHED"));
       (L"ChordType.AUG_MIN7", JStr (L"ChordType.AUGMENTED")); (L"ChordType.AUG_MAJ7", JStr (L"ChordType.AUGMENTED"))]);
   (L"major", JList (map JNum major)); (L"minor", JList (map JNum minor))].
(* checkpoints-fh-best/icm/initial_chord_prior.json:1-5 *)
Definition icm_fh (major minor : list Q) : list (pystr * json) :=
  [(L"inversions_present", JBool true); (L"reduction_present", JNull); (L"pitch_type", JStr (L"PitchType.TPC"));
   (L"major", JList (map JNum major)); (L"minor", JList (map JNum minor))].
(* data_utils.py:260, with the contents of the file *)
Definition open_icm (fields : list (pystr * json)) : res icm :=
  let! data := load_kwargs_from_json fields in SimpleInitialChordModel data true None.

(* data_utils.py:200-262 as annotate.py and test.py call it if no checkpoint files are named
   (annotate.py:252-280): --checkpoint DIR and perhaps --csm-version; fields: what the json file has in it *)
Definition open_models (glob : pystr -> list pystr) (load : model_class -> pystr -> option component)
  (dir : pystr) (csm_version : option Z) (fields : pystr -> list (pystr * json)) : res (loaded component) :=
  load_models_from_argparse glob load dir default_checkpoint
    (fun name => if str_eqb name (L"csm") then csm_version else None)
    (L"`--checkpoint`/icm/initial_chord_prior.json")
    (fun path => let! m := open_icm (fields path) in Ok (Icm m)) MODEL_CLASSES.

(* joint_model.py:2056-2069: the number of the annotated first chord, with the options of the initial chord
   model, and the message about it.  Simplified: a chord of the pitch type of the model (to_pitch_type does nothing). *)
Definition debug_first_chord (argsort : list Q -> list Z) (ic : icm) (c : chord) (minor : bool) : res (list message) :=
  let! i := chord_one_hot c true (icm_inversions ic) false (icm_reduction ic) in
  debug_initial_chord_prior argsort [i] (get_prior ic minor).
