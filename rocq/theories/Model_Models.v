(* The joint model as it is put together from its parts (joint_model.py:31-60, 186-371, 2076-2111),
   the sizes of the networks' inputs and outputs, and the tables of options of annotate.py:26-128.
   Simplified: floats are rationals (only their order is used); the dictionary of models is a list;
   the networks' weights are not modelled. *)
From Coq Require Import String Ascii QArith.
From Verif Require Import PyBase Model_Types Model_Strings Model_Harmony Model_Vectors Model_Prior Model_Search.
From Coq Require Import List. Import ListNotations.
Close Scope Q_scope.
Open Scope Z_scope.

(* data_types.py:5-12 PieceType *)
Inductive piece_type := PScore | PMidi | PAudio.
(* == on PieceType, data_types.py:5-12 *)
Definition piece_type_eqb (a b : piece_type) : bool :=
  match a, b with PScore, PScore | PMidi, PMidi | PAudio, PAudio => true | _, _ => false end.

(* ---- the parts ------------------------------------------------------------------------- *)
(* chord_classifier_models.py:60-68 *)
Record ccm := mkCcm { cc_input : piece_type; cc_in : pitch_type; cc_out : pitch_type; cc_inv : bool; cc_red : reduction }.
(* chord_transition_models.py:43-45 *)
Record ctm := mkCtm { ct_input : piece_type; ct_pitch : pitch_type }.
(* chord_sequence_models.py:62-69; cs_pitch_based: whether it is a PitchBasedChordSequenceModel *)
Record csm := mkCsm { cs_chord : pitch_type; cs_key : pitch_type; cs_out : pitch_type;
  cs_in_inv : bool; cs_in_red : reduction; cs_out_inv : bool; cs_out_red : reduction; cs_pitch_based : bool }.
(* key_transition_models.py:50-56 *)
Record ktm := mkKtm { kt_chord : pitch_type; kt_key : pitch_type; kt_inv : bool; kt_red : reduction }.
(* key_sequence_models.py:53-60 *)
Record ksm := mkKsm { ks_chord : pitch_type; ks_key : pitch_type; ks_out : pitch_type; ks_inv : bool; ks_red : reduction }.
(* a value of the dictionary models: one of the classes of MODEL_CLASSES, or something else *)
Inductive component := Ccm (m : ccm) | Ctm (m : ctm) | Csm (m : csm) | Ktm (m : ktm) | Ksm (m : ksm) | Icm (m : icm) | Stranger.
(* joint_model.py:31-38 MODEL_CLASSES, one test for each entry *)
Definition as_ccm c := match c with Ccm m => Some m | _ => None end.
(* joint_model.py:31-38 *)
Definition as_ctm c := match c with Ctm m => Some m | _ => None end.
(* joint_model.py:31-38 *)
Definition as_csm c := match c with Csm m => Some m | _ => None end.
(* joint_model.py:31-38 *)
Definition as_ktm c := match c with Ktm m => Some m | _ => None end.
(* joint_model.py:31-38 *)
Definition as_ksm c := match c with Ksm m => Some m | _ => None end.
(* joint_model.py:31-38 *)
Definition as_icm c := match c with Icm m => Some m | _ => None end.

(* ---- sizes of the networks --------------------------------------------------------------- *)
(* chord_classifier_models.py:244 *)
Definition ccm_input_dim (m : ccm) : Z := get_note_vector_length (cc_in m).
(* chord_classifier_models.py:245-252 *)
Definition ccm_classes (m : ccm) : Z := get_chord_vector_length (cc_out m) true false (cc_inv m) false (cc_red m).
(* chord_transition_models.py:210 *)
Definition ctm_input_dim (m : ctm) : Z := get_note_vector_length (ct_pitch m).
(* chord_sequence_models.py:274-285, 423-434 *)
Definition csm_input_dim (m : csm) : Z :=
  get_chord_vector_length (cs_chord m) false true (cs_in_inv m) false (cs_in_red m)
  + get_key_change_vector_length (cs_key m) false + 1.
(* chord_sequence_models.py:286-293; 435 for the pitch-based model, whatever its pitch type *)
Definition csm_output_dim (m : csm) : Z :=
  if cs_pitch_based m then MAX_RELATIVE_TPC - MIN_RELATIVE_TPC
  else get_chord_vector_length (cs_out m) true true (cs_out_inv m) false (cs_out_red m).
(* key_transition_models.py:240-251 *)
Definition ktm_input_dim (m : ktm) : Z :=
  get_chord_vector_length (kt_chord m) false true (kt_inv m) true (kt_red m)
  + get_key_change_vector_length (kt_key m) false + 1.
(* key_sequence_models.py:234-245 *)
Definition ksm_input_dim (m : ksm) : Z :=
  get_chord_vector_length (ks_chord m) false true (ks_inv m) true (ks_red m)
  + get_key_change_vector_length (ks_key m) false + 1.
(* key_sequence_models.py:246 *)
Definition ksm_output_dim (m : ksm) : Z := get_key_change_vector_length (ks_out m) true.

(* ---- the constructor --------------------------------------------------------------------- *)
(* joint_model.py:189-200, the parameters *)
Record params := mkParams {
  min_chord_change_prob : Q; max_no_chord_change_prob : Q; max_chord_length : Q;
  min_key_change_prob : Q; max_no_key_change_prob : Q;
  beam_size : Z; max_chord_branching_factor : Z; target_chord_branch_prob : Q;
  max_key_branching_factor : Z; target_key_branch_prob : Q; hash_length : option Z; ksm_exponent : Q }.
(* joint_model.py:47-58 *)
Definition default_params : params :=
  mkParams (25 # 100) (45 # 100) 8 (5 # 100) (75 # 100) 50 5 (75 # 100) 2 (5 # 10) (Some 5) 50.

(* assert *)
Definition py_assert (b : bool) : res unit := if b then Ok tt else Raise AssertionError.
(* joint_model.py:247-251: the model is there and is of its class *)
Definition take_model {A} (models : list (pystr * component)) (name : pystr) (as_class : component -> option A) : res A :=
  match str_lookup name models with
  | None => Raise AssertionError
  | Some c => match as_class c with None => Raise AssertionError | Some m => Ok m end
  end.
(* joint_model.py:257-315: the object *)
Record joint := mkJoint {
  j_ccm : ccm; j_ctm : ctm; j_csm : csm; j_ktm : ktm; j_ksm : ksm; j_icm : icm;
  INPUT_TYPE : piece_type; CHORD_OUTPUT_TYPE : pitch_type; KEY_OUTPUT_TYPE : pitch_type;
  LABELS_chord : list (Z * chord_type * Z); LABELS_key : list (Z * key_mode); LABELS_relative_key : list (key_mode * Z);
  j_params : params }.
(* joint_model.py:323-371 check_input_output_types *)
Definition check_input_output_types (cc : ccm) (ct : ctm) (cs : csm) (kt : ktm) (ks : ksm) (ic : icm) : res unit :=
  let! _ := py_assert (piece_type_eqb (cc_input cc) (ct_input ct)) in
  let! _ := py_assert (pt_eqb (cc_in cc) (ct_pitch ct)) in
  let! _ := py_assert (pt_eqb (cc_out cc) (cs_chord cs)) in
  let! _ := py_assert (pt_eqb (cs_out cs) (ks_chord ks)) in
  let! _ := py_assert (pt_eqb (cs_out cs) (ks_chord ks)) in
  let! _ := py_assert (pt_eqb (cs_out cs) (cs_chord cs)) in
  let! _ := py_assert (pt_eqb (cs_key cs) (ks_out ks)) in
  let! _ := py_assert (pt_eqb (kt_key kt) (ks_out ks)) in
  let! _ := py_assert (pt_eqb (ks_key ks) (ks_out ks)) in
  py_assert (pt_eqb (icm_pt ic) (cs_out cs)).
(* joint_model.py:186-321 __init__ *)
Definition HarmonicInferenceModel (models : list (pystr * component)) (p : params) : res joint :=
  let! cc := take_model models (L"ccm") as_ccm in
  let! ct := take_model models (L"ctm") as_ctm in
  let! cs := take_model models (L"csm") as_csm in
  let! kt := take_model models (L"ktm") as_ktm in
  let! ks := take_model models (L"ksm") as_ksm in
  let! ic := take_model models (L"icm") as_icm in
  let! _ := check_input_output_types cc ct cs kt ks ic in
  let chord_type := cs_out cs in
  let key_type := ks_out ks in
  let! _ := py_assert (Qle_bool (min_chord_change_prob p) (max_no_chord_change_prob p)) in
  let! _ := py_assert (Qle_bool (min_key_change_prob p) (max_no_key_change_prob p)) in
  Ok {| j_ccm := cc; j_ctm := ct; j_csm := cs; j_ktm := kt; j_ksm := ks; j_icm := ic;
        INPUT_TYPE := cc_input cc; CHORD_OUTPUT_TYPE := chord_type; KEY_OUTPUT_TYPE := key_type;
        LABELS_chord := chord_labels chord_type; LABELS_key := key_labels key_type;
        LABELS_relative_key := relative_key_labels key_type; j_params := p |}.

(* joint_model.py:557: the type of the piece; nothing asks for the pitch type of its notes *)
Definition accepts_piece (j : joint) (data_type : piece_type) : res unit := py_assert (piece_type_eqb data_type (INPUT_TYPE j)).

(* What beam_search reads of the object (joint_model.py:839-1103).  Model_Search has numbers of an
   arbitrary scale for probabilities: [scale] takes them there. *)
Definition cfg_of (scale : Q -> Z) (j : joint) : search_cfg :=
  let p := j_params j in
  {| g_cpt := CHORD_OUTPUT_TYPE j; g_kpt := KEY_OUTPUT_TYPE j;
     g_beam_size := beam_size p; g_hash_length := hash_length p;
     g_min_key := scale (min_key_change_prob p); g_max_no_key := scale (max_no_key_change_prob p);
     g_target_chord := scale (target_chord_branch_prob p); g_max_chord := max_chord_branching_factor p;
     g_target_key := scale (target_key_branch_prob p); g_max_key := max_key_branching_factor p;
     g_ksm_exp := scale (ksm_exponent p);
     g_use_inv := cs_out_inv (j_csm j); g_red := cs_out_red (j_csm j); g_pitch_based := cs_pitch_based (j_csm j) |}.

(* ---- options ------------------------------------------------------------------------------- *)
(* the options that matter here: annotate.py:216-232, 255-273, joint_model.py:61-178 *)
Record args := mkArgs { a_defaults : bool; a_fh_defaults : bool; a_csm_version : option Z; a_params : params }.
(* sys.exit(1), or the options after the call *)
Inductive set_result := SetExit | SetTo (a : args).
(* annotate.py:37-82: the table of --defaults *)
Definition defaults_table (version : option Z) : option params :=
  match version with
  | Some 0 => Some (mkParams (25 # 100) (45 # 100) 8 (10 # 100) (75 # 100) 50 5 (75 # 100) 2 (5 # 10) (Some 5) 100)
  | Some 1 => Some (mkParams (25 # 100) (50 # 100) 8 (5 # 100) (75 # 100) 50 5 (75 # 100) 2 (5 # 10) (Some 5) 50)
  | Some 2 | None => Some (mkParams (25 # 100) (45 # 100) 8 (5 # 100) (75 # 100) 50 5 (50 # 100) 2 (5 # 10) (Some 5) 50)
  | Some _ => None
  end.
(* annotate.py:84-128: the table of --fh-defaults *)
Definition fh_table (version : option Z) : option params :=
  match version with
  | Some 0 => Some (mkParams (30 # 100) (40 # 100) 8 (10 # 100) (70 # 100) 50 5 (75 # 100) 2 (5 # 10) (Some 5) 30)
  | Some 1 => Some (mkParams (30 # 100) (40 # 100) 8 (10 # 100) (70 # 100) 50 5 (75 # 100) 2 (5 # 10) (Some 5) 30)
  | Some 2 | None => Some (mkParams (30 # 100) (40 # 100) 8 (10 # 100) (70 # 100) 50 5 (75 # 100) 2 (5 # 10) (Some 5) 30)
  | Some _ => None
  end.
(* ARGS.x = ... for all twelve *)
Definition with_params (a : args) (p : params) : args :=
  {| a_defaults := a_defaults a; a_fh_defaults := a_fh_defaults a; a_csm_version := a_csm_version a; a_params := p |}.
(* annotate.py:26-128 set_default_args *)
Definition set_default_args (a : args) : set_result :=
  let first := if a_defaults a
               then match defaults_table (a_csm_version a) with Some p => SetTo (with_params a p) | None => SetExit end
               else SetTo a in
  match first with
  | SetExit => SetExit
  | SetTo a => if a_fh_defaults a
               then match fh_table (a_csm_version a) with Some p => SetTo (with_params a p) | None => SetExit end
               else SetTo a
  end.
(* joint_model.py:2076-2111 from_args: every parameter is given by its name *)
Definition from_args (models : list (pystr * component)) (a : args) : res joint :=
  let p := a_params a in
  HarmonicInferenceModel models
    {| min_chord_change_prob := min_chord_change_prob p; max_no_chord_change_prob := max_no_chord_change_prob p;
       max_chord_length := max_chord_length p; min_key_change_prob := min_key_change_prob p;
       max_no_key_change_prob := max_no_key_change_prob p; beam_size := beam_size p;
       max_chord_branching_factor := max_chord_branching_factor p; target_chord_branch_prob := target_chord_branch_prob p;
       max_key_branching_factor := max_key_branching_factor p; target_key_branch_prob := target_key_branch_prob p;
       hash_length := hash_length p; ksm_exponent := ksm_exponent p |}.
(* test.py:554, 585: the tables are used, then the model is made; None is sys.exit(1) *)
Definition test_model (models : list (pystr * component)) (a : args) : res (option joint) :=
  match set_default_args a with
  | SetExit => Ok None
  | SetTo a => let! j := from_args models a in Ok (Some j)
  end.
(* annotate.py:305-330: set_default_args is not called *)
Definition annotate_model (models : list (pystr * component)) (a : args) : res (option joint) :=
  let! j := from_args models a in Ok (Some j).
