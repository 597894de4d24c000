(* The hidden states of the recurrent networks during the beam search: beam_search_utils.py:25-113, 139-381, 598-694
   and joint_model.py:941-1101, 1105-1378.  The rest of a state is a state of Model_Search.
   Simplifications, for the whole file:
   - A network is what it does with one input vector: a new hidden state, and an output computed from it.  This is
     what the LSTMs (bidirectional=False) and the layers behind them do; the reduction of the inputs
     (joint_model.py:1145, 1217, 1353-1355) is part of the step.  That batches do not matter is C89.
   - States are values: the hidden states of a state are set before it is branched on (see Model_Search).
   - Which states are branched on, which chords and keys are tried, which states stay in the beams and what is
     added to log_prob is arbitrary here; all of it is in Model_Search. *)
From Verif Require Import PyBase Model_Search.
From Coq Require Import List.
Import ListNotations.
Open Scope Z_scope.

Section Hidden.
Variable H : Type.
(* init_hidden of one state (zeros), the step, and the output *)
Record net (O : Type) := mkNet { n_start : H; n_step : H -> list Z -> H; n_out : H -> O }.
Arguments n_start {O}. Arguments n_step {O}. Arguments n_out {O}.
Variables (csm : net (list Z)) (ktm : net Z) (ksm : net (list Z)).
(* torch.equal of both tensors of a hidden state *)
Variable heq : H -> H -> bool.
Variables (cpt kpt : pitch_type) (durs levels : list Z).
(* initial_chord_model.get_prior(mode of the key) *)
Variable icm : Z -> list Z.

(* a State with its hidden states *)
Inductive hstate := mkHs {
  hs : state;
  h_prev : option hstate;
  h_csm : option H;
  h_ktm : option H;
  h_ksm : option H
}.
(* joint_model.py:924-929: the initial state of a key *)
Definition initial (key : Z) (hash : option (list (option (option Z * option Z)))) : hstate :=
  mkHs {| st_chord := None; st_key := key; st_change := 0; st_logp := 0; st_prev := None; st_hash := hash;
          st_prior := icm key; st_must := false; st_csm := None; st_ksm := None; st_ktm := None |}
       None None None None.
(* beam_search_utils.py:218-232 *)
Definition h_chord_transition (s : hstate) (chord : Z) (change : nat) (lp : Z) : res (option hstate) :=
  let! t := chord_transition cpt kpt (hs s) chord change lp in
  Ok (option_map (fun t => mkHs t (Some s) (h_csm s) (h_ktm s) (h_ksm s)) t).
(* beam_search_utils.py:364-381 *)
Definition h_rejoin (s : hstate) (new_end : nat) (lp : Z) : res hstate :=
  let! t := rejoin cpt kpt (hs s) new_end lp in
  match h_prev s with
  | None => Raise AttributeError
  | Some p => Ok (mkHs t (Some p) (h_csm p) (h_ktm p) (h_ksm p))
  end.
(* beam_search_utils.py:291-308 *)
Definition h_key_transition (s : hstate) (key lp : Z) : res (option hstate) :=
  let! t := key_transition cpt kpt (hs s) key lp in
  match h_prev s with
  | None => Raise AttributeError
  | Some p => Ok (option_map (fun t => mkHs t (Some p) (h_csm s) (h_ktm p) (h_ksm p)) t)
  end.
(* beam_search_utils.py:148-161 *)
Definition h_copy (s : hstate) : res hstate :=
  let! t := copy_state (hs s) in Ok (mkHs t (h_prev s) (h_csm s) (h_ktm s) (h_ksm s)).
(* beam_search_utils.py:383-394, 396-490: log probabilities are added and remembered *)
Definition scored (s : hstate) (lp : Z) (c m k : option Z) : hstate :=
  let t := hs s in
  mkHs {| st_chord := st_chord t; st_key := st_key t; st_change := st_change t; st_logp := lp; st_prev := st_prev t;
          st_hash := st_hash t; st_prior := st_prior t; st_must := st_must t; st_csm := c; st_ksm := m; st_ktm := k |}
       (h_prev s) (h_csm s) (h_ktm s) (h_ksm s).

(* beam_search_utils.py:635-659 *)
Definition hidden_states_equal (a b : option H) : bool :=
  match a, b with
  | None, None => true
  | Some x, Some y => heq x y
  | _, _ => false
  end.
(* beam_search_utils.py:598-694 get_ksm_input, oldest input first *)
Fixpoint h_ksm_input (s : hstate) : res (list (list Z)) :=
  let! v := ktm_input cpt kpt durs levels (hs s) in
  match h_prev s with
  | None => Ok [v]
  | Some p =>
      match h_prev p with
      | None => Ok [v]
      | Some pp => if negb (hidden_states_equal (h_ksm p) (h_ksm pp)) then Ok [v]
                   else let! vs := h_ksm_input p in Ok (vs ++ [v])
      end
  end.
(* joint_model.py:1130-1134, 1203-1207, 1337-1341: zeros for a state that has no hidden state *)
Definition current {O} (n : net O) (h : option H) : H := match h with Some h => h | None => n_start n end.
(* joint_model.py:1336-1378 run_csm_batched, for one state *)
Definition run_csm (s : hstate) : res hstate :=
  let! x := csm_input cpt kpt durs levels (hs s) in
  let h := n_step csm (current csm (h_csm s)) x in
  Ok (mkHs (set_prior (hs s) (n_out csm h)) (h_prev s) (Some h) (h_ktm s) (h_ksm s)).
(* joint_model.py:1129-1167 get_key_change_probs, for one state: the output and the state *)
Definition run_ktm (s : hstate) : res (Z * hstate) :=
  let! x := ktm_input cpt kpt durs levels (hs s) in
  let h := n_step ktm (current ktm (h_ktm s)) x in
  Ok (n_out ktm h, mkHs (hs s) (h_prev s) (h_csm s) (Some h) (h_ksm s)).
(* joint_model.py:1202-1242 get_key_change_states, for one state: the log priors and the state *)
Definition run_ksm (s : hstate) : res (list Z * hstate) :=
  let! xs := h_ksm_input s in
  let h := fold_left (n_step ksm) xs (current ksm (h_ksm s)) in
  Ok (n_out ksm h, mkHs (hs s) (h_prev s) (h_csm s) (h_ktm s) (Some h)).

(* What the search can come to, joint_model.py:941-1101: states in a beam; states of the current beam after the CSM
   was run (944-945); new states (951-1014); those that are checked for key changes (1016-1017). *)
Inductive in_beam : hstate -> Prop :=
| ib_initial key hash : in_beam (initial key hash)
(* 1066-1071, 1084-1099: the key stays *)
| ib_kept t lp c m k : checked t -> in_beam (scored t lp c m k)
(* 1057-1064, 1073-1079: the key changes; the KTM and the KSM are run on the new state *)
| ib_changed u key lp n p n1 o n2 :
    to_ksm u -> key <> st_key (hs u) ->
    h_key_transition u key lp = Ok (Some n) -> run_ktm n = Ok (p, n1) -> run_ksm n1 = Ok (o, n2) -> in_beam n2
(* joint_model.py:936-945: the states of the current beam, after the CSM was run on them (not at index 0) *)
with current_state : hstate -> Prop :=
| cs_first key hash : current_state (initial key hash)
| cs_later s s' : in_beam s -> st_change (hs s) <> 0%nat -> run_csm s = Ok s' -> current_state s'
(* joint_model.py:950-1014: a new chord, or the last range rejoined *)
with branched : hstate -> Prop :=
| br_chord s chord change lp t : current_state s -> h_chord_transition s chord change lp = Ok (Some t) -> branched t
| br_rejoin s new_end lp t : current_state s -> h_rejoin s new_end lp = Ok t -> branched t
(* joint_model.py:1016-1017: after the KTM was run *)
with checked : hstate -> Prop :=
| ck t p u : branched t -> run_ktm t = Ok (p, u) -> checked u
(* 1055-1058: the state or a copy of it, with the log probability of a change *)
with to_ksm : hstate -> Prop :=
| tk_same t lp c m k : checked t -> to_ksm (scored t lp c m k)
| tk_copy t t' lp c m k : checked t -> h_copy t = Ok t' -> to_ksm (scored t' lp c m k).
End Hidden.
Arguments n_start {H O}. Arguments n_step {H O}. Arguments n_out {H O}. Arguments mkNet {H O}.
Arguments hs {H}. Arguments h_prev {H}. Arguments h_csm {H}. Arguments h_ktm {H}. Arguments h_ksm {H}. Arguments mkHs {H}.
Arguments initial {H}. Arguments h_chord_transition {H}. Arguments h_rejoin {H}. Arguments h_key_transition {H}.
Arguments h_copy {H}. Arguments scored {H}. Arguments hidden_states_equal {H}. Arguments h_ksm_input {H}.
Arguments current {H O}. Arguments run_csm {H}. Arguments run_ktm {H}. Arguments run_ksm {H}.
Arguments in_beam {H}. Arguments current_state {H}. Arguments branched {H}. Arguments checked {H}. Arguments to_ksm {H}.
