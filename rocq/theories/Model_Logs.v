(* Scores with infinities: the arithmetic on log_prob in harmonic_inference/utils/beam_search_utils.py
   (class State) and the comparisons in class Beam, when a probability is 0.  Model_Search has integers
   instead and leaves log 0 open.

   Simplification: finite scores are integers added exactly (IEEE rounding is not modelled); a state is
   only its score and its most recent charges. *)
From Verif Require Export Model_Heap.
Open Scope Z_scope.

(* a float: a finite one, -inf, inf or nan *)
Inductive num := Fin (z : Z) | NInf | PInf | NaN.

(* a + b, IEEE 754 *)
Definition n_add (a b : num) : num :=
  match a, b with
  | NaN, _ | _, NaN => NaN
  | Fin x, Fin y => Fin (x + y)
  | NInf, PInf | PInf, NInf => NaN
  | NInf, _ | _, NInf => NInf
  | PInf, _ | _, PInf => PInf
  end.
(* -a *)
Definition n_opp (a : num) : num :=
  match a with Fin x => Fin (- x) | NInf => PInf | PInf => NInf | NaN => NaN end.
(* a - b *)
Definition n_sub (a b : num) : num := n_add a (n_opp b).
(* a < b: False whenever one of them is nan *)
Definition n_lt (a b : num) : bool :=
  match a, b with
  | Fin x, Fin y => x <? y
  | NInf, Fin _ | NInf, PInf | Fin _, PInf => true
  | _, _ => false
  end.
(* np.log(p) * length for a probability: joint_model.py:1025-1027, 1059, 1067 (np.errstate silences the
   warning for 0) and beam_search_utils.py:482-488.  [log] gives the finite logarithms. *)
Definition n_log (log : Z -> Z) (p length : Z) : num :=
  if p =? 0 then (if 0 <? length then NInf else NaN) else Fin (log p * length).

(* beam_search_utils.py:25-113: log_prob, most_recent_csm, most_recent_ksm, most_recent_ktm *)
Record score := { sc_logp : num; sc_csm : option num; sc_ksm : option num; sc_ktm : option num }.
(* a state made by chord_transition (163-232) or rejoin has no charges *)
Definition uncharged (x : num) : score := {| sc_logp := x; sc_csm := None; sc_ksm := None; sc_ktm := None |}.

(* the three ways in which a model is charged *)
Inductive charge := Ktm (x : num) | Ksm (x : num) | Csm (x : num).
(* 383-394 add_ktm_log_prob; 248-308 key_transition (log_prob + and most_recent_ksm); 482-490 add_csm_prior *)
Definition charged (s : score) (c : charge) : score :=
  match c with
  | Ktm x => {| sc_logp := n_add (sc_logp s) x; sc_csm := sc_csm s; sc_ksm := sc_ksm s; sc_ktm := Some x |}
  | Ksm x => {| sc_logp := n_add (sc_logp s) x; sc_csm := sc_csm s; sc_ksm := Some x; sc_ktm := sc_ktm s |}
  | Csm x => {| sc_logp := n_add (sc_logp s) x; sc_csm := Some x; sc_ksm := sc_ksm s; sc_ktm := sc_ktm s |}
  end.
(* 310-381 State.rejoin: log_prob + lp - sum(the charges that are not None); sum starts with 0 *)
Definition rejoined (s : score) (lp : num) : score :=
  let adjustment := fold_left (fun a o => match o with Some x => n_add a x | None => a end)
                      [sc_csm s; sc_ksm s; sc_ktm s] (Fin 0) in
  uncharged (n_sub (n_add (sc_logp s) lp) adjustment).

(* 882-883 State.__lt__ on scores; 886-981 class Beam, as in Model_Beam *)
Definition n_max (a : num) (l : list num) : num :=
  fold_left (fun best x => if n_lt best x then x else best) l a.
(* 909-930 Beam.fits_in_beam *)
Definition n_fits (size : Z) (heap : list num) (s : num) : res bool :=
  if zlen heap <? size then Ok true else let! top := hget heap 0 in Ok (n_lt top s).
(* 932-957 Beam.add *)
Definition n_beam_add (size : Z) (heap : list num) (s : num) : res (list num * bool) :=
  if size <=? zlen heap then
    let! top := hget heap 0 in
    if n_lt top s then let! (_, h) := heappushpop n_lt heap s in Ok (h, true) else Ok (heap, false)
  else let! h := heappush n_lt heap s in Ok (h, true).
(* Beam.add for several states in turn, 932-957 *)
Fixpoint n_beam_run (size : Z) (heap : list num) (l : list num) : res (list num) :=
  match l with
  | [] => Ok heap
  | s :: r => let! (h, _) := n_beam_add size heap s in n_beam_run size h r
  end.
(* 959-969 Beam.get_top_state *)
Definition n_top (heap : list num) : option num :=
  match heap with [] => None | a :: l => Some (n_max a l) end.
