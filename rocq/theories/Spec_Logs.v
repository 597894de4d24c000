(* Vocabulary for C114. *)
From Verif Require Export Model_Logs.
Open Scope Z_scope.

(* the amount of a charge *)
Definition amount (c : charge) : num := match c with Ktm x | Ksm x | Csm x => x end.
(* the model that makes it *)
Definition model_of (c : charge) : nat := match c with Ktm _ => 0 | Ksm _ => 1 | Csm _ => 2 end.
(* each model charges at most once *)
Definition once (l : list charge) : Prop := NoDup (map model_of l).
(* a real score *)
Definition finite (x : num) : Prop := exists z, x = Fin z.
(* what the logarithm of a probability can be *)
Definition a_log (x : num) : Prop := finite x \/ x = NInf.
