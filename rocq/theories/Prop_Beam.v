(* C17-C22: Beam and HashedBeam (beam_search_utils.py:886-1104).  A history is a list of
   add(state, force) calls on a new beam.  For HashedBeam each call adds a new object
   (distinct identities), as beam_search does. *)
From Verif Require Import Model_Beam Spec_Beam Proof_Beam.
Open Scope Z_scope.

Definition st (i : nat) (sc : Z) (h : Z) : bstate :=
  {| s_id := i; s_score := sc; s_tuple := Some [Some (Some h, Some 0)] |}.
Definition ex_ops : list (bstate * bool) :=
  [(st 1 5 1, true); (st 2 7 2, false); (st 3 6 1, false); (st 4 4 3, false); (st 5 9 4, false); (st 6 8 4, false)].

(* ---- C17 ---- *)
Theorem C17_plain_size : forall size ops, 1 <= size ->
  exists b, beam_run (new_beam size) ops = Ok b
    /\ b_len b = zlen (b_states b) /\ b_len b <= size + forced_calls ops.
Proof.
  intros size ops Hs. destruct (beam_run_ok ops (new_beam size) bheap_nil Hs) as (b & E & _).
  exists b. split; [exact E|]. split; [reflexivity|].
  destruct (plain_general size ops b Hs E) as (_ & _ & _ & H & _). exact H.
Qed.
Print Assumptions C17_plain_size.

Theorem C17_hashed_size : forall size ops, 1 <= size -> NoDup (ids ops) ->
  exists b, hbeam_run (new_hbeam size) ops = Ok b /\ hb_len b <= size + forced_calls ops.
Proof. exact hashed_len. Qed.
Print Assumptions C17_hashed_size.

(* a beam without room raises on the first unforced addition *)
Theorem C17_size_zero : forall size s, size <= 0 ->
  beam_add (new_beam size) s false = Raise IndexError
  /\ hbeam_add (new_hbeam size) s false = Raise IndexError.
Proof. intros size s H. split; [exact (plain_size0 size s H)|exact (hashed_size0 size s H)]. Qed.
Print Assumptions C17_size_zero.

Example C17_example :
  NoDup (ids ex_ops) /\ forced_calls ex_ops = 1
  /\ (exists b, beam_run (new_beam 2) ex_ops = Ok b /\ b_len b = 2)
  /\ (exists b, hbeam_run (new_hbeam 2) ex_ops = Ok b /\ hb_len b = 2)
  /\ (exists b, hbeam_run (new_hbeam 1) [(st 1 5 1, true); (st 2 7 2, true)] = Ok b /\ hb_len b = 2).
Proof.
  split; [repeat (constructor; [simpl; intuition discriminate|]); constructor|].
  split; [reflexivity|]. split; [eexists; split; vm_compute; reflexivity|].
  split; (eexists; split; vm_compute; reflexivity).
Qed.

(* ---- C18 ---- *)
(* Unforced histories: the beam is a multiset of the [size] best, the rest being no better. *)
Theorem C18_k_best : forall size ops, 1 <= size -> unforced ops ->
  exists b, beam_run (new_beam size) ops = Ok b
    /\ zlen (b_states b) = Z.min size (zlen ops)
    /\ exists rest, Permutation (map fst ops) (b_states b ++ rest)
         /\ forall x r, In x (b_states b) -> In r rest -> s_score r <= s_score x.
Proof.
  intros size ops Hs Hf. destruct (beam_run_ok ops (new_beam size) bheap_nil Hs) as (b & E & _).
  exists b. split; [exact E|]. exact (plain_best size ops b Hs Hf E).
Qed.
Print Assumptions C18_k_best.

(* Any mixture of forced and unforced calls: whatever was dropped leaves at least [size]
   states at least as good. *)
Theorem C18_forced_mix : forall size ops, 1 <= size ->
  exists b rest, beam_run (new_beam size) ops = Ok b
    /\ Permutation (map fst ops) (b_states b ++ rest)
    /\ forall r, In r rest -> size <= at_least r (b_states b).
Proof.
  intros size ops Hs. destruct (beam_run_ok ops (new_beam size) bheap_nil Hs) as (b & E & _).
  destruct (plain_general size ops b Hs E) as (R & HP & HR & _). exists b, R. auto.
Qed.
Print Assumptions C18_forced_mix.

Theorem C18_top : forall size ops, 1 <= size ->
  exists b, beam_run (new_beam size) ops = Ok b /\
  match get_top_state b with
  | None => ops = []
  | Some t => In t (map fst ops) /\ In t (b_states b)
              /\ forall s, In s (map fst ops) -> s_score s <= s_score t
  end.
Proof.
  intros size ops Hs. destruct (beam_run_ok ops (new_beam size) bheap_nil Hs) as (b & E & _).
  exists b. split; [exact E|]. exact (plain_top size ops b Hs E).
Qed.
Print Assumptions C18_top.

(* A newcomer that only ties with the worst state of a full beam is turned away. *)
Theorem C18_ties_keep_earlier : forall size ops b s, 1 <= size ->
  beam_run (new_beam size) ops = Ok b -> size <= b_len b ->
  (exists x, In x (b_states b) /\ s_score s <= s_score x
     /\ forall y, In y (b_states b) -> s_score x <= s_score y) ->
  beam_add b s false = Ok (b, false).
Proof. exact plain_tie. Qed.
Print Assumptions C18_ties_keep_earlier.

Definition ex_unforced := map (fun o : bstate * bool => (fst o, false)) ex_ops.
Example C18_example :
  unforced ex_unforced
  /\ (exists b, beam_run (new_beam 3) ex_unforced = Ok b
      /\ map s_score (b_states b) = [7; 8; 9]
      /\ get_top_state b = Some (st 5 9 4)
      /\ beam_add b (st 9 7 9) false = Ok (b, false)).
Proof.
  split.
  - intros o Ho. unfold ex_unforced in Ho. apply in_map_iff in Ho as (x & <- & _). reflexivity.
  - eexists. split; [vm_compute; reflexivity|]. vm_compute. auto.
Qed.

(* ---- C19 ---- *)
Lemma same_hash_iff a b : get_hash a = get_hash b <-> same_hash a b.
Proof.
  unfold get_hash, same_hash. destruct (s_tuple a) as [x|], (s_tuple b) as [y|]; split; intros H; try discriminate H; try contradiction; congruence.
Qed.
Lemma pairwise_hash B : NoDup (map get_hash B) -> ForallOrdPairs (fun x y => ~ same_hash x y) B.
Proof.
  induction B as [|x B IH]; cbn [map]; intros H; [constructor|]. inversion H as [|? ? Hn Hd]; subst. constructor; [|exact (IH Hd)].
  apply Forall_forall. intros y Hy E. apply Hn. apply same_hash_iff in E. rewrite E. apply in_map. exact Hy.
Qed.
Theorem C19_content : forall size ops, 1 <= size -> NoDup (ids ops) ->
  exists b B, hbeam_run (new_hbeam size) ops = Ok b /\ hb_states b = Ok B
    /\ ForallOrdPairs (fun x y => ~ same_hash x y) B
    /\ Permutation B (filter (live (hb_invalid b)) (hb_heap b))
    /\ (B <> [] -> exists top, hget (hb_heap b) 0 = Ok top /\ In top B
          /\ forall x, In x B -> s_score top <= s_score x).
Proof.
  intros size ops Hs Hn. destruct (hashed_content size ops Hs Hn) as (b & B & H1 & H2 & H3 & H4).
  exists b, B. split; [exact H1|]. split; [exact H2|]. split; [exact (pairwise_hash B H3)|exact H4].
Qed.
Print Assumptions C19_content.

(* One more addition: what it can add, and when a listed state can disappear. *)
Theorem C19_replacement : forall size ops s f, 1 <= size -> NoDup (ids (ops ++ [(s, f)])) ->
  exists b B b' B' added, hbeam_run (new_hbeam size) ops = Ok b /\ hb_states b = Ok B
    /\ hbeam_add b s f = Ok (b', added) /\ hb_states b' = Ok B'
    /\ (added = true <-> In s B')
    /\ (added = false -> b' = b)
    /\ (forall x, In x B' -> x = s \/ In x B)
    /\ (forall x, In x B -> ~ In x B' -> In s B' /\ s_score x < s_score s
         /\ (same_hash x s \/
             (f = false /\ size <= zlen B /\ forall y, In y B -> s_score x <= s_score y))).
Proof.
  intros size ops s f Hs Hn.
  destruct (hashed_step size ops s f Hs Hn) as (b & B & b' & B' & a & H1 & H2 & H3 & H4 & H5 & H6 & H7 & H8 & _).
  exists b, B, b', B', a. repeat (split; [assumption|]). intros x Hx Hx'. rewrite <- same_hash_iff. exact (H8 x Hx Hx').
Qed.
Print Assumptions C19_replacement.

(* Unforced histories: the listed state of a hash is the best ever offered with that hash. *)
Theorem C19_best_of_hash : forall size ops, 1 <= size -> NoDup (ids ops) -> unforced ops ->
  exists b B, hbeam_run (new_hbeam size) ops = Ok b /\ hb_states b = Ok B /\
    forall x r, In x B -> In r (map fst ops) -> same_hash r x -> s_score r <= s_score x.
Proof.
  intros size ops Hs Hn Hf. destruct (hashed_unforced size ops Hs Hn Hf) as (b & B & H1 & H2 & _ & H3 & _).
  exists b, B. split; [exact H1|]. split; [exact H2|]. intros x r Hx Hr Hh. apply same_hash_iff in Hh. exact (H3 x r Hx Hr Hh).
Qed.
Print Assumptions C19_best_of_hash.

(* five states, two collisions: 1 replaced by 3 (dead entry left in the heap for a while) *)
Example C19_example :
  NoDup (ids ex_unforced)
  /\ exists b, hbeam_run (new_hbeam 3) (firstn 4 ex_unforced) = Ok b
     /\ hb_states b = Ok [st 3 6 1; st 2 7 2; st 4 4 3]
     /\ (exists b', hbeam_add b (st 5 9 4) false = Ok (b', true)
          /\ hb_states b' = Ok [st 3 6 1; st 2 7 2; st 5 9 4]).
Proof.
  split; [repeat (constructor; [simpl; intuition discriminate|]); constructor|].
  eexists. split; [vm_compute; reflexivity|]. split; [reflexivity|].
  eexists. split; vm_compute; reflexivity.
Qed.

(* ---- C20 ---- *)
Theorem C20_best_retained : forall size ops, 1 <= size -> NoDup (ids ops) ->
  exists b, hbeam_run (new_hbeam size) ops = Ok b /\
   match hget_top_state b with
   | Ok None => ops = []
   | Ok (Some t) => In t (map fst ops) /\ (exists B, hb_states b = Ok B /\ In t B)
        /\ forall s, In s (map fst ops) -> s_score s <= s_score t
   | Raise _ => False
   end.
Proof. exact hashed_top. Qed.
Print Assumptions C20_best_retained.

Theorem C20_absent_dominated : forall size ops, 1 <= size -> NoDup (ids ops) ->
  exists b B, hbeam_run (new_hbeam size) ops = Ok b /\ hb_states b = Ok B
    /\ (forall x, In x B -> In x (map fst ops))
    /\ (forall r, In r (map fst ops) -> ~ In r B ->
         (exists x, In x B /\ same_hash x r /\ s_score r <= s_score x)
         \/ size <= at_least r B).
Proof.
  intros size ops Hs Hn. destruct (hashed_dominated size ops Hs Hn) as (b & B & H1 & H2 & H3 & H4).
  exists b, B. repeat (split; [assumption|]). intros r Hr Hn'. destruct (H4 r Hr Hn') as [(x & Hx & Eh & Hle)|Hd]; [left|right; exact Hd].
  exists x. apply same_hash_iff in Eh. auto.
Qed.
Print Assumptions C20_absent_dominated.

(* without forced additions: if no listed state has r's hash, the beam is exactly full and
   every listed state is at least as good as r *)
Theorem C20_absent_unforced : forall size ops, 1 <= size -> NoDup (ids ops) -> unforced ops ->
  exists b B, hbeam_run (new_hbeam size) ops = Ok b /\ hb_states b = Ok B /\ zlen B <= size
    /\ (forall r, In r (map fst ops) -> (forall x, In x B -> ~ same_hash x r) ->
          zlen B = size /\ forall x, In x B -> s_score r <= s_score x).
Proof.
  intros size ops Hs Hn Hf. destruct (hashed_unforced size ops Hs Hn Hf) as (b & B & H1 & H2 & H3 & _ & H4).
  exists b, B. repeat (split; [assumption|]). intros r Hr Hh. apply H4; [exact Hr|]. intros x Hx E. apply same_hash_iff in E. exact (Hh x Hx E).
Qed.
Print Assumptions C20_absent_unforced.

Example C20_example : exists b B,
  hbeam_run (new_hbeam 2) ex_ops = Ok b /\ hb_states b = Ok B
  /\ In (st 4 4 3) (map fst ex_ops) /\ ~ In (st 4 4 3) B /\ at_least (st 4 4 3) B = 2
  /\ ~ In (st 6 8 4) B /\ In (st 5 9 4) B /\ hget_top_state b = Ok (Some (st 5 9 4)).
Proof.
  do 2 eexists. split; [vm_compute; reflexivity|]. split; [vm_compute; reflexivity|].
  split; [simpl; tauto|]. split; [simpl; intuition discriminate|]. split; [reflexivity|].
  split; [simpl; intuition discriminate|]. split; [simpl; tauto|reflexivity].
Qed.

(* ---- C21 ---- *)
Theorem C21_plain_fits : forall size ops s, 1 <= size ->
  exists b b' added, beam_run (new_beam size) ops = Ok b
    /\ beam_add b s false = Ok (b', added) /\ fits_in_beam b s = Ok added
    /\ (added = true -> In s (b_states b')) /\ (added = false -> b' = b).
Proof.
  intros size ops s Hs. destruct (beam_run_ok ops (new_beam size) bheap_nil Hs) as (b & E & _).
  destruct (plain_fits size ops b s true Hs E) as (b' & a & H1 & H2 & H3 & H4).
  exists b, b', a. split; [exact E|]. split; [exact H1|]. split; [exact H2|]. split; [exact (H3 eq_refl)|exact H4].
Qed.
Print Assumptions C21_plain_fits.

Theorem C21_hashed_fits : forall size ops s, 1 <= size -> NoDup (ids (ops ++ [(s, false)])) ->
  exists b b' B' added r, hbeam_run (new_hbeam size) ops = Ok b
    /\ hbeam_add b s false = Ok (b', added) /\ hb_states b' = Ok B'
    /\ (added = true <-> In s B')
    /\ hfits_in_beam b s true = Ok added
    /\ hfits_in_beam b s false = Ok r /\ (r = false -> added = false).
Proof.
  intros size ops s Hs Hn.
  destruct (hashed_step size ops s false Hs Hn) as (b & B & b' & B' & a & H1 & H2 & H3 & H4 & H5 & _ & _ & _ & H9).
  destruct (H9 eq_refl) as (F1 & F2 & F3 & (r & F4)).
  exists b, b', B', a, r. repeat (split; [assumption|]). split; [|split; [exact F4|]].
  - destruct a; [apply F1|apply F2]; reflexivity.
  - intros ->. exact (F3 F4).
Qed.
Print Assumptions C21_hashed_fits.

(* with check_hash=False the answer may be True although add would refuse *)
Example C21_example : exists b, hbeam_run (new_hbeam 2) ex_ops = Ok b
  /\ hfits_in_beam b (st 7 10 4) true = Ok true
  /\ hfits_in_beam b (st 7 8 4) true = Ok false
  /\ hfits_in_beam b (st 7 8 4) false = Ok true
  /\ hfits_in_beam b (st 7 7 8) false = Ok false.
Proof. eexists. split; [vm_compute; reflexivity|]. vm_compute. auto. Qed.

(* ---- C22 ---- *)
Theorem C22_plain_reuse : forall size ops b ops2, 1 <= size -> beam_run (new_beam size) ops = Ok b ->
  b_len (beam_empty b) = 0 /\ beam_run (beam_empty b) ops2 = beam_run (new_beam size) ops2.
Proof. exact plain_empty. Qed.
Print Assumptions C22_plain_reuse.

(* The hashed beam violates the property: after empty() every addition raises, whatever
   happened before (empty() stores a list where a dict is needed, line 1098); only the
   length and get_top_state are those of a new beam. *)
Theorem C22_hashed_reuse_refuted : forall size ops b s f, 1 <= size ->
  hbeam_run (new_hbeam size) ops = Ok b -> NoDup (ids ops) ->
  hb_len (hbeam_empty b) = 0 /\ hget_top_state (hbeam_empty b) = Ok None
  /\ hbeam_add (hbeam_empty b) s f =
      Raise (match s_tuple s with Some _ => TypeError | None => IndexError end)
  /\ hb_states (hbeam_empty b) = Raise AttributeError.
Proof. exact hashed_empty_add. Qed.
Print Assumptions C22_hashed_reuse_refuted.

Example C22_example : exists b, hbeam_run (new_hbeam 2) ex_ops = Ok b
  /\ hbeam_add (hbeam_empty b) (st 7 10 4) false = Raise TypeError
  /\ (exists b', hbeam_add (new_hbeam 2) (st 7 10 4) false = Ok (b', true)).
Proof.
  eexists. split; [vm_compute; reflexivity|]. split; [vm_compute; reflexivity|].
  eexists. vm_compute. reflexivity.
Qed.
