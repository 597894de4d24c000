(* C104: what the cells of the tables of a corpus say. *)
From Coq Require Import QArith String Ascii Lia.
From Verif Require Import Model_Convert Model_Rhythm Model_Corpus Spec_Runs Spec_Convert Proof_Base Proof_Runs Proof_Convert.
From Coq Require Import List.
Import ListNotations.
Close Scope Q_scope.
Open Scope Z_scope.

(* A text is read as numbers exactly if it says them, one after the other with ", " between them. *)
Theorem C104_tuple s zs : zs <> [] -> (str2inttuple s = zs <-> says_ints s zs).
Proof.
  intros N. unfold str2inttuple. destruct s as [|c s]; cbn [str_eqb].
  - split; [intros <-; now elim N|]. intros (parts & E & F). destruct F as [|p z ps zs H F]; [now elim N|]. exfalso. destruct ps as [|p' ps].
    + cbn [listed] in E. subst p. exact (says_int_nonempty _ H).
    + cbn [listed] in E. symmetry in E. apply app_eq_nil in E as [_ E]. discriminate.
  - rewrite <- (inttuple_ok (c :: s) zs) by discriminate. destruct (let! parts := str_split (L", ") (c :: s) in mapM py_int parts) as [l|e].
    + split; [now intros ->|apply Ok_inj].
    + split; [intros <-; now elim N|discriminate].
Qed.
Print Assumptions C104_tuple.
(* What is written as such a list is read as the same numbers. *)
Theorem C104_tuple_written zs : str2inttuple (listed (map z_to_str zs)) = zs.
Proof.
  destruct zs as [|z zs]; [reflexivity|]. apply C104_tuple; [discriminate|]. eexists. split; [reflexivity|].
  induction (z :: zs) as [|x l IH]; constructor; [apply z_to_str_says|exact IH].
Qed.
Print Assumptions C104_tuple_written.
(* False: a text that does not say numbers is refused.  It is read as an empty tuple, also a tuple as Python writes
   it, and its measure is taken as the last one of its piece, whatever comes next. *)
Theorem C104_malformed_refuted s : ~ (exists zs, zs <> [] /\ says_ints s zs) -> str2inttuple s = [].
Proof. intros N. destruct (str2inttuple s) as [|z zs] eqn:E; [reflexivity|]. elim N. exists (z :: zs). split; [discriminate|]. apply C104_tuple; [discriminate|exact E]. Qed.
Print Assumptions C104_malformed_refuted.
Lemma says_int_chars s z c : says_int s z -> In c s -> blank c \/ c = "-"%char \/ c = "+"%char \/ c = "_"%char \/ char_is_digit c = true.
Proof.
  intros (w1 & sign & t & ds & w2 & -> & F1 & F2 & N & H) I. rewrite Forall_forall in F1, F2. apply in_app_or in I as [I|I]; [left; auto|]. apply in_app_or in I as [I|I].
  - right. destruct H as [[[->| ->] _]|[-> _]]; cbn in I; intuition.
  - apply in_app_or in I as [I|I]; [|left; auto]. do 3 right. clear -N I. induction N as [d H|d s ds H N IH|d s ds H N IH]; cbn in I.
    + destruct I as [<-|[]]. right. now apply digit_char_facts.
    + destruct I as [<-|I]; [right; now apply digit_char_facts|auto].
    + destruct I as [<-|[<-|I]]; [right; now apply digit_char_facts|auto|auto].
Qed.
Lemma no_bracket zs r : ~ (exists zs', zs' <> [] /\ says_ints ("("%char :: r ++ zs) zs').
Proof.
  intros (zs' & N & parts & E & F). destruct F as [|p z ps zs0 H F]; [now elim N|].
  assert (I : In "("%char p).
  { destruct p as [|c p]; [exfalso; exact (says_int_nonempty _ H)|]. destruct ps; cbn in E; injection E as -> _; now left. }
  destruct (says_int_chars _ _ _ H I) as [B|[B|[B|[B|B]]]]; try discriminate. apply is_space_blank in B. discriminate.
Qed.
Theorem C104_python_refuted zs : str2inttuple (tuple_text zs) = [].
Proof.
  apply C104_malformed_refuted. unfold tuple_text. destruct zs as [|z [|z' zs]]; apply no_bracket.
Qed.
Print Assumptions C104_python_refuted.
Theorem C104_next_refuted s f mc dur off next_file : ~ (exists zs, zs <> [] /\ says_ints s zs) ->
  new_next (mkC f mc dur off (str2inttuple s)) next_file = NextNA.
Proof. intros N. rewrite (C104_malformed_refuted s N). reflexivity. Qed.
Print Assumptions C104_next_refuted.

(* A cell is true or false exactly if it says a number, and false if this is 0. *)
Theorem C104_bool s : (forall z, says_int s z -> int2bool s = Some (negb (z =? 0))) /\ (int2bool s = None <-> ~ exists z, says_int s z).
Proof.
  unfold int2bool. split.
  - intros z H. apply py_int_iff in H. now rewrite H.
  - destruct (py_int s) as [z|e] eqn:E.
    + split; [discriminate|]. intros N. elim N. exists z. now apply py_int_iff.
    + split; [|reflexivity]. intros _ (z & H). apply py_int_iff in H. congruence.
Qed.
Print Assumptions C104_bool.

(* A cell is read as a fraction exactly if it says it, as a ratio or as a decimal. *)
Theorem C104_fraction s : (forall q, says_fraction s q -> exists q', str2frac s = Some q' /\ (q' == q)%Q) /\
  (forall q, str2frac s = Some q -> says_fraction s q) /\ (str2frac s = None <-> ~ exists q, says_fraction s q).
Proof.
  assert (A : forall q, says_fraction s q -> exists q', str2frac s = Some q' /\ (q' == q)%Q).
  { intros q H. apply py_fraction_iff in H as (q' & H & E). exists q'. unfold str2frac. now rewrite H. }
  assert (B : forall q, str2frac s = Some q -> says_fraction s q).
  { intros q H. apply py_fraction_iff. exists q. unfold str2frac in H. destruct (py_fraction s); [|discriminate]. apply Some_inj in H as ->. split; reflexivity. }
  split; [exact A|]. split; [exact B|]. split.
  - intros E (q & H). destruct (A q H) as (q' & E' & _). congruence.
  - intros N. destruct (str2frac s) as [q|] eqn:E; [|reflexivity]. elim N. exists q. auto.
Qed.
Print Assumptions C104_fraction.
Lemma written_number n (q : Q) : 0 <= n -> (q == inject_Z n)%Q -> says_decimal (z_to_str n) q.
Proof.
  intros H E. destruct (nat_text n H) as (ds & D & N & V). exists (z_to_str n), [], [], ds, [], 0. rewrite app_nil_r. split; [reflexivity|]. split; [exact D|]. split; [left; auto|]. split; [left; auto|].
  split; [now left|]. rewrite E, V. cbn. change (inject_Z 0) with 0%Q. field.
Qed.
Lemma written_ratio n d (q : Q) : 0 <= n -> 0 < d -> (q * inject_Z d == inject_Z n)%Q -> says_ratio (z_to_str n ++ L"/" ++ z_to_str d) q.
Proof.
  intros H Hd E. destruct (nat_text n H) as (ds & D & N & V). destruct (nat_text d ltac:(lia)) as (bs & B & Nb & Vb). exists (z_to_str n), (z_to_str d), ds, bs.
  split; [reflexivity|]. split; [exact D|]. split; [exact B|]. split; [exact N|]. split; [exact Nb|]. rewrite V, Vb. split; [lia|exact E].
Qed.
(* What is written as a fraction is read as the same fraction. *)
Theorem C104_fraction_written q : exists q', str2frac (fraction_text q) = Some q' /\ (q' == q)%Q.
Proof.
  apply C104_fraction.
  unfold fraction_text. assert (R := Qred_correct q). destruct (Qred q) as [n d]. cbn [Qnum Qden]. clear -R.
  assert (K : forall m : Z, 0 <= m -> exists t, (if (d =? 1)%positive then z_to_str m else z_to_str m ++ L"/" ++ z_to_str (Z.pos d)) = t /\ (says_ratio t (m # d) \/ says_decimal t (m # d))).
  { intros m Hm. eexists. split; [reflexivity|]. destruct (Pos.eqb_spec d 1) as [->|Hd].
    - right. now apply written_number.
    - left. apply written_ratio; [exact Hm|lia|]. unfold Qeq. cbn. lia. }
  destruct (Z.le_gt_cases 0 n) as [H|H].
  - destruct (K n H) as (t & Et & M). exists [], [], false, t, [], (n # d)%Q. rewrite Et, app_nil_r. split; [reflexivity|]. split; [constructor|]. split; [constructor|]. split; [now left|]. split; [exact M|].
    now symmetry.
  - destruct (K (- n) ltac:(lia)) as (t & Et & M). exists [], (L"-"), true, t, [], (- n # d)%Q. rewrite app_nil_r. split.
    + destruct n as [|p|p]; try lia. rewrite neg_text. change (- Z.neg p) with (Z.pos p) in Et. rewrite <- Et. now destruct (d =? 1)%positive.
    + split; [constructor|]. split; [constructor|]. split; [reflexivity|]. split; [exact M|]. rewrite <- R. unfold Qeq. cbn. lia.
Qed.
Print Assumptions C104_fraction_written.

(* cells of a table, and what Python writes for a tuple *)
Example C104_ex : str2inttuple (L"2, 17") = [2; 17] /\ says_ints (L"2, 17") [2; 17] /\ str2frac (L" -3/4") = Some (- (3) # 4)%Q /\ says_fraction (L"1.5e1") (150 # 10) /\
  str2frac (L"3/0") = None /\ fraction_text (6 # 4) = L"3/2" /\ int2bool (L"1") = Some true /\ int2bool (L"True") = None /\
  tuple_text [2; 17] = L"(2, 17)" /\ ~ (exists zs, zs <> [] /\ says_ints (L"(2, 17)") zs).
Proof.
  split; [reflexivity|]. split; [apply C104_tuple; [discriminate|reflexivity]|]. split; [reflexivity|]. split.
  { now apply C104_fraction. }
  split; [reflexivity|]. split; [reflexivity|]. split; [reflexivity|]. split; [reflexivity|]. split; [reflexivity|]. exact (no_bracket (L")") (L"2, 17")).
Qed.
