(* Lemmas about writing labels onto scores. *)
From Coq Require Import String Ascii.
From Verif Require Import Model_Output Model_Scores Spec_Output Spec_Checkpoints Spec_Scores Proof_Base Proof_Strings Proof_Output Proof_Checkpoints.
From Coq Require Import List Lia.
Import ListNotations.
Open Scope Z_scope.

(* ---- paths and their texts ---- *)
Lemma parse_text p : (p_root p <= 2)%nat -> p_parts p <> [] -> Forall entry (p_parts p) -> parse_path (path_text p) = p.
Proof.
  destruct p as [k parts]. cbn [p_root p_parts]. intros Hk N F. change (Forall part parts) in F.
  assert (T : path_text (FPath k parts) = repeat "/"%char k ++ str_join (L"/") parts) by (unfold path_text; cbn [p_root p_parts]; destruct k, parts; try reflexivity; contradiction).
  rewrite T. destruct k as [|[|[|k]]]; [|..|lia]; cbn [repeat app].
  - apply parse_join; assumption.
  - unfold parse_path. cbn [split_on]. rewrite Ascii.eqb_refl, split_join by assumption. cbn [filter]. change (str_eqb [] []) with true. cbn [orb negb].
    rewrite keep_parts by assumption. f_equal. destruct (join_head _ N F) as (c & s & -> & C). apply Ascii.eqb_neq in C. destruct s; cbn [text_root]; rewrite C; reflexivity.
  - unfold parse_path. cbn [split_on]. rewrite Ascii.eqb_refl, split_join by assumption. cbn [filter]. change (str_eqb [] []) with true. cbn [orb negb].
    rewrite keep_parts by assumption. f_equal. destruct (join_head _ N F) as (c & s & -> & C). apply Ascii.eqb_neq in C. cbn [text_root]; rewrite C; reflexivity.
Qed.
Lemma parts_after_app dir r : parts_after dir (dir ++ r) = Some r.
Proof. induction dir as [|w d IH]; [reflexivity|]. cbn [parts_after app]. now rewrite str_eqb_refl. Qed.
Lemma parts_after_some dir : forall p r, parts_after dir p = Some r -> p = dir ++ r.
Proof.
  induction dir as [|w d IH]; intros p r H; [now apply Some_inj in H|]. destruct p as [|v p]; [discriminate|]. cbn [parts_after] in H.
  destruct (str_eqb w v) eqn:E; [|discriminate]. apply str_eqb_eq in E. subst v. cbn [app]. f_equal. now apply IH.
Qed.
Lemma is_tsv_iff w : is_tsv w = true <-> exists base, w = base ++ L".tsv".
Proof.
  unfold is_tsv. rewrite is_prefix_iff. split; intros (r & E).
  - exists (rev r). apply (f_equal (@rev ascii)) in E. rewrite rev_involutive, rev_app_distr, rev_involutive in E. exact E.
  - exists (rev r). rewrite E, rev_app_distr. reflexivity.
Qed.
Lemma hidden_visible w : w <> [] -> (negb (hidden w) = true <-> visible w).
Proof.
  destruct w as [|c r]; intros N; [contradiction|]. cbn [hidden]. rewrite negb_true_iff, Ascii.eqb_neq. split.
  - intros H. exists c, r. split; [reflexivity|exact H].
  - intros (c' & r' & E & H). injection E as <- <-. exact H.
Qed.
Lemma magic_plain s : plain_text s <-> existsb magic s = false.
Proof.
  split.
  - intros (A & B & C). destruct (existsb magic s) eqn:E; [|reflexivity]. apply existsb_exists in E as (c & I & M). exfalso.
    unfold magic in M. apply orb_true_iff in M as [M|M]; [apply orb_true_iff in M as [M|M]|]; apply Ascii.eqb_eq in M; subst c; contradiction.
  - intros E. assert (K : forall c, In c s -> magic c = false).
    { intros c I. destruct (magic c) eqn:M; [|reflexivity]. assert (T : existsb magic s = true) by (apply existsb_exists; exists c; split; assumption). congruence. }
    split; [|split]; intros I; apply K in I; discriminate.
Qed.

(* ---- what glob finds ---- *)
Lemma relative_some p dir q : relative_to p dir = Ok q -> p = FPath (p_root dir) (p_parts dir ++ p_parts q) /\ p_root q = O.
Proof.
  unfold relative_to. destruct (p_root p =? p_root dir)%nat eqn:E; [|discriminate]. apply Nat.eqb_eq in E.
  destruct (parts_after _ _) as [r|] eqn:Er; [|discriminate]. intros H. apply Ok_inj in H. subst q. cbn [p_parts p_root]. apply parts_after_some in Er.
  split; [|reflexivity]. rewrite <- E, <- Er. now destruct p.
Qed.
Lemma relative_app dir r : relative_to (FPath (p_root dir) (p_parts dir ++ r)) dir = Ok (FPath 0 r).
Proof. unfold relative_to. cbn [p_root p_parts]. now rewrite Nat.eqb_refl, parts_after_app. Qed.
Lemma visible_app base : visible (base ++ L".tsv") <-> visible base.
Proof.
  destruct base as [|c r]; split; intros (d & s & E & H).
  - cbn [app] in E. injection E as <- _. now elim H.
  - discriminate.
  - cbn [app] in E. injection E as <- _. exists c, r. split; [reflexivity|exact H].
  - injection E as <- <-. exists c, (r ++ L".tsv"). split; [reflexivity|exact H].
Qed.
Lemma place_eq dir f : place dir f = FPath (p_root dir) (p_parts dir ++ fst f ++ [snd f ++ L".tsv"]).
Proof. reflexivity. Qed.
Lemma glob_in fs dir found : file_system fs -> glob_tsv fs dir = Ok found ->
  forall t, In t found <-> exists f, In (place dir f) fs /\ Forall visible (fst f) /\ visible (snd f) /\ t = path_text (place dir f).
Proof.
  intros [ND Hf] H t. unfold glob_tsv in H. destruct (existsb _ _); [discriminate|]. apply Ok_inj in H. subst found. rewrite in_flat_map. split.
  - intros (p & I & H). destruct (relative_to p dir) as [q|] eqn:Er; [|contradiction]. apply relative_some in Er as [Ep _].
    destruct (p_parts q) as [|w0 r0] eqn:Eq; [contradiction|]. rewrite <- Eq in *. destruct (forallb _ (p_parts q) && _) eqn:Ec; [|contradiction].
    apply andb_true_iff in Ec as [Ev Et]. destruct H as [<-|[]]. apply is_tsv_iff in Et as (base & Eb).
    assert (Es : p_parts q = removelast (p_parts q) ++ [base ++ L".tsv"]) by (rewrite <- Eb; apply app_removelast_last; rewrite Eq; discriminate).
    assert (V : Forall visible (p_parts q)).
    { apply Forall_forall. intros w Hw. rewrite forallb_forall in Ev. apply hidden_visible; [|exact (Ev w Hw)].
      destruct (Hf p I) as [_ F]. rewrite Ep in F. cbn [p_parts] in F. apply Forall_app in F as [_ F]. rewrite Forall_forall in F. exact (proj1 (F w Hw)). }
    rewrite Es in V. apply Forall_app in V as [V1 V2]. exists (removelast (p_parts q), base). cbn [fst snd].
    assert (Ep' : place dir (removelast (p_parts q), base) = p) by (rewrite place_eq; cbn [fst snd]; rewrite <- Es; now symmetry).
    rewrite Ep'. split; [exact I|]. split; [exact V1|]. split; [|reflexivity]. apply visible_app. now inversion V2.
  - intros (f & I & V1 & V2 & ->). exists (place dir f). split; [exact I|]. rewrite place_eq, relative_app. cbn [p_parts].
    destruct (fst f ++ [snd f ++ L".tsv"]) as [|w0 r0] eqn:E; [destruct (fst f); discriminate|]. rewrite <- E.
    assert (A : forallb (fun w => negb (hidden w)) (fst f ++ [snd f ++ L".tsv"]) = true).
    { assert (K : forall w, visible w -> negb (hidden w) = true) by (intros w V; apply hidden_visible; [destruct V as (c & r & -> & _); discriminate|exact V]).
      rewrite forallb_app. apply andb_true_iff. split.
      - apply forallb_forall. intros w Hw. apply K. rewrite Forall_forall in V1. exact (V1 w Hw).
      - cbn [forallb]. rewrite K; [reflexivity|]. now apply visible_app. }
    rewrite A. assert (B : is_tsv (path_name (fst f ++ [snd f ++ L".tsv"])) = true).
    { apply is_tsv_iff. exists (snd f). unfold path_name. apply last_app. }
    rewrite B. left. reflexivity.
Qed.
Lemma text_inj p q : (p_root p <= 2)%nat -> (p_root q <= 2)%nat -> p_parts p <> [] -> p_parts q <> [] -> Forall entry (p_parts p) -> Forall entry (p_parts q) ->
  path_text p = path_text q -> p = q.
Proof. intros A B C D E F H. rewrite <- (parse_text p A C E), <- (parse_text q B D F). now f_equal. Qed.
Lemma glob_nodup fs dir found : file_system fs -> glob_tsv fs dir = Ok found -> NoDup found.
Proof.
  intros [ND Hf] H. unfold glob_tsv in H. destruct (existsb _ _); [discriminate|]. apply Ok_inj in H. subst found.
  set (g := fun p => match relative_to p dir with Ok q => match p_parts q with [] => [] | r => if forallb (fun w => negb (hidden w)) r && is_tsv (path_name r) then [path_text p] else [] end | Raise _ => [] end).
  change (NoDup (flat_map g fs)).
  assert (G : forall p, g p = [] \/ (g p = [path_text p] /\ p_parts p <> [])).
  { intros p. unfold g. destruct (relative_to p dir) as [q|] eqn:E; [|now left]. apply relative_some in E as [-> _]. destruct (p_parts q) as [|w r] eqn:Eq; [now left|].
    destruct (_ && _); [right|now left]. split; [reflexivity|]. cbn [p_parts]. destruct (p_parts dir); discriminate. }
  induction ND as [|p fs Np ND IH]; [constructor|]. cbn [flat_map].
  assert (IH' := IH (fun q I => Hf q (or_intror I))). destruct (G p) as [->|[-> Pp]]; [exact IH'|]. cbn [app]. constructor; [|exact IH'].
  intros I. apply in_flat_map in I as (q & Iq & I). destruct (G q) as [E|[E Pq]]; rewrite E in I; [contradiction|]. destruct I as [I|[]].
  destruct (Hf p (or_introl eq_refl)) as [A1 A2]. destruct (Hf q (or_intror Iq)) as [B1 B2]. apply Np.
  rewrite (text_inj p q A1 B1 Pp Pq A2 B2); [exact Iq|now symmetry].
Qed.
Lemma insert_nodup w l : NoDup l -> ~ In w l -> NoDup (str_insert w l).
Proof.
  induction 1 as [|v l N ND IH]; intros H; cbn [str_insert]; [constructor; [intros []|constructor]|].
  destruct (str_leb w v); [constructor; [exact H|constructor; assumption]|]. constructor.
  - intros I. apply insert_in in I as [->|I]; [apply H; now left|contradiction].
  - apply IH. intros I. apply H. now right.
Qed.
Lemma sorted_nodup l : NoDup l -> NoDup (str_sorted l).
Proof.
  induction 1 as [|v l N ND IH]; [constructor|]. cbn [str_sorted fold_right]. apply insert_nodup; [exact IH|].
  fold (str_sorted l). rewrite sorted_in. exact N.
Qed.

(* ---- one file ---- *)
Lemma perform_spec fails : forall todo so_far, todo <> [] ->
  exists k, (k < List.length todo)%nat /\ (forall i, (i < k)%nat -> fails (so_far ++ firstn (S i) todo) = false) /\
   ((fails (so_far ++ firstn (S k) todo) = true /\ perform fails so_far todo = (map Op (firstn (S k) todo), false)) \/
    (S k = List.length todo /\ fails (so_far ++ todo) = false /\ perform fails so_far todo = (map Op todo, true))).
Proof.
  induction todo as [|o r IH]; intros so_far N; [contradiction|]. cbn [perform]. destruct (fails (so_far ++ [o])) eqn:E.
  - exists O. split; [cbn; lia|]. split; [intros i Hi; lia|]. left. split; [exact E|reflexivity].
  - destruct r as [|o' r].
    + exists O. split; [cbn; lia|]. split; [intros i Hi; lia|]. right. split; [reflexivity|]. split; [exact E|reflexivity].
    + destruct (IH (so_far ++ [o]) ltac:(discriminate)) as (k & Hk & Hi & H). exists (S k). split; [cbn [List.length] in *; lia|]. split.
      { intros [|i] Hlt; [exact E|]. specialize (Hi i ltac:(lia)). rewrite <- app_assoc in Hi. exact Hi. }
      destruct H as [[F P]|(Hl & F & P)]; [left|right]; rewrite P; rewrite <- app_assoc in F.
      * split; [exact F|reflexivity].
      * split; [cbn [List.length] in *; lia|]. split; [exact F|reflexivity].
Qed.
Lemma write_score_spec fails dir ann f : (p_root dir <= 2)%nat -> Forall entry (p_parts dir ++ fst f ++ [snd f ++ L".tsv"]) -> snd f <> [] ->
  exists es, write_score fails dir ann (path_text (place dir f)) = Ok es /\ attempt fails dir ann f es.
Proof.
  intros Hr He Nb. unfold write_score. rewrite parse_text; [|exact Hr|cbn [place below p_parts]; destruct (p_parts dir), (fst f); discriminate|exact He].
  rewrite place_eq, relative_app. cbn [bind]. unfold fparent, parent. cbn [p_parts p_root]. rewrite removelast_last. unfold join_path. cbn [p_root].
  change (FPath (p_root dir) (p_parts dir ++ p_parts (FPath 0 (fst f)))) with (inside dir (fst f)).
  change (FPath (p_root ann) (p_parts ann ++ p_parts (FPath 0 (fst f)))) with (inside ann (fst f)).
  replace (stem (fst f ++ [snd f ++ L".tsv"])) with (snd f)
    by (symmetry; apply (stem_base (fst f) (snd f) (L"tsv")); [exact Nb|discriminate|]; intros G; repeat (destruct G as [G|G]; [discriminate G|]); destruct G).
  unfold label_ops. set (ops := [_; _; _; _; _; _; _]). destruct (perform_spec fails ops [] ltac:(discriminate)) as (k & Hk & Hi & H). cbn [app] in Hi, H.
  destruct H as [[F ->]|(Hl & F & ->)]; (eexists; split; [reflexivity|]); exists k; (split; [exact Hk|]); (split; [exact Hi|]); [left|right].
  - split; [exact F|reflexivity].
  - split; [cbn in Hl; lia|]. split; [exact F|]. apply app_nil_r.
Qed.
