(* Lemmas for Prop_Batch.v *)
From Coq Require Import QArith Qround Lqa Lia.
From Verif Require Import PyBase Model_Types Model_Harmony Model_Heap Model_Dataset Model_Prior
  Model_Batch Spec_Batch Proof_Base.
Close Scope Q_scope.
Open Scope Z_scope.

(* ---- groups ---- *)
Lemma batches_go_grouped : forall A size (l batch : list A) left,
  (length batch + left = size)%nat -> (1 <= size)%nat -> (batch = [] -> left = size) ->
  grouped size (batch ++ l) (batches_go size left batch l).
Proof.
  intros A size l; induction l as [|x r IH]; intros batch left E P B; cbn.
  - rewrite app_nil_r. destruct batch as [|y b]; [constructor|].
    apply g_last; [discriminate|lia].
  - destruct left as [|k].
    + apply g_more; [lia|discriminate|].
      change (x :: r) with ([x] ++ r). apply IH; [cbn; lia|assumption|discriminate].
    + replace (batch ++ x :: r) with ((batch ++ [x]) ++ r) by now rewrite <- app_assoc.
      apply IH; [rewrite app_length; cbn; lia|assumption|].
      intro N; now apply app_eq_nil in N.
Qed.
Lemma loader_grouped : forall A size (l : list A), (1 <= size)%nat ->
  exists gs, loader size l = Ok gs /\ grouped size l gs.
Proof.
  intros A size l P. exists (batches_go size size [] l). split.
  - unfold loader. destruct size; [lia|reflexivity].
  - apply (batches_go_grouped A size l []); cbn; auto.
Qed.
Lemma grouped_fun : forall A size (l : list A) gs, (1 <= size)%nat -> grouped size l gs ->
  forall gs', grouped size l gs' -> gs = gs'.
Proof.
  intros A size l gs P G. induction G as [|l N Hl|g l gs Hg N G IH]; intros gs' G'.
  - inversion G' as [|l N|g l gs Hg N G]; subst; try reflexivity; [now destruct N|].
    apply app_eq_nil in H as [-> ->]. now destruct N.
  - inversion G' as [|l' N' Hl' E1|g' l' gs1 Hg' N' G1 E1]; subst; try reflexivity; [now destruct N|].
    destruct l'; [now destruct N'|]. rewrite app_length in Hl; cbn in Hl; lia.
  - inversion G' as [E1 E2|l' N' Hl' E1|g' l' gs1 Hg' N' G1 E1]; subst.
    + symmetry in E1. apply app_eq_nil in E1 as [-> ->]. now destruct N.
    + destruct l; [now destruct N|]. rewrite app_length in Hl'; cbn in Hl'; lia.
    + assert (g' = g /\ l' = l) as [-> ->].
      { apply (f_equal (firstn (length g))) in E1 as A1.
        assert (L : length g' = length g) by lia.
        rewrite <- L in A1 at 1. rewrite !firstn_app in A1.
        rewrite !Nat.sub_diag in A1; cbn in A1. rewrite !firstn_all, !app_nil_r in A1.
        split; [assumption|]. rewrite A1 in E1. now apply app_inv_head in E1. }
      f_equal. now apply IH.
Qed.
Lemma grouped_concat : forall A size (l : list A) gs, grouped size l gs -> concat gs = l.
Proof.
  intros A size l gs G; induction G; cbn; [reflexivity|apply app_nil_r|now rewrite IHG].
Qed.
Lemma grouped_nonempty : forall A size (l : list A) gs, (1 <= size)%nat -> grouped size l gs ->
  Forall (fun g => g <> []) gs.
Proof.
  intros A size l gs P G; induction G; repeat constructor; auto.
  intros ->. cbn in *. lia.
Qed.
Lemma grouped_nil : forall A size (l : list A) gs, grouped size l gs -> gs = [] -> l = [].
Proof. intros A size l gs G E; destruct G; congruence. Qed.

(* ---- sums ---- *)
Lemma qtotal_acc : forall l (s : Q), (fold_left Qplus l s == s + fold_right Qplus 0 l)%Q.
Proof.
  induction l as [|x r IH]; intro s; cbn; [ring|]. rewrite IH. ring.
Qed.
Lemma qtotal_sum : forall l, (qtotal l == fold_right Qplus 0 l)%Q.
Proof. intro l. unfold qtotal. rewrite qtotal_acc. ring. Qed.
Lemma sum_app : forall a b, (fold_right Qplus 0 (a ++ b) == fold_right Qplus 0 a + fold_right Qplus 0 b)%Q.
Proof. induction a as [|x r IH]; intro b; cbn; [ring|]. rewrite IH. ring. Qed.

Lemma zlen_app' : forall A (a b : list A), zlen (a ++ b) = zlen a + zlen b.
Proof. intros; unfold zlen; rewrite app_length; lia. Qed.

(* the running totals after the batches *)
Definition totals_of (l : list (bool * Q)) (st : Z * option Q * option Q) : Prop :=
  exists a m, st = (zlen l, Some a, Some m) /\
    (a == inject_Z (100 * zlen (filter fst l)))%Q /\ (m == fold_right Qplus 0 (map snd l))%Q.

Lemma div_mul : forall (x : Q) n, 0 < n -> (x / inject_Z n * inject_Z n == x)%Q.
Proof.
  intros x n P. field. intro E. assert (inject_Z n == inject_Z 0)%Q by now rewrite E.
  apply (proj1 (inject_Z_injective n 0)) in H. lia.
Qed.

Lemma add_tally_totals : forall acc l st, totals_of acc st -> l <> [] ->
  totals_of (acc ++ l) (add_tally st (measure (zlen l) l)).
Proof.
  intros acc l st (a & m & -> & Ha & Hm) N.
  assert (P : 0 < zlen l) by (destruct l; [now destruct N|unfold zlen; cbn; lia]).
  unfold add_tally, measure, mean_of. cbn [t_count t_acc t_loss].
  destruct (Z.eqb_spec (zlen l) 0); [lia|]. cbn [oscale oplus].
  eexists _, _. split; [rewrite zlen_app'; reflexivity|]. split.
  - rewrite Ha, div_mul by assumption. rewrite filter_app, zlen_app'.
    rewrite <- inject_Z_plus. replace (100 * (zlen (filter fst acc) + zlen (filter fst l)))
      with (100 * zlen (filter fst acc) + 100 * zlen (filter fst l)) by ring. reflexivity.
  - rewrite Hm, div_mul, qtotal_sum, map_app, sum_app by assumption. reflexivity.
Qed.

Lemma fold_tally_totals : forall ls acc st, totals_of acc st -> Forall (fun l => l <> []) ls ->
  totals_of (acc ++ concat ls) (fold_left add_tally (map (fun l => measure (zlen l) l) ls) st).
Proof.
  induction ls as [|l r IH]; intros acc st T F; cbn.
  - now rewrite app_nil_r.
  - rewrite app_assoc. inversion F; subst. apply IH; [|assumption]. now apply add_tally_totals.
Qed.

Theorem evaluate_says : forall D (per : list D -> res tally) (ex : list D -> list (bool * Q)) size data gs,
  (1 <= size)%nat -> data <> [] -> grouped size data gs ->
  (forall g, In g gs -> per g = Ok (measure (zlen (ex g)) (ex g))) ->
  Forall (fun g => ex g <> []) gs ->
  says (evaluate_batches per size data) (concat (map ex gs)).
Proof.
  intros D per ex size data gs P N G H F. unfold evaluate_batches.
  destruct (loader_grouped _ size data P) as (gs' & -> & G'). cbn [bind].
  rewrite <- (grouped_fun _ _ _ _ P G _ G') in *. clear gs' G'.
  assert (E : mapM per gs = Ok (map (fun l => measure (zlen l) l) (map ex gs))).
  { clear G F. induction gs as [|g r IH]; cbn; [reflexivity|].
    rewrite (H g) by now left. cbn. rewrite IH by (intros; apply H; now right). reflexivity. }
  rewrite E. cbn [bind].
  assert (NG : gs <> []) by (intro; apply N; eapply grouped_nil; eassumption).
  pose proof (fold_tally_totals (map ex gs) [] (0, Some 0%Q, Some 0%Q)) as T.
  cbn [app] in T. destruct T as (a & m & T & Ha & Hm).
  - exists 0%Q, 0%Q. split; [reflexivity|]. split; reflexivity.
  - apply Forall_forall. intros l I. apply in_map_iff in I as (g & <- & I).
    rewrite Forall_forall in F. now apply F.
  - assert (P' : 0 < zlen (concat (map ex gs))).
    { destruct gs as [|g r]; [now destruct NG|]. inversion F; subst. cbn.
      destruct (ex g); [congruence|unfold zlen; cbn; lia]. }
    destruct (map (fun l => measure (zlen l) l) (map ex gs)) as [|y ys] eqn:EM.
    + destruct gs; [now destruct NG|discriminate].
    + rewrite T. unfold odiv, mean_of. destruct (Z.eqb_spec (zlen (concat (map ex gs))) 0); [lia|].
      eexists _, _. split; [reflexivity|]. unfold share_right, mean_loss. now rewrite Ha, Hm.
Qed.

(* ---- rows ---- *)
Lemma mapM_of : forall A B (f : A -> res B) (g : A -> B) l, (forall x, In x l -> f x = Ok (g x)) ->
  mapM f l = Ok (map g l).
Proof.
  induction l as [|x r IH]; intro H; cbn; [reflexivity|].
  rewrite (H x) by now left. cbn. rewrite IH by (intros; apply H; now right). reflexivity.
Qed.
Lemma stack_same : forall A n (l : list (list A)), Forall (fun x => length x = n) l -> stack l = Ok l.
Proof.
  intros A n l F. unfold stack, same_lengths. destruct l as [|x r]; [reflexivity|].
  inversion F; subst. replace (forallb _ r) with true; [reflexivity|].
  symmetry. apply forallb_forall. intros y I. rewrite Forall_forall in H2.
  apply Nat.eqb_eq. now rewrite H2.
Qed.
Lemma fold_max : forall l a, (fold_left Nat.max l a = Nat.max a (fold_right Nat.max 0 l))%nat.
Proof. induction l as [|x r IH]; intro a; cbn; [lia|]. rewrite IH. lia. Qed.
Lemma np_max_ok : forall l, l <> [] -> np_max l = Ok (fold_right Nat.max 0%nat l).
Proof.
  intros [|x r] N; [now destruct N|]. unfold np_max. rewrite fold_max. reflexivity.
Qed.
Lemma in_max : forall l x, In x l -> (x <= fold_right Nat.max 0 l)%nat.
Proof. induction l as [|y r IH]; intros x []; cbn; [subst; lia|]. apply IH in H. lia. Qed.
Lemma max_le : forall l n, Forall (fun x => (x <= n)%nat) l -> (fold_right Nat.max 0 l <= n)%nat.
Proof. induction 1; cbn; lia. Qed.

Lemma combine_positions : forall A B (a : list A) (b : list B), length a = length b ->
  combine a b = flat_map (fun t => match nth_error a t, nth_error b t with
                                   | Some x, Some y => [(x, y)] | _, _ => [] end) (seq 0 (length a)).
Proof.
  induction a as [|x a IH]; intros [|y b] E; try discriminate; [reflexivity|].
  cbn. f_equal. rewrite IH by (cbn in E; lia). rewrite <- seq_shift.
  rewrite !flat_map_concat_map, map_map. reflexivity.
Qed.
Lemma filter_flat_map : forall A B (p : B -> bool) (f : A -> list B) l,
  filter p (flat_map f l) = flat_map (fun x => filter p (f x)) l.
Proof. induction l as [|x r IH]; cbn; [reflexivity|]. now rewrite filter_app, IH. Qed.
Lemma flat_map_ext_in : forall A B (f g : A -> list B) l, (forall x, In x l -> f x = g x) ->
  flat_map f l = flat_map g l.
Proof.
  induction l as [|x r IH]; intro H; cbn; [reflexivity|].
  rewrite (H x) by now left. rewrite IH by (intros; apply H; now right). reflexivity.
Qed.
Lemma flat_map_nil : forall A B (f : A -> list B) l, (forall x, In x l -> f x = []) -> flat_map f l = [].
Proof.
  induction l as [|x r IH]; intro H; cbn; [reflexivity|].
  rewrite (H x) by now left. now rewrite IH by (intros; apply H; now right).
Qed.

(* the measured pairs of one row are the answers *)
Lemma measured_row : forall O T (outs : list O) filler (ts : list T) (p : O * T -> bool) (v : T -> Z) question n L,
  length outs = n -> (n <= L)%nat -> length ts = L ->
  (forall t y, nth_error ts t = Some y -> forall o,
     match question t with
     | Some z => v y = z /\ p (o, y) = true /\ (t < n)%nat
     | None => p (o, y) = false
     end) ->
  map (fun x => (fst x, v (snd x))) (filter p (combine (outs ++ repeat filler (L - n)) ts))
  = answers outs question n.
Proof.
  intros O T outs filler ts p v question n L Ho Hn Ht Q.
  rewrite combine_positions by (rewrite app_length, repeat_length; lia).
  rewrite app_length, repeat_length. replace (length outs + (L - n))%nat with L by lia.
  rewrite filter_flat_map.
  replace (seq 0 L) with (seq 0 n ++ seq n (L - n)) by (rewrite <- seq_app; f_equal; lia).
  rewrite flat_map_app, map_app.
  rewrite (flat_map_nil _ _ _ (seq n (L - n))), app_nil_r.
  - unfold answers. rewrite !flat_map_concat_map, concat_map, map_map.
    f_equal. apply map_ext_in. intros t I. apply in_seq in I.
    rewrite nth_error_app1 by lia.
    destruct (nth_error outs t) as [o|] eqn:Eo; [|reflexivity].
    destruct (nth_error ts t) as [y|] eqn:Ey.
    + specialize (Q t y Ey o). destruct (question t) as [z|].
      * destruct Q as (<- & Hp & _). cbn. now rewrite Hp.
      * cbn. now rewrite Q.
    + apply nth_error_None in Ey. lia.
  - intros t I. apply in_seq in I.
    destruct (nth_error (outs ++ repeat filler (L - n)) t) as [o|]; [|reflexivity].
    destruct (nth_error ts t) as [y|] eqn:Ey; [|reflexivity].
    specialize (Q t y Ey o). destruct (question t) as [z|]; [lia|]. cbn. now rewrite Q.
Qed.

(* ---- chord sequence model ---- *)
Lemma list_ext : forall A (a b : list A), (forall n, nth_error a n = nth_error b n) -> a = b.
Proof.
  induction a as [|x a IH]; intros [|y b] H; [reflexivity| | |].
  - specialize (H 0%nat); discriminate.
  - specialize (H 0%nat); discriminate.
  - pose proof (H 0%nat) as H0. cbn in H0. injection H0 as ->. f_equal.
    apply IH. intro n. exact (H (S n)).
Qed.
Lemma last_nth : forall A (r : list A) d, r <> [] -> nth_error r (length r - 1) = Some (last r d).
Proof.
  induction r as [|x r IH]; intros d N; [now destruct N|]. destruct r as [|y r]; [reflexivity|].
  change (last (x :: y :: r) d) with (last (y :: r) d). rewrite <- (IH d) by discriminate.
  cbn. now rewrite Nat.sub_0_r.
Qed.
Lemma py_nth_last : forall (r : list Z), r <> [] -> py_nth r (-1) = Ok (last r 0).
Proof.
  intros r N. unfold py_nth, zlen.
  assert (L : (1 <= length r)%nat) by (destruct r; [now destruct N|cbn; lia]).
  cbn [Z.ltb Z.compare]. destruct (Z.ltb_spec (-1 + Z.of_nat (length r)) 0); [lia|].
  destruct (Z.leb_spec (Z.of_nat (length r)) (-1 + Z.of_nat (length r))); [lia|]. cbn [orb].
  replace (Z.to_nat (-1 + Z.of_nat (length r))) with (length r - 1)%nat by lia.
  now rewrite (last_nth _ r 0 N).
Qed.
Lemma nth_error_firstn' : forall A (l : list A) n t, nth_error (firstn n l) t = if (t <? n)%nat then nth_error l t else None.
Proof.
  induction l as [|x l IH]; intros n t.
  - rewrite firstn_nil. destruct (t <? n)%nat, t; reflexivity.
  - destruct n as [|n]; [now destruct t|]. destruct t as [|t]; [reflexivity|]. exact (IH n t).
Qed.
Lemma nth_error_map_seq : forall A (f : nat -> A) L t, nth_error (map f (seq 0 L)) t = if (t <? L)%nat then Some (f t) else None.
Proof.
  intros A f L t. destruct (Nat.ltb_spec t L) as [P|P].
  - rewrite nth_error_map. rewrite (nth_error_nth' _ 0%nat) by (rewrite seq_length; lia).
    cbn. now rewrite seq_nth by lia.
  - apply nth_error_None. rewrite map_length, seq_length. lia.
Qed.
Lemma nth_error_roll : forall A (l : list A) t,
  nth_error (roll_back l) t = if (S t =? length l)%nat then nth_error l 0 else nth_error l (S t).
Proof.
  intros A [|x r] t; cbn [roll_back length].
  - now destruct t.
  - destruct (Nat.eqb_spec (S t) (S (length r))) as [E|E].
    + injection E as ->. rewrite nth_error_app2 by lia. now rewrite Nat.sub_diag.
    + cbn [nth_error]. destruct (Nat.ltb_spec t (length r)) as [P|P].
      * now rewrite nth_error_app1 by lia.
      * rewrite (proj2 (nth_error_None r t)) by lia. apply nth_error_None.
        rewrite app_length. cbn. lia.
Qed.
Lemma nth_error_combine : forall A B (a : list A) (b : list B) t,
  nth_error (combine a b) t = match nth_error a t, nth_error b t with Some x, Some y => Some (x, y) | _, _ => None end.
Proof.
  induction a as [|x a IH]; intros b t; cbn; [now destruct t|].
  destruct b as [|y b]; [destruct t; cbn; [reflexivity|now destruct (nth_error a t)]|].
  destruct t as [|t]; [reflexivity|]. cbn. apply IH.
Qed.

Definition csm_shown (d : item_data) (t : nat) : Z := match csm_target d t with Some y => y | None => IGNORED end.

Lemma csm_row_ok : forall classes width d L, csm_item classes width d -> (id_length d <= L <= width)%nat ->
  csm_row L d = Ok (firstn L (id_inputs d), id_length d, map (csm_shown d) (seq 0 L)).
Proof.
  intros classes width d L (Tl & Hn & Wi & Wt & R & Y) HL. unfold csm_row. rewrite Tl.
  rewrite (mapM_of _ _ _ (fun r => last r 0)).
  2: { intros r I. apply py_nth_last. rewrite Forall_forall in R. apply R.
       rewrite <- (firstn_skipn L (id_inputs d)). apply in_or_app. now left. }
  cbn [bind]. rewrite map_length, !firstn_length_le by lia. rewrite Nat.eqb_refl. cbn [negb].
  set (M := map _ (combine _ _)).
  assert (LM : length M = L).
  { unfold M. rewrite map_length, combine_length, map_length, !firstn_length_le by lia. lia. }
  assert (NM : forall t, (t < L)%nat -> nth_error M t =
             match nth_error (id_inputs d) t, nth_error (id_targets d) t with
             | Some r, Some y => Some (if last r 0 =? 1 then IGNORED else y) | _, _ => None end).
  { intros t P. unfold M. rewrite nth_error_map, nth_error_combine, nth_error_map, !nth_error_firstn'.
    destruct (Nat.ltb_spec t L); [|lia].
    destruct (nth_error (id_inputs d) t); [|reflexivity]. cbn.
    destruct (nth_error (id_targets d) t); reflexivity. }
  clearbody M. destruct M as [|m0 M]; [cbn in LM; lia|]. do 2 f_equal.
  apply list_ext. intro t. rewrite nth_error_map_seq, nth_error_roll.
  rewrite app_length, map_length, skipn_length, firstn_length_le by (cbn in *; lia).
  cbn [length] in *. replace (id_length d + (S (length M) - id_length d))%nat with L by lia.
  assert (NN : forall s, nth_error (firstn (id_length d) (IGNORED :: M)
                 ++ map (fun _ => IGNORED) (skipn (id_length d) (IGNORED :: M))) s
              = if (s <? L)%nat then Some (if (s <? id_length d)%nat then match s with O => IGNORED | S s' => nth s' M 0 end else IGNORED) else None).
  { intro s. destruct (Nat.ltb_spec s (id_length d)) as [P|P].
    - rewrite nth_error_app1 by (rewrite firstn_length_le; cbn; lia).
      rewrite nth_error_firstn'. destruct (Nat.ltb_spec s (id_length d)); [|lia].
      destruct (Nat.ltb_spec s L); [|lia]. destruct s as [|s]; [reflexivity|]. cbn.
      apply nth_error_nth'. lia.
    - rewrite nth_error_app2 by (rewrite firstn_length_le; cbn; lia).
      rewrite nth_error_map, firstn_length_le by (cbn; lia).
      destruct (Nat.ltb_spec s L) as [P'|P'].
      + destruct (nth_error (skipn (id_length d) (IGNORED :: M)) (s - id_length d)) eqn:E; [reflexivity|].
        apply nth_error_None in E. rewrite skipn_length in E. cbn [length] in E. lia.
      + replace (nth_error (skipn (id_length d) (IGNORED :: M)) (s - id_length d)) with (@None Z); [reflexivity|].
        symmetry. apply nth_error_None. rewrite skipn_length. cbn [length]. lia. }
  rewrite !NN. clear NN. unfold csm_shown, csm_target.
  destruct (Nat.eqb_spec (S t) L) as [E|E].
  - destruct (Nat.ltb_spec 0 L); [|lia]. destruct (Nat.ltb_spec t L); [|lia].
    destruct (Nat.ltb_spec 0 (id_length d)); [|lia].
    destruct (Nat.ltb_spec (S t) (id_length d)); [lia|reflexivity].
  - destruct (Nat.ltb_spec (S t) L) as [P|P]; destruct (Nat.ltb_spec t L) as [P'|P']; try lia; [|reflexivity].
    destruct (Nat.ltb_spec (S t) (id_length d)) as [Q|Q]; [|reflexivity]. f_equal.
    specialize (NM (S t) P). change (nth_error (m0 :: M) (S t)) with (nth_error M t) in NM.
    rewrite (nth_error_nth' M 0) in NM by lia.
    destruct (nth_error (id_inputs d) (S t)); [|discriminate].
    destruct (nth_error (id_targets d) (S t)); [|discriminate]. injection NM as ->.
    destruct (_ =? _); reflexivity.
Qed.

Lemma longest_le : forall D (len : D -> nat) b n, Forall (fun d => (len d <= n)%nat) b -> (longest len b <= n)%nat.
Proof. intros D len b n F. apply max_le. now apply Forall_map. Qed.
Lemma in_longest : forall D (len : D -> nat) b d, In d b -> (len d <= longest len b)%nat.
Proof. intros D len b d I. apply in_max. now apply in_map. Qed.

Lemma csm_batch_ok : forall classes width b, b <> [] -> Forall (csm_item classes width) b ->
  csm_batch b = Ok (map (fun d => (firstn (longest id_length b) (id_inputs d), id_length d,
                                   map (csm_shown d) (seq 0 (longest id_length b)))) b).
Proof.
  intros classes width b N F. unfold csm_batch.
  rewrite (stack_same _ width), (stack_same _ width); cbn [bind].
  2,3: apply Forall_map; eapply Forall_impl; [|exact F]; intros d H; apply H.
  rewrite np_max_ok by (destruct b; [now destruct N|discriminate]). cbn [bind].
  apply mapM_of. intros d I. rewrite Forall_forall in F. apply (csm_row_ok classes width); [now apply F|].
  split; [now apply in_longest|]. apply longest_le. apply Forall_forall. intros x Ix. apply (F x Ix).
Qed.

Lemma forward_ok : forall R O (net : list R -> list O) filler D (rows : D -> list R) (len : D -> nat) b,
  b <> [] -> Forall (fun d => (1 <= len d)%nat /\ (longest len b <= length (rows d))%nat) b ->
  forward net filler (map (fun d => (firstn (longest len b) (rows d), len d)) b)
  = Ok (map (fun d => net (firstn (len d) (rows d)) ++ repeat filler (longest len b - len d)) b).
Proof.
  intros R O net filler D rows len b N F. unfold forward. rewrite map_map. cbn [snd].
  assert (E : map (fun d => Nat.max 1 (len d)) b = map len b).
  { apply map_ext_in. intros d I. rewrite Forall_forall in F. destruct (F d I). lia. }
  rewrite E, np_max_ok by (destruct b; [now destruct N|discriminate]). cbn [bind].
  change (fold_right Nat.max 0%nat (map len b)) with (longest len b).
  rewrite (mapM_of _ _ _ (fun x => net (firstn (snd x) (fst x)) ++ repeat filler (longest len b - snd x))).
  - f_equal. rewrite map_map. apply map_ext_in. intros d I. cbn [fst snd].
    rewrite firstn_firstn, Nat.min_l by now apply in_longest. reflexivity.
  - intros x I. apply in_map_iff in I as (d & <- & I). cbn [fst snd].
    rewrite Forall_forall in F. destruct (F d I) as [P Q].
    pose proof (in_longest _ len b d I). rewrite Nat.max_r by lia.
    rewrite firstn_length_le by lia. destruct (Nat.ltb_spec (longest len b) (len d)); [lia|reflexivity].
Qed.

Lemma pair_up_ok : forall O T D (f : D -> list O) (g : D -> list T) b,
  Forall (fun d => length (f d) = length (g d)) b ->
  pair_up (map f b) (map g b) = Ok (flat_map (fun d => combine (f d) (g d)) b).
Proof.
  intros O T D f g b F. unfold pair_up. rewrite !map_length, Nat.eqb_refl.
  assert (E : combine (map f b) (map g b) = map (fun d => (f d, g d)) b).
  { clear F. induction b as [|d r IH]; cbn; [reflexivity|]. now rewrite IH. }
  rewrite E. rewrite (mapM_of _ _ _ (fun x => combine (fst x) (snd x))).
  - cbn [bind]. rewrite map_map, flat_map_concat_map. reflexivity.
  - intros x I. apply in_map_iff in I as (d & <- & I). cbn [fst snd].
    rewrite Forall_forall in F. rewrite (F d I), Nat.eqb_refl. reflexivity.
Qed.

(* ---- the chosen class ---- *)
Definition first_best (o : list Q) (a : nat) : Prop :=
  exists x, nth_error o a = Some x /\ (forall k y, nth_error o k = Some y -> y <= x)%Q /\
            (forall k y, (k < a)%nat -> nth_error o k = Some y -> y < x)%Q.
Lemma argmax_from_best : forall l pre best at_,
  nth_error pre at_ = Some best -> (forall k y, nth_error pre k = Some y -> y <= best)%Q ->
  (forall k y, (k < at_)%nat -> nth_error pre k = Some y -> y < best)%Q ->
  exists a, argmax_from best (Z.of_nat at_) (Z.of_nat (length pre)) l = Z.of_nat a /\ first_best (pre ++ l) a.
Proof.
  induction l as [|x r IH]; intros pre best at_ E U V; cbn.
  - exists at_. split; [reflexivity|]. exists best. rewrite app_nil_r. auto.
  - assert (S1 : Z.of_nat (length pre) + 1 = Z.of_nat (length (pre ++ [x]))) by (rewrite app_length; cbn; lia).
    rewrite S1. replace (pre ++ x :: r) with ((pre ++ [x]) ++ r) by now rewrite <- app_assoc.
    assert (Ln : (at_ < length pre)%nat) by (apply nth_error_Some; congruence).
    destruct (Qle_bool x best) eqn:C.
    + apply Qle_bool_iff in C. apply IH.
      * now rewrite nth_error_app1.
      * intros k y Hk. destruct (Nat.ltb_spec k (length pre)) as [P|P].
        -- rewrite nth_error_app1 in Hk by lia. eauto.
        -- rewrite nth_error_app2 in Hk by lia. destruct (k - length pre)%nat as [|j]; cbn in Hk.
           ++ now injection Hk as <-.
           ++ now destruct j.
      * intros k y P Hk. rewrite nth_error_app1 in Hk by lia. eauto.
    + assert (C' : (best < x)%Q).
      { apply Qnot_le_lt. intro H. apply Qle_bool_iff in H. congruence. }
      replace (Z.of_nat (length pre)) with (Z.of_nat (length pre)) by reflexivity. apply IH.
      * rewrite nth_error_app2, Nat.sub_diag by lia. reflexivity.
      * intros k y Hk. destruct (Nat.ltb_spec k (length pre)) as [P|P].
        -- rewrite nth_error_app1 in Hk by lia. apply Qlt_le_weak. eapply Qle_lt_trans; eauto.
        -- rewrite nth_error_app2 in Hk by lia. destruct (k - length pre)%nat as [|j]; cbn in Hk.
           ++ injection Hk as <-. apply Qle_refl.
           ++ now destruct j.
      * intros k y P Hk. rewrite nth_error_app1 in Hk by lia. eapply Qle_lt_trans; eauto.
Qed.
Lemma np_argmax_best : forall o, o <> [] -> exists a, np_argmax o = Ok (Z.of_nat a) /\ first_best o a.
Proof.
  intros [|x r] N; [now destruct N|]. unfold np_argmax.
  destruct (argmax_from_best r [x] x 0%nat) as (a & E & F).
  - reflexivity.
  - intros [|k] y H; cbn in H; [injection H as <-; apply Qle_refl|now destruct k].
  - intros k y P. lia.
  - exists a. split; [|exact F]. f_equal. exact E.
Qed.
Lemma first_best_unique : forall o a b, first_best o a -> first_best o b -> a = b.
Proof.
  intros o a b (x & Ex & Ux & Vx) (y & Ey & Uy & Vy).
  destruct (Nat.lt_trichotomy a b) as [P|[P|P]]; [|assumption|].
  - specialize (Vy a x P Ex). specialize (Ux b y Ey). lra.
  - specialize (Vx b y P Ey). specialize (Uy a x Ex). lra.
Qed.
Lemma chosen_iff : forall o t, chosen o t = true <-> 0 <= t /\ first_best o (Z.to_nat t).
Proof.
  intros o t. unfold chosen, first_best. rewrite andb_true_iff, Z.leb_le.
  destruct (nth_error o (Z.to_nat t)) as [x|] eqn:E.
  - rewrite andb_true_iff, !forallb_forall. split.
    + intros (P & U & V). split; [assumption|]. exists x. split; [reflexivity|]. split.
      * intros k y Hk. apply Qle_bool_iff. apply U. eapply nth_error_In; eassumption.
      * intros k y Q Hk. apply Qnot_le_lt. intro C. apply Qle_bool_iff in C.
        assert (I : In y (firstn (Z.to_nat t) o)).
        { apply (nth_error_In _ k). rewrite nth_error_firstn'.
          destruct (Nat.ltb_spec k (Z.to_nat t)); [assumption|lia]. }
        specialize (V y I). now rewrite C in V.
    + intros (P & x' & Ex & U & V). injection Ex as <-. split; [assumption|]. split.
      * intros y I. apply In_nth_error in I as (k & Hk). apply Qle_bool_iff. eauto.
      * intros y I. apply In_nth_error in I as (k & Hk). rewrite nth_error_firstn' in Hk.
        destruct (Nat.ltb_spec k (Z.to_nat t)); [|discriminate].
        destruct (Qle_bool x y) eqn:C; [|reflexivity]. apply Qle_bool_iff in C.
        specialize (V k y H Hk). lra.
  - split; [intros (_ & H); discriminate|intros (_ & x & H & _); discriminate].
Qed.
Lemma argmax_chosen : forall o t, o <> [] -> 0 <= t ->
  exists a, np_argmax o = Ok a /\ (a =? t) = chosen o t.
Proof.
  intros o t N P. destruct (np_argmax_best o N) as (a & E & F). exists (Z.of_nat a). split; [exact E|].
  destruct (chosen o t) eqn:C.
  - apply chosen_iff in C as (_ & C). apply Z.eqb_eq. rewrite (first_best_unique _ _ _ F C). lia.
  - destruct (Z.eqb_spec (Z.of_nat a) t) as [<-|]; [|reflexivity].
    rewrite <- C. symmetry. apply chosen_iff. rewrite Nat2Z.id. auto.
Qed.

Lemma nll_ok : forall o t, 0 <= t < zlen o -> nll o t = Ok (- nth (Z.to_nat t) o 0)%Q.
Proof.
  intros o t P. unfold nll, py_nth.
  replace (t <? 0) with false by (symmetry; apply Z.ltb_ge; lia). cbv zeta.
  replace (t <? 0) with false by (symmetry; apply Z.ltb_ge; lia).
  replace (zlen o <=? t) with false by (symmetry; apply Z.leb_gt; lia). cbn [orb].
  rewrite (nth_error_nth' o 0%Q) by (unfold zlen in P; lia). reflexivity.
Qed.

Lemma flat_map_map : forall A B C (f : A -> B) (g : B -> list C) l, flat_map g (map f l) = flat_map (fun x => g (f x)) l.
Proof. induction l as [|x r IH]; cbn; [reflexivity|]. now rewrite IH. Qed.
Lemma flat_map_flat_map : forall A B C (f : A -> list B) (g : B -> list C) l,
  flat_map g (flat_map f l) = flat_map (fun x => flat_map g (f x)) l.
Proof. induction l as [|x r IH]; cbn; [reflexivity|]. now rewrite flat_map_app, IH. Qed.
Lemma map_flat_map : forall A B C (f : A -> list B) (g : B -> C) l,
  map g (flat_map f l) = flat_map (fun x => map g (f x)) l.
Proof. induction l as [|x r IH]; cbn; [reflexivity|]. now rewrite map_app, IH. Qed.

Lemma csm_target_class : forall classes width d t y, csm_item classes width d -> csm_target d t = Some y ->
  (S t < id_length d)%nat /\ 0 <= y < classes.
Proof.
  intros classes width d t y (_ & _ & _ & _ & _ & Y) H. unfold csm_target in H.
  destruct (Nat.ltb_spec (S t) (id_length d)) as [P|P]; [|discriminate]. split; [assumption|].
  destruct (nth_error (id_inputs d) (S t)); [|discriminate].
  destruct (nth_error (id_targets d) (S t)) as [z|] eqn:E; [|discriminate].
  destruct (_ =? _); [discriminate|]. injection H as <-.
  rewrite Forall_forall in Y. apply Y. apply (nth_error_In _ (S t)). rewrite nth_error_firstn'.
  destruct (Nat.ltb_spec (S t) (id_length d)); [assumption|lia].
Qed.

Definition csm_exam (net : list row -> list (list Q)) (b : list item_data) : list (bool * Q) :=
  map csm_judged (flat_map (csm_answers net) b).

Lemma csm_tally_ok : forall net filler classes width b, b <> [] -> Forall (csm_item classes width) b ->
  (forall x, length (net x) = length x) -> (forall x o, In o (net x) -> zlen o = classes) ->
  csm_tally net filler b = Ok (measure (zlen (csm_exam net b)) (csm_exam net b)).
Proof.
  intros net filler classes width b N F Ln Cn. unfold csm_tally.
  rewrite (csm_batch_ok classes width) by assumption. cbn [bind]. rewrite !map_map. cbn [fst snd].
  assert (LW : (longest id_length b <= width)%nat).
  { apply longest_le. eapply Forall_impl; [|exact F]. intros d (_ & H & _). lia. }
  rewrite forward_ok; [|assumption|].
  2: { eapply Forall_impl; [|exact F]. intros d (_ & H & H2 & _). lia. }
  cbn [bind]. rewrite Forall_forall in F.
  assert (LN : forall d, In d b -> length (net (firstn (id_length d) (id_inputs d))) = id_length d).
  { intros d I. rewrite Ln. destruct (F d I) as (_ & H & H2 & _). apply firstn_length_le. lia. }
  rewrite pair_up_ok.
  2: { apply Forall_forall. intros d I. rewrite app_length, repeat_length, map_length, seq_length, LN by assumption.
       pose proof (in_longest _ id_length b d I). lia. }
  cbn [bind]. rewrite filter_flat_map.
  rewrite (flat_map_ext_in _ _ _ (csm_answers net)).
  2: { intros d I. unfold csm_answers.
       rewrite <- (measured_row _ _ _ filler (map (csm_shown d) (seq 0 (longest id_length b)))
                     (fun x => negb (snd x =? IGNORED)) (fun y => y) (csm_target d) (id_length d) (longest id_length b)).
       - rewrite (map_ext _ (fun x => x)) by now intros []. now rewrite map_id.
       - now apply LN.
       - now apply in_longest.
       - now rewrite map_length, seq_length.
       - intros t y Hy o. rewrite nth_error_map_seq in Hy. destruct (t <? _)%nat; [|discriminate].
         injection Hy as <-. unfold csm_shown. cbn [snd]. destruct (csm_target d t) as [z|] eqn:E.
         + destruct (csm_target_class classes width d t z (F d I) E) as [P Q].
           split; [reflexivity|]. split; [|lia]. destruct (Z.eqb_spec z IGNORED); [|reflexivity].
           unfold IGNORED in *. lia.
         + reflexivity. }
  rewrite (mapM_of _ _ _ csm_judged).
  - unfold csm_exam. reflexivity.
  - intros x I. apply in_flat_map in I as (d & Id & I). unfold csm_answers, answers in I.
    apply in_flat_map in I as (t & It & I).
    destruct (nth_error _ t) as [o|] eqn:Eo in I; [|destruct I].
    destruct (csm_target d t) as [y|] eqn:Ey in I; [|destruct I].
    destruct I as [<-|[]]. cbn [fst snd]. unfold csm_judged. cbn [fst snd].
    destruct (csm_target_class classes width d t y (F d Id) Ey) as [P Q].
    pose proof (Cn _ _ (nth_error_In _ _ Eo)) as Lo.
    destruct (argmax_chosen o y) as (a & -> & A).
    + intros ->. unfold zlen in Lo. cbn in Lo. lia.
    + lia.
    + cbn [bind]. rewrite nll_ok by lia. cbn [bind]. now rewrite A.
Qed.

(* ---- yes or no ---- *)
Lemma round_decided : forall o t, (0 <= o <= 1)%Q -> t = 0 \/ t = 1 -> (torch_round o =? t) = decided o t.
Proof.
  intros o t [P0 P1] T. unfold torch_round, decided.
  assert (Fl : Qfloor o = 0 /\ (o < 1)%Q \/ Qfloor o = 1 /\ (o == 1)%Q).
  { destruct (Qlt_le_dec o 1) as [C|C].
    - left. split; [|assumption]. pose proof (Qfloor_le o) as A. pose proof (Qlt_floor o) as B.
      assert (A' : (inject_Z (Qfloor o) < inject_Z 1)%Q) by (eapply Qle_lt_trans; [exact A|exact C]).
      assert (B' : (inject_Z 0 < inject_Z (Qfloor o + 1))%Q) by (eapply Qle_lt_trans; [exact P0|exact B]).
      rewrite <- Zlt_Qlt in A', B'. lia.
    - right. assert (E : (o == 1)%Q) by (apply Qle_antisym; assumption). split; [|assumption].
      rewrite (Qfloor_comp _ _ E). reflexivity. }
  destruct (Qle_bool o (1 # 2)) eqn:C.
  - apply Qle_bool_iff in C. destruct Fl as [[-> L]|[_ L]]; [|rewrite L in C; exfalso; lra].
    destruct (Qcompare_spec (o - inject_Z 0) (1 # 2)) as [D|D|D].
    + destruct T as [-> | ->]; reflexivity.
    + destruct T as [-> | ->]; reflexivity.
    + exfalso. unfold inject_Z in D. lra.
  - assert (C' : (1 # 2 < o)%Q).
    { apply Qnot_le_lt. intro H. apply Qle_bool_iff in H. congruence. }
    destruct Fl as [[-> L]|[-> L]].
    + destruct (Qcompare_spec (o - inject_Z 0) (1 # 2)) as [D|D|D].
      * exfalso. unfold inject_Z in D. lra.
      * exfalso. unfold inject_Z in D. lra.
      * destruct T as [-> | ->]; reflexivity.
    + destruct (Qcompare_spec (o - inject_Z 1) (1 # 2)) as [D|D|D].
      * exfalso. unfold inject_Z in D. lra.
      * destruct T as [-> | ->]; reflexivity.
      * exfalso. unfold inject_Z in D. lra.
Qed.

Lemma answers_below : forall O (outs : list O) q q' n, (forall t, (t < n)%nat -> q t = q' t) ->
  answers outs q n = answers outs q' n.
Proof.
  intros O outs q q' n H. unfold answers. apply flat_map_ext_in. intros t I. apply in_seq in I.
  now rewrite H by lia.
Qed.
Lemma in_answers : forall O (outs : list O) q n x, In x (answers outs q n) ->
  In (fst x) outs /\ exists t, (t < n)%nat /\ q t = Some (snd x).
Proof.
  intros O outs q n x I. unfold answers in I. apply in_flat_map in I as (t & It & I). apply in_seq in It.
  destruct (nth_error outs t) as [o|] eqn:Eo; [|destruct I].
  destruct (q t) as [y|] eqn:Ey; [|destruct I]. destruct I as [<-|[]]. cbn.
  split; [eapply nth_error_In; eassumption|]. exists t. split; [lia|assumption].
Qed.

Definition mask_of (d : note_item) (L : nat) : list (Z * bool) :=
  map (fun x : list Q * Z => (snd x, negb (Qle_bool (qtotal (fst x)) 0) && negb (snd x =? IGNORED)))
      (combine (firstn L (ni_inputs d)) (firstn L (ni_targets d))).
Lemma ctm_batch_ok : forall width b, b <> [] -> Forall (ctm_item width) b ->
  ctm_batch b = Ok (map (fun d => (firstn (longest ni_length b) (ni_inputs d), ni_length d,
                                   mask_of d (longest ni_length b))) b).
Proof.
  intros width b N F. unfold ctm_batch.
  rewrite (stack_same _ width), (stack_same _ width); cbn [bind].
  2,3: apply Forall_map; eapply Forall_impl; [|exact F]; intros d H; apply H.
  rewrite !np_max_ok by (destruct b; [now destruct N|discriminate]). cbn [bind].
  assert (E : map ni_target_length b = map ni_length b).
  { apply map_ext_in. intros d I. rewrite Forall_forall in F. apply (F d I). }
  rewrite E. change (fold_right Nat.max 0%nat (map ni_length b)) with (longest ni_length b).
  apply mapM_of. intros d I. unfold ctm_row.
  assert (LW : (longest ni_length b <= width)%nat).
  { apply longest_le. eapply Forall_impl; [|exact F]. intros x (_ & H & _). lia. }
  rewrite Forall_forall in F. destruct (F d I) as (_ & H & W1 & W2 & _).
  rewrite !firstn_length_le by lia. rewrite Nat.eqb_refl. reflexivity.
Qed.

Definition ctm_exam (bce : Q -> Z -> Q) (net : list (list Q) -> list Q) (b : list note_item) : list (bool * Q) :=
  map (yes_no bce) (flat_map (ctm_answers net) b).
Lemma ctm_tally_ok : forall bce net filler width b, b <> [] -> Forall (ctm_item width) b ->
  (forall x, length (net x) = length x) -> (forall x o, In o (net x) -> 0 <= o <= 1)%Q ->
  ctm_tally bce net filler b = Ok (measure (zlen (ctm_exam bce net b)) (ctm_exam bce net b)).
Proof.
  intros bce net filler width b N F Ln Cn. unfold ctm_tally.
  rewrite (ctm_batch_ok width) by assumption. cbn [bind]. rewrite !map_map. cbn [fst snd].
  assert (LW : (longest ni_length b <= width)%nat).
  { apply longest_le. eapply Forall_impl; [|exact F]. intros d (_ & H & _). lia. }
  rewrite forward_ok; [|assumption|].
  2: { eapply Forall_impl; [|exact F]. intros d (_ & H & H2 & _). lia. }
  cbn [bind]. rewrite Forall_forall in F.
  assert (LN : forall d, In d b -> length (net (firstn (ni_length d) (ni_inputs d))) = ni_length d).
  { intros d I. rewrite Ln. destruct (F d I) as (_ & H & H2 & _). apply firstn_length_le. lia. }
  assert (LM : forall d, In d b -> length (mask_of d (longest ni_length b)) = longest ni_length b).
  { intros d I. destruct (F d I) as (_ & _ & W1 & W2 & _). unfold mask_of.
    rewrite map_length, combine_length, !firstn_length_le by lia. lia. }
  rewrite pair_up_ok.
  2: { apply Forall_forall. intros d I. rewrite app_length, repeat_length, LM, LN by assumption.
       pose proof (in_longest _ ni_length b d I). lia. }
  cbn [bind]. rewrite filter_flat_map.
  set (pairs := flat_map _ b).
  assert (E : map (fun x : Q * (Z * bool) => (fst x, fst (snd x))) pairs = flat_map (ctm_answers net) b).
  { unfold pairs. rewrite map_flat_map. apply flat_map_ext_in. intros d I. unfold ctm_answers.
    destruct (F d I) as (_ & H & W1 & W2 & Pos & Zer & Tg).
    rewrite (answers_below _ _ (ctm_target d) (fun t => if (t <? ni_length d)%nat then ctm_target d t else None)).
    2: { intros t P. destruct (Nat.ltb_spec t (ni_length d)); [reflexivity|lia]. }
    rewrite <- (measured_row _ _ _ filler (mask_of d (longest ni_length b))
                  (fun x => snd (snd x)) fst _ (ni_length d) (longest ni_length b)); try reflexivity.
    - now apply LN.
    - now apply in_longest.
    - now apply LM.
    - intros t y Hy o. unfold mask_of in Hy. rewrite nth_error_map, nth_error_combine, !nth_error_firstn' in Hy.
      destruct (t <? longest ni_length b)%nat; [|discriminate].
      destruct (nth_error (ni_inputs d) t) as [r|] eqn:Er; [|discriminate].
      unfold ctm_target. destruct (nth_error (ni_targets d) t) as [z|] eqn:Ez; [|discriminate].
      cbn [option_map] in Hy. apply Some_inj in Hy. subst y. cbn [fst snd].
      destruct (Nat.ltb_spec t (ni_length d)) as [P|P].
      + assert (Sr : Qle_bool (qtotal r) 0 = false).
        { destruct (Qle_bool (qtotal r) 0) eqn:C; [|reflexivity]. apply Qle_bool_iff in C.
          rewrite qtotal_sum in C. exfalso. rewrite Forall_forall in Pos.
          assert (Ir : In r (firstn (ni_length d) (ni_inputs d))).
          { apply (nth_error_In _ t). rewrite nth_error_firstn'. destruct (Nat.ltb_spec t (ni_length d)); [assumption|lia]. }
          specialize (Pos r Ir). cbn in Pos. lra. }
        rewrite Sr. cbn [negb andb]. destruct (z =? IGNORED); cbn; auto.
      + assert (Sr : Qle_bool (qtotal r) 0 = true).
        { apply Qle_bool_iff. rewrite qtotal_sum. rewrite Forall_forall in Zer.
          assert (Ir : In r (skipn (ni_length d) (ni_inputs d))).
          { rewrite <- (firstn_skipn (ni_length d) (ni_inputs d)) in Er.
            rewrite nth_error_app2 in Er by (rewrite firstn_length_le; lia).
            eapply nth_error_In; exact Er. }
          specialize (Zer r Ir). cbn in Zer. lra. }
        rewrite Sr. reflexivity. }
  assert (E2 : map (fun x : Q * (Z * bool) => (torch_round (fst x) =? fst (snd x), bce (fst x) (fst (snd x)))) pairs
             = ctm_exam bce net b).
  { unfold ctm_exam. rewrite <- E, map_map. apply map_ext_in. intros x I. unfold yes_no. cbn [fst snd].
    assert (I' : In (fst x, fst (snd x)) (flat_map (ctm_answers net) b)).
    { rewrite <- E. apply in_map_iff. exists x. auto. }
    apply in_flat_map in I' as (d & Id & I'). unfold ctm_answers in I'.
    apply in_answers in I' as (Io & t & Pt & Q). cbn [fst snd] in *.
    rewrite round_decided; [reflexivity|eapply Cn; exact Io|].
    unfold ctm_target in Q. destruct (nth_error (ni_targets d) t) as [z|] eqn:Ez; [|discriminate].
    destruct (F d Id) as (_ & _ & _ & _ & _ & _ & Tg). rewrite Forall_forall in Tg.
    specialize (Tg z (nth_error_In _ _ Ez)). destruct (Z.eqb_spec z IGNORED); [discriminate|].
    injection Q as <-. tauto. }
  rewrite E2. reflexivity.
Qed.

(* ---- key transition model ---- *)
Definition ktm_exam (bce : Q -> Z -> Q) (net : list row -> list Q) (b : list (key_item * list Z)) : list (bool * Q) :=
  map (yes_no bce) (flat_map (ktm_answers net) b).
Lemma combine_fst_snd : forall A B (l : list (A * B)), combine (map fst l) (map snd l) = l.
Proof. induction l as [|[a b] r IH]; cbn; [reflexivity|]. now rewrite IH. Qed.
Lemma ktm_tally_ok : forall bce net filler width b, b <> [] ->
  Forall (fun x => ktm_item width (fst x) (snd x)) b ->
  (forall x, length (net x) = length x) -> (forall x o, In o (net x) -> 0 <= o <= 1)%Q ->
  ktm_tally bce net filler (map fst b) = Ok (measure (zlen (ktm_exam bce net b)) (ktm_exam bce net b)).
Proof.
  intros bce net filler width b N F Ln Cn. unfold ktm_tally, ktm_batch.
  rewrite (stack_same _ width).
  2: { rewrite map_map. apply Forall_map; eapply Forall_impl; [|exact F]; intros d H; apply H. }
  cbn [bind].
  assert (E0 : mapM ktm_targets (map fst b) = Ok (map snd b)).
  { rewrite <- (combine_fst_snd _ _ b) at 2. clear N. induction F as [|x l H F IH]; cbn; [reflexivity|].
    unfold ktm_targets at 1. destruct H as (-> & _). cbn. rewrite IH. cbn. now rewrite combine_fst_snd. }
  rewrite E0. cbn [bind]. rewrite (stack_same _ width).
  2: { apply Forall_map; eapply Forall_impl; [|exact F]; intros d H; apply H. }
  cbn [bind]. rewrite map_map.
  set (len := fun x : key_item * list Z => ki_length (fst x)).
  rewrite np_max_ok by (destruct b; [now destruct N|discriminate]). cbn [bind].
  change (fold_right Nat.max 0%nat (map len b)) with (longest len b).
  rewrite combine_fst_snd, !map_map. cbn [fst snd].
  assert (LW : (longest len b <= width)%nat).
  { apply longest_le. eapply Forall_impl; [|exact F]. intros d (_ & H & _). unfold len. lia. }
  change (map (fun x : key_item * list Z => (firstn (longest len b) (ki_inputs (fst x)), ki_length (fst x))) b)
    with (map (fun x : key_item * list Z => (firstn (longest len b) (ki_inputs (fst x)), len x)) b).
  rewrite (forward_ok _ _ net filler _ (fun x : key_item * list Z => ki_inputs (fst x)) len); [|assumption|].
  2: { eapply Forall_impl; [|exact F]. intros d (_ & H & H2 & _). change (len d) with (ki_length (fst d)). lia. }
  cbn [bind]. rewrite Forall_forall in F.
  assert (LN : forall d, In d b -> length (net (firstn (len d) (ki_inputs (fst d)))) = len d).
  { intros d I. rewrite Ln. destruct (F d I) as (_ & H & H2 & _). apply firstn_length_le. unfold len. lia. }
  rewrite pair_up_ok.
  2: { apply Forall_forall. intros d I. destruct (F d I) as (_ & _ & _ & W & _).
       rewrite app_length, repeat_length, LN, firstn_length_le by (assumption || lia).
       pose proof (in_longest _ len b d I). lia. }
  cbn [bind]. rewrite filter_flat_map.
  rewrite (flat_map_ext_in _ _ _ (ktm_answers net)).
  2: { intros d I. unfold ktm_answers. destruct (F d I) as (_ & H & W1 & W2 & Tg & Ig).
       rewrite <- (measured_row _ _ _ filler (firstn (longest len b) (snd d))
                     (fun x => negb (snd x =? IGNORED)) (fun y => y) (ktm_target (snd d)) (ki_length (fst d)) (longest len b)).
       - rewrite (map_ext _ (fun x => x)) by now intros []. now rewrite map_id.
       - now apply LN.
       - now apply (in_longest _ len).
       - apply firstn_length_le. lia.
       - intros t y Hy o. rewrite nth_error_firstn' in Hy. destruct (t <? longest len b)%nat; [|discriminate].
         unfold ktm_target. rewrite Hy. cbn [snd]. destruct (Z.eqb_spec y IGNORED) as [|NE]; [reflexivity|].
         split; [reflexivity|]. split; [reflexivity|].
         destruct (Nat.ltb_spec t (ki_length (fst d))); [assumption|exfalso].
         apply NE. rewrite Forall_forall in Ig. apply Ig.
         rewrite <- (firstn_skipn (ki_length (fst d)) (snd d)) in Hy.
         rewrite nth_error_app2 in Hy by (rewrite firstn_length_le; lia).
         eapply nth_error_In; exact Hy. }
  assert (E2 : map (fun x : Q * Z => (torch_round (fst x) =? snd x, bce (fst x) (snd x))) (flat_map (ktm_answers net) b)
             = ktm_exam bce net b).
  { unfold ktm_exam. apply map_ext_in. intros x I. unfold yes_no.
    apply in_flat_map in I as (d & Id & I'). unfold ktm_answers in I'.
    apply in_answers in I' as (Io & t & Pt & Q).
    rewrite round_decided; [reflexivity|eapply Cn; exact Io|].
    unfold ktm_target in Q. destruct (nth_error (snd d) t) as [z|] eqn:Ez; [|discriminate].
    destruct (F d Id) as (_ & _ & _ & _ & Tg & _). rewrite Forall_forall in Tg.
    specialize (Tg z (nth_error_In _ _ Ez)). destruct (Z.eqb_spec z IGNORED); [discriminate|].
    injection Q as <-. tauto. }
  rewrite E2. reflexivity.
Qed.

(* ---- one answer for each item ---- *)
Lemma forward_last_ok : forall R (last : list R -> list Q) D (rows : D -> list R) (len : D -> nat) b,
  Forall (fun d => (1 <= len d <= length (rows d))%nat) b ->
  forward_last last (map (fun d => (rows d, len d)) b) = Ok (map (fun d => last (firstn (len d) (rows d))) b).
Proof.
  intros R last D rows len b F. unfold forward_last.
  rewrite (mapM_of _ _ _ (fun x => last (firstn (snd x) (fst x)))).
  - now rewrite map_map.
  - intros x I. apply in_map_iff in I as (d & <- & I). cbn [fst snd]. rewrite Forall_forall in F.
    specialize (F d I). rewrite Nat.max_r by lia. destruct (Nat.ltb_spec (length (rows d)) (len d)); [lia|reflexivity].
Qed.
Definition one_exam {R} (ell : list Q -> Z -> Q) (last : list R -> list Q) (b : list (one_item R)) : list (bool * Q) :=
  map (fun d => one_judged ell (one_answer last d)) b.
Lemma judge_all : forall R (elr : list Q -> Z -> res Q) (ell : list Q -> Z -> Q) (last : list R -> list Q) classes (b : list (one_item R)),
  (forall o t, 0 <= t < zlen o -> elr o t = Ok (ell o t)) ->
  (forall x, zlen (last x) = classes) -> Forall (fun d => 0 <= oi_target d < classes) b ->
  mapM (judge elr) (combine (map (fun d => last (firstn (oi_length d) (oi_inputs d))) b) (map oi_target b))
  = Ok (one_exam ell last b).
Proof.
  intros R elr ell last classes b H C F. induction F as [|d r P F IH]; cbn; [reflexivity|].
  unfold judge at 1. cbn [fst snd]. set (o := last _).
  assert (Lo : zlen o = classes) by apply C.
  destruct (argmax_chosen o (oi_target d)) as (a & -> & A).
  - intros E. rewrite E in Lo. unfold zlen in Lo. cbn in Lo. lia.
  - lia.
  - cbn [bind]. rewrite H by lia. cbn [bind]. rewrite IH. cbn [bind]. unfold one_judged, one_answer. cbn [fst snd].
    fold o. now rewrite A.
Qed.

Lemma ccm_tally_ok : forall R ce (last : list R -> list Q) classes width (b : list (one_item R)),
  Forall (one_ok classes width) b -> (forall x, zlen (last x) = classes) ->
  ccm_tally ce last b = if Nat.eqb (length b) 1 then Raise IndexError
                        else Ok (measure (zlen (one_exam ce last b)) (one_exam ce last b)).
Proof.
  intros R ce last classes width b F C. unfold ccm_tally.
  rewrite (stack_same _ width).
  2: { apply Forall_map; eapply Forall_impl; [|exact F]; intros d H; apply H. }
  cbn [bind]. unfold ccm_forward. rewrite (forward_last_ok _ last _ oi_inputs oi_length).
  2: { eapply Forall_impl; [|exact F]. intros d (H & -> & _). exact H. }
  cbn [bind]. rewrite map_length. destruct (Nat.eqb (length b) 1); [reflexivity|]. cbn [bind].
  rewrite (judge_all _ _ ce last classes); [| |assumption|].
  - cbn [bind]. unfold one_exam at 2. unfold zlen at 2. rewrite map_length. reflexivity.
  - intros o t P. unfold cross_entropy. destruct (Z.ltb_spec t 0); [lia|].
    destruct (Z.leb_spec (zlen o) t); [lia|reflexivity].
  - eapply Forall_impl; [|exact F]. intros d (_ & _ & P). exact P.
Qed.

Lemma ksm_tally_ok : forall (last : list row -> list Q) classes width b, b <> [] ->
  Forall (one_ok classes width) b -> (forall x, zlen (last x) = classes) ->
  ksm_tally last b = Ok (measure KSM_FIELDS (one_exam nll_of last b)).
Proof.
  intros last classes width b N F C. unfold ksm_tally.
  rewrite (stack_same _ width).
  2: { apply Forall_map; eapply Forall_impl; [|exact F]; intros d H; apply H. }
  cbn [bind]. rewrite np_max_ok by (destruct b; [now destruct N|discriminate]). cbn [bind].
  change (fold_right Nat.max 0%nat (map oi_length b)) with (longest oi_length b).
  assert (LW : (longest oi_length b <= width)%nat).
  { apply longest_le. eapply Forall_impl; [|exact F]. intros d (H & _). lia. }
  rewrite (forward_last_ok _ last _ (fun d => firstn (longest oi_length b) (oi_inputs d)) oi_length).
  2: { rewrite Forall_forall in *. intros d I. destruct (F d I) as (H & W & _).
       pose proof (in_longest _ oi_length b d I). rewrite firstn_length_le by lia. lia. }
  cbn [bind].
  assert (E : map (fun d => last (firstn (oi_length d) (firstn (longest oi_length b) (oi_inputs d)))) b
              = map (fun d => last (firstn (oi_length d) (oi_inputs d))) b).
  { apply map_ext_in. intros d I. rewrite firstn_firstn, Nat.min_l by now apply in_longest. reflexivity. }
  rewrite E. rewrite (judge_all _ _ nll_of last classes); [reflexivity| |assumption|].
  - intros o t P. now apply nll_ok.
  - eapply Forall_impl; [|exact F]. intros d (_ & _ & P). exact P.
Qed.
