(* Lemmas about the items of datasets. *)
From Coq Require Import QArith Permutation Lia.
From Verif Require Import Proof_Base Spec_Dataset Proof_Dataset.
Close Scope Q_scope.
Open Scope Z_scope.

Lemma fold_max_ge : forall l a, (a <= fold_left Nat.max l a)%nat /\ forall x, In x l -> (x <= fold_left Nat.max l a)%nat.
Proof.
  induction l as [|y l IH]; intros a; cbn; [split; [lia|tauto]|]. destruct (IH (Nat.max a y)) as [H1 H2]. split; [lia|].
  intros x [->|Hx]; [lia|auto].
Qed.
Lemma fold_max_in : forall l a, In (fold_left Nat.max l a) (a :: l).
Proof.
  induction l as [|y l IH]; intros a; cbn [fold_left]; [now left|]. destruct (IH (Nat.max a y)) as [H|H].
  - rewrite <- H. destruct (Nat.max_spec a y) as [[_ ->]|[_ ->]]; cbn; auto.
  - cbn. auto.
Qed.
Lemma np_max_spec l n : np_max l = Ok n -> In n l /\ forall x, In x l -> (x <= n)%nat.
Proof.
  destruct l as [|a l]; [discriminate|]. cbn [np_max]. intros H. apply Ok_inj in H. subst n. split; [apply fold_max_in|].
  destruct (fold_max_ge l a) as [H1 H2]. intros x [->|Hx]; [exact H1|auto].
Qed.
Lemma np_max_some l : l <> [] -> exists n, np_max l = Ok n.
Proof. destruct l as [|a l]; [congruence|]. intros _. eexists. reflexivity. Qed.

Definition padded {A} (zero : A) (n : nat) (l : list A) : list A := l ++ repeat zero (n - length l).
Lemma pad_to_ok {A} (zero : A) n l : (length l <= n)%nat -> pad_to zero n l = Ok (padded zero n l).
Proof. intros H. unfold pad_to. apply Nat.leb_le in H. now rewrite H. Qed.
Lemma pad_array_ok {A} (zero : A) arr n : np_max (map (@length A) arr) = Ok n ->
  pad_array zero arr = Ok (map (padded zero n) arr, map (@length A) arr).
Proof.
  intros H. unfold pad_array. rewrite H. cbn [bind]. apply np_max_spec in H as [_ H].
  assert (E : mapM (pad_to zero n) arr = Ok (map (padded zero n) arr)).
  { apply mapM_forall2. clear - H. induction arr as [|x arr IH]; constructor; [apply pad_to_ok, H; now left|apply IH; intros; apply H; now right]. }
  now rewrite E.
Qed.
Lemma padded_firstn {A} (zero : A) n l : firstn (length l) (padded zero n l) = l.
Proof. unfold padded. rewrite firstn_app, firstn_all, Nat.sub_diag. cbn. apply app_nil_r. Qed.
Lemma map_fixed {A} (f : A -> A) l : Forall (fun x => f x = x) l -> map f l = l.
Proof. induction 1; cbn; congruence. Qed.
Lemma padded_map {A} (f : A -> A) zero n l : Forall (fun x => f x = x) l -> f zero = zero -> map f (padded zero n l) = padded zero n l.
Proof. intros H1 H2. apply map_fixed. unfold padded. apply Forall_app. split; [exact H1|]. apply Forall_forall. intros x Hx. apply repeat_spec in Hx. now subst. Qed.
Lemma load_ragged_padded {A} (f : A -> A) zero n arr : Forall (Forall (fun x => f x = x)) arr ->
  load_ragged f (map (padded zero n) arr) (map (@length A) arr) = arr.
Proof.
  unfold load_ragged. induction 1 as [|l arr H F IH]; [reflexivity|]. cbn [map combine fst snd]. rewrite padded_firstn, IH, (map_fixed f l H). reflexivity.
Qed.
Lemma padded_padded {A} (zero : A) n l : (length l <= n)%nat -> padded zero n (padded zero n l) = padded zero n l.
Proof.
  intros H. unfold padded at 1. unfold padded at 2. rewrite app_length, repeat_length. replace (n - (length l + (n - length l)))%nat with 0%nat by lia. apply app_nil_r.
Qed.
Lemma padded_length {A} (zero : A) n l : (length l <= n)%nat -> length (padded zero n l) = n.
Proof. intros H. unfold padded. rewrite app_length, repeat_length. lia. Qed.

(* the padded dataset *)
Section Padded.
Variables (f16 : Z -> Z) (ds : hds).
Hypotheses (W : well_formed ds) (X : exact f16 ds) (N : hd_inputs ds <> []).
Definition width : Z := match hd_inputs ds with (r :: _) :: _ => zlen r | _ => 0 end.
Lemma zeros_fixed w : map f16 (zeros w) = zeros w.
Proof. destruct X as (E & _). unfold zeros. apply map_fixed, Forall_forall. intros x Hx. apply repeat_spec in Hx. now subst. Qed.
Lemma exact_rows : Forall (Forall (fun r => map f16 r = r)) (hd_inputs ds).
Proof.
  destruct X as (_ & E & _). eapply Forall_impl; [|exact E]. cbn. intros l F. eapply Forall_impl; [|exact F]. cbn. intros r. apply map_fixed.
Qed.
Lemma pad_ds_ok : exists n ds', np_max (hd_input_lengths ds) = Ok n /\ pad_ds f16 ds = Ok ds'
  /\ hd_inputs ds' = map (padded (zeros width) n) (hd_inputs ds)
  /\ hd_input_lengths ds' = hd_input_lengths ds /\ hd_target_lengths ds' = hd_target_lengths ds
  /\ match hd_targets ds with
     | Ragged l => exists m, np_max (map (@length Z) l) = Ok m /\ hd_targets ds' = Ragged (map (padded 0 m) l)
     | Scalars l => hd_targets ds' = Scalars l
     end.
Proof.
  destruct W as (W1 & W2 & W3 & W4). destruct X as (X1 & _ & X3).
  destruct (np_max_some (hd_input_lengths ds)) as (n & En). { rewrite W1. destruct (hd_inputs ds); [congruence|discriminate]. }
  assert (Ei : map (map (map f16)) (map (padded (zeros width) n) (hd_inputs ds)) = map (padded (zeros width) n) (hd_inputs ds)).
  { assert (F := exact_rows). revert F. generalize (hd_inputs ds). intros l F. induction F as [|x l Hx F IH]; [reflexivity|].
    cbn [map]. rewrite IH, (padded_map (map f16)); [reflexivity|exact Hx|apply zeros_fixed]. }
  unfold pad_ds. fold width. rewrite W1 in En. rewrite (pad_array_ok _ _ _ En).
  destruct (hd_targets ds) as [l|l] eqn:Et, (hd_target_lengths ds) as [tl|] eqn:Etl; try contradiction.
  - destruct W4 as (-> & Hl & _). destruct (np_max_some (map (@length Z) l)) as (m & Em).
    { destruct l; [|discriminate]. destruct (hd_inputs ds); [congruence|discriminate]. }
    rewrite (pad_array_ok _ _ _ Em). cbn [bind]. rewrite Ei. eexists n, _. rewrite W1. split; [exact En|]. split; [reflexivity|].
    cbn [hd_inputs hd_input_lengths hd_targets hd_target_lengths]. split; [reflexivity|]. split; [reflexivity|]. split; [reflexivity|].
    exists m. split; [exact Em|]. f_equal. clear - X1 X3. induction X3 as [|x l Hx F IH]; [reflexivity|]. cbn [map].
    rewrite IH, (padded_map f16); auto.
  - cbn [bind]. rewrite Ei. eexists n, _. rewrite W1. split; [exact En|]. split; [reflexivity|].
    cbn [hd_inputs hd_input_lengths hd_targets hd_target_lengths]. auto.
Qed.
End Padded.

Definition consistent (ds : hds) (o : hobj) : Prop :=
  ho_ds o = ds
  /\ (forall n, ho_max_in o = Some n -> np_max (hd_input_lengths ds) = Ok n)
  /\ (forall m, ho_max_t o = Some m -> exists tl, hd_target_lengths ds = Some tl /\ np_max tl = Ok m).
Lemma fresh_consistent ds : consistent ds (fresh ds).
Proof. split; [reflexivity|]. split; discriminate. Qed.
Lemma cached_eq c l n : (forall n, c = Some n -> np_max l = Ok n) -> cached c l = n <-> np_max l = n.
Proof. intros H. destruct c as [k|]; cbn; [|tauto]. rewrite (H k eq_refl). tauto. Qed.
Lemma read_indep ds o i : consistent ds o ->
  fst (hd_read o i) = hd_getitem ds i /\ consistent ds (snd (hd_read o i)) /\ ho_padded (snd (hd_read o i)) = ho_padded o.
Proof.
  intros (E & C1 & C2). unfold hd_getitem, hd_read. rewrite E. cbn [fresh ho_ds ho_max_in ho_max_t cached].
  assert (C0 : consistent ds o) by (repeat split; assumption).
  destruct (hget (hd_inputs ds) i) as [inputs|e]; [|cbn; auto].
  destruct (target_at ds i) as [t|e]; [|cbn; auto].
  assert (Ec : cached (ho_max_in o) (hd_input_lengths ds) = np_max (hd_input_lengths ds)) by (apply cached_eq; auto).
  rewrite Ec. destruct (np_max (hd_input_lengths ds)) as [n|e] eqn:En; [|cbn; auto].
  assert (K1 : consistent ds (mkHO ds (ho_padded o) (Some n) (ho_max_t o))).
  { split; [reflexivity|]. split; [|exact C2]. cbn. intros n0 [= <-]. exact En. }
  destruct (padded_inputs ds inputs n i) as [[pd len]|e]; [|cbn; auto].
  destruct (hd_target_lengths ds) as [tl|] eqn:Etl; [|cbn; auto].
  assert (Ec2 : cached (ho_max_t o) tl = np_max tl).
  { apply cached_eq; [|reflexivity]. intros m Hm. destruct (C2 m Hm) as (tl' & [= <-] & Em). exact Em. }
  rewrite Ec2. destruct (np_max tl) as [m|e] eqn:Em; [|cbn; auto]. cbn [fst snd ho_padded]. split; [reflexivity|].
  split; [|reflexivity]. split; [reflexivity|]. split; cbn.
  - intros n0 [= <-]. exact En.
  - intros m0 [= <-]. exists tl. split; [exact Etl|exact Em].
Qed.

Lemma hget_map {A B} (f : A -> B) l i : hget (map f l) i = match hget l i with Ok x => Ok (f x) | Raise e => Raise e end.
Proof. unfold hget. rewrite nth_error_map. destruct (nth_error l i); reflexivity. Qed.
Lemma hget_in {A} (l : list A) i x : hget l i = Ok x -> In x l.
Proof. unfold hget. destruct (nth_error l i) eqn:E; [|discriminate]. intros H. apply Ok_inj in H. subst. eapply nth_error_In; eauto. Qed.

Lemma padded_item f16 ds ds' i : well_formed ds -> exact f16 ds -> pad_ds f16 ds = Ok ds' -> hd_inputs ds <> [] ->
  hd_getitem ds' i = hd_getitem ds i.
Proof.
  intros W X Ep N. destruct (pad_ds_ok f16 ds W X N) as (n & ds0 & En & Ep' & I1 & I2 & I3 & I4). rewrite Ep in Ep'. apply Ok_inj in Ep'. subst ds0.
  destruct W as (W1 & W2 & (w & W3) & W4).
  unfold hd_getitem, hd_read. cbn [fresh ho_ds ho_max_in ho_max_t cached]. rewrite I1, I2, I3, hget_map, En.
  destruct (hget (hd_inputs ds) i) as [inputs|e] eqn:Ei; [|reflexivity].
  assert (Hin := hget_in _ _ _ Ei).
  assert (Hw : forall l r, In l (hd_inputs ds) -> In r l -> length r = w).
  { intros l r Hl Hr. rewrite Forall_forall in W3. specialize (W3 l Hl). rewrite Forall_forall in W3. auto. }
  assert (Hwidth : width ds = Z.of_nat w).
  { unfold width. destruct (hd_inputs ds) as [|[|r x] l] eqn:E0; [congruence| |].
    - exfalso. inversion W2; subst. congruence.
    - unfold zlen. f_equal. apply (Hw (r :: x)); now left. }
  assert (Hlen : (length inputs <= n)%nat).
  { apply np_max_spec in En as [_ En]. apply En. rewrite W1. now apply in_map. }
  assert (Hp : padded_inputs ds' (padded (zeros (width ds)) n inputs) n i = padded_inputs ds inputs n i).
  { unfold padded_inputs. rewrite I2. assert (Hne : inputs <> []) by (rewrite Forall_forall in W2; auto).
    destruct inputs as [|r x]; [congruence|].
    assert (Hr : zlen r = width ds) by (rewrite Hwidth; unfold zlen; f_equal; apply (Hw (r :: x)); [exact Hin|now left]).
    assert (Eh : hget (padded (zeros (width ds)) n (r :: x)) 0 = Ok r) by reflexivity. rewrite Eh.
    assert (Eh2 : hget (r :: x) 0 = Ok r) by reflexivity. rewrite Eh2. cbn [bind]. rewrite Hr.
    rewrite !pad_to_ok; [|exact Hlen|]. 2:{ rewrite padded_length by exact Hlen. lia. }
    rewrite padded_padded by exact Hlen. reflexivity. }
  rewrite Hp. unfold target_at. destruct (hd_targets ds) as [l|l], (hd_target_lengths ds) as [tl|]; try contradiction.
  - destruct I4 as (m & Em & ->). destruct W4 as (-> & Hl & Hne). rewrite hget_map.
    destruct (hget l i) as [t|e] eqn:Et; [|reflexivity].
    destruct (padded_inputs ds inputs n i) as [[pd len]|e]; [|reflexivity]. rewrite Em. cbn [fst].
    assert (Htin := hget_in _ _ _ Et). assert (Htne : t <> []) by (rewrite Forall_forall in Hne; auto).
    assert (Hml : (length t <= m)%nat) by (apply np_max_spec in Em as [_ Em]; apply Em; now apply in_map).
    destruct t as [|y t]; [congruence|].
    assert (Eh : hget (padded 0 m (y :: t)) 0 = Ok y) by reflexivity. rewrite Eh.
    assert (Eh2 : hget (y :: t) 0 = Ok y) by reflexivity. rewrite Eh2. cbn [bind].
    rewrite !pad_to_ok; [|exact Hml|]. 2:{ rewrite padded_length by exact Hml. lia. }
    rewrite padded_padded by exact Hml. reflexivity.
  - rewrite I4. destruct (hget l i) as [t|e]; [|reflexivity]. cbn [bind].
    destruct (padded_inputs ds inputs n i) as [[pd len]|e]; reflexivity.
Qed.

(* the same uses, one after the other; a use that raises leaves the object as it is then *)
Definition use_one (f16 : Z -> Z) (o : hobj) (u : use) : hobj :=
  match u with
  | Read i => snd (hd_read o i)
  | Save => match to_h5 f16 o with Ok (_, o') => o' | Raise _ => o end
  end.
Lemma uses_items f16 ds : well_formed ds -> exact f16 ds -> forall us o,
  (consistent ds o \/ exists ds', pad_ds f16 ds = Ok ds' /\ hd_inputs ds <> [] /\ consistent ds' o /\ ho_padded o = true) ->
  forall i, fst (hd_read (fold_left (use_one f16) us o) i) = hd_getitem ds i.
Proof.
  intros W X. induction us as [|u us IH]; intros o Ho i; cbn [fold_left].
  - destruct Ho as [Ho|(ds' & Ep & N & Ho & _)]; [exact (proj1 (read_indep _ _ i Ho))|].
    rewrite (proj1 (read_indep _ _ i Ho)). now apply (padded_item f16).
  - apply IH. destruct u as [j|]; cbn [use_one].
    + destruct Ho as [Ho|(ds' & Ep & N & Ho & Hp)]; [left; exact (proj1 (proj2 (read_indep _ _ j Ho)))|].
      right. exists ds'. split; [exact Ep|]. split; [exact N|]. split; [exact (proj1 (proj2 (read_indep _ _ j Ho)))|].
      rewrite <- Hp. exact (proj2 (proj2 (read_indep _ _ j Ho))).
    + unfold to_h5, hd_pad. destruct (ho_padded o) eqn:Epd; cbn [bind]; [rewrite Epd; exact Ho|].
      destruct Ho as [Ho|(ds' & _ & _ & _ & Hp)]; [|congruence].
      destruct Ho as (E & C1 & C2). rewrite E. destruct (pad_ds f16 ds) as [ds'|e] eqn:Ep; cbn [bind]; [|left; repeat split; assumption].
      right. exists ds'. split; [reflexivity|]. assert (N : hd_inputs ds <> []).
      { intros N. unfold pad_ds in Ep. rewrite N in Ep. destruct (hd_targets ds) as [l|l]; [|discriminate].
        cbn in Ep. destruct (bind (pad_array 0 l) _) as [[]|]; discriminate. }
      split; [exact N|]. split; [|reflexivity]. destruct (pad_ds_ok f16 ds W X N) as (n & ds0 & En & Ep' & I1 & I2 & I3 & I4).
      rewrite Ep in Ep'. apply Ok_inj in Ep'. subst ds0. split; [reflexivity|]. cbn. rewrite I2, I3. auto.
Qed.
