(* Lemmas about datasets. *)
From Coq Require Import QArith Qround Permutation Lia.
From Verif Require Import Proof_Base Proof_Search Proof_Paths Spec_Dataset.
Close Scope Q_scope.
Open Scope Z_scope.

Lemma mapM_forall2 {A B} (f : A -> res B) l ys : mapM f l = Ok ys <-> Forall2 (fun x y => f x = Ok y) l ys.
Proof.
  revert ys. induction l as [|x l IH]; intros ys; cbn [mapM].
  - split; [intros H; apply Ok_inj in H; subst; constructor|intros H; inversion H; reflexivity].
  - split.
    + intros H. apply bind_ok in H as (y & Ey & H). apply bind_ok in H as (ys' & Eys & H). apply Ok_inj in H. subst ys.
      constructor; [exact Ey|now apply IH].
    + intros H. inversion H as [|? y ? ys' Ey Hr]; subst. rewrite Ey. cbn [bind]. rewrite (proj2 (IH ys') Hr). reflexivity.
Qed.

Lemma forall2_len {A B} (R : A -> B -> Prop) l l' : Forall2 R l l' -> length l = length l'.
Proof. induction 1; cbn; auto. Qed.

(* ---- rows of a piece ---- *)
Section Rows.
Variables (pt : pitch_type) (pad : bool) (L : Z -> Z * key_mode).
Notation blank := (zeros (1 + get_key_change_vector_length pt false)).
Definition key_col (prev : option Z) (k : Z) (col : row) : Prop :=
  match prev with
  | None => col = blank
  | Some p => if p =? k then col = blank
              else exists v, key_change_vector pt (fst (L p)) (fst (L k)) (snd (L k)) = Ok v /\ col = v ++ [1]
  end.
Definition row_of (prev : option Z) (k : Z) (c : full_chord) (r : row) : Prop :=
  exists v col, to_vec c None pad NO_REDUCTION = Ok v /\ key_col prev k col /\ r = v ++ col.
Fixpoint rows_of (prev : option Z) (l : list (Z * full_chord)) (rows : list row) : Prop :=
  match l, rows with
  | [], [] => True
  | (k, c) :: l', r :: rows' => row_of prev k c r /\ rows_of (Some k) l' rows'
  | _, _ => False
  end.
Lemma rows_of_app : forall l1 prev l2 rows, rows_of prev (l1 ++ l2) rows <->
  exists r1 r2, rows = r1 ++ r2 /\ rows_of prev l1 r1
    /\ rows_of (match rev l1 with (k, _) :: _ => Some k | [] => prev end) l2 r2.
Proof.
  induction l1 as [|[k c] l1 IH]; intros prev l2 rows; cbn [app].
  - split.
    + intros H. exists [], rows. split; [reflexivity|]. split; [exact I|exact H].
    + intros (r1 & r2 & E & H1 & H2). destruct r1; [subst rows; exact H2|destruct H1].
  - assert (E : match rev ((k, c) :: l1) with (k0, _) :: _ => Some k0 | [] => prev end
                = match rev l1 with (k0, _) :: _ => Some k0 | [] => Some k end).
    { cbn [rev]. destruct (rev l1) as [|[k0 c0] r]; reflexivity. }
    rewrite E. split.
    + destruct rows as [|r rows]; [intros []|]. intros [H1 H2]. apply IH in H2 as (r1 & r2 & -> & Ha & Hb).
      exists (r :: r1), r2. split; [reflexivity|]. split; [split; assumption|exact Hb].
    + intros (r1 & r2 & -> & H1 & H2). destruct r1 as [|r r1]; [destruct H1|]. cbn [app]. destruct H1 as [Ha Hb].
      split; [exact Ha|]. apply IH. eauto.
Qed.

(* groups of chords with the same key *)
Notation group := (Z * list full_chord)%type.
Definition expand (gs : list group) : list (Z * full_chord) :=
  concat (map (fun g => map (fun c => (fst g, c)) (snd g)) gs).
Fixpoint proper (prev : option Z) (gs : list group) : Prop :=
  match gs with
  | [] => True
  | g :: r => snd g <> [] /\ prev <> Some (fst g) /\ proper (Some (fst g)) r
  end.
Fixpoint starts (i : nat) (gs : list group) : list nat :=
  match gs with [] => [] | g :: r => i :: starts (i + length (snd g)) r end.
Lemma proper_weaken prev gs : proper prev gs -> proper None gs.
Proof. destruct gs as [|g r]; [auto|]. intros (H1 & _ & H2). cbn. auto using not_eq_sym. split; [exact H1|]. split; [discriminate|exact H2]. Qed.

Lemma group_of l : exists gs, expand gs = l /\ proper None gs.
Proof.
  induction l as [|[k c] l (gs & E & P)]; [exists []; split; [reflexivity|exact I]|].
  destruct gs as [|[k' cs] gs'].
  - exists [(k, [c])]. cbn in E. subst l. split; [reflexivity|]. cbn. repeat split; discriminate.
  - destruct (Z.eq_dec k k') as [->|Hne].
    + exists ((k', c :: cs) :: gs'). split; [cbn in *; now rewrite E|]. destruct P as (_ & _ & P). cbn in *. repeat split; try discriminate. exact P.
    + exists ((k, [c]) :: (k', cs) :: gs'). split; [cbn in *; now rewrite E|]. destruct P as (P1 & _ & P). cbn in *.
      repeat split; try discriminate; auto. congruence.
Qed.

Lemma key_starts_repeat k : forall n i r, key_starts i (Some k) (repeat k n ++ r) = key_starts (i + n) (Some k) r.
Proof.
  induction n as [|n IH]; intros i r; cbn [repeat app key_starts]; [now rewrite Nat.add_0_r|].
  rewrite Z.eqb_refl, IH. f_equal. lia.
Qed.
Lemma key_starts_groups : forall gs i prev, proper prev gs ->
  key_starts i prev (map fst (expand gs)) = combine (starts i gs) (map fst gs).
Proof.
  induction gs as [|[k cs] gs IH]; intros i prev P; [reflexivity|]. destruct P as (P1 & P2 & P3). cbn [fst snd] in *.
  destruct cs as [|c cs]; [congruence|]. cbn [expand map concat fst snd app].
  cbn [key_starts].
  assert (E : match prev with Some p => p =? k | None => false end = false).
  { destruct prev as [p|]; [|reflexivity]. apply Z.eqb_neq. congruence. }
  rewrite E. cbn [starts map combine fst snd length]. f_equal.
  rewrite map_app, map_map. cbn [fst].
  replace (map (fun _ : full_chord => k) cs) with (repeat k (length cs)).
  2:{ clear. induction cs; cbn; congruence. }
  rewrite key_starts_repeat. replace (S i + length cs)%nat with (i + S (length cs))%nat by lia. apply IH. exact P3.
Qed.

Lemma between_mid {A} (a b c : list A) : between (a ++ b ++ c) (length a) (length a + length b) = b.
Proof.
  unfold between. rewrite skipn_app, skipn_all, Nat.sub_diag. cbn [app skipn].
  replace (length a + length b - length a)%nat with (length b) by lia.
  rewrite firstn_app, firstn_all, Nat.sub_diag. cbn [firstn]. now rewrite app_nil_r.
Qed.

Definition opt_lab (prev : option Z) : option (Z * key_mode) := match prev with Some p => Some (L p) | None => None end.
Lemma rows_same k : forall cs rows, rows_of (Some k) (map (fun c => (k, c)) cs) rows <->
  exists vs, Forall2 (fun c v => to_vec c None pad NO_REDUCTION = Ok v) cs vs /\ rows = map (fun w => w ++ blank) vs.
Proof.
  induction cs as [|c cs IH]; intros rows; cbn [map rows_of].
  - destruct rows; [split; [intros _; exists []; split; [constructor|reflexivity]|auto]|]. split; [intros []|]. intros (vs & F & E). inversion F; subst. discriminate.
  - destruct rows as [|r rows]; [split; [intros []|]; intros (vs & F & E); inversion F; subst; discriminate|]. split.
    + intros ((v & col & Ev & Hc & ->) & H). apply IH in H as (vs & F & ->). cbn in Hc. rewrite Z.eqb_refl in Hc. subst col.
      exists (v :: vs). split; [now constructor|reflexivity].
    + intros (vs & F & E). inversion F as [|? v ? vs' Ev F']; subst. cbn [map] in E. injection E as -> ->. split.
      * exists v, blank. split; [exact Ev|]. cbn. rewrite Z.eqb_refl. auto.
      * apply IH. eauto.
Qed.
Lemma section_rows_spec chords a b prev k cs rows : between chords a b = cs -> cs <> [] -> prev <> Some k ->
  section_rows pt pad chords (opt_lab prev) (L k) a b = Ok rows <-> rows_of prev (map (fun c => (k, c)) cs) rows.
Proof.
  intros E Hcs Hp. destruct cs as [|c cs]; [congruence|]. unfold section_rows. rewrite E. cbn [map]. split.
  - intros H. apply bind_ok in H as (vs & Evs & H). apply mapM_forall2 in Evs. inversion Evs as [|? v ? vs' Ev F]; subst.
    apply bind_ok in H as (kc & Ek & H). apply Ok_inj in H. subst rows. cbn [rows_of]. split.
    + exists v, kc. split; [exact Ev|]. split; [|reflexivity]. destruct prev as [p|]; cbn in *.
      * destruct (Z.eqb_spec p k); [congruence|]. apply bind_ok in Ek as (w & Ew & Ek). apply Ok_inj in Ek. eauto.
      * apply Ok_inj in Ek. congruence.
    + apply rows_same. eauto.
  - destruct rows as [|r rows]; [intros []|]. intros ((v & col & Ev & Hc & ->) & H). apply rows_same in H as (vs & F & ->).
    assert (Em : mapM (fun c0 => to_vec c0 None pad NO_REDUCTION) (c :: cs) = Ok (v :: vs)) by (apply mapM_forall2; now constructor).
    rewrite Em. cbn [bind]. destruct prev as [p|]; cbn in *.
    + destruct (Z.eqb_spec p k); [congruence|]. destruct Hc as (w & Ew & ->). rewrite Ew. reflexivity.
    + subst col. reflexivity.
Qed.

Lemma removelast_cons {A} (x : A) l : removelast (x :: l) = match l with [] => [] | _ => x :: removelast l end.
Proof. destruct l; reflexivity. Qed.

(* sections for a list of groups, when the groups before have the chords [pre] *)
Definition secs (prev : option Z) (pre : nat) (n : nat) (gs : list group) :=
  combine (combine (opt_lab prev :: map Some (removelast (map (fun g => L (fst g)) gs))) (map (fun g => L (fst g)) gs))
          (combine (starts pre gs) (tl (starts pre gs) ++ [n])).
Lemma secs_cons prev pre n k cs gs : (gs = [] -> n = (pre + length cs)%nat) ->
  secs prev pre n ((k, cs) :: gs) = (opt_lab prev, L k, (pre, (pre + length cs)%nat)) :: secs (Some k) (pre + length cs) n gs.
Proof.
  intros Hn. unfold secs. cbn [map fst snd starts tl]. rewrite removelast_cons. destruct gs as [|[k' cs'] gs].
  - cbn. rewrite Hn; reflexivity.
  - cbn [map fst snd starts tl app combine]. reflexivity.
Qed.
Lemma secs_rows : forall gs prev pre rows, proper prev gs ->
  (exists rs, Forall2 (fun s r => (let '(p, k, (a, b)) := s in
                 section_rows pt pad (pre ++ map snd (expand gs)) p k a b) = Ok r)
      (secs prev (length pre) (length (pre ++ map snd (expand gs))) gs) rs /\ rows = concat rs)
  <-> rows_of prev (expand gs) rows.
Proof.
  induction gs as [|[k cs] gs IH]; intros prev pre rows P.
  - cbn. split.
    + intros (rs & F & ->). inversion F. exact I.
    + destruct rows; [|intros []]. intros _. exists []. split; [constructor|reflexivity].
  - destruct P as (P1 & P2 & P3). cbn [fst snd] in *.
    assert (Ee : expand ((k, cs) :: gs) = map (fun c => (k, c)) cs ++ expand gs) by reflexivity.
    assert (Es : map snd (expand ((k, cs) :: gs)) = cs ++ map snd (expand gs)).
    { rewrite Ee, map_app, map_map. cbn [snd]. now rewrite map_id. }
    rewrite Es. rewrite secs_cons.
    2:{ intros ->. cbn. rewrite app_nil_r, app_length. reflexivity. }
    assert (Hb : between (pre ++ cs ++ map snd (expand gs)) (length pre) (length pre + length cs) = cs) by apply between_mid.
    assert (Er : match rev (map (fun c => (k, c)) cs) with (k0, _) :: _ => Some k0 | [] => prev end = Some k).
    { destruct cs as [|c cs]; [congruence|]. rewrite <- map_rev. destruct (rev (c :: cs)) as [|c0 r] eqn:E; [|reflexivity].
      apply (f_equal (@rev _)) in E. rewrite rev_involutive in E. discriminate. }
    assert (Hsplit : pre ++ cs ++ map snd (expand gs) = (pre ++ cs) ++ map snd (expand gs)) by apply app_assoc.
    rewrite Ee, rows_of_app, Er. split.
    + intros (rs & F & ->). inversion F as [|? r1 ? rs' E1 F']; subst. cbn [concat]. exists r1, (concat rs'). split; [reflexivity|]. split.
      * apply (section_rows_spec _ _ _ prev k cs r1 Hb P1 P2). exact E1.
      * apply (IH (Some k) (pre ++ cs)); [exact P3|]. exists rs'. split; [|reflexivity]. rewrite <- Hsplit, app_length. exact F'.
    + intros (r1 & r2 & -> & H1 & H2). apply (IH (Some k) (pre ++ cs)) in H2 as (rs & F & ->); [|exact P3].
      exists (r1 :: rs). split; [|reflexivity]. constructor.
      * apply (section_rows_spec _ _ _ prev k cs r1 Hb P1 P2). exact H1.
      * rewrite <- Hsplit, app_length in F. exact F.
Qed.
Lemma starts_length : forall gs i, length (starts i gs) = length gs.
Proof. induction gs; intros; cbn; auto. Qed.

Lemma piece_rows_spec (p : dpiece) (l : list (Z * full_chord)) rows : dp_pt p = pt -> l <> [] ->
  dp_chords p = map snd l ->
  dp_changes p = map fst (key_starts 0 None (map fst l)) ->
  dp_keys p = map (fun r => L (snd r)) (key_starts 0 None (map fst l)) ->
  piece_rows pad p = Ok rows <-> rows_of None l rows.
Proof.
  intros Ep Hl Ec Ech Ek. destruct (group_of l) as (gs & Eg & P). subst l.
  rewrite (key_starts_groups _ _ _ P) in *.
  assert (E1 : map fst (combine (starts 0 gs) (map fst gs)) = starts 0 gs).
  { clear. generalize 0%nat. induction gs; intros i; cbn; [reflexivity|]. f_equal. apply IHgs. }
  assert (E2 : map (fun r : nat * Z => L (snd r)) (combine (starts 0 gs) (map fst gs)) = map (fun g => L (fst g)) gs).
  { clear. generalize 0%nat. induction gs; intros i; cbn; [reflexivity|]. f_equal. apply IHgs. }
  rewrite E1 in Ech. rewrite E2 in Ek. clear E1 E2.
  rewrite <- (secs_rows gs None [] rows P). cbn [app length]. unfold piece_rows. rewrite Ek, Ech, Ec, Ep.
  destruct gs as [|g gs]; [cbn in Hl; congruence|].
  change (map (fun g0 : Z * list full_chord => L (fst g0)) (g :: gs)) with (L (fst g) :: map (fun g0 => L (fst g0)) gs) at 1.
  cbv iota. change (sections (map (fun g0 => L (fst g0)) (g :: gs)) (starts 0 (g :: gs)) (length (map snd (expand (g :: gs)))))
    with (secs None 0 (length (map snd (expand (g :: gs)))) (g :: gs)).
  split.
  - intros H. apply bind_ok in H as (rs & Ers & H). apply mapM_forall2 in Ers. exists rs. destruct rs as [|r rs]; [discriminate|].
    apply Ok_inj in H. split; [|congruence]. exact Ers.
  - intros (rs & F & ->). assert (Em := proj2 (mapM_forall2 _ _ rs) F). rewrite Em. cbn [bind]. destruct rs as [|r rs]; [|reflexivity].
    exfalso. destruct g as [k cs]. rewrite secs_cons in F; [inversion F|]. intros ->. cbn. rewrite map_app, map_map, app_nil_r. now rewrite map_length.
Qed.
End Rows.

(* ---- the inputs of the search ---- *)
Section Inputs.
Variables (g : search_cfg) (pd : piece_data).
Definition the_label (k : Z) : Z * key_mode :=
  match py_nth (key_labels (g_kpt g)) k with Ok x => x | Raise _ => (0, MAJOR) end.
Definition input_of (pad : bool) (s : state) : res row :=
  let! k := key_part (g_cpt g) (g_kpt g) s in
  let! c := state_chord (g_cpt g) (g_kpt g) (p_durs pd) (p_levels pd) s in
  let! v := to_vec c None pad NO_REDUCTION in Ok (v ++ k).

Lemma full_chord_eta c : c = {| fc := {| c_root := c_root (fc c); c_bass := c_bass (fc c); c_tonic := c_tonic (fc c);
   c_mode := c_mode (fc c); c_type := c_type (fc c); c_inv := c_inv (fc c); c_pt := c_pt (fc c) |};
   fc_onset_level := fc_onset_level c; fc_offset_level := fc_offset_level c; fc_duration := fc_duration c |}.
Proof. destruct c as [[] ? ? ?]. reflexivity. Qed.

Lemma py_nth_nat {A} (l : list A) i x : nth_error l i = Some x -> py_nth l (Z.of_nat i) = Ok x.
Proof. intros H. apply py_nth_pos; [lia|]. now rewrite Nat2Z.id. Qed.
Lemma py_slice_nat {A} (l : list A) (a b : nat) : py_slice l (Z.of_nat a) (Z.of_nat b) = firstn (b - a) (skipn a l).
Proof.
  rewrite py_slice_spec by lia. rewrite Nat2Z.id. now replace (Z.to_nat (Z.of_nat b - Z.of_nat a)) with (b - a)%nat by lia.
Qed.

Lemma described p f c : describes g pd (p, f) c -> st_prev f = Some p ->
  state_chord (g_cpt g) (g_kpt g) (p_durs pd) (p_levels pd) f = Ok c.
Proof.
  intros (i & E1 & E2 & E3 & E4 & E5 & E6 & E7 & E8) Hp.
  unfold state_chord, state_key, the_chord, chord_notes, the_prev. rewrite E4, E1. cbn [bind]. rewrite E2. cbn [bind].
  rewrite E3. cbn [bind]. rewrite Hp. cbn [bind]. rewrite (py_nth_nat _ _ _ E6), (py_nth_nat _ _ _ E7). cbn [bind].
  rewrite py_slice_nat, <- E8, <- E5. f_equal. symmetry. apply full_chord_eta.
Qed.
Lemma label_of p f c : describes g pd (p, f) c -> py_nth (key_labels (g_kpt g)) (st_key f) = Ok (the_label (st_key f)).
Proof. intros (i & _ & _ & _ & E & _). unfold the_label. now rewrite E. Qed.

Notation blank := (zeros (1 + get_key_change_vector_length (g_cpt g) false)).
Lemma blank_eq : repeat 0 (Z.to_nat (get_key_change_vector_length (g_cpt g) false)) ++ [0] = blank.
Proof. destruct (g_cpt g); reflexivity. Qed.
Lemma input_row pad p f c r : describes g pd (p, f) c -> st_prev f = Some p ->
  (st_key p = st_key f \/ py_nth (key_labels (g_kpt g)) (st_key p) = Ok (the_label (st_key p))) ->
  input_of pad f = Ok r <-> row_of (g_cpt g) pad the_label (Some (st_key p)) (st_key f) c r.
Proof.
  intros Hd Hp Hk. unfold input_of. rewrite (described _ _ _ Hd Hp). unfold key_part. rewrite Hp.
  unfold row_of, key_col. destruct (Z.eqb_spec (st_key p) (st_key f)) as [E|E].
  - rewrite blank_eq. cbn [bind]. split.
    + intros H. apply bind_ok in H as (v & Ev & H). apply Ok_inj in H. eauto.
    + intros (v & col & Ev & -> & ->). rewrite Ev. reflexivity.
  - destruct Hk as [Hk|Hk]; [congruence|]. unfold state_key. rewrite Hk, (label_of _ _ _ Hd). cbn [bind].
    destruct (the_label (st_key p)) as [t0 m0], (the_label (st_key f)) as [t1 m1]. cbn [fst snd]. split.
    + intros H. apply bind_ok in H as (kc & Ek & H). apply bind_ok in Ek as (kv & Ekv & Ek). apply Ok_inj in Ek. subst kc.
      cbn [bind] in H. apply bind_ok in H as (v & Ev & H). apply Ok_inj in H. exists v, (kv ++ [1]). eauto.
    + intros (v & col & Ev & (kv & Ekv & ->) & ->). rewrite Ekv. cbn [bind]. rewrite Ev. reflexivity.
Qed.

(* the steps of a state follow each other *)
Fixpoint chain (p0 : state) (steps : list (state * state)) (s : state) : Prop :=
  match steps with
  | [] => p0 = s
  | (p, f) :: r => p = p0 /\ st_prev f = Some p0 /\ chain f r s
  end.
Lemma chain_snoc : forall steps p0 p s, chain p0 steps p -> st_prev s = Some p -> chain p0 (steps ++ [(p, s)]) s.
Proof.
  induction steps as [|[q f] steps IH]; intros p0 p s H Hp; cbn [app chain] in *.
  - subst p0. auto.
  - destruct H as (-> & H1 & H2). auto.
Qed.
Lemma steps_chain s : exists p0, chain p0 (steps_of s) s.
Proof.
  remember (length (steps_of s)) as n eqn:En. revert s En. induction n as [n IH] using lt_wf_ind; intros s En.
  rewrite steps_of_eq in *. destruct (st_prev s) as [p|] eqn:Ep; [|exists s; reflexivity].
  rewrite app_length in En. cbn in En. destruct (IH (length (steps_of p)) ltac:(lia) p eq_refl) as (p0 & H).
  exists p0. now apply chain_snoc.
Qed.

Lemma chain_rows pad : forall steps cs p0 s rows, chain p0 steps s -> Forall2 (describes g pd) steps cs ->
  (py_nth (key_labels (g_kpt g)) (st_key p0) = Ok (the_label (st_key p0)) \/ match steps with [] => True | (p, f) :: _ => st_key p = st_key f end) ->
  Forall2 (fun f r => input_of pad f = Ok r) (map snd steps) rows
  <-> rows_of (g_cpt g) pad the_label (Some (st_key p0)) (combine (map (fun pf => st_key (snd pf)) steps) cs) rows.
Proof.
  induction steps as [|[p f] steps IH]; intros cs p0 s rows Hc F Hk; inversion F as [|? c ? cs' Hd F']; subst; cbn [map combine rows_of snd].
  - split; [intros H; inversion H; exact I|]. destruct rows; [constructor|intros []].
  - destruct Hc as (-> & Hp & Hc).
    assert (Hi := fun r => input_row pad p0 f c r Hd Hp (match Hk with or_introl a => or_intror a | or_intror a => or_introl a end)).
    assert (Hr := fun rs => IH cs' f s rs Hc F' (or_introl (label_of _ _ _ Hd))). split.
    + intros H. inversion H as [|? r ? rows' Er Frest]; subst. split; [now apply Hi|now apply Hr].
    + destruct rows as [|r rows]; [intros []|]. intros [H1 H2]. constructor; [now apply Hi|now apply Hr].
Qed.

Lemma combine_fst_snd {A B} (ks : list A) (cs : list B) : length ks = length cs ->
  map fst (combine ks cs) = ks /\ map snd (combine ks cs) = cs.
Proof.
  revert cs. induction ks as [|k ks IH]; intros [|c cs] H; cbn in *; try discriminate; [auto|].
  destruct (IH cs ltac:(lia)) as [-> ->]. auto.
Qed.

Lemma rows_agree pad p s rows : analysed_as g pd p s -> first_key_kept s ->
  piece_rows pad p = Ok rows <-> mapM (input_of pad) (map snd (steps_of s)) = Ok rows.
Proof.
  intros (F & Ech & Fk & Ep) Hfirst. rewrite mapM_forall2.
  destruct (steps_chain s) as (p0 & Hc). unfold first_key_kept in Hfirst.
  assert (Hlen : length (map (fun pf => st_key (snd pf)) (steps_of s)) = length (dp_chords p)).
  { rewrite map_length. exact (forall2_len _ _ _ F). }
  destruct (combine_fst_snd _ _ Hlen) as [E1 E2].
  rewrite (chain_rows pad (steps_of s) (dp_chords p) p0 s rows Hc F).
  2:{ right. destruct (steps_of s) as [|[q f] r]; [exact I|exact Hfirst]. }
  rewrite (piece_rows_spec (g_cpt g) pad the_label p (combine (map (fun pf => st_key (snd pf)) (steps_of s)) (dp_chords p)) rows Ep).
  - destruct (steps_of s) as [|[q f] r] eqn:Es; [destruct Hfirst|]. destruct Hc as (-> & _ & _).
    destruct (dp_chords p) as [|c cs]; [discriminate|]. cbn [map combine snd]. rewrite <- Hfirst.
    destruct rows as [|r0 rows]; [tauto|]. cbn [rows_of]. unfold row_of, key_col. rewrite Z.eqb_refl. reflexivity.
  - destruct (steps_of s) as [|[q f] r]; [destruct Hfirst|]. destruct (dp_chords p); [discriminate|]. cbn. discriminate.
  - now rewrite E2.
  - now rewrite E1.
  - rewrite E1. revert Fk. clear. intros Fk. induction Fk as [|r k l l' E _ IH]; [reflexivity|]. cbn [map]. rewrite <- IH. f_equal.
    unfold the_label. now rewrite E.
Qed.

Lemma targets_agree p s : Forall2 (describes g pd) (steps_of s) (dp_chords p) ->
  csd_targets p = mapM (relative_chord_index (g_cpt g) (g_kpt g) (p_durs pd) (p_levels pd)) (map snd (steps_of s)).
Proof.
  intros F. destruct (steps_chain s) as (p0 & Hc). unfold csd_targets. revert p0 Hc.
  induction F as [|[q f] c steps cs Hd F IH]; intros p0 Hc; [reflexivity|]. destruct Hc as (-> & Hp & Hc).
  cbn [map mapM snd]. rewrite (IH _ Hc).
  assert (E : relative_chord_index (g_cpt g) (g_kpt g) (p_durs pd) (p_levels pd) f = chord_one_hot (fc c) true true false NO_REDUCTION).
  { unfold relative_chord_index. rewrite (described _ _ _ Hd Hp). reflexivity. }
  rewrite E. reflexivity.
Qed.

(* where the keys change *)
Lemma key_starts_first : forall ks i q b k r, key_starts i (Some q) ks = (b, k) :: r ->
  (i <= b)%nat /\ nth_error ks (b - i) = Some k /\ nth_error (q :: ks) (b - i) = Some q /\ q <> k.
Proof.
  induction ks as [|x ks IH]; intros i q b k r H; [discriminate|]. cbn [key_starts] in H.
  destruct (Z.eqb_spec q x) as [->|Hne].
  - apply IH in H as (H1 & H2 & H3 & H4). split; [lia|]. replace (b - i)%nat with (S (b - S i))%nat by lia.
    cbn [nth_error]. auto.
  - injection H as <- <- <-. split; [lia|]. rewrite Nat.sub_diag. cbn. auto.
Qed.
Lemma key_starts_change : forall ks i prev j a k b k',
  nth_error (key_starts i prev ks) j = Some (a, k) -> nth_error (key_starts i prev ks) (S j) = Some (b, k') ->
  (i < b)%nat /\ nth_error ks (b - i) = Some k' /\ nth_error ks (b - i - 1) = Some k /\ k <> k'.
Proof.
  induction ks as [|x ks IH]; intros i prev j a k b k' H1 H2; [destruct j; discriminate|]. cbn [key_starts] in H1, H2.
  assert (Hrec : forall j, nth_error (key_starts (S i) (Some x) ks) j = Some (a, k) ->
     nth_error (key_starts (S i) (Some x) ks) (S j) = Some (b, k') ->
     (i < b)%nat /\ nth_error (x :: ks) (b - i) = Some k' /\ nth_error (x :: ks) (b - i - 1) = Some k /\ k <> k').
  { intros j0 Ha Hb. destruct (IH _ _ _ _ _ _ _ Ha Hb) as (G1 & G2 & G3 & G4). split; [lia|].
    assert (X1 : nth_error (x :: ks) (b - i) = nth_error ks (b - S i)) by (replace (b - i)%nat with (S (b - S i)) by lia; reflexivity).
    assert (X2 : nth_error (x :: ks) (b - i - 1) = nth_error ks (b - S i - 1)) by (replace (b - i - 1)%nat with (S (b - S i - 1)) by lia; reflexivity).
    rewrite X1, X2. auto. }
  destruct (match prev with Some p => p =? x | None => false end); [now apply (Hrec j)|].
  destruct j as [|j]; [|cbn [nth_error] in H1, H2; now apply (Hrec j)].
  cbn [nth_error] in H1, H2. injection H1 as <- <-.
  destruct (key_starts (S i) (Some x) ks) as [|[b0 k0] r] eqn:E; [discriminate|]. injection H2 as <- <-.
  destruct (key_starts_first _ _ _ _ _ _ E) as (G1 & G2 & G3 & G4). split; [lia|].
  replace (b0 - i)%nat with (S (b0 - S i))%nat by lia. cbn [nth_error]. rewrite Nat.sub_succ, Nat.sub_0_r. auto.
Qed.
Lemma chain_nth : forall steps p0 s i p f, chain p0 steps s -> nth_error steps (S i) = Some (p, f) ->
  exists q, nth_error steps i = Some (q, p).
Proof.
  induction steps as [|[q f0] steps IH]; intros p0 s i p f Hc H; [discriminate|]. destruct Hc as (-> & Hp & Hc).
  cbn [nth_error] in H. destruct i as [|i].
  - destruct steps as [|[q1 f1] steps]; [discriminate|]. cbn in H. injection H as -> ->. destruct Hc as (-> & _). exists p0. reflexivity.
  - destruct (IH _ _ i p f Hc H) as (q & E). exists q. exact E.
Qed.
Lemma chain_prev : forall steps p0 s i p f, chain p0 steps s -> nth_error steps i = Some (p, f) -> st_prev f = Some p.
Proof.
  induction steps as [|[q f0] steps IH]; intros p0 s i p f Hc H; [destruct i; discriminate|]. destruct Hc as (-> & Hp & Hc).
  destruct i as [|i]; [injection H as <- <-; exact Hp|]. apply (IH _ _ i _ _ Hc H).
Qed.
Lemma forall2_nth {A B} (R : A -> B -> Prop) l l' : Forall2 R l l' -> forall i x, nth_error l i = Some x ->
  exists y, nth_error l' i = Some y /\ R x y.
Proof. induction 1 as [|a b l l' Hab F IH]; intros [|i] x H; try discriminate; cbn in *; [injection H as <-; eauto|auto]. Qed.
Lemma forall2_nth_r {A B} (R : A -> B -> Prop) l l' : Forall2 R l l' -> forall i y, nth_error l' i = Some y ->
  exists x, nth_error l i = Some x /\ R x y.
Proof. induction 1 as [|a b l l' Hab F IH]; intros [|i] x H; try discriminate; cbn in *; [injection H as <-; eauto|auto]. Qed.

Definition rekeyed (c : full_chord) (k : Z * key_mode) : full_chord :=
  {| fc := {| c_root := c_root (fc c); c_bass := c_bass (fc c); c_tonic := fst k; c_mode := snd k;
              c_type := c_type (fc c); c_inv := c_inv (fc c); c_pt := c_pt (fc c) |};
     fc_onset_level := fc_onset_level c; fc_offset_level := fc_offset_level c; fc_duration := fc_duration c |}.
Lemma rekeyed_vec c k pad red : to_vec c (Some k) pad red = to_vec (rekeyed c k) None pad red.
Proof. destruct k. reflexivity. Qed.
Lemma rekeyed_input p f c n r : describes g pd (p, f) c -> uncharged p n f ->
  py_nth (key_labels (g_kpt g)) (st_key p) = Ok (the_label (st_key p)) ->
  input_of true n = Ok r <-> exists v, to_vec c (Some (the_label (st_key p))) true NO_REDUCTION = Ok v /\ r = v ++ blank.
Proof.
  intros (i & E1 & E2 & E3 & E4 & E5 & E6 & E7 & E8) (U1 & U2 & U3 & U4) Hk.
  assert (Hd : describes g pd (p, n) (rekeyed c (the_label (st_key p)))).
  { exists i. unfold rekeyed. cbn. rewrite U2, U3, U4. destruct (the_label (st_key p)) as [t m]. cbn. auto 10. }
  rewrite (input_row true p n _ r Hd U1 (or_introl (eq_sym U4))). unfold row_of, key_col. rewrite U4, Z.eqb_refl, rekeyed_vec. split.
  - intros (v & col & Ev & -> & ->). eauto.
  - intros (v & Ev & ->). eauto.
Qed.

Lemma sections_nth keys changes n j x : length keys = length changes -> nth_error (sections keys changes n) j = Some x ->
  exists prev k a b, x = (prev, k, (a, b)) /\ nth_error keys j = Some k /\ nth_error changes j = Some a
    /\ nth_error (tl changes ++ [n]) j = Some b.
Proof.
  intros _ H. unfold sections in H. destruct x as [[prev k] [a b]]. exists prev, k, a, b. split; [reflexivity|].
  revert H. generalize (None :: map Some (removelast keys)). generalize (tl changes ++ [n]). revert changes j.
  induction keys as [|k0 keys IH]; intros changes j l ps H.
  - destruct ps; cbn in H; destruct j; discriminate.
  - destruct ps as [|p0 ps]; [destruct j; discriminate|]. destruct changes as [|c changes]; [destruct j; discriminate|].
    destruct l as [|y l]; [destruct j; discriminate|]. destruct j as [|j]; cbn in *; [injection H as <- <- <- <-; auto|].
    apply (IH changes j l ps H).
Qed.
Lemma sections_length keys changes n : keys <> [] -> length keys = length changes -> length (sections keys changes n) = length keys.
Proof.
  intros Hk Hl. unfold sections. rewrite !combine_length. destruct keys as [|k keys]; [congruence|]. destruct changes as [|c changes]; [discriminate|].
  cbn [length tl]. rewrite app_length, map_length. cbn [length] in *.
  assert (length (removelast (k :: keys)) = length keys).
  { clear. revert k. induction keys as [|x keys IH]; intros k; [reflexivity|]. cbn [removelast]. cbn [length]. f_equal. apply (IH x). }
  lia.
Qed.

(* a piece of the key transition dataset *)
Lemma ktd_piece_facts p rows n lens ts repls : ktd_piece p = Ok (rows, n, lens, ts, repls) ->
  piece_rows true p = Ok rows /\ n = length (dp_keys p) /\ lens = tl (dp_changes p) ++ [length (dp_chords p)]
  /\ ts = repeat 1 (n - 1) ++ [0]
  /\ Forall2 (fun s r => let '(prev, key, (a, b)) := s in
       if (b =? length (dp_chords p))%nat then True else replacement (dp_pt p) (dp_chords p) key b = Ok r)
     (sections (dp_keys p) (dp_changes p) (length (dp_chords p))) repls.
Proof.
  unfold ktd_piece, piece_rows. destruct (dp_keys p) as [|k0 keys] eqn:Ek; [discriminate|]. rewrite <- Ek. clear Ek. intros H.
  apply bind_ok in H as (rs & Ers & H). assert (Hne : rs <> []) by (destruct rs; [discriminate|congruence]).
  assert (H' : Ok (concat (map fst rs), length (dp_keys p), tl (dp_changes p) ++ [length (dp_chords p)],
                 repeat 1 (length (dp_keys p) - 1) ++ [0], map snd rs) = Ok (rows, n, lens, ts, repls)).
  { destruct rs; [congruence|exact H]. }
  clear H. rename H' into H.
  apply Ok_inj in H. injection H as H1 H2 H3 H4 H5. apply mapM_forall2 in Ers.
  assert (F : Forall2 (fun s r => (let '(prev, key, (a, b)) := s in section_rows (dp_pt p) true (dp_chords p) prev key a b) = Ok (fst r)
     /\ let '(prev, key, (a, b)) := s in
       if (b =? length (dp_chords p))%nat then True else replacement (dp_pt p) (dp_chords p) key b = Ok (snd r))
     (sections (dp_keys p) (dp_changes p) (length (dp_chords p))) rs).
  { clear Hne H1 H2 H3 H4 H5. induction Ers as [|s r l l' Hs F IH]; constructor; [|exact IH]. destruct s as [[prev key] [a b]].
    apply bind_ok in Hs as (rw & Erw & Hs). apply bind_ok in Hs as (rp & Erp & Hs). apply Ok_inj in Hs. subst r. cbn [fst snd].
    split; [exact Erw|]. destruct (b =? length (dp_chords p))%nat; [exact I|exact Erp]. }
  clear Ers. split; [|split; [congruence|split; [congruence|split; [congruence|]]]].
  - assert (Em : mapM (fun s => let '(prev, key, (a, b)) := s in section_rows (dp_pt p) true (dp_chords p) prev key a b)
        (sections (dp_keys p) (dp_changes p) (length (dp_chords p))) = Ok (map fst rs)).
    { apply mapM_forall2. clear Hne H1 H2 H3 H4 H5. induction F as [|s r l l' [Hs _] F IH]; constructor; assumption. }
    rewrite Em. cbn [bind]. subst rows. destruct rs; [congruence|reflexivity].
  - subst repls. clear Hne H1 H2 H3 H4. induction F as [|s r l l' [_ Hs] F IH]; constructor; assumption.
Qed.
Lemma ktd_changes p s rows n lens ts repls : analysed_as g pd p s -> first_key_kept s ->
  ktd_piece p = Ok (rows, n, lens, ts, repls) ->
  forall j, (S j < n)%nat -> exists b q f r, nth_error lens j = Some b /\ nth_error (steps_of s) b = Some (q, f)
    /\ st_key q <> st_key f /\ nth_error repls j = Some r /\ (forall m, uncharged q m f -> input_of true m = Ok r).
Proof.
  intros (F & Ech & Fk & Ep) Hfirst H j Hj.
  apply ktd_piece_facts in H as (_ & En & El & _ & Fr).
  set (runs := key_starts 0 None (map (fun pf => st_key (snd pf)) (steps_of s))) in *.
  assert (Hl : length runs = length (dp_keys p)) by exact (forall2_len _ _ _ Fk).
  assert (Hl2 : length (dp_changes p) = length (dp_keys p)) by (rewrite Ech, map_length; exact Hl).
  destruct (nth_error runs j) as [[a k]|] eqn:Ea; [|apply nth_error_None in Ea; lia].
  destruct (nth_error runs (S j)) as [[b k']|] eqn:Eb; [|apply nth_error_None in Eb; lia].
  destruct (key_starts_change _ _ _ _ _ _ _ _ Ea Eb) as (B1 & B2 & B3 & B4). rewrite Nat.sub_0_r in B2, B3.
  assert (Eb' : nth_error lens j = Some b).
  { rewrite El. assert (Hc : nth_error (dp_changes p) (S j) = Some b) by (rewrite Ech; exact (map_nth_error fst _ _ Eb)).
    destruct (dp_changes p) as [|c0 cs]; [discriminate|]. cbn [tl nth_error] in *. rewrite nth_error_app1; [exact Hc|]. apply nth_error_Some. congruence. }
  rewrite nth_error_map in B2, B3.
  destruct (nth_error (steps_of s) b) as [[q f]|] eqn:Ef; [|discriminate]. cbn in B2. injection B2 as B2.
  destruct (steps_chain s) as (p0 & Hch).
  replace b with (S (b - 1)) in Ef by lia. destruct (chain_nth _ _ _ _ _ _ Hch Ef) as (q0 & Eq). rewrite Eq in B3. cbn in B3. injection B3 as B3.
  replace (S (b - 1)) with b in Ef by lia.
  destruct (forall2_nth _ _ _ F b _ Ef) as (c & Ec & Hd).
  destruct (forall2_nth _ _ _ F (b - 1)%nat _ Eq) as (c0 & _ & Hd0).
  assert (Hbn : (b < length (dp_chords p))%nat) by (apply nth_error_Some; congruence).
  assert (Hsl : length (sections (dp_keys p) (dp_changes p) (length (dp_chords p))) = length (dp_keys p)).
  { apply sections_length; [|congruence]. intros E0. rewrite E0 in En. cbn in En. lia. }
  destruct (nth_error (sections (dp_keys p) (dp_changes p) (length (dp_chords p))) j) as [x|] eqn:Ex; [|apply nth_error_None in Ex; lia].
  destruct (forall2_nth _ _ _ Fr j _ Ex) as (r & Er & Hr).
  destruct (sections_nth _ _ _ _ _ (eq_sym Hl2) Ex) as (prev & key & a' & b' & -> & Ekey & _ & Eb2).
  rewrite El, Eb2 in Eb'. injection Eb' as ->. cbn in Hr.
  replace (b =? length (dp_chords p))%nat with false in Hr by (symmetry; apply Nat.eqb_neq; lia).
  destruct (forall2_nth _ _ _ Fk j _ Ea) as (key' & Ekey' & Elab). rewrite Ekey in Ekey'. injection Ekey' as <-.
  cbn [snd] in Elab. exists b, q, f, r. split; [now rewrite El|]. split; [exact Ef|]. split; [congruence|]. split; [exact Er|].
  intros m Hm. apply (rekeyed_input q f c m r Hd Hm).
  - rewrite B3. unfold the_label. now rewrite Elab.
  - unfold replacement in Hr. rewrite Ec in Hr. apply bind_ok in Hr as (v & Ev & Hr). apply Ok_inj in Hr. subst r. exists v.
    rewrite B3. unfold the_label. rewrite Elab. rewrite <- Ep. auto.
Qed.

(* the piece of an analysis *)
Definition piece_of (s : state) : res dpiece :=
  let runs := key_starts 0 None (map (fun pf => st_key (snd pf)) (steps_of s)) in
  let! cs := mapM (state_chord (g_cpt g) (g_kpt g) (p_durs pd) (p_levels pd)) (map snd (steps_of s)) in
  let! ks := mapM (py_nth (key_labels (g_kpt g))) (map snd runs) in
  Ok (mkDP cs ks (map fst runs) (g_cpt g)).
Lemma py_nth_nat_inv {A} (l : list A) (i : nat) x : py_nth l (Z.of_nat i) = Ok x -> nth_error l i = Some x.
Proof.
  unfold py_nth. replace (Z.of_nat i <? 0) with false by (symmetry; apply Z.ltb_ge; lia).
  destruct ((Z.of_nat i <? 0) || (zlen l <=? Z.of_nat i)); [discriminate|]. rewrite Nat2Z.id.
  destruct (nth_error l i); [|discriminate]. intros H. apply Ok_inj in H. now subst.
Qed.
Lemma state_chord_describes p f c : st_prev f = Some p ->
  state_chord (g_cpt g) (g_kpt g) (p_durs pd) (p_levels pd) f = Ok c -> describes g pd (p, f) c.
Proof.
  intros Hp H. unfold state_chord, state_key, the_chord, chord_notes, the_prev in H.
  apply bind_ok in H as ([tonic mode] & Ek & H). destruct (st_chord f) as [i|] eqn:Ei; [|discriminate]. cbn [bind] in H.
  apply bind_ok in H as ([[[root t] inv] bass] & Ec & H). apply bind_ok in Ec as ([[root' t'] inv'] & El & Ec).
  apply bind_ok in Ec as (bass' & Eb & Ec). apply Ok_inj in Ec. injection Ec as -> -> -> ->.
  rewrite Hp in H. cbn [bind] in H. apply bind_ok in H as (on & Eon & H). apply bind_ok in H as (off & Eoff & H).
  apply Ok_inj in H. subst c. cbn [fc c_root c_type c_inv c_bass c_tonic c_mode c_pt fc_onset_level fc_offset_level fc_duration].
  exists i. cbn. rewrite py_slice_nat. auto 12 using py_nth_nat_inv.
Qed.
Lemma piece_of_analysed s p : piece_of s = Ok p -> analysed_as g pd p s.
Proof.
  unfold piece_of. intros H. apply bind_ok in H as (cs & Ec & H). apply bind_ok in H as (ks & Ek & H). apply Ok_inj in H. subst p.
  apply mapM_forall2 in Ec, Ek. unfold analysed_as. cbn [dp_chords dp_changes dp_keys dp_pt]. split; [|split; [reflexivity|split; [|reflexivity]]].
  - destruct (steps_chain s) as (p0 & Hc). clear Ek. revert p0 cs Ec Hc. induction (steps_of s) as [|[q f] steps IH]; intros p0 cs F Hc; inversion F; subst; constructor.
    + destruct Hc as (-> & Hp & _). now apply state_chord_describes.
    + destruct Hc as (_ & _ & Hc). eapply IH; eauto.
  - revert ks Ek. generalize (key_starts 0 None (map (fun pf => st_key (snd pf)) (steps_of s))). intros l.
    induction l as [|r l IH]; intros ks F; inversion F; subst; constructor; auto.
Qed.
End Inputs.
