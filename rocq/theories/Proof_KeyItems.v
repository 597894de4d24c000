(* Lemmas about the items of the key datasets. *)
From Coq Require Import QArith Permutation Lia.
From Verif Require Import Proof_Base Spec_Dataset Proof_Dataset Proof_Items.
Close Scope Q_scope.
Open Scope Z_scope.

Lemma piece_index_spec : forall ns i pi j k, item_at ns i pi j -> piece_index k ns i = Ok ((k + pi)%nat, (0 <? j)%nat).
Proof.
  induction ns as [|n ns IH]; intros i pi j k (Hi & m & Hm & Hj); [destruct pi; discriminate|].
  destruct pi as [|pi]; cbn [nth_error firstn fold_right] in *.
  - injection Hm as ->. cbn [piece_index]. replace (i <? m)%nat with true by (symmetry; apply Nat.ltb_lt; lia).
    rewrite Nat.add_0_r. do 2 f_equal. f_equal. lia.
  - cbn [piece_index]. replace (i <? n)%nat with false by (symmetry; apply Nat.ltb_ge; lia).
    rewrite (IH (i - n)%nat pi j (S k)).
    + do 2 f_equal. lia.
    + split; [lia|]. eauto.
Qed.
Lemma concat_item {A} : forall (ls : list (list A)) i pi j, item_at (map (@length A) ls) i pi j ->
  exists l, nth_error ls pi = Some l /\ nth_error (concat ls) i = nth_error l j /\ (j < length l)%nat.
Proof.
  induction ls as [|l ls IH]; intros i pi j (Hi & m & Hm & Hj); [destruct pi; discriminate|].
  destruct pi as [|pi]; cbn [map nth_error firstn fold_right concat] in *.
  - injection Hm as <-. exists l. split; [reflexivity|]. split; [|exact Hj]. subst i. cbn. now apply nth_error_app1.
  - destruct (IH (i - length l)%nat pi j) as (l' & E1 & E2 & E3). { split; [lia|]. eauto. }
    exists l'. split; [exact E1|]. split; [|exact E3]. rewrite nth_error_app2 by lia. exact E2.
Qed.
Lemma item_exists : forall ns i, (i < fold_right Nat.add 0 ns)%nat -> exists pi j, item_at ns i pi j.
Proof.
  induction ns as [|n ns IH]; intros i H; cbn in H; [lia|]. destruct (Nat.lt_ge_cases i n).
  - exists 0%nat, i. split; [reflexivity|]. exists n. auto.
  - destruct (IH (i - n)%nat ltac:(lia)) as (pi & j & E & m & Em & Hm). exists (S pi), j. split; [cbn; lia|]. exists m. auto.
Qed.
Lemma item_below : forall ns i pi j, item_at ns i pi j -> (i < fold_right Nat.add 0 ns)%nat.
Proof.
  induction ns as [|n ns IH]; intros i pi j (Hi & m & Hm & Hj); [destruct pi; discriminate|]. destruct pi as [|pi]; cbn in *.
  - injection Hm as ->. lia.
  - assert (H := IH (i - n)%nat pi j). cbn in H. enough ((i - n < fold_right Nat.add 0 ns)%nat) by lia. apply H. split; [lia|eauto].
Qed.
Lemma concat_length {A} (ls : list (list A)) : length (concat ls) = fold_right Nat.add 0%nat (map (@length A) ls).
Proof. induction ls; cbn; [reflexivity|]. rewrite app_length. lia. Qed.

Lemma between_length {A} (l : list A) a b : (b <= length l)%nat -> length (between l a b) = (b - a)%nat.
Proof. intros H. unfold between. rewrite firstn_length, skipn_length. lia. Qed.
Lemma section_rows_length pt pad chords prev key a b rows : section_rows pt pad chords prev key a b = Ok rows ->
  length rows = length (between chords a b).
Proof.
  unfold section_rows. intros H. apply bind_ok in H as (vs & Ev & H). apply mapM_forall2 in Ev. apply Forall2_len in Ev. rewrite Ev.
  destruct vs as [|v vs]; [discriminate|]. apply bind_ok in H as (k & _ & H). apply Ok_inj in H. subst rows. cbn. now rewrite map_length.
Qed.

(* sections of increasing changes fill the chords *)
Fixpoint increasing (a : nat) (l : list nat) : Prop := match l with [] => True | b :: r => (a < b)%nat /\ increasing b r end.
Lemma increasing_nth : forall l a, (forall i x y, nth_error (a :: l) i = Some x -> nth_error (a :: l) (S i) = Some y -> (x < y)%nat) -> increasing a l.
Proof.
  induction l as [|b l IH]; intros a H; [exact I|]. split; [apply (H 0%nat); reflexivity|]. apply IH. intros i x y Hx Hy. apply (H (S i)); assumption.
Qed.
Lemma increasing_last : forall l a x, increasing a l -> In x (a :: l) -> (x <= last l a)%nat.
Proof.
  induction l as [|b l IH]; intros a x H Hx; [destruct Hx as [->|[]]; cbn; lia|]. destruct H as [H1 H2].
  assert (E : last (b :: l) a = last l b). { clear. revert a b. induction l as [|c l IH]; intros a b; [reflexivity|]. cbn in *. rewrite (IH b c), (IH a c). reflexivity. }
  rewrite E. destruct Hx as [->|Hx]; [|now apply IH]. assert (H3 := IH b b H2 (or_introl eq_refl)). lia.
Qed.
Lemma last_cons {A} (l : list A) a b : last (b :: l) a = last l b.
Proof. revert a b. induction l as [|c l IH]; intros a b; [reflexivity|]. cbn in *. rewrite (IH b c), (IH a c). reflexivity. Qed.

Section Pieces.
Variable p : dpiece.
Hypothesis V : valid_piece p.
Notation n := (length (dp_chords p)).
Lemma valid_changes : exists cs, dp_changes p = 0%nat :: cs /\ increasing 0 cs /\ (last cs 0%nat < n)%nat /\ (length (dp_keys p) = S (length cs))%nat.
Proof.
  destruct V as (V1 & V2 & V3 & V4). destruct (dp_changes p) as [|c cs] eqn:E; [discriminate|]. injection V2 as ->.
  exists cs. split; [reflexivity|]. split; [now apply increasing_nth|]. split; [|exact V1].
  destruct cs as [|c cs]; [apply (V4 0%nat); reflexivity|].
  assert (Hl : In (last (c :: cs) 0%nat) (0%nat :: c :: cs)).
  { right. clear. revert c. induction cs as [|d cs IH]; intros c; [now left|]. right. rewrite last_cons in *. rewrite last_cons. rewrite <- (last_cons cs 0%nat d). apply IH. }
  apply In_nth_error in Hl as (i & Hi). apply (V4 i). exact Hi.
Qed.
Lemma rows_total : forall (ss : list (option (Z * key_mode) * (Z * key_mode))) cs a e rs,
  increasing a (cs ++ [e]) -> (e <= n)%nat ->
  Forall2 (fun s r => let '(_, (x, y)) := s : (option (Z * key_mode) * (Z * key_mode)) * (nat * nat) in length r = length (between (dp_chords p) x y))
    (combine ss (combine (a :: cs) (cs ++ [e]))) rs -> length ss = S (length cs) -> length (@concat row rs) = (e - a)%nat.
Proof.
  induction ss as [|s ss IH]; intros cs a e rs Hi He F L; [discriminate|]. destruct cs as [|c cs].
  - destruct ss; [|discriminate]. cbn in F. inversion F as [|? ? ? ? H1 H2]; subst. inversion H2; subst. cbn. rewrite app_nil_r, H1. apply between_length, He.
  - cbn [app] in *. destruct Hi as [Hi1 Hi2]. cbn [combine] in F. inversion F as [|? r ? rs' H1 H2]; subst. cbn [concat]. rewrite app_length, H1.
    rewrite (IH cs c e rs' Hi2 He H2) by (cbn in L; lia).
    assert (Hce : (c < e)%nat).
    { assert (H := increasing_last (cs ++ [e]) c c Hi2 (or_introl eq_refl)). rewrite last_last in H.
      destruct cs as [|d cs]; [cbn in Hi2; lia|]. assert (H' := increasing_last (d :: cs ++ [e]) c d Hi2 ltac:(right; now left)). rewrite last_cons, last_last in H'. cbn in Hi2. lia. }
    rewrite between_length; lia.
Qed.

(* pieces of the key transition dataset *)
Lemma ktd_piece_shape rows k lens ts repls : ktd_piece p = Ok (rows, k, lens, ts, repls) ->
  length rows = n /\ k = length (dp_keys p) /\ length lens = k /\ length ts = k /\ length repls = k
  /\ lens = tl (dp_changes p) ++ [n].
Proof.
  intros H. assert (H' := H). apply ktd_piece_facts in H as (Hr & -> & -> & -> & F).
  destruct valid_changes as (cs & Ec & Hi & Hlast & Hk).
  assert (Hsec : length (sections (dp_keys p) (dp_changes p) n) = length (dp_keys p)).
  { apply sections_length; [destruct (dp_keys p); [discriminate|congruence]|rewrite Ec, Hk; reflexivity]. }
  split; [|split; [reflexivity|split; [rewrite Ec, app_length; cbn; lia|split; [rewrite app_length, repeat_length; cbn; lia|split; [|reflexivity]]]]].
  - unfold piece_rows in Hr. destruct (dp_keys p) as [|k0 ks] eqn:Ek; [discriminate|]. rewrite <- Ek in *.
    apply bind_ok in Hr as (rs & Ers & Hr). apply mapM_forall2 in Ers. assert (Er : rows = concat rs) by (destruct rs; [discriminate|apply Ok_inj in Hr; congruence]).
    subst rows. unfold sections in Ers. rewrite Ec in Ers. cbn [tl] in Ers.
    assert (F2 : Forall2 (fun s r => let '(_, (x, y)) := s : (option (Z * key_mode) * (Z * key_mode)) * (nat * nat) in length r = length (between (dp_chords p) x y))
      (combine (combine (None :: map Some (removelast (dp_keys p))) (dp_keys p)) (combine (0%nat :: cs) (cs ++ [n]))) rs).
    { clear - Ers. induction Ers as [|s r l l' Hs F IH]; constructor; [|exact IH]. destruct s as [[prev key] [a b]]. exact (section_rows_length _ _ _ _ _ _ _ _ Hs). }
    rewrite (rows_total _ cs 0%nat n rs) with (3 := F2); [lia| |lia|].
    + clear - Hi Hlast. revert Hlast Hi. generalize 0%nat. induction cs as [|c cs IH]; intros a Hl Hi; cbn in *; [auto|]. destruct Hi as [H1 H2]. split; [exact H1|]. apply IH; [|exact H2].
      destruct cs; [cbn in *; lia|]. rewrite last_cons in *. exact Hl.
    + rewrite combine_length. cbn [length]. rewrite map_length. rewrite Ek. cbn [length].
      assert (length (removelast (k0 :: ks)) = length ks). { clear. revert k0. induction ks as [|x ks IH]; intros k; [reflexivity|]. cbn [removelast length]. f_equal. apply (IH x). }
      rewrite Ek in Hk. cbn in Hk. lia.
  - rewrite <- Hsec. symmetry. exact (Forall2_len _ _ _ F).
Qed.
End Pieces.

Lemma fill_nth {A} (v : A) : forall l a b x, nth_error (fill l a b v) x =
  if (a <=? x)%nat && (x <? b)%nat && (x <? length l)%nat then Some v else nth_error l x.
Proof.
  induction l as [|y l IH]; intros a b x; cbn [fill].
  - cbn [length]. replace (x <? 0)%nat with false by (symmetry; apply Nat.ltb_ge; lia). now rewrite andb_false_r.
  - destruct b as [|b].
    + replace (x <? 0)%nat with false by (symmetry; apply Nat.ltb_ge; lia). now rewrite andb_false_r.
    + destruct a as [|a], x as [|x]; cbn [nth_error]; try reflexivity; rewrite IH; reflexivity.
Qed.
Lemma fill_length {A} (v : A) : forall l a b, length (fill l a b v) = length l.
Proof. induction l as [|y l IH]; intros a b; cbn [fill]; [reflexivity|]. destruct b, a; cbn; auto. Qed.

Lemma forall2_map_r {A B C} (R : A -> C -> Prop) (f : B -> C) l l' : Forall2 R l (map f l') <-> Forall2 (fun a b => R a (f b)) l l'.
Proof.
  split.
  - revert l'. induction l as [|a l IH]; intros [|b l'] H; inversion H; subst; constructor; auto.
  - induction 1; constructor; auto.
Qed.

(* what a dataset made of pieces holds for item j of piece pi *)
Lemma key_ds_item (l : list key_piece) i pi j x :
  Forall (fun x => let '(_, k, lens, ts, repls) := x in length lens = k /\ length ts = k /\ length repls = k) l ->
  nth_error l pi = Some x -> item_at (kd_pieces (key_ds_of l)) i pi j ->
  let '(rows, k, lens, ts, repls) := x in
  nth_error (kd_inputs (key_ds_of l)) pi = Some rows /\ (j < k)%nat
  /\ piece_index 0 (kd_pieces (key_ds_of l)) i = Ok (pi, (0 <? j)%nat)
  /\ nth_error (kd_lengths (key_ds_of l)) i = nth_error lens j
  /\ nth_error (kd_targets (key_ds_of l)) i = nth_error ts j
  /\ nth_error (kd_repl (key_ds_of l)) i = nth_error repls j
  /\ ((0 < j)%nat -> nth_error (kd_lengths (key_ds_of l)) (i - 1) = nth_error lens (j - 1)).
Proof.
  intros F Hx Hi. unfold key_ds_of in *. cbn [kd_inputs kd_pieces kd_lengths kd_targets kd_repl] in *.
  set (ks := map (fun x : key_piece => snd (fst (fst (fst x)))) l) in *.
  assert (E1 : map (@length nat) (map (fun x : key_piece => snd (fst (fst x))) l) = ks).
  { unfold ks. rewrite map_map. clear - F. induction F as [|[[[[rw k] lens] ts] rp] l (H1 & H2 & H3) F IH]; [reflexivity|]. cbn. f_equal; assumption. }
  assert (E2 : map (@length Z) (map (fun x : key_piece => snd (fst x)) l) = ks).
  { unfold ks. rewrite map_map. clear - F. induction F as [|[[[[rw k] lens] ts] rp] l (H1 & H2 & H3) F IH]; [reflexivity|]. cbn. f_equal; assumption. }
  assert (E3 : map (@length row) (map (fun x : key_piece => snd x) l) = ks).
  { unfold ks. rewrite map_map. clear - F. induction F as [|[[[[rw k] lens] ts] rp] l (H1 & H2 & H3) F IH]; [reflexivity|]. cbn. f_equal; assumption. }
  destruct x as [[[[rows k] lens] ts] repls].
  assert (Hk : nth_error ks pi = Some k) by exact (map_nth_error _ _ _ Hx).
  assert (Hj : (j < k)%nat) by (destruct Hi as (_ & m & Hm & Hj); congruence).
  split; [exact (map_nth_error (fun x => fst (fst (fst (fst x)))) _ _ Hx)|]. split; [exact Hj|].
  split; [exact (piece_index_spec _ _ _ _ 0%nat Hi)|].
  assert (A : forall i' j', item_at ks i' pi j' -> nth_error (concat (map (fun x : key_piece => snd (fst (fst x))) l)) i' = nth_error lens j').
  { intros i' j' Hi'. rewrite <- E1 in Hi'. destruct (concat_item _ _ _ _ Hi') as (l0 & El & En & _).
    rewrite (map_nth_error (fun x : key_piece => snd (fst (fst x))) _ _ Hx) in El. injection El as <-. exact En. }
  split; [now apply A|]. split; [|split].
  - assert (Hi' := Hi). rewrite <- E2 in Hi'. destruct (concat_item _ _ _ _ Hi') as (l0 & El & En & _).
    rewrite (map_nth_error (fun x : key_piece => snd (fst x)) _ _ Hx) in El. injection El as <-. exact En.
  - assert (Hi' := Hi). rewrite <- E3 in Hi'. destruct (concat_item _ _ _ _ Hi') as (l0 & El & En & _).
    rewrite (map_nth_error (fun x : key_piece => snd x) _ _ Hx) in El. injection El as <-. exact En.
  - intros H0. apply A. destruct Hi as (Hi & m & Hm & _). split; [lia|]. exists m. split; [exact Hm|]. rewrite Hk in Hm. injection Hm as <-. lia.
Qed.

(* ---- the history of reads ---- *)
Section History.
Variable tr : bool.
Definition same_but_inputs (a b : key_ds) : Prop :=
  kd_pieces a = kd_pieces b /\ kd_lengths a = kd_lengths b /\ kd_targets a = kd_targets b /\ kd_repl a = kd_repl b
  /\ map (@length row) (kd_inputs a) = map (@length row) (kd_inputs b).
Lemma read_key_same a b i pi j : same_but_inputs a b -> item_at (kd_pieces a) i pi j ->
  nth_error (kd_inputs a) pi = nth_error (kd_inputs b) pi -> read_key tr a i = read_key tr b i.
Proof.
  intros (E1 & E2 & E3 & E4 & _) Hi E. unfold read_key, key_getitem. rewrite <- E1, <- E2, <- E3, <- E4.
  rewrite (piece_index_spec _ _ _ _ 0%nat Hi). cbn [bind Nat.add].
  replace (hget (kd_inputs b) pi) with (hget (kd_inputs a) pi) by (unfold hget; now rewrite E).
  destruct (hget (kd_inputs a) pi) as [stored|]; [|reflexivity]. cbn [bind].
  repeat match goal with
  | |- context [bind ?x _] => destruct x; cbn [bind]; try reflexivity
  end.
Qed.
Lemma upd_nat_map_length (l : list (list row)) : forall i v old, nth_error l i = Some old -> length v = length old ->
  map (@length row) (upd_nat l i v) = map (@length row) l.
Proof. induction l as [|x l IH]; intros [|i] v old H E; cbn in *; try discriminate; [injection H as <-; congruence|]. f_equal. eauto. Qed.
Lemma after_read_same ds i pi j n : item_at (kd_pieces ds) i pi j -> np_max (kd_lengths ds) = Ok n ->
  same_but_inputs ds (after_read tr ds i)
  /\ forall q rows, nth_error (kd_inputs ds) q = Some rows -> q <> pi \/ (length rows < n)%nat ->
       nth_error (kd_inputs (after_read tr ds i)) q = Some rows.
Proof.
  intros Hi Hn.
  assert (Refl : same_but_inputs ds ds) by (repeat split).
  unfold after_read. destruct (key_getitem tr None true ds i) as [[it ds']|e] eqn:E; [|auto].
  unfold key_getitem in E. rewrite (piece_index_spec _ _ _ _ 0%nat Hi) in E. cbn [bind Nat.add] in E.
  apply bind_ok in E as (stored & Es & E). apply bind_ok in E as (len & El & E). apply bind_ok in E as (start & Est & E).
  rewrite Hn in E. cbn [bind] in E. apply bind_ok in E as (repl & Er & E). apply bind_ok in E as (target & Et & E).
  apply bind_ok in E as (inputs & Ein & E). apply bind_ok in E as (tg & Etg & E). apply bind_ok in E as (inputs2 & Ein2 & E).
  cbn [key_reduce reduce_chord_types bind] in E. apply Ok_inj in E. injection E as _ <-.
  unfold hget in Es. destruct (nth_error (kd_inputs ds) pi) as [st|] eqn:Est2; [|discriminate]. apply Ok_inj in Es. subst st.
  destruct (Nat.ltb_spec (length stored) n) as [Hlt|Hge]; [auto|]. apply Ok_inj in Ein. subst inputs.
  assert (Hlen : length inputs2 = length stored).
  { destruct ((target =? 1) || negb tr); [|apply Ok_inj in Ein2; congruence]. unfold set_row in Ein2.
    destruct (len <? length stored)%nat; [|discriminate]. apply Ok_inj in Ein2. subst. apply upd_nat_length. }
  split.
  - repeat split. cbn [kd_inputs]. symmetry. exact (upd_nat_map_length _ _ _ _ Est2 Hlen).
  - cbn [kd_inputs]. intros q rows Hq [Hne|Hlt]; rewrite nth_error_upd_nat.
    + destruct (Nat.eqb_spec pi q); [congruence|]. cbn. exact Hq.
    + destruct (Nat.eqb_spec pi q) as [->|]; [|exact Hq]. rewrite Est2 in Hq. injection Hq as ->. lia.
Qed.
End History.

(* ---- an item of the key transition dataset ---- *)
Lemma ktd_shapes pieces l : Forall valid_piece pieces -> mapM ktd_piece pieces = Ok l ->
  Forall (fun x : key_piece => let '(_, k, lens, ts, repls) := x in length lens = k /\ length ts = k /\ length repls = k) l
  /\ map (fun x : key_piece => snd (fst (fst (fst x)))) l = map (fun p => length (dp_keys p)) pieces.
Proof.
  intros V E. apply mapM_forall2 in E. induction E as [|p [[[[rows k] lens] ts] repls] pieces l H E IH]; [split; [constructor|reflexivity]|].
  inversion V as [|? ? V1 V2]; subst. destruct (IH V2) as [I1 I2]. destruct (ktd_piece_shape p V1 _ _ _ _ _ H) as (_ & Hk & H1 & H2 & H3 & _).
  split; [constructor; auto|]. cbn. now rewrite I2, Hk.
Qed.
Lemma nth_app_last {A} (l : list A) x j y : nth_error (l ++ [x]) j = Some y -> (j < length l)%nat /\ nth_error l j = Some y \/ j = length l /\ y = x.
Proof.
  intros H. destruct (Nat.lt_ge_cases j (length l)).
  - left. rewrite nth_error_app1 in H by assumption. auto.
  - right. rewrite nth_error_app2 in H by assumption. destruct (j - length l)%nat as [|[|]] eqn:E; cbn in H; try discriminate. injection H as <-. split; [lia|reflexivity].
Qed.
Lemma nth_repeat_lt {A} (v : A) : forall n j, (j < n)%nat -> nth_error (repeat v n) j = Some v.
Proof. induction n; intros [|j] H; cbn; try lia; [reflexivity|]. apply IHn. lia. Qed.

Lemma ktd_item pieces ds p pi i j a b : ktd pieces = Ok ds -> Forall valid_piece pieces ->
  nth_error pieces pi = Some p -> item_at (map (fun p => length (dp_keys p)) pieces) i pi j ->
  nth_error (dp_changes p) j = Some a -> nth_error (tl (dp_changes p) ++ [length (dp_chords p)]) j = Some b ->
  let more := (S j <? length (dp_keys p))%nat in
  exists rows it ts, piece_rows true p = Ok rows /\ read_key true ds i = Ok it
    /\ (a < b)%nat
    /\ ki_length it = (if more then S b else b) /\ (ki_length it <= length (ki_inputs it))%nat
    /\ firstn b (ki_inputs it) = firstn b rows
    /\ ki_target it = TransitionTargets ts /\ length ts = length (ki_inputs it)
    /\ (forall x t, nth_error ts x = Some t ->
         t = if more && (x =? b)%nat then 1 else if (a <? x)%nat && (x <? b)%nat then 0 else -100)
    /\ (more = true -> exists key c r, nth_error (dp_keys p) j = Some key /\ nth_error (dp_chords p) b = Some c
          /\ replacement (dp_pt p) (dp_chords p) key b = Ok r /\ nth_error (ki_inputs it) b = Some r).
Proof.
  intros H V Hp Hi Ha Hb more. unfold ktd in H. apply bind_ok in H as (l & El & H). apply Ok_inj in H. subst ds.
  destruct (ktd_shapes _ _ V El) as [Sh Ek]. apply mapM_forall2 in El.
  destruct (forall2_nth _ _ _ El pi p Hp) as ([[[[rows k] lens] ts] repls] & Hx & Hpc).
  assert (Vp : valid_piece p) by (rewrite Forall_forall in V; apply V; eapply nth_error_In; eauto).
  destruct (ktd_piece_shape p Vp _ _ _ _ _ Hpc) as (Hrl & Hk & Hl1 & Hl2 & Hl3 & Hlens).
  destruct (ktd_piece_facts _ _ _ _ _ _ Hpc) as (Hrows & _ & _ & Hts & HF).
  rewrite <- Ek in Hi. assert (Hi' : item_at (kd_pieces (key_ds_of l)) i pi j) by exact Hi.
  destruct (key_ds_item l i pi j _ Sh Hx Hi') as (D1 & Hj & D2 & D3 & D4 & D5 & D6). clear Hi.
  set (ds := key_ds_of l) in *.
  destruct (valid_changes p Vp) as (cs & Ec & Hinc & Hlast & Hkc).
  (* the numbers *)
  assert (Hlj : nth_error lens j = Some b) by now rewrite Hlens.
  assert (Hab : (a < b)%nat).
  { rewrite Ec in Ha, Hb. cbn [tl] in Hb. apply nth_app_last in Hb as [[Hb1 Hb2]|[-> ->]].
    - destruct Vp as (_ & _ & V3 & _). apply (V3 j); rewrite Ec; [exact Ha|exact Hb2].
    - destruct Vp as (_ & _ & _ & V4). rewrite Ec in V4. apply (V4 (length cs)). exact Ha. }
  assert (Hmore : more = true -> nth_error cs j = Some b /\ (b < length (dp_chords p))%nat).
  { intros Hm. apply Nat.ltb_lt in Hm. rewrite Ec in Hb. cbn [tl] in Hb. apply nth_app_last in Hb as [[Hb1 Hb2]|[-> _]]; [|lia].
    split; [exact Hb2|]. destruct Vp as (_ & _ & _ & V4). apply (V4 (S j)). rewrite Ec. exact Hb2. }
  assert (Hbn : (b <= length (dp_chords p))%nat).
  { rewrite Ec in Hb. cbn [tl] in Hb. apply nth_app_last in Hb as [[Hb1 Hb2]|[_ ->]]; [|lia].
    assert ((b < length (dp_chords p))%nat); [|lia]. destruct Vp as (_ & _ & _ & V4). apply (V4 (S j)). rewrite Ec. exact Hb2. }
  assert (Htj : nth_error ts j = Some (if more then 1 else 0)).
  { rewrite Hts. unfold more. rewrite <- Hk. destruct (Nat.ltb_spec (S j) k) as [Hlt|Hge].
    - rewrite nth_error_app1 by (rewrite repeat_length; lia). apply nth_repeat_lt. lia.
    - rewrite nth_error_app2 by (rewrite repeat_length; lia). rewrite repeat_length. replace (j - (k - 1))%nat with 0%nat by lia. reflexivity. }
  destruct (nth_error repls j) as [r|] eqn:Hr; [|apply nth_error_None in Hr; lia].
  assert (Hstart : (if (0 <? j)%nat then hget (kd_lengths ds) (i - 1) else Ok 0%nat) = Ok a).
  { destruct j as [|j]; [rewrite Ec in Ha; cbn in Ha; injection Ha as <-; reflexivity|].
    cbn [Nat.ltb Nat.leb]. unfold hget. rewrite D6 by lia. rewrite Hlens. replace (S j - 1)%nat with j by lia.
    rewrite Ec in Ha |- *. cbn [nth_error tl] in Ha |- *. rewrite nth_error_app1 by (apply nth_error_Some; congruence). now rewrite Ha. }
  rewrite Hlj in D3. rewrite Htj in D4.
  destruct (np_max_some (kd_lengths ds)) as (N & EN). { intros E0. rewrite E0 in D3. destruct i; discriminate. }
  assert (HbN : (b <= N)%nat) by (apply np_max_spec in EN as [_ EN]; apply EN; eapply nth_error_In; exact D3).
  assert (Hrn : rows <> []) by (intros ->; cbn in Hrl; lia).
  (* the padded inputs *)
  assert (Hin : exists inputs, (if (length rows <? N)%nat then let! r := hget rows 0 in Ok (rows ++ repeat (zeros (zlen r)) (S N - length rows)) else Ok rows) = Ok inputs
    /\ (exists e, inputs = rows ++ e) /\ (more = true -> (b < length inputs)%nat)).
  { destruct (Nat.ltb_spec (length rows) N).
    - destruct rows as [|r0 rows]; [congruence|]. eexists. split; [reflexivity|]. split; [eauto|]. intros _. rewrite app_length, repeat_length. lia.
    - exists rows. split; [reflexivity|]. split; [exists []; now rewrite app_nil_r|]. intros Hm. rewrite Hrl. apply Hmore, Hm. }
  destruct Hin as (inputs & Ein & (e & Ee) & Hbi).
  assert (Hbl : (b <= length inputs)%nat) by (rewrite Ee, app_length; lia).
  set (ts1 := fill (repeat (-100) (length inputs)) (S a) b 0).
  assert (L1 : length ts1 = length inputs) by (unfold ts1; now rewrite fill_length, repeat_length).
  set (ts2 := if more then upd_nat ts1 b 1 else ts1).
  set (in2 := if more then upd_nat inputs b r else inputs).
  assert (Hread : read_key true ds i = Ok (mkKI in2 (if more then S b else b) (TransitionTargets ts2))).
  { unfold read_key, key_getitem. rewrite D2. cbn [bind]. unfold hget at 1. rewrite D1. cbn [bind]. unfold hget at 1. rewrite D3. cbn [bind].
    rewrite Hstart. cbn [bind]. rewrite EN. cbn [bind]. unfold hget at 1. rewrite D5. cbn [bind]. unfold hget at 1. rewrite D4. cbn [bind].
    rewrite Ein. cbn [bind]. fold ts1. unfold ts2, in2. destruct more.
    - rewrite Z.eqb_refl. unfold set_row. rewrite L1. replace (b <? length inputs)%nat with true by (symmetry; apply Nat.ltb_lt; auto). reflexivity.
    - reflexivity. }
  exists rows, (mkKI in2 (if more then S b else b) (TransitionTargets ts2)), ts2. cbn [ki_inputs ki_length ki_target].
  assert (L2 : length in2 = length inputs) by (unfold in2; destruct more; [apply upd_nat_length|reflexivity]).
  split; [exact Hrows|]. split; [exact Hread|]. split; [exact Hab|]. split; [reflexivity|]. split.
  { rewrite L2. destruct more; [specialize (Hbi eq_refl)|]; lia. }
  split.
  { assert (Efi : firstn b inputs = firstn b rows). { rewrite Ee, firstn_app. replace (b - length rows)%nat with 0%nat by lia. cbn. apply app_nil_r. }
    rewrite <- Efi. unfold in2. destruct more; [|reflexivity]. clear. revert b. induction inputs as [|x l IH]; intros [|b]; cbn; try reflexivity. f_equal. apply IH. }
  split; [reflexivity|]. split.
  { unfold ts2. destruct more; [rewrite upd_nat_length|]; lia. }
  split.
  - assert (Hts1 : forall x t, nth_error ts1 x = Some t -> t = if (a <? x)%nat && (x <? b)%nat then 0 else -100).
    { intros x t Hx2. unfold ts1 in Hx2. rewrite fill_nth in Hx2. rewrite repeat_length in Hx2.
      replace (S a <=? x)%nat with (a <? x)%nat in Hx2 by reflexivity.
      destruct (a <? x)%nat, (Nat.ltb_spec x b); cbn [andb] in *; try (apply nth_error_In, repeat_spec in Hx2; exact Hx2).
      replace (x <? length inputs)%nat with true in Hx2 by (symmetry; apply Nat.ltb_lt; lia). congruence. }
    intros x t Hx2. unfold ts2 in Hx2. destruct more; cbn [andb]; [|now apply Hts1].
    rewrite nth_error_upd_nat in Hx2. rewrite (Nat.eqb_sym x b). destruct (Nat.eqb_spec b x) as [->|]; cbn [andb] in Hx2; [|now apply Hts1].
    replace (x <? length ts1)%nat with true in Hx2 by (symmetry; apply Nat.ltb_lt; rewrite L1; auto). congruence.
  - intros Hm. destruct (Hmore Hm) as [Hc Hlt]. destruct (forall2_nth_r _ _ _ HF j r Hr) as (x & Hsx & Hrep).
    apply sections_nth in Hsx; [|exact (proj1 Vp)]. destruct Hsx as (prev & key & a' & b' & -> & Hkey & Ha' & Hb'). rewrite Hb in Hb'. injection Hb' as <-.
    destruct (Nat.eqb_spec b (length (dp_chords p))); [lia|]. destruct (nth_error (dp_chords p) b) as [c|] eqn:Ecb; [|apply nth_error_None in Ecb; lia].
    exists key, c, r. split; [exact Hkey|]. split; [reflexivity|]. split; [exact Hrep|].
    unfold in2. rewrite Hm, nth_error_upd_nat, Nat.eqb_refl. replace (b <? length inputs)%nat with true by (symmetry; apply Nat.ltb_lt; auto). reflexivity.
Qed.
