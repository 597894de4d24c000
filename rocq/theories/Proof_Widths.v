(* The widths of the rows of the datasets: no chord vector has the same width. *)
From Coq Require Import QArith Permutation Lia.
From Verif Require Import Proof_Base Spec_Dataset Proof_Dataset Proof_Items Proof_KeyItems Proof_KeySeq.
Close Scope Q_scope.
Open Scope Z_scope.

Lemma py_upd_len {A} (l : list A) i v l' : py_upd l i v = Ok l' -> length l' = length l.
Proof. unfold py_upd. destruct (_ || _); [discriminate|]. intros H. apply Ok_inj in H. subst. apply upd_nat_length. Qed.
Lemma one_hot_vec_len n i v : one_hot_vec n i = Ok v -> length v = Z.to_nat n.
Proof. intros H. apply py_upd_len in H. now rewrite repeat_length in H. Qed.
Lemma to_vec_len c rt pad red v : to_vec c rt pad red = Ok v ->
  zlen v = get_chord_vector_length (c_pt (fc c)) false true true pad NO_REDUCTION.
Proof.
  unfold to_vec. intros H. repeat (apply bind_ok in H as (? & ? & H)). apply Ok_inj in H. subst v.
  unfold zlen. rewrite !app_length.
  repeat match goal with E : one_hot_vec _ _ = Ok _ |- _ => apply one_hot_vec_len in E; rewrite E; clear E end.
  destruct (c_pt (fc c)), pad; vm_compute; reflexivity.
Qed.
Lemma key_change_len pt a b m v : key_change_vector pt a b m = Ok v -> zlen v = get_key_change_vector_length pt false.
Proof.
  unfold key_change_vector. intros H. apply bind_ok in H as (w & Ew & H). apply py_upd_len in H. unfold zlen. rewrite H.
  assert (E : length w = Z.to_nat (get_key_change_vector_length pt false)).
  { destruct (absolute_to_relative b a pt true false) as [i|[]]; try discriminate.
    - apply py_upd_len in Ew. now rewrite repeat_length in Ew.
    - apply Ok_inj in Ew. subst w. now rewrite repeat_length. }
  rewrite E. destruct pt; vm_compute; reflexivity.
Qed.

(* rows of no pitch type *)
Definition foreign (pad : bool) (r : row) : Prop := infer_chord_vector_pitch_type (zlen r) pad = Raise ValueError.
Lemma widths_differ pt kt pad n : n = get_chord_vector_length pt false true true pad NO_REDUCTION + (1 + get_key_change_vector_length kt false) ->
  infer_chord_vector_pitch_type n pad = Raise ValueError.
Proof. intros ->. destruct pt, kt, pad; vm_compute; reflexivity. Qed.
Lemma foreign_app c rt pad red v kt k : to_vec c rt pad red = Ok v -> zlen k = 1 + get_key_change_vector_length kt false -> foreign pad (v ++ k).
Proof.
  intros Hv Hk. apply to_vec_len in Hv. unfold foreign. apply (widths_differ (c_pt (fc c)) kt). rewrite <- Hv, <- Hk. unfold zlen. rewrite app_length. lia.
Qed.
Lemma blank_len kt : zlen (zeros (1 + get_key_change_vector_length kt false)) = 1 + get_key_change_vector_length kt false.
Proof. destruct kt; vm_compute; reflexivity. Qed.
Lemma section_foreign pt pad chords prev key a b rows : section_rows pt pad chords prev key a b = Ok rows ->
  rows <> [] /\ Forall (foreign pad) rows.
Proof.
  unfold section_rows. intros H. apply bind_ok in H as (vs & Ev & H). apply mapM_forall2 in Ev.
  assert (Hall : forall v, In v vs -> exists c, to_vec c None pad NO_REDUCTION = Ok v).
  { intros v Hv. apply In_nth_error in Hv as (j & Hj). destruct (forall2_nth_r _ _ _ Ev j v Hj) as (c & _ & Hc). eauto. }
  destruct vs as [|v vs]; [discriminate|]. apply bind_ok in H as (k & Ek & H). apply Ok_inj in H. subst rows. split; [discriminate|].
  constructor.
  - destruct (Hall v) as (c & Hc); [now left|]. apply (foreign_app _ _ _ _ _ pt _ Hc). destruct prev as [q|].
    + apply bind_ok in Ek as (w & Ew & Ek). apply Ok_inj in Ek. subst k. apply key_change_len in Ew. unfold zlen in *. rewrite app_length. cbn [length]. lia.
    + apply Ok_inj in Ek. subst k. apply blank_len.
  - apply Forall_forall. intros r Hr. apply in_map_iff in Hr as (w & <- & Hw). destruct (Hall w) as (c & Hc); [now right|].
    apply (foreign_app _ _ _ _ _ pt _ Hc). apply blank_len.
Qed.
Lemma piece_foreign pad p rows : piece_rows pad p = Ok rows -> rows <> [] /\ Forall (foreign pad) rows.
Proof.
  unfold piece_rows. destruct (dp_keys p) as [|k ks] eqn:E; [discriminate|]. rewrite <- E. clear E k ks. intros H.
  apply bind_ok in H as (rs & Ers & H). apply mapM_forall2 in Ers.
  assert (Hs : Forall (fun r => r <> [] /\ Forall (foreign pad) r) rs).
  { clear H. induction Ers as [|[[prev key] [a b]] r l l' Hs F IH]; constructor; [|exact IH]. exact (section_foreign _ _ _ _ _ _ _ _ Hs). }
  destruct rs as [|r0 rs]; [discriminate|]. apply Ok_inj in H. subst rows. split.
  - inversion Hs as [|? ? [H1 _] _]; subst. destruct r0; [congruence|discriminate].
  - apply Forall_concat. eapply Forall_impl; [|exact Hs]. cbn. tauto.
Qed.
Lemma replacement_foreign pt chords key b r : replacement pt chords key b = Ok r -> foreign true r.
Proof.
  unfold replacement. destruct (nth_error chords b) as [c|]; [|discriminate]. intros H. apply bind_ok in H as (v & Ev & H). apply Ok_inj in H. subst r.
  apply (foreign_app _ _ _ _ _ pt _ Ev), blank_len.
Qed.

Definition foreign_ds (ds : key_ds) : Prop :=
  Forall (fun rows => rows <> [] /\ Forall (foreign true) rows) (kd_inputs ds) /\ Forall (foreign true) (kd_repl ds).
Definition foreign_piece (x : key_piece) : Prop :=
  let '(rows, _, _, _, repls) := x in (rows <> [] /\ Forall (foreign true) rows) /\ Forall (foreign true) repls.
Lemma foreign_ds_of l : Forall foreign_piece l -> foreign_ds (key_ds_of l).
Proof.
  intros H. unfold foreign_ds, key_ds_of. cbn [kd_inputs kd_repl]. induction H as [|[[[[rows k] lens] ts] repls] l [H1 H2] F [I1 I2]]; [split; constructor|].
  cbn. split; [now constructor|]. apply Forall_app. auto.
Qed.
Lemma ktd_piece_foreign p x : ktd_piece p = Ok x -> foreign_piece x.
Proof.
  destruct x as [[[[rows k] lens] ts] repls]. unfold ktd_piece. destruct (dp_keys p) as [|k0 ks] eqn:E; [discriminate|]. rewrite <- E. clear E k0 ks. intros H.
  apply bind_ok in H as (rs & Ers & H). apply mapM_forall2 in Ers.
  assert (Hs : Forall (fun x : list row * row => (fst x <> [] /\ Forall (foreign true) (fst x)) /\ foreign true (snd x)) rs).
  { clear H. induction Ers as [|[[prev key] [a b]] r l l' Hs F IH]; constructor; [|exact IH].
    apply bind_ok in Hs as (r1 & H1 & Hs). apply bind_ok in Hs as (p1 & H2 & Hs). apply Ok_inj in Hs. subst r. cbn [fst snd].
    destruct (section_foreign _ _ _ _ _ _ _ _ H1) as [Hn Hf]. split; [auto|].
    destruct (b =? length (dp_chords p))%nat; [|exact (replacement_foreign _ _ _ _ _ H2)]. apply Ok_inj in H2. subst p1.
    destruct r1 as [|r0 r1]; [congruence|]. inversion Hf as [|? ? H0 _]; subst. unfold foreign in *. rewrite <- H0. f_equal.
    unfold zlen, zeros. rewrite repeat_length. lia. }
  assert (Hne : rs <> []) by (destruct rs; [discriminate|congruence]).
  assert (H' : concat (map fst rs) = rows /\ map snd rs = repls) by (destruct rs; [congruence|]; apply Ok_inj in H; injection H; auto).
  destruct H' as [<- <-]. clear H Ers. split; [split|].
  - destruct rs as [|r0 rs]; [congruence|]. inversion Hs as [|? ? [[H1 _] _] _]; subst. destruct r0 as [[|] ?]; [cbn in H1; congruence|discriminate].
  - apply Forall_concat, Forall_map. eapply Forall_impl; [|exact Hs]. cbn. tauto.
  - apply Forall_map. eapply Forall_impl; [|exact Hs]. cbn. tauto.
Qed.
Lemma ksd_piece_foreign p x : ksd_piece p = Ok (Some x) -> foreign_piece x.
Proof.
  destruct x as [[[[rows k] lens] ts] repls]. unfold ksd_piece. destruct (dp_keys p) as [|k0 [|k1 ks]] eqn:E; [discriminate|discriminate|]. rewrite <- E. clear E. intros H.
  apply bind_ok in H as (rs & Ers & H). apply bind_ok in H as (t & _ & H). apply mapM_forall2 in Ers.
  assert (Hs : Forall (fun x : list row * list Z * row => (fst (fst x) <> [] /\ Forall (foreign true) (fst (fst x))) /\ foreign true (snd x)) rs).
  { clear H. induction Ers as [|[[prev key] [a b]] r l l' Hs F IH]; constructor; [|exact IH].
    apply bind_ok in Hs as (r1 & H1 & Hs). apply bind_ok in Hs as (t1 & H2 & Hs). apply bind_ok in Hs as (p1 & H3 & Hs). apply Ok_inj in Hs. subst r. cbn [fst snd].
    split; [exact (section_foreign _ _ _ _ _ _ _ _ H1)|exact (replacement_foreign _ _ _ _ _ H3)]. }
  assert (Hne : rs <> []) by (destruct rs; [discriminate|congruence]).
  assert (H' : concat (map (fun x => fst (fst x)) rs) = rows /\ map snd rs = repls) by (destruct rs; [congruence|]; apply Ok_inj in H; injection H; auto).
  destruct H' as [<- <-]. clear H Ers. split; [split|].
  - destruct rs as [|r0 rs]; [congruence|]. inversion Hs as [|? ? [[H1 _] _] _]; subst. destruct r0 as [[[|] ?] ?]; [cbn in H1; congruence|discriminate].
  - apply Forall_concat, Forall_map. eapply Forall_impl; [|exact Hs]. cbn. tauto.
  - apply Forall_map. eapply Forall_impl; [|exact Hs]. cbn. tauto.
Qed.
Lemma ktd_foreign pieces ds : ktd pieces = Ok ds -> foreign_ds ds.
Proof.
  unfold ktd. intros H. apply bind_ok in H as (l & El & H). apply Ok_inj in H. subst ds. apply foreign_ds_of. apply mapM_forall2 in El.
  induction El as [|p x ps l Hp F IH]; constructor; [exact (ktd_piece_foreign _ _ Hp)|exact IH].
Qed.
Lemma ksd_foreign pieces ds : ksd pieces = Ok ds -> foreign_ds ds.
Proof.
  unfold ksd. intros H. apply bind_ok in H as (l & El & H). apply Ok_inj in H. subst ds. apply foreign_ds_of. apply ksd_holds in El.
  induction El as [|p x ps l' Hp F IH]; constructor; [exact (ksd_piece_foreign _ _ Hp)|exact IH].
Qed.

Lemma reduce_foreign pad r rows red inv : foreign pad r -> red <> None \/ inv = false ->
  (let! rows := reduce_chord_types (r :: rows) red pad None in if inv : bool then Ok rows else remove_chord_inversions rows pad None) = Raise ValueError.
Proof.
  intros F H. unfold foreign in F. destruct red as [f|]; cbn [reduce_chord_types].
  - unfold tensor_pitch_type. rewrite F. reflexivity.
  - cbn [bind]. destruct H as [H| ->]; [congruence|]. unfold remove_chord_inversions, tensor_pitch_type. rewrite F. reflexivity.
Qed.
Lemma key_reduce_fails tr red inv ds i it : foreign_ds ds -> red <> None \/ inv = false ->
  read_key tr ds i = Ok it -> key_getitem tr red inv ds i = Raise ValueError.
Proof.
  intros [F1 F2] Hr H. unfold read_key in H. destruct (key_getitem tr None true ds i) as [[it' ds']|] eqn:E; [|discriminate]. clear H it.
  unfold key_getitem in *. apply bind_ok in E as ([pi prev] & E1 & E). rewrite E1. cbn [bind].
  apply bind_ok in E as (stored & Es & E). rewrite Es. cbn [bind].
  apply bind_ok in E as (len & El & E). rewrite El. cbn [bind]. apply bind_ok in E as (start & Est & E). rewrite Est. cbn [bind].
  apply bind_ok in E as (mx & Em & E). rewrite Em. cbn [bind]. apply bind_ok in E as (repl & Er & E). rewrite Er. cbn [bind].
  apply bind_ok in E as (target & Et & E). rewrite Et. cbn [bind]. apply bind_ok in E as (inputs & Ein & E). rewrite Ein. cbn [bind].
  apply bind_ok in E as (tg & Etg & E). rewrite Etg. cbn [bind]. apply bind_ok in E as (inputs2 & Ein2 & E). rewrite Ein2. cbn [bind]. clear E.
  assert (Hs : stored <> [] /\ Forall (foreign true) stored) by (apply hget_in in Es; rewrite Forall_forall in F1; auto).
  assert (Hrp : foreign true repl) by (apply hget_in in Er; rewrite Forall_forall in F2; auto).
  assert (Hin : exists r rest, inputs = r :: rest /\ foreign true r).
  { destruct Hs as [Hn Hf]. destruct stored as [|r stored]; [congruence|]. inversion Hf; subst.
    destruct (_ <? mx)%nat in Ein; apply Ok_inj in Ein; subst inputs; cbn; eauto. }
  assert (Hin2 : exists r rest, inputs2 = r :: rest /\ foreign true r).
  { destruct Hin as (r & rest & -> & Hf). destruct ((target =? 1) || negb tr); [|apply Ok_inj in Ein2; subst; eauto].
    unfold set_row in Ein2. destruct (_ <? _)%nat in Ein2; [|discriminate]. apply Ok_inj in Ein2. subst inputs2. destruct len; cbn; eauto. }
  destruct Hin2 as (r & rest & -> & Hf). unfold key_reduce. rewrite (reduce_foreign true r rest red inv Hf Hr). reflexivity.
Qed.
