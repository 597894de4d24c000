(* The codec lemmas restated with the vocabulary of Spec_Music.v. *)
From Verif Require Import Model_Harmony Spec_Music Proof_Base Proof_Codec.
Ltac Zify.zify_post_hook ::= Z.div_mod_to_equations.
Open Scope Z_scope.

Lemma offset_lowest pt rel pad : root_offset pt rel pad = lowest_root pt rel pad.
Proof. destruct pt, rel, pad; reflexivity. Qed.
Lemma num_root_count pt rel pad : encode_num_pitches pt rel pad = root_count pt rel pad.
Proof. destruct pt, rel, pad; reflexivity. Qed.
Lemma inversion_positions t : get_chord_inversion_count t = positions t.
Proof. destruct t; reflexivity. Qed.

Lemma roundtrip_s t root pt inv ui rel pad red i :
  get_chord_one_hot_index t root pt inv ui rel pad red = Ok i ->
  get_chord_from_one_hot_index i pt ui rel pad red
  = Ok (root + lowest_root pt rel pad, red t, if ui then inv else 0).
Proof. rewrite <- offset_lowest. apply encode_decode. Qed.

Lemma chord_object_s c rel ui pad red i :
  chord_one_hot c rel ui pad red = Ok i ->
  get_chord_from_one_hot_index i (c_pt c) ui rel pad red
  = Ok (if rel then relative_pitch (c_pt c) (c_root c) (c_tonic c) else c_root c,
        red (c_type c), if ui then c_inv c else 0).
Proof.
  intros H. destruct (chord_one_hot_decode _ _ _ _ _ _ H) as (root & E & H1 & H2 & H3).
  rewrite E. do 3 f_equal. destruct rel; [|auto].
  unfold relative_pitch. destruct (c_pt c); auto.
Qed.

Lemma decode_encode_s i pt ui rel pad red :
  0 <= i < get_chord_vector_length pt true rel ui pad red ->
  exists root t inv,
    get_chord_from_one_hot_index i pt ui rel pad red = Ok (root, t, inv)
    /\ (exists u, red u = t)
    /\ lowest_root pt rel pad <= root < lowest_root pt rel pad + root_count pt rel pad
    /\ 0 <= inv < (if ui then positions t else 1)
    /\ forall u, red u = t ->
       get_chord_one_hot_index u (root - lowest_root pt rel pad) pt inv ui rel pad red = Ok i.
Proof.
  intros Hi. destruct (decode_encode i pt ui rel pad red Hi) as (root & t & inv & E & (u & Hu) & H).
  exists root, t, inv. split; [exact E|]. split; [eauto|]. rewrite <- offset_lowest, <- num_root_count.
  pose proof (H u Hu) as K.
  assert (A : exists j, get_chord_one_hot_index u (root - root_offset pt rel pad) pt inv ui rel pad red = Ok j)
    by eauto.
  apply encode_accepts in A as [A1 A2]. rewrite Hu in A2.
  split; [lia|]. split; [|exact H].
  destruct ui; [rewrite <- inversion_positions; apply A2; reflexivity|].
  apply encode_decode in K. rewrite E in K. injection K as _ _ ->. lia.
Qed.

Lemma rejects_s t root pt inv ui rel pad red :
  (get_chord_one_hot_index t root pt inv ui rel pad red = Raise ValueError
   /\ (root < 0 \/ root_count pt rel pad <= root
       \/ (ui = true /\ (inv < 0 \/ positions (red t) <= inv))))
  \/ (exists i, get_chord_one_hot_index t root pt inv ui rel pad red = Ok i
      /\ 0 <= root < root_count pt rel pad
      /\ (ui = true -> 0 <= inv < positions (red t))).
Proof.
  pose proof (encode_accepts t root pt inv ui rel pad red) as A.
  rewrite num_root_count, inversion_positions in A.
  destruct (get_chord_one_hot_index t root pt inv ui rel pad red) as [i|e] eqn:E.
  - right. exists i. split; [reflexivity|]. apply A; eauto.
  - left. assert (e = ValueError) as -> by (eapply encode_error; eauto). split; [reflexivity|].
    assert (N : ~ (0 <= root < root_count pt rel pad
              /\ (ui = true -> 0 <= inv < positions (red t)))).
    { intros H. apply A in H as [i H]. discriminate. }
    destruct (Z_lt_le_dec root 0); [auto|].
    destruct (Z_lt_le_dec root (root_count pt rel pad)); [|auto].
    right; right. destruct ui; [|exfalso; apply N; split; [lia|discriminate]].
    split; [reflexivity|]. destruct (Z_lt_le_dec inv 0); [auto|].
    destruct (Z_lt_le_dec inv (positions (red t))); [|auto].
    exfalso; apply N; split; [lia|intros _; lia].
Qed.

Lemma key_roundtrip_s m tonic pt i :
  get_key_one_hot_index m tonic pt = Ok i ->
  get_key_from_one_hot_index i pt false = Ok (tonic, m) /\ 0 <= i < 2 * pitch_count pt.
Proof. exact (key_encode_decode m tonic pt i). Qed.

Lemma key_inverse_s i pt :
  0 <= i < 2 * pitch_count pt ->
  exists tonic m, get_key_from_one_hot_index i pt false = Ok (tonic, m)
    /\ get_key_one_hot_index m tonic pt = Ok i.
Proof. exact (key_decode_encode i pt). Qed.

Lemma key_rejects_s m tonic pt :
  (get_key_one_hot_index m tonic pt = Raise ValueError /\ ~ (0 <= tonic < pitch_count pt))
  \/ (exists i, get_key_one_hot_index m tonic pt = Ok i /\ 0 <= tonic < pitch_count pt).
Proof.
  unfold get_key_one_hot_index. change (NUM_PITCHES pt) with (pitch_count pt).
  destruct (_ || _) eqn:E; [left|right]; [split; [reflexivity|lia]|eexists; split; [reflexivity|lia]].
Qed.
