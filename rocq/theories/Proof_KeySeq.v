(* Lemmas about the items of the key sequence dataset. *)
From Coq Require Import QArith Permutation Lia.
From Verif Require Import Proof_Base Spec_Dataset Proof_Dataset Proof_Items Proof_KeyItems.
Close Scope Q_scope.
Open Scope Z_scope.

Lemma nth_combine {A B} : forall (l : list A) (l' : list B) j x y, nth_error (combine l l') j = Some (x, y) <-> nth_error l j = Some x /\ nth_error l' j = Some y.
Proof.
  induction l as [|a l IH]; intros [|b l'] j x y; cbn [combine].
  - split; [destruct j; discriminate|intros [H _]; destruct j; discriminate].
  - split; [destruct j; discriminate|intros [H _]; destruct j; discriminate].
  - split; [destruct j; discriminate|intros [_ H]; destruct j; discriminate].
  - destruct j as [|j]; cbn [nth_error]; [|apply IH]. split; [intros H; injection H as -> ->; auto|intros [H1 H2]; congruence].
Qed.
Lemma nth_firstn {A} : forall (l : list A) m j, (j < m)%nat -> nth_error (firstn m l) j = nth_error l j.
Proof. induction l as [|x l IH]; intros [|m] [|j] H; cbn; try reflexivity; try lia. apply IH. lia. Qed.
Lemma last_nth {A} (l : list A) d : l <> [] -> nth_error l (length l - 1) = Some (last l d).
Proof.
  intros H. rewrite (app_removelast_last d H) at 1 2. rewrite app_length. cbn [length]. rewrite nth_error_app2 by lia.
  replace (length (removelast l) + 1 - 1 - length (removelast l))%nat with 0%nat by lia. reflexivity.
Qed.
Lemma removelast_len {A} (l : list A) : length (removelast l) = (length l - 1)%nat.
Proof. rewrite removelast_firstn_len, firstn_length. lia. Qed.
Lemma concat_singles {A} : forall (tls : list (list A)) j t, Forall (fun t => exists x, t = [x]) tls -> nth_error tls j = Some [t] -> nth_error (concat tls) j = Some t.
Proof.
  induction tls as [|a tls IH]; intros [|j] t F H; cbn in *; try discriminate; inversion F as [|? ? (x & ->) F2]; subst.
  - injection H as ->. reflexivity.
  - cbn. now apply IH.
Qed.
Lemma concat_singles_len {A} : forall (tls : list (list A)), Forall (fun t => exists x, t = [x]) tls -> length (concat tls) = length tls.
Proof. induction 1 as [|a tls (x & ->) F IH]; [reflexivity|]. cbn. now rewrite IH. Qed.
Lemma concat_prefix {A} : forall (ls : list (list A)) m, exists e, concat ls = concat (firstn m ls) ++ e.
Proof. intros ls m. exists (concat (skipn m ls)). rewrite <- concat_app, firstn_skipn. reflexivity. Qed.

Section Piece.
Variable p : dpiece.
Hypothesis V : valid_piece p.
Notation K := (length (dp_keys p)).
Notation secs := (sections (dp_keys p) (dp_changes p) (length (dp_chords p))).

Lemma ksd_sections k : dp_keys p <> [] -> k = (K - 1)%nat ->
  combine (combine (None :: map Some (removelast (removelast (dp_keys p)))) (removelast (dp_keys p)))
          (combine (removelast (dp_changes p)) (tl (dp_changes p))) = firstn k secs \/ k = 0%nat.
Proof.
  intros Hne ->. destruct (Nat.eq_dec K 1) as [E1|E1]; [right; lia|left].
  assert (HK : (2 <= K)%nat). { destruct (dp_keys p) as [|? []]; cbn in *; try lia; congruence. }
  destruct V as (V1 & V2 & _ & _). unfold sections. rewrite !combine_firstn. f_equal; f_equal.
  - replace (K - 1)%nat with (S (K - 2)) by lia. cbn [firstn]. f_equal. rewrite firstn_map. f_equal.
    rewrite !removelast_firstn_len, !firstn_length, !firstn_firstn. f_equal. lia.
  - rewrite removelast_firstn_len. f_equal. lia.
  - rewrite removelast_firstn_len. f_equal. lia.
  - destruct (dp_changes p) as [|c cs]; [cbn in V1; lia|]. cbn [tl]. rewrite firstn_app. cbn in V1.
    replace (K - 1 - length cs)%nat with 0%nat by lia. cbn. rewrite app_nil_r. symmetry. rewrite firstn_all2 by lia. reflexivity.
Qed.

Lemma ksd_piece_facts rows k lens ts repls : ksd_piece p = Ok (Some (rows, k, lens, ts, repls)) ->
  (K = S k)%nat /\ (1 <= k)%nat /\ lens = tl (dp_changes p) /\ length lens = k /\ length ts = k /\ length repls = k
  /\ nth_error lens (k - 1) = Some (length rows)
  /\ (forall all, piece_rows true p = Ok all -> exists e, all = rows ++ e)
  /\ forall j, (j < k)%nat -> exists key next t r b, nth_error (dp_keys p) j = Some key /\ nth_error (dp_keys p) (S j) = Some next
       /\ nth_error lens j = Some b /\ nth_error ts j = Some t /\ nth_error repls j = Some r
       /\ key_change_one_hot (fst key) (dp_pt p) (fst next) (snd next) = Ok t
       /\ replacement (dp_pt p) (dp_chords p) key b = Ok r.
Proof.
  unfold ksd_piece. intros H. destruct (dp_keys p) as [|k0 [|k1 keys]] eqn:Ek; [discriminate|discriminate|]. rewrite <- Ek in H. rewrite <- Ek.
  assert (HK : (2 <= K)%nat) by (rewrite Ek; cbn; lia).
  apply bind_ok in H as (rs & Ers & H). apply bind_ok in H as (tlast & Etl & H).
  assert (Hne : rs <> []) by (destruct rs; [discriminate|congruence]).
  assert (H' : Ok (Some (concat (map (fun x : list row * list Z * row => fst (fst x)) rs), (K - 1)%nat, tl (dp_changes p),
                       concat (map (fun x => snd (fst x)) rs) ++ [tlast], map snd rs)) = Ok (Some (rows, k, lens, ts, repls))).
  { destruct rs; [congruence|exact H]. }
  clear H. apply Ok_inj in H'. injection H' as Hr Hk Hl Ht Hp. clear Hne.
  destruct (valid_changes p V) as (cs & Ec & Hinc & Hlast & Hkc).
  destruct (ksd_sections (K - 1)%nat ltac:(rewrite Ek; discriminate) eq_refl) as [Es|]; [|lia]. rewrite Es in Ers. clear Es.
  apply mapM_forall2 in Ers.
  assert (Hsl : length secs = K). { apply sections_length; [rewrite Ek; discriminate|exact (proj1 V)]. }
  assert (Hrl : length rs = (K - 1)%nat). { rewrite <- (Forall2_len _ _ _ Ers), firstn_length. lia. }
  (* one section *)
  assert (Hsec : forall j x, nth_error rs j = Some x -> exists prev key a b, nth_error secs j = Some (prev, key, (a, b))
     /\ section_rows (dp_pt p) true (dp_chords p) prev key a b = Ok (fst (fst x))
     /\ (match prev with None => Ok [] | Some q => let! i := key_change_one_hot (fst q) (dp_pt p) (fst key) (snd key) in Ok [i] end) = Ok (snd (fst x))
     /\ replacement (dp_pt p) (dp_chords p) key b = Ok (snd x)
     /\ nth_error (dp_keys p) j = Some key /\ nth_error (tl (dp_changes p) ++ [length (dp_chords p)]) j = Some b
     /\ match j with O => prev = None | S j' => exists q, prev = Some q /\ nth_error (dp_keys p) j' = Some q end).
  { intros j x Hx. assert (Hj : (j < K - 1)%nat) by (rewrite <- Hrl; apply nth_error_Some; congruence).
    destruct (forall2_nth_r _ _ _ Ers j x Hx) as ([[prev key] [a b]] & Hs & Hc). rewrite nth_firstn in Hs by exact Hj.
    apply bind_ok in Hc as (r1 & H1 & Hc). apply bind_ok in Hc as (t1 & H2 & Hc). apply bind_ok in Hc as (p1 & H3 & Hc). apply Ok_inj in Hc. subst x.
    exists prev, key, a, b. split; [exact Hs|]. split; [exact H1|]. split; [exact H2|]. split; [exact H3|].
    unfold sections in Hs. apply nth_combine in Hs as [Hs1 Hs2]. apply nth_combine in Hs1 as [Hs0 Hs1]. apply nth_combine in Hs2 as [Hs2 Hs3].
    split; [exact Hs1|]. split; [exact Hs3|]. destruct j as [|j]; [cbn in Hs0; congruence|].
    cbn [nth_error] in Hs0. rewrite nth_error_map, removelast_firstn_len, nth_firstn in Hs0 by lia.
    destruct (nth_error (dp_keys p) j) as [q|]; [|discriminate]. cbn in Hs0. exists q. split; [congruence|reflexivity]. }
  (* the targets *)
  destruct rs as [|x0 rs'] eqn:Ers0; [cbn in Hrl; lia|]. rewrite <- Ers0 in *.
  assert (Ht0 : snd (fst x0) = []).
  { destruct (Hsec 0%nat x0) as (prev & key & a & b & _ & _ & Ht0 & _ & _ & _ & ->); [now rewrite Ers0|]. apply Ok_inj in Ht0. congruence. }
  assert (Hts : concat (map (fun x : list row * list Z * row => snd (fst x)) rs) = concat (map (fun x => snd (fst x)) rs')).
  { rewrite Ers0. cbn [map concat]. now rewrite Ht0. }
  assert (Hone : forall j x, nth_error rs' j = Some x -> exists key next t, snd (fst x) = [t] /\ nth_error (dp_keys p) j = Some key
     /\ nth_error (dp_keys p) (S j) = Some next /\ key_change_one_hot (fst key) (dp_pt p) (fst next) (snd next) = Ok t).
  { intros j x Hx. destruct (Hsec (S j) x) as (prev & key & a & b & _ & _ & Ht1 & _ & Hk1 & _ & q & -> & Hq); [now rewrite Ers0|].
    apply bind_ok in Ht1 as (t & Ht1 & Ht2). apply Ok_inj in Ht2. exists q, key, t. split; [congruence|]. split; [exact Hq|]. split; [exact Hk1|exact Ht1]. }
  assert (Fone : Forall (fun t => exists x, t = [x]) (map (fun x : list row * list Z * row => snd (fst x)) rs')).
  { apply Forall_forall. intros t Hin. apply in_map_iff in Hin as (x & <- & Hin). apply In_nth_error in Hin as (j & Hj).
    destruct (Hone j x Hj) as (_ & _ & t & -> & _). eauto. }
  assert (Hrl' : length rs' = (K - 2)%nat) by (rewrite Ers0 in Hrl; cbn in Hrl; lia).
  assert (Htl : length ts = (K - 1)%nat).
  { rewrite <- Ht, Hts, app_length, (concat_singles_len _ Fone), map_length, Hrl'. cbn. lia. }
  assert (Hll : length lens = (K - 1)%nat) by (rewrite <- Hl, Ec; cbn; lia).
  assert (Hpl : length repls = (K - 1)%nat) by (rewrite <- Hp, map_length; exact Hrl).
  split; [lia|]. split; [lia|]. split; [congruence|]. split; [lia|]. split; [lia|]. split; [lia|]. split.
  - (* the length of the rows *)
    destruct cs as [|c cs]; [cbn in Hkc; lia|].
    set (e := last (c :: cs) 0%nat) in *.
    assert (Hcs : c :: cs = removelast (c :: cs) ++ [e]) by (apply app_removelast_last; discriminate).
    replace (length rows) with e; [rewrite <- Hl, Ec; cbn [tl]; subst k; replace (K - 1 - 1)%nat with (length (c :: cs) - 1)%nat by lia; apply last_nth; discriminate|].
    rewrite <- Hr. symmetry. rewrite <- (Nat.sub_0_r e).
    apply (rows_total p (combine (None :: map Some (removelast (removelast (dp_keys p)))) (removelast (dp_keys p))) (removelast (c :: cs)) 0 e).
    + rewrite <- Hcs. exact Hinc.
    + lia.
    + assert (Esec : combine (combine (None :: map Some (removelast (removelast (dp_keys p)))) (removelast (dp_keys p)))
        (combine (0%nat :: removelast (c :: cs)) (removelast (c :: cs) ++ [e])) = firstn (K - 1) secs).
      { destruct (ksd_sections (K - 1)%nat ltac:(rewrite Ek; discriminate) eq_refl) as [Es|]; [|lia]. rewrite <- Es, <- Hcs, Ec. reflexivity. }
      rewrite Esec. rewrite forall2_map_r. clear - Ers. induction Ers as [|s x l l' Hs F IH]; constructor; [|exact IH]. destruct s as [[prev key] [a b]].
      apply bind_ok in Hs as (r1 & H1 & Hc). apply bind_ok in Hc as (t1 & H2 & Hc). apply bind_ok in Hc as (p1 & H3 & Hc). apply Ok_inj in Hc. subst x. cbn.
      exact (section_rows_length _ _ _ _ _ _ _ _ H1).
    + rewrite combine_length. cbn [length]. rewrite map_length, !removelast_len. cbn [length] in *. lia.
  - split.
    + intros all Hall. unfold piece_rows in Hall. destruct (dp_keys p) as [|kk kks] eqn:Ek2; [discriminate|]. rewrite <- Ek2 in *.
      apply bind_ok in Hall as (rs2 & Ers2 & Hall). assert (E2 : all = concat rs2) by (destruct rs2; [discriminate|apply Ok_inj in Hall; congruence]).
      apply mapM_forall2 in Ers2. rewrite E2, <- Hr. destruct (concat_prefix rs2 (K - 1)) as (e & He). exists e. rewrite He. f_equal. f_equal.
      clear - Ers Ers2. revert Ers Ers2. generalize secs as l. intros l F1 F2. revert rs F1. generalize (K - 1)%nat as m. induction F2 as [|s r l rs2 Hs F2 IH]; intros m rs F1.
      * rewrite firstn_nil in F1. inversion F1; subst. now rewrite firstn_nil.
      * destruct m as [|m]; cbn [firstn] in *; [inversion F1; reflexivity|]. inversion F1 as [|? x ? rs' Hx F1']; subst. cbn [map]. f_equal; [|now apply IH].
        destruct s as [[prev key] [a b]]. apply bind_ok in Hx as (r1 & H1 & Hc). apply bind_ok in Hc as (t1 & H2 & Hc). apply bind_ok in Hc as (p1 & H3 & Hc). apply Ok_inj in Hc. subst x. cbn. congruence.
    + intros j Hj. destruct (nth_error rs j) as [x|] eqn:Ex; [|apply nth_error_None in Ex; lia].
      destruct (Hsec j x Ex) as (prev & key & a & b & _ & _ & _ & Hrp & Hkey & Hb & _).
      destruct (nth_error (dp_keys p) (S j)) as [next|] eqn:En; [|apply nth_error_None in En; lia].
      assert (Hb' : nth_error lens j = Some b). { rewrite <- Hl. rewrite nth_error_app1 in Hb by (rewrite Ec; cbn; lia). exact Hb. }
      assert (Htj : exists t, nth_error ts j = Some t /\ key_change_one_hot (fst key) (dp_pt p) (fst next) (snd next) = Ok t).
      { rewrite <- Ht, Hts. destruct (Nat.eq_dec j (K - 2)) as [->|Hnj].
        - exists tlast. split.
          + rewrite nth_error_app2; rewrite (concat_singles_len _ Fone), map_length, Hrl'; [|lia]. rewrite Nat.sub_diag. reflexivity.
          + assert (E1 : nth_error (dp_keys p) (K - 2) = Some (last (removelast (dp_keys p)) k0)).
            { rewrite <- (last_nth (removelast (dp_keys p)) k0); [|rewrite Ek; discriminate]. rewrite removelast_len, removelast_firstn_len, nth_firstn by lia. f_equal. lia. }
            assert (E2 : nth_error (dp_keys p) (S (K - 2)) = Some (last (dp_keys p) k0)).
            { rewrite <- (last_nth (dp_keys p) k0); [|rewrite Ek; discriminate]. f_equal. lia. }
            replace key with (last (removelast (dp_keys p)) k0) by congruence. replace next with (last (dp_keys p) k0) by congruence. exact Etl.
        - destruct (nth_error rs' j) as [y|] eqn:Ey; [|apply nth_error_None in Ey; lia].
          destruct (Hone j y Ey) as (key' & next' & t & Et & E1 & E2 & E3). exists t. split; [|replace key with key' by congruence; replace next with next' by congruence; exact E3].
          rewrite nth_error_app1 by (rewrite (concat_singles_len _ Fone), map_length; lia). apply concat_singles; [exact Fone|].
          rewrite nth_error_map, Ey. cbn. now rewrite Et. }
      destruct Htj as (t & Ht1 & Ht2). exists key, next, t, (snd x), b.
      split; [exact Hkey|]. split; [reflexivity|]. split; [exact Hb'|]. split; [exact Ht1|]. split; [rewrite <- Hp; exact (map_nth_error snd _ _ Ex)|].
      split; [exact Ht2|exact Hrp].
Qed.
End Piece.

(* the pieces that modulate are those that the dataset holds *)
Definition modulates (p : dpiece) : bool := (1 <? length (dp_keys p))%nat.
Lemma ksd_holds pieces l : mapM ksd_piece pieces = Ok l ->
  Forall2 (fun p y => ksd_piece p = Ok (Some y)) (filter modulates pieces) (concat (map (fun x => match x with Some y => [y] | None => [] end) l)).
Proof.
  intros H. apply mapM_forall2 in H. induction H as [|p x pieces l Hp F IH]; [constructor|]. cbn [filter map concat].
  unfold modulates at 1. destruct x as [y|].
  - replace (1 <? length (dp_keys p))%nat with true; [constructor; assumption|].
    symmetry. unfold ksd_piece in Hp. destruct (dp_keys p) as [|a [|b r]]; [discriminate|discriminate|reflexivity].
  - replace (1 <? length (dp_keys p))%nat with false; [exact IH|].
    symmetry. unfold ksd_piece in Hp. destruct (dp_keys p) as [|a [|b r]]; [reflexivity|reflexivity|].
    apply bind_ok in Hp as (rs & _ & Hp). apply bind_ok in Hp as (t & _ & Hp). destruct rs; discriminate.
Qed.

Lemma ksd_item pieces ds p pi i j a b : ksd pieces = Ok ds -> Forall valid_piece pieces ->
  nth_error (filter modulates pieces) pi = Some p ->
  item_at (map (fun p => (length (dp_keys p) - 1)%nat) (filter modulates pieces)) i pi j ->
  nth_error (dp_changes p) j = Some a -> nth_error (dp_changes p) (S j) = Some b ->
  ((forall q c, In q (filter modulates pieces) -> In c (dp_changes q) -> (c <= b)%nat) -> read_key false ds i = Raise IndexError)
  /\ ((exists q c, In q (filter modulates pieces) /\ In c (dp_changes q) /\ (b < c)%nat) ->
      exists it t key next r, read_key false ds i = Ok it /\ ki_length it = S b /\ (ki_length it <= length (ki_inputs it))%nat
        /\ (forall rows, piece_rows true p = Ok rows -> firstn b (ki_inputs it) = firstn b rows)
        /\ nth_error (ki_inputs it) b = Some r
        /\ nth_error (dp_keys p) j = Some key /\ nth_error (dp_keys p) (S j) = Some next
        /\ replacement (dp_pt p) (dp_chords p) key b = Ok r
        /\ ki_target it = SequenceTarget t
        /\ key_change_one_hot (fst key) (dp_pt p) (fst next) (snd next) = Ok t).
Proof.
  intros H V Hp Hi Ha Hb. unfold ksd in H. apply bind_ok in H as (l & El & H). apply Ok_inj in H.
  apply ksd_holds in El. set (ms := filter modulates pieces) in *. set (l' := concat (map (fun x => match x with Some y => [y] | None => [] end) l)) in *.
  assert (Vm : forall q, In q ms -> valid_piece q).
  { intros q Hq. unfold ms in Hq. apply filter_In in Hq as [Hq _]. rewrite Forall_forall in V. auto. }
  assert (Sh : Forall (fun x : key_piece => let '(_, k, lens, ts, repls) := x in length lens = k /\ length ts = k /\ length repls = k) l'
    /\ map (fun x : key_piece => snd (fst (fst (fst x)))) l' = map (fun p => (length (dp_keys p) - 1)%nat) ms
    /\ map (fun x : key_piece => snd (fst (fst x))) l' = map (fun p => tl (dp_changes p)) ms).
  { clearbody ms l'. clear - El Vm. induction El as [|q [[[[rows k] lens] ts] repls] ms l' Hq F IH]; [repeat split; constructor|].
    destruct IH as (I1 & I2 & I3); [intros x Hx; apply Vm; now right|].
    destruct (ksd_piece_facts q (Vm q (or_introl eq_refl)) _ _ _ _ _ Hq) as (F1 & F2 & F3 & F4 & F5 & F6 & _).
    split; [constructor; auto|]. split; cbn; f_equal; auto. lia. }
  destruct Sh as (Sh & Ek & Elen).
  destruct (forall2_nth _ _ _ El pi p Hp) as ([[[[rows k] lens] ts] repls] & Hx & Hpc).
  assert (Vp : valid_piece p) by (apply Vm; eapply nth_error_In; eauto).
  destruct (ksd_piece_facts p Vp _ _ _ _ _ Hpc) as (F1 & F2 & F3 & F4 & F5 & F6 & F7 & F8 & F9).
  rewrite <- Ek in Hi. assert (Hi' : item_at (kd_pieces (key_ds_of l')) i pi j) by exact Hi.
  destruct (key_ds_item l' i pi j _ Sh Hx Hi') as (D1 & Hj & D2 & D3 & D4 & D5 & D6). clear Hi. rewrite H in *.
  destruct (F9 j Hj) as (key & next & t & r & b' & G1 & G2 & G3 & G4 & G5 & G6 & G7).
  destruct (valid_changes p Vp) as (cs & Ec & Hinc & Hlast & Hkc).
  assert (b' = b). { rewrite F3, Ec in G3. rewrite Ec in Hb. cbn in G3, Hb. congruence. } subst b'.
  rewrite G3 in D3. rewrite G4 in D4. rewrite G5 in D5.
  destruct (np_max_some (kd_lengths ds)) as (N & EN). { intros E0. rewrite E0 in D3. destruct i; discriminate. }
  assert (HbN : (b <= N)%nat) by (apply np_max_spec in EN as [_ EN]; apply EN; eapply nth_error_In; exact D3).
  assert (Hall : forall c, In c (kd_lengths ds) <-> exists q, In q ms /\ In c (tl (dp_changes q))).
  { intros c. rewrite <- H. cbn [key_ds_of kd_lengths]. rewrite Elen, in_concat. split.
    - intros (x & Hx1 & Hx2). apply in_map_iff in Hx1 as (q & <- & Hq). eauto.
    - intros (q & Hq & Hc). exists (tl (dp_changes q)). split; [now apply (in_map (fun p => tl (dp_changes p)))|exact Hc]. }
  assert (Hrl : (length rows <= N)%nat).
  { apply np_max_spec in EN as [_ EN]. apply EN. apply Hall. exists p. split; [eapply nth_error_In; eauto|]. rewrite <- F3. eapply nth_error_In; eauto. }
  assert (Hstart : exists s, (if (0 <? j)%nat then hget (kd_lengths ds) (i - 1) else Ok 0%nat) = Ok s).
  { destruct j as [|j]; [eexists; reflexivity|]. cbn [Nat.ltb Nat.leb]. unfold hget. rewrite D6 by lia.
    destruct (nth_error lens (S j - 1)) eqn:E; [eexists; reflexivity|]. apply nth_error_None in E. lia. }
  destruct Hstart as (s & Hs).
  assert (Hbr : (b <= length rows)%nat).
  { rewrite F3, Ec in F7, G3. cbn [tl] in F7, G3. rewrite Ec in F3. cbn in F3. subst lens.
    assert (Hl := increasing_last cs 0 b Hinc ltac:(right; eapply nth_error_In; eauto)).
    destruct cs as [|c cs]; [cbn in F4; lia|]. rewrite <- F4, (last_nth (c :: cs) 0%nat) in F7 by discriminate. injection F7 as <-. exact Hl. }
  assert (Hrn : (0 < length rows)%nat).
  { destruct j; rewrite Ec in Hb, Ha; cbn in Hb, Ha.
    - destruct cs as [|c cs]; [discriminate|]. cbn in Hb, Hinc. injection Hb as <-. lia.
    - destruct Vp as (_ & _ & V3 & _). rewrite Ec in V3. specialize (V3 (S j) a b Ha Hb). lia. }
  assert (Hread : read_key false ds i =
     match (let! inputs := (if (length rows <? N)%nat then let! r := hget rows 0 in Ok (rows ++ repeat (zeros (zlen r)) (S N - length rows)) else Ok rows) in
            set_row inputs b r) with Ok inputs => Ok (mkKI inputs (S b) (SequenceTarget t)) | Raise e => Raise e end).
  { unfold read_key, key_getitem. rewrite D2. cbn [bind]. unfold hget at 1. rewrite D1. cbn [bind]. unfold hget at 1. rewrite D3. cbn [bind].
    rewrite Hs. cbn [bind]. rewrite EN. cbn [bind]. unfold hget at 1. rewrite D5. cbn [bind]. unfold hget at 1. rewrite D4. cbn [bind].
    destruct (if (length rows <? N)%nat then _ else _) as [inputs|]; cbn [bind]; [|reflexivity].
    rewrite orb_true_r. destruct (set_row inputs b r); reflexivity. }
  split.
  - intros Hmax. assert (HN : b = N).
    { apply np_max_spec in EN as [EN _]. apply Hall in EN as (q & Hq & Hc). assert ((N <= b)%nat); [|lia].
      apply (Hmax q); [exact Hq|]. destruct (dp_changes q); [destruct Hc|now right]. }
    subst N. rewrite Hread. destruct (Nat.ltb_spec (length rows) b); [lia|]. cbn [bind]. unfold set_row.
    destruct (Nat.ltb_spec b (length rows)); [lia|]. reflexivity.
  - intros (q & c & Hq & Hc & Hbc).
    assert (HN : (b < N)%nat).
    { apply np_max_spec in EN as [_ EN]. destruct (valid_changes q (Vm q Hq)) as (qcs & Eqc & _). rewrite Eqc in Hc. destruct Hc as [<-|Hc]; [lia|].
      assert ((c <= N)%nat); [|lia]. apply EN, Hall. exists q. split; [exact Hq|]. now rewrite Eqc. }
    assert (Hin : exists inputs, (if (length rows <? N)%nat then let! r := hget rows 0 in Ok (rows ++ repeat (zeros (zlen r)) (S N - length rows)) else Ok rows) = Ok inputs
      /\ (exists e, inputs = rows ++ e) /\ (b < length inputs)%nat).
    { destruct (Nat.ltb_spec (length rows) N).
      - destruct rows as [|r0 rows]; [cbn in Hrn; lia|]. eexists. split; [reflexivity|]. split; [eauto|]. rewrite app_length, repeat_length. lia.
      - exists rows. split; [reflexivity|]. split; [exists []; now rewrite app_nil_r|]. lia. }
    destruct Hin as (inputs & Ein & (e & Ee) & Hbi). rewrite Ein in Hread. cbn [bind] in Hread. unfold set_row in Hread.
    replace (b <? length inputs)%nat with true in Hread by (symmetry; apply Nat.ltb_lt; exact Hbi).
    exists (mkKI (upd_nat inputs b r) (S b) (SequenceTarget t)), t, key, next, r. cbn [ki_inputs ki_length ki_target].
    split; [exact Hread|]. split; [reflexivity|]. split; [rewrite upd_nat_length; lia|]. split; [|split; [|auto 6]].
    + intros all Hall2. destruct (F8 all Hall2) as (e2 & ->).
      assert (Efi : forall e, firstn b (rows ++ e) = firstn b rows). { intros e0. rewrite firstn_app. replace (b - length rows)%nat with 0%nat by lia. cbn. apply app_nil_r. }
      rewrite Efi. rewrite <- (Efi e), <- Ee. clear. revert b. induction inputs as [|x l IH]; intros [|b]; cbn; try reflexivity. f_equal. apply IH.
    + rewrite nth_error_upd_nat, Nat.eqb_refl. replace (b <? length inputs)%nat with true by (symmetry; apply Nat.ltb_lt; exact Hbi). reflexivity.
Qed.
