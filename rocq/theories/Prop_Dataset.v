(* Properties C42-C44, C64-C68: datasets and splits. *)
From Coq Require Import QArith Qround Qabs Lqa Permutation Lia.
From Verif Require Import Proof_Base Spec_Dataset Proof_Dataset Proof_Splits Prop_Search.
Close Scope Q_scope.
Open Scope Z_scope.

(* ---- C42: splits ---- *)
Lemma parsed_split {P} (parse : Z -> option P) files :
  Forall (fun x => parse (fst x) = Some (snd x)) (parsed parse files) /\ map fst (parsed parse files) = parsable parse files.
Proof.
  unfold parsed, parsable. induction files as [|i files [IH1 IH2]]; [split; [constructor|reflexivity]|].
  cbn [map concat filter]. destruct (parse i) as [p|] eqn:E; cbn [app]; [|auto]. split; [now constructor|]. cbn. now rewrite IH2.
Qed.
Lemma app_inj_len {A} : forall (a c b d : list A), a ++ b = c ++ d -> length a = length c -> a = c /\ b = d.
Proof.
  induction a as [|x a IH]; intros [|y c] b d H L; cbn in *; try discriminate; [auto|].
  injection H as -> H. destruct (IH c b d H ltac:(lia)) as [-> ->]. auto.
Qed.
Lemma aligned {P} (parse : Z -> option P) : forall (ri : list (list Z)) rp l,
  Forall2 (fun a b => length a = length b) ri rp -> Forall (fun x => parse (fst x) = Some (snd x)) l ->
  concat ri = map fst l -> concat rp = map snd l -> Forall2 (Forall2 (fun i p => parse i = Some p)) ri rp.
Proof.
  intros ri rp l F. revert l. induction F as [|a b ri rp E F IH]; intros l Fl E1 E2; [constructor|]. cbn [concat] in *.
  assert (Hs : exists l1 l2, l = l1 ++ l2 /\ length l1 = length a).
  { exists (firstn (length a) l), (skipn (length a) l). split; [now rewrite firstn_skipn|]. rewrite firstn_length.
    apply (f_equal (@length _)) in E1. rewrite app_length, map_length in E1. lia. }
  destruct Hs as (l1 & l2 & -> & El). rewrite !map_app in *. apply Forall_app in Fl as [F1 F2].
  assert (A : a = map fst l1 /\ concat ri = map fst l2).
  { apply app_inj_len in E1; [exact E1|]. now rewrite map_length. }
  assert (B : b = map snd l1 /\ concat rp = map snd l2).
  { apply app_inj_len in E2; [exact E2|]. rewrite map_length. congruence. }
  destruct A as [-> A2], B as [-> B2]. constructor; [|now apply (IH l2)].
  clear - F1. induction F1; cbn; constructor; auto.
Qed.

Theorem C42_splits : forall {P} (fadd fmul fdiv : Q -> Q -> Q) (parse : Z -> option P) perm splits files,
  float_like fadd fmul fdiv ->
  Permutation perm (seq 0 (length (parsable parse files))) ->
  Forall (fun s => 0 <= s)%Q splits -> (0 < fold_left fadd splits 0)%Q ->
  (* the float error at the end is below one half of a file *)
  (let n := inject_Z (zlen (parsable parse files)) in
   let total := fold_left fadd splits 0%Q in
   Qabs (fmul (fold_left fadd (map (fun s => fdiv s total) splits) 0) n - n) < 1 # 2)%Q ->
  exists ids ps, get_splits fadd fmul fdiv parse perm splits files = Ok (ids, ps)
    /\ length ids = length splits /\ partition_of parse files ids ps.
Proof.
  intros P fadd fmul fdiv parse perm splits files (A1 & A2 & A3 & A4) Hp Hs Ht Hn. cbv zeta in Hn.
  destruct (parsed_split parse files) as [Fp Ep].
  assert (Hlen : length (parsed parse files) = length (parsable parse files)) by (rewrite <- Ep; now rewrite map_length).
  rewrite <- Hlen in Hp. destruct (shuffle_perm _ _ Hp) as (sh & Esh & Psh).
  unfold get_splits, normalise. destruct (Qeq_bool (fold_left fadd splits 0%Q) 0%Q) eqn:E0.
  { apply Qeq_bool_eq in E0. exfalso. lra. }
  cbn [bind]. rewrite Esh. cbn [bind].
  set (norm := map (fun s => fdiv s (fold_left fadd splits 0%Q)) splits) in *.
  assert (Hlz : zlen (map snd sh) = zlen (parsable parse files)).
  { unfold zlen. rewrite map_length, (Permutation_length Psh), Hlen. reflexivity. }
  assert (Hfn : Forall (fun s => 0 <= s)%Q norm).
  { unfold norm. apply Forall_map. eapply Forall_impl; [|exact Hs]. cbn. intros s H. now apply A4. }
  assert (H0 : py_round (fmul 0%Q (inject_Z (zlen (map snd sh)))) = 0).
  { rewrite (py_round_comp _ (inject_Z 0)); [apply py_round_Z|]. apply A3. change 0%Q with (inject_Z 0). rewrite <- Zle_Qle. unfold zlen. lia. }
  assert (H1 : py_round (fmul (fold_left fadd norm 0%Q) (inject_Z (zlen (map snd sh)))) = zlen (map snd sh)).
  { apply py_round_close. rewrite Hlz. exact Hn. }
  destruct (split_loop_spec fadd fmul A1 A2 (map fst sh) (map snd sh)) with (splits := norm) (prop := 0%Q)
    as (ri & rp & E & L & F & C); [unfold zlen; now rewrite !map_length|exact Hfn|rewrite H0; lia|rewrite H1; lia|].
  rewrite E. exists ri, rp. split; [reflexivity|]. split; [rewrite L; unfold norm; now rewrite map_length|].
  destruct (C (length norm) (le_n _)) as [C1 C2].
  assert (Lp : length rp = length norm) by (rewrite <- L; symmetry; exact (Forall2_len _ _ _ F)).
  rewrite <- L in C1 at 1. rewrite <- Lp in C2 at 1. rewrite firstn_all in C1, C2. rewrite firstn_all, H0, H1 in C1, C2.
  assert (X : forall B (l : list B), zlen l = zlen (map snd sh) -> cut l 0 (zlen (map snd sh)) = l).
  { intros B l Hl. unfold cut. rewrite Z.sub_0_r, <- Hl. cbn [skipn Z.to_nat]. unfold zlen. now rewrite Nat2Z.id, firstn_all. }
  rewrite X in C1, C2 by (unfold zlen; now rewrite !map_length).
  split.
  - apply (aligned parse ri rp sh F); [|exact C1|exact C2]. apply (Permutation_Forall (Permutation_sym Psh)). exact Fp.
  - rewrite C1, <- Ep. now apply Permutation_map.
Qed.
Print Assumptions C42_splits.

(* with exact arithmetic no hypothesis is left, and the sizes follow the proportions: up to each
   split, the number of files is within one half of the proportion of the splits so far *)
Lemma sum_div : forall splits t a, (~ t == 0)%Q ->
  (fold_left Qplus (map (fun s => s / t) splits) (a / t) == (fold_left Qplus splits a) / t)%Q.
Proof.
  induction splits as [|s r IH]; intros t a Ht; [reflexivity|]. cbn [map fold_left]. rewrite <- (IH t (a + s)%Q Ht).
  assert (E : (a / t + s / t == (a + s) / t)%Q) by (field; exact Ht).
  clear IH. revert E. generalize (a / t + s / t)%Q ((a + s) / t)%Q. generalize (map (fun s0 => s0 / t)%Q r). clear.
  induction l as [|x l IH]; intros u v E; cbn [fold_left]; [exact E|]. apply IH. now rewrite E.
Qed.
Lemma fold_div splits k t : (~ t == 0)%Q ->
  (fold_left Qplus (firstn k (map (fun s => s / t) splits)) 0 == (fold_left Qplus (firstn k splits) 0) / t)%Q.
Proof.
  intros Ht. rewrite firstn_map, <- (sum_div (firstn k splits) t 0 Ht).
  generalize (map (fun s => s / t)%Q (firstn k splits)). intros l. assert (E : (0 == 0 / t)%Q) by (field; exact Ht).
  revert E. generalize (0 / t)%Q. generalize 0%Q. induction l as [|x l IH]; intros u v E; cbn [fold_left]; [exact E|].
  apply IH. now rewrite E.
Qed.
Lemma exact_float : float_like Qplus Qmult Qdiv.
Proof.
  split; [intros; lra|]. split; [intros x y n Hn H; nra|]. split; [intros; ring|].
  intros x y Hx Hy. apply Qle_shift_div_l; [exact Hy|]. lra.
Qed.
Theorem C42_exact : forall {P} (parse : Z -> option P) perm splits files,
  Permutation perm (seq 0 (length (parsable parse files))) ->
  Forall (fun s => 0 <= s)%Q splits -> (0 < fold_left Qplus splits 0)%Q ->
  exists ids ps, get_splits Qplus Qmult Qdiv parse perm splits files = Ok (ids, ps)
    /\ length ids = length splits /\ partition_of parse files ids ps
    /\ forall k, (k <= length splits)%nat ->
         (Qabs (inject_Z (zlen (concat (firstn k ids)))
                - fold_left Qplus (firstn k splits) 0 / fold_left Qplus splits 0 * inject_Z (zlen (parsable parse files)))
          <= 1 # 2)%Q.
Proof.
  intros P parse perm splits files Hp Hs Ht.
  assert (Hne : (~ fold_left Qplus splits 0 == 0)%Q) by lra.
  assert (Hall : (fold_left Qplus (map (fun s => s / fold_left Qplus splits 0) splits) 0 == 1)%Q).
  { assert (H := fold_div splits (length splits) _ Hne). rewrite firstn_map in H. rewrite firstn_all in H. rewrite H. field. exact Hne. }
  destruct (C42_splits Qplus Qmult Qdiv parse perm splits files exact_float Hp Hs Ht) as (ids & ps & E & L & Hpart).
  { cbv zeta. rewrite Hall. rewrite Qmult_1_l. apply Qabs_Qlt_condition. split; lra. }
  exists ids, ps. split; [exact E|]. split; [exact L|]. split; [exact Hpart|]. intros k Hk.
  destruct exact_float as (A1 & A2 & A3 & A4). destruct (parsed_split parse files) as [Fp Ep].
  assert (Hlen : length (parsed parse files) = length (parsable parse files)) by (rewrite <- Ep; now rewrite map_length).
  rewrite <- Hlen in Hp. destruct (shuffle_perm _ _ Hp) as (sh & Esh & Psh).
  unfold get_splits, normalise in E. destruct (Qeq_bool (fold_left Qplus splits 0%Q) 0%Q) eqn:E0; [discriminate|].
  cbn [bind] in E. rewrite Esh in E. cbn [bind] in E.
  set (norm := map (fun s => (s / fold_left Qplus splits 0)%Q) splits) in *.
  assert (Hlz : zlen (map snd sh) = zlen (parsable parse files)).
  { unfold zlen. rewrite map_length, (Permutation_length Psh), Hlen. reflexivity. }
  assert (Hfn : Forall (fun s => 0 <= s)%Q norm).
  { unfold norm. apply Forall_map. eapply Forall_impl; [|exact Hs]. cbn. intros s H. now apply A4. }
  assert (H0 : py_round (0 * inject_Z (zlen (map snd sh)))%Q = 0).
  { rewrite (py_round_comp _ (inject_Z 0)); [apply py_round_Z|]. apply A3. change 0%Q with (inject_Z 0). rewrite <- Zle_Qle. unfold zlen. lia. }
  assert (H1 : py_round (fold_left Qplus norm 0 * inject_Z (zlen (map snd sh)))%Q = zlen (map snd sh)).
  { rewrite (py_round_comp _ (inject_Z (zlen (map snd sh)))); [apply py_round_Z|]. rewrite Hall. ring. }
  destruct (split_loop_spec Qplus Qmult A1 A2 (map fst sh) (map snd sh)) with (splits := norm) (prop := 0%Q)
    as (ri & rp & E' & L' & F & C); [unfold zlen; now rewrite !map_length|exact Hfn|rewrite H0; lia|rewrite H1; lia|].
  rewrite E' in E. apply Ok_inj in E. injection E as -> ->.
  destruct (C k ltac:(unfold norm; rewrite map_length; exact Hk)) as [C1 _]. rewrite C1, H0.
  assert (Hb : 0 <= py_round (fold_left Qplus (firstn k norm) 0 * inject_Z (zlen (map snd sh)))%Q <= zlen (map snd sh)).
  { assert (Hzn : (0 <= inject_Z (zlen (map snd sh)))%Q) by (change 0%Q with (inject_Z 0); rewrite <- Zle_Qle; unfold zlen; lia).
    assert (Fk : Forall (fun s => 0 <= s)%Q (firstn k norm) /\ Forall (fun s => 0 <= s)%Q (skipn k norm)).
    { rewrite <- Forall_app, firstn_skipn. exact Hfn. }
    split.
    - rewrite <- H0. apply py_round_mono, A2; [exact Hzn|]. apply fold_up; [exact A1|tauto].
    - rewrite <- H1 at 2. apply py_round_mono, A2; [exact Hzn|]. rewrite <- (firstn_skipn k norm) at 2. rewrite fold_left_app.
      apply fold_up; [exact A1|tauto]. }
  unfold zlen at 1. rewrite cut_length; [|lia|]. 2:{ replace (zlen (map fst sh)) with (zlen (map snd sh)) by (unfold zlen; now rewrite !map_length). lia. }
  rewrite Z.sub_0_r, Z2Nat.id by lia.
  rewrite <- (fold_div splits k _ Hne). fold norm. rewrite <- Hlz.
  assert (N := py_round_near (fold_left Qplus (firstn k norm) 0 * inject_Z (zlen (map snd sh)))%Q).
  apply Qabs_Qle_condition in N. apply Qabs_Qle_condition. lra.
Qed.
Print Assumptions C42_exact.
(* five files, one of which cannot be parsed, 80:10:10 *)
Example C42_ex : get_splits Qplus Qmult Qdiv (fun i => if i =? 7 then None else Some (i * 10)) [2; 0; 3; 1]%nat
    [8 # 1; 1 # 1; 1 # 1]%Q [5; 6; 7; 8; 9] = Ok ([[8; 5; 9]; [6]; []], [[80; 50; 90]; [60]; []]).
Proof. vm_compute. reflexivity. Qed.

(* a negative proportion is accepted, and files end up in two splits *)
Theorem C42_negative_refuted : exists splits ids ps,
  (fold_left Qplus splits 0 == 1)%Q
  /\ get_splits Qplus Qmult Qdiv (fun i => Some i) [0; 1]%nat splits [5; 6] = Ok (ids, ps)
  /\ ~ partition_of (fun i => Some i) [5; 6] ids ps.
Proof.
  exists [1 # 1; -(1) # 1; 1 # 1]%Q, [[5; 6]; []; [5; 6]], [[5; 6]; []; [5; 6]].
  split; [reflexivity|]. split; [vm_compute; reflexivity|]. intros [_ H]. apply Permutation_length in H. discriminate.
Qed.
Print Assumptions C42_negative_refuted.

(* ---- C64: training and inference see the same chords in the same way ---- *)
(* The rows of the chord sequence dataset for a piece are the inputs of the chord sequence model for
   the analysis with the same chords and keys, its targets are the chords' indexes that the search
   looks up, and the rows of the key datasets are the inputs of the key models. *)
Theorem C64_rows : forall g pd p s rows, analysed_as g pd p s -> first_key_kept s ->
  (piece_rows false p = Ok rows
   <-> mapM (csm_input (g_cpt g) (g_kpt g) (p_durs pd) (p_levels pd)) (map snd (steps_of s)) = Ok rows)
  /\ (piece_rows true p = Ok rows
      <-> mapM (ktm_input (g_cpt g) (g_kpt g) (p_durs pd) (p_levels pd)) (map snd (steps_of s)) = Ok rows).
Proof.
  intros g pd p s rows Ha Hf. split; [exact (rows_agree g pd false p s rows Ha Hf)|exact (rows_agree g pd true p s rows Ha Hf)].
Qed.
Print Assumptions C64_rows.
Theorem C64_csd : forall g pd pieces ds i p s,
  csd pieces = Ok ds -> nth_error pieces i = Some p -> analysed_as g pd p s -> first_key_kept s ->
  exists rows ts, nth_error (hd_inputs ds) i = Some rows
    /\ mapM (csm_input (g_cpt g) (g_kpt g) (p_durs pd) (p_levels pd)) (map snd (steps_of s)) = Ok rows
    /\ (exists l, hd_targets ds = Ragged l /\ nth_error l i = Some ts)
    /\ mapM (relative_chord_index (g_cpt g) (g_kpt g) (p_durs pd) (p_levels pd)) (map snd (steps_of s)) = Ok ts
    /\ nth_error (hd_input_lengths ds) i = Some (length rows)
    /\ (exists l, hd_target_lengths ds = Some l /\ nth_error l i = Some (length rows)).
Proof.
  intros g pd pieces ds i p s H Hi Ha Hf. unfold csd in H. apply bind_ok in H as (l & El & H). apply Ok_inj in H. subst ds.
  apply mapM_forall2 in El. destruct (forall2_nth _ _ _ El i p Hi) as ([x t] & Ex & Hx).
  apply bind_ok in Hx as (x' & Er & Hx). apply bind_ok in Hx as (t' & Et & Hx). apply Ok_inj in Hx. injection Hx as -> ->.
  exists x, t. cbn [hd_inputs hd_targets hd_input_lengths hd_target_lengths].
  assert (Em := proj1 (proj1 (C64_rows g pd p s x Ha Hf)) Er).
  rewrite (targets_agree g pd p s (proj1 Ha)) in Et.
  split; [exact (map_nth_error fst _ _ Ex)|]. split; [exact Em|]. split; [eexists; split; [reflexivity|exact (map_nth_error snd _ _ Ex)]|].
  split; [exact Et|]. split; [exact (map_nth_error (fun y => length (fst y)) _ _ Ex)|]. eexists. split; [reflexivity|].
  rewrite (map_nth_error (fun y => length (snd y)) _ _ Ex). cbn [snd]. f_equal.
  apply mapM_forall2 in Em, Et. rewrite <- (Forall2_len _ _ _ Em). symmetry. exact (Forall2_len _ _ _ Et).
Qed.
Print Assumptions C64_csd.
(* An item of the key transition dataset: up to the key change the rows are the key models' inputs
   for the analysis; the row at the key change is the input for the chord still in the old key, the
   state the search asks the key models about. *)
Theorem C64_ktd : forall g pd p s rows n lens ts repls, analysed_as g pd p s -> first_key_kept s ->
  ktd_piece p = Ok (rows, n, lens, ts, repls) ->
  mapM (ktm_input (g_cpt g) (g_kpt g) (p_durs pd) (p_levels pd)) (map snd (steps_of s)) = Ok rows
  /\ forall j, (S j < n)%nat -> exists b q f r, nth_error lens j = Some b /\ nth_error (steps_of s) b = Some (q, f)
    /\ st_key q <> st_key f /\ nth_error repls j = Some r
    /\ forall m, uncharged q m f -> ktm_input (g_cpt g) (g_kpt g) (p_durs pd) (p_levels pd) m = Ok r.
Proof.
  intros g pd p s rows n lens ts repls Ha Hf H. split.
  - apply (C64_rows g pd p s rows Ha Hf). exact (proj1 (ktd_piece_facts _ _ _ _ _ _ H)).
  - exact (ktd_changes g pd p s rows n lens ts repls Ha Hf H).
Qed.
Print Assumptions C64_ktd.

(* the result of a search with key changes *)
Definition keptb (s : state) : bool :=
  match steps_of s with [] => false | (p, f) :: _ => st_key p =? st_key f end.
Lemma keptb_true s : keptb s = true -> first_key_kept s.
Proof. unfold keptb, first_key_kept. destruct (steps_of s) as [|[p f] r]; [discriminate|]. apply Z.eqb_eq. Qed.
Definition g64 := gx 20 80.
Definition pd64 := pdx [-1; -1; -1] [0; -1; -1].
Definition changes_of (r : res dpiece) : list nat := match r with Ok p => dp_changes p | Raise _ => [] end.
Example C64_ex : exists s p, searchx g64 (ox 90 (-1) (-3)) pd64 = Ok (Some s)
  /\ analysed_as g64 pd64 p s /\ first_key_kept s /\ (1 < length (dp_changes p))%nat
  /\ is_ok (csd [p]) = true /\ is_ok (ktd_piece p) = true.
Proof.
  assert (E : checkx (fun s => keptb s && (1 <? length (changes_of (piece_of g64 pd64 s)))%nat
      && match piece_of g64 pd64 s with Ok p => is_ok (csd [p]) && is_ok (ktd_piece p) | Raise _ => false end)
      (searchx g64 (ox 90 (-1) (-3)) pd64) = true) by (vm_compute; reflexivity).
  apply checkx_true in E as (s & Es & E). apply andb_prop in E as [E E3]. apply andb_prop in E as [E1 E2].
  destruct (piece_of g64 pd64 s) as [p|] eqn:Ep; [|discriminate]. apply andb_prop in E3 as [E3 E4]. exists s, p.
  split; [exact Es|]. split; [now apply piece_of_analysed|]. split; [now apply keptb_true|].
  split; [now apply Nat.ltb_lt|]. auto.
Qed.

(* If a key is forced on the first chord and the search begins with another one, the analysis has a
   key change at the first chord, which training never has: the inputs differ. *)
Definition pd64f := pdx [-1; -1; -1] [-1; 1; -1].
Definition search64f := beam_search g64 (ox 10 (-1) (-3)) pd64f [(0, 2); (2, 3)]%nat [-10; -20] [0; 4] [[-1; -9]; [-9; -1]].
Definition differ64 (s : state) : bool :=
  match piece_of g64 pd64f s with
  | Raise _ => false
  | Ok p => match piece_rows false p, mapM (csm_input (g_cpt g64) (g_kpt g64) (p_durs pd64f) (p_levels pd64f)) (map snd (steps_of s)) with
            | Ok a, Ok b => if list_eq_dec (list_eq_dec Z.eq_dec) a b then false else true
            | _, _ => false end
  end.
Theorem C64_first_key_refuted : exists s p rows rows', search64f = Ok (Some s) /\ analysed_as g64 pd64f p s
  /\ piece_rows false p = Ok rows
  /\ mapM (csm_input (g_cpt g64) (g_kpt g64) (p_durs pd64f) (p_levels pd64f)) (map snd (steps_of s)) = Ok rows'
  /\ rows <> rows'.
Proof.
  assert (E : checkx differ64 search64f = true) by (vm_compute; reflexivity).
  apply checkx_true in E as (s & Es & E). unfold differ64 in E. destruct (piece_of g64 pd64f s) as [p|] eqn:Ep; [|discriminate].
  destruct (piece_rows false p) as [a|] eqn:Ea; [|discriminate].
  destruct (mapM _ (map snd (steps_of s))) as [b|] eqn:Eb in E; [|discriminate].
  destruct (list_eq_dec (list_eq_dec Z.eq_dec) a b) as [|Hne]; [discriminate|].
  exists s, p, a, b. split; [exact Es|]. split; [now apply piece_of_analysed|]. auto.
Qed.
Print Assumptions C64_first_key_refuted.
