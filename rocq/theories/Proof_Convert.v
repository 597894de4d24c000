(* Proofs about the texts in the cells of a corpus. *)
From Coq Require Import QArith Qfield Qpower String Ascii Lia.
From Verif Require Import Model_Convert Spec_Runs Spec_Convert Proof_Base Proof_Prior Proof_Runs.
From Coq Require Import List.
Import ListNotations.
Close Scope Q_scope.
Open Scope Z_scope.

Notation digitc := (fun c => char_is_digit c = true).
Definition stops (t : pystr) : Prop := match t with c :: _ => char_is_digit c = false | [] => True end.
Lemma take_digits_spec s : forall d t, take_digits s = (d, t) -> s = d ++ t /\ Forall digitc d /\ stops t.
Proof.
  induction s as [|c s IH]; intros d t H; cbn [take_digits] in H; [injection H as <- <-; cbn; auto|].
  destruct (char_is_digit c) eqn:E.
  - destruct (take_digits s) as [d' t'] eqn:F. injection H as <- <-. destruct (IH _ _ eq_refl) as (-> & A & B). cbn. auto.
  - injection H as <- <-. cbn. auto.
Qed.
Lemma take_digits_app d t : Forall digitc d -> stops t -> take_digits (d ++ t) = (d, t).
Proof.
  intros F St. induction F as [|c d E F IH]; cbn [app].
  - destruct t as [|c t]; [reflexivity|]. cbn in *. now rewrite St.
  - cbn [take_digits]. now rewrite E, IH.
Qed.
Lemma digits_chars t ds : digits t ds -> Forall digitc t.
Proof. induction 1 as [|c d t ds [H ->] F IH]; constructor; [|exact IH]. now apply digit_char_facts. Qed.
Lemma chars_digits t : Forall digitc t -> exists ds, digits t ds.
Proof.
  induction 1 as [|c t E F [ds IH]]; [exists []; constructor|]. destruct (digit_char_inv c E) as (d & H & ->). exists (d :: ds). constructor; auto.
Qed.
Lemma digits_numeral' t ds : digits t ds -> ds <> [] -> numeral t ds.
Proof.
  induction 1 as [|c d t ds [H ->] F IH]; intros N; [now elim N|]. destruct ds as [|e ds].
  - inversion F; subst. now constructor.
  - constructor; [exact H|]. apply IH. discriminate.
Qed.
Lemma digits_int t ds : digits t ds -> ds <> [] -> py_int t = Ok (decimal_value ds).
Proof.
  intros D N. apply py_int_iff. exists [], [], t, ds, []. rewrite app_nil_r. split; [reflexivity|]. split; [constructor|]. split; [constructor|].
  split; [now apply digits_numeral'|]. left. split; [now left|reflexivity].
Qed.
Lemma digits_int0 t ds : digits t ds -> int_or_0 t = Ok (decimal_value ds).
Proof. intros D. destruct D as [|c d t ds H F]; [reflexivity|]. unfold int_or_0. apply digits_int; [now constructor|discriminate]. Qed.
Lemma py_int_nil : py_int [] = Raise ValueError. Proof. reflexivity. Qed.
Lemma digits_nonneg t ds : digits t ds -> 0 <= decimal_value ds.
Proof.
  intros D. unfold decimal_value. assert (G : forall a, 0 <= a -> 0 <= fold_left (fun a d => 10 * a + d) ds a); [|apply G; lia].
  induction D as [|c d t ds [H _] F IH]; intros a Ha; cbn [fold_left]; [exact Ha|]. apply IH. lia.
Qed.
Lemma digits_zlen t ds : digits t ds -> zlen t = zlen ds.
Proof. unfold zlen. induction 1; cbn [List.length]; lia. Qed.
Lemma only_space_iff t : only_space t = true <-> Forall blank t.
Proof.
  unfold only_space. rewrite forallb_forall, Forall_forall. split; intros H c I; apply is_space_blank; auto.
Qed.
Lemma blank_stops t : Forall blank t -> stops t.
Proof.
  intros F. destruct F as [|c t B F]; [exact I|]. cbn. destruct (char_is_digit c) eqn:E; [|reflexivity].
  destruct (digit_char_inv c E) as (d & H & ->). apply is_space_blank in B. now destruct (digit_char_facts d H) as (_ & _ & K); congruence.
Qed.
Lemma blank_not c t : is_space c = false -> Forall blank t -> match t with c' :: _ => Ascii.eqb c' c = false | [] => True end.
Proof.
  intros N F. destruct F as [|c' t B F]; [exact I|]. destruct (Ascii.eqb c' c) eqn:E; [|reflexivity]. apply Ascii.eqb_eq in E as ->. apply is_space_blank in B. congruence.
Qed.
Lemma digit_not c d : 0 <= d <= 9 -> char_is_digit c = false -> Ascii.eqb (digit_char d) c = false.
Proof.
  intros H N. destruct (Ascii.eqb (digit_char d) c) eqn:E; [|reflexivity]. apply Ascii.eqb_eq in E as <-. destruct (digit_char_facts d H) as (K & _). congruence.
Qed.

(* signs *)
Lemma take_sign_spec s m r : take_sign s = (m, r) -> exists sign, s = sign ++ r /\ signed sign m.
Proof.
  unfold take_sign, signed. destruct s as [|c s]; [intros H; injection H as <- <-; exists []; auto|].
  destruct (Ascii.eqb c "-") eqn:E1; [apply Ascii.eqb_eq in E1 as ->; intros H; injection H as <- <-; exists (L"-"); auto|].
  destruct (Ascii.eqb c "+") eqn:E2; [apply Ascii.eqb_eq in E2 as ->; intros H; injection H as <- <-; exists (L"+"); auto|].
  intros H; injection H as <- <-; exists []; auto.
Qed.
Lemma take_sign_app sign m r : signed sign m -> match r with c :: _ => Ascii.eqb c "-" = false /\ Ascii.eqb c "+" = false | [] => True end -> take_sign (sign ++ r) = (m, r).
Proof.
  unfold signed. destruct m; [intros ->; reflexivity|]. intros [->| ->] H; [|reflexivity]. cbn [app]. destruct r as [|c r]; [reflexivity|].
  destruct H as [H1 H2]. cbn [take_sign]. now rewrite H1, H2.
Qed.
(* the value of a decimal *)
Lemma pow10_pos e : 0 <= e -> 0 < 10 ^ e. Proof. intros. apply Z.pow_pos_nonneg; lia. Qed.
Lemma Qpow10 e : 0 <= e -> (Qpower 10 e == inject_Z (10 ^ e))%Q.
Proof. intros H. rewrite Zpower_Qpower by exact H. reflexivity. Qed.
Lemma pos_not0 z : 0 < z -> ~ (inject_Z z == 0)%Q.
Proof. intros H. change 0%Q with (inject_Z 0). rewrite inject_Z_injective. lia. Qed.
Lemma decimal_num a f k e : 0 <= k ->
  let n := a * 10 ^ k + f in
  ((if (0 <=? e)%Z then inject_Z (n * 10 ^ e) / inject_Z (10 ^ k) else inject_Z n / inject_Z (10 ^ k * 10 ^ (- e))) ==
  (inject_Z a + inject_Z f / Qpower 10 k) * Qpower 10 e)%Q.
Proof.
  intros Hk n. subst n. rewrite (Qpow10 k Hk). assert (Pk := pos_not0 _ (pow10_pos k Hk)). destruct (Z.leb_spec 0 e) as [He|He].
  - rewrite (Qpow10 e He), inject_Z_mult, inject_Z_plus, inject_Z_mult. field. exact Pk.
  - assert (E : e = - (- e)) by lia. rewrite E at 2. rewrite Qpower_opp. rewrite (Qpow10 (- e)) by lia. assert (Pe := pos_not0 _ (pow10_pos (- e) ltac:(lia))).
    rewrite !inject_Z_mult, inject_Z_plus, inject_Z_mult. field. split; assumption.
Qed.

(* ---- reading a number ---------------------------------------------------------------- *)
Lemma exponent_sound r e t : take_exponent r = Ok (e, t) -> exists x, r = x ++ t /\ says_power x e.
Proof.
  unfold take_exponent. destruct r as [|c r]; [intros H; apply Ok_inj in H; injection H as <- <-; exists []; split; [reflexivity|left; auto]|].
  destruct (Ascii.eqb c "E" || Ascii.eqb c "e") eqn:E.
  - destruct (take_sign r) as [m r1] eqn:Es. destruct (take_digits r1) as [ds0 t0] eqn:Ed. intros H. apply bind_ok in H as (v & Ev & H). apply Ok_inj in H. injection H as <- <-.
    apply take_sign_spec in Es as (sign & -> & Sg). apply take_digits_spec in Ed as (-> & F & _). destruct (chars_digits _ F) as [ds D].
    assert (N : ds <> []) by (intros ->; inversion D; subst; discriminate). rewrite (digits_int _ _ D N) in Ev. apply Ok_inj in Ev as <-.
    exists (c :: sign ++ ds0). split; [cbn [app]; now rewrite <- app_assoc|]. right. exists [c], sign, m, ds0, ds. split; [reflexivity|].
    split; [|split; [exact Sg|split; [exact D|split; [exact N|now destruct m]]]].
    apply orb_prop in E as [E|E]; apply Ascii.eqb_eq in E as ->; [right|left]; reflexivity.
  - intros H; apply Ok_inj in H; injection H as <- <-; exists []; split; [reflexivity|left; auto].
Qed.
Lemma exponent_complete x e t : says_power x e -> Forall blank t -> take_exponent (x ++ t) = Ok (e, t).
Proof.
  intros [[-> ->]|(letter & sign & m & t' & ds & -> & Hl & Sg & D & N & ->)] B.
  - cbn [app]. assert (A := blank_not "E" t eq_refl B). assert (C := blank_not "e" t eq_refl B). destruct t as [|c t]; [reflexivity|]. unfold take_exponent. now rewrite A, C.
  - assert (E : take_exponent ((letter ++ sign ++ t') ++ t) =
      let (minus, r) := take_sign ((sign ++ t') ++ t) in let (ds, t) := take_digits r in let! e := py_int ds in Ok (if minus then - e else e, t)).
    { destruct Hl as [->| ->]; reflexivity. }
    rewrite E, <- app_assoc, (take_sign_app sign m (t' ++ t) Sg).
    + rewrite (take_digits_app t' t (digits_chars _ _ D) (blank_stops _ B)). rewrite (digits_int _ _ D N). now destruct m.
    + destruct D as [|c d t' ds [H ->] F]; [now elim N|]. cbn [app]. split; apply digit_not; auto.
Qed.
Lemma decimal_sound r d t : take_decimal r = (d, t) -> exists p ds, r = p ++ t /\ says_places p ds /\ digits d ds.
Proof.
  unfold take_decimal. destruct r as [|c r]; [intros H; injection H as <- <-; exists [], []; split; [reflexivity|]; split; [left; auto|constructor]|].
  destruct (Ascii.eqb c ".") eqn:E.
  - intros H. apply take_digits_spec in H as (-> & F & _). destruct (chars_digits _ F) as [ds D]. apply Ascii.eqb_eq in E as ->. exists ("."%char :: d), ds.
    split; [reflexivity|]. split; [right; exists d; split; [reflexivity|exact D]|exact D].
  - intros H; injection H as <- <-; exists [], []; split; [reflexivity|]; split; [left; auto|constructor].
Qed.
Lemma decimal_complete p ds t : says_places p ds -> stops t -> match t with c :: _ => Ascii.eqb c "." = false | [] => True end ->
  exists d, take_decimal (p ++ t) = (d, t) /\ digits d ds.
Proof.
  intros [[-> ->]|(t' & -> & D)] St Nt.
  - exists []. split; [|constructor]. cbn [app]. destruct t as [|c t]; [reflexivity|]. cbn. now rewrite Nt.
  - exists t'. split; [|exact D]. cbn. apply take_digits_app; [exact (digits_chars _ _ D)|exact St].
Qed.
Lemma Qdiv_times n d : 0 < d -> (inject_Z n / inject_Z d * inject_Z d == inject_Z n)%Q.
Proof. intros H. field. now apply pos_not0. Qed.
Lemma zlen_nn {A} (l : list A) : 0 <= zlen l. Proof. unfold zlen. lia. Qed.

Lemma ratio_sound s n d : number_ahead s = true -> read_ratio s = Ok (n, d) -> d <> 0 -> 0 < d /\
  exists t w, s = t ++ w /\ Forall blank w /\ (says_ratio t (inject_Z n / inject_Z d) \/ says_decimal t (inject_Z n / inject_Z d)).
Proof.
  unfold read_ratio. destruct (take_digits s) as [num r] eqn:E. intros Ha H Hd. apply bind_ok in H as (a & En & H).
  apply take_digits_spec in E as (-> & F & St). destruct (chars_digits _ F) as [ad A]. rewrite (digits_int0 _ _ A) in En. apply Ok_inj in En as <-.
  destruct (match r with c :: r' => if Ascii.eqb c "/" then Some r' else None | [] => None end) as [r'|] eqn:Er.
  - destruct r as [|c r0]; [discriminate|]. destruct (Ascii.eqb c "/") eqn:Ec; [|discriminate]. apply Some_inj in Er as ->. apply Ascii.eqb_eq in Ec as ->.
    destruct (take_digits r') as [den t] eqn:E. apply bind_ok in H as (b & Eb & H). apply take_digits_spec in E as (-> & G & _). destruct (chars_digits _ G) as [bd B].
    assert (N : bd <> []) by (intros ->; inversion B; subst; discriminate). rewrite (digits_int _ _ B N) in Eb. apply Ok_inj in Eb as <-.
    destruct (only_space t) eqn:O; [|discriminate]. apply only_space_iff in O. apply Ok_inj in H. injection H as <- <-. assert (P := digits_nonneg _ _ B). split; [lia|].
    exists (num ++ L"/" ++ den), t. split; [rewrite <- !app_assoc; reflexivity|]. split; [exact O|]. left. exists num, den, ad, bd.
    split; [reflexivity|]. split; [exact A|]. split; [exact B|]. split; [|split; [exact N|split; [exact Hd|apply Qdiv_times; lia]]].
    intros ->. inversion A; subst. cbn in Ha. discriminate.
  - destruct (take_decimal r) as [dec r1] eqn:Ed. apply bind_ok in H as (f & Ef & H). apply decimal_sound in Ed as (p & pd & -> & P & D). rewrite (digits_int0 _ _ D) in Ef. apply Ok_inj in Ef as <-.
    apply bind_ok in H as ([e t] & Ee & H). apply exponent_sound in Ee as (x & -> & X). destruct (only_space t) eqn:O; [|discriminate]. apply only_space_iff in O. rewrite (digits_zlen _ _ D) in H.
    cbv zeta in H. pose proof (decimal_num (decimal_value ad) (decimal_value pd) (zlen pd) e (zlen_nn pd)) as V. cbv zeta in V.
    pose proof (pow10_pos (zlen pd) (zlen_nn pd)) as Pk.
    assert (NE : ad <> [] \/ pd <> []).
    { destruct ad as [|? ?]; [|left; discriminate]. right. inversion A; subst. destruct P as [[-> ->]|(t' & -> & D')].
      - exfalso. clear -Ha X Er O. cbn [app] in Ha. destruct X as [[-> _]|(letter & sign & m & t' & ds & -> & [->| ->] & _)]; cbn [app] in Ha; try discriminate.
        destruct t as [|c t]; [discriminate|]. inversion O; subst. apply is_space_blank in H1. cbn in Ha.
        apply orb_prop in Ha as [Ha|Ha]; [|apply andb_prop in Ha as [Ha _]; apply Ascii.eqb_eq in Ha as ->; discriminate].
        destruct (digit_char_inv c Ha) as (d & Hd & ->). destruct (digit_char_facts d Hd) as (_ & _ & K). congruence.
      - intros ->. inversion D'; subst. clear -Ha X O. cbn [app] in Ha. destruct X as [[-> _]|(letter & sign & m & t' & ds & -> & [->| ->] & _)]; cbn in Ha; try discriminate.
        destruct t as [|c t]; [discriminate|]. inversion O; subst. apply is_space_blank in H1. 
        destruct (digit_char_inv c Ha) as (d & Hd & ->). destruct (digit_char_facts d Hd) as (_ & _ & K). congruence. }
    assert (W : 0 < d /\ (inject_Z n / inject_Z d == (inject_Z (decimal_value ad) + inject_Z (decimal_value pd) / Qpower 10 (zlen pd)) * Qpower 10 e)%Q).
    { destruct (Z.leb_spec 0 e) as [He|He]; apply Ok_inj in H; apply pair_equal_spec in H as [<- <-]; (split; [|exact V]); [exact Pk|].
      apply Z.mul_pos_pos; [exact Pk|apply pow10_pos; lia]. }
    destruct W as [W1 W2]. split; [exact W1|]. exists (num ++ p ++ x), t. split; [rewrite <- !app_assoc; reflexivity|]. split; [exact O|]. right. exists num, p, x, ad, pd, e.
    split; [reflexivity|]. split; [exact A|]. split; [exact P|]. split; [exact X|]. split; [exact NE|exact W2].
Qed.
Lemma head_ok t m : says_ratio t m \/ says_decimal t m -> exists c r, t = c :: r /\ is_space c = false /\ Ascii.eqb c "-" = false /\ Ascii.eqb c "+" = false /\
  forall w, number_ahead (t ++ w) = true.
Proof.
  assert (Dg : forall c d t ds r, 0 <= d <= 9 /\ c = digit_char d -> digits t ds -> exists c' r', (c :: t) ++ r = c' :: r' /\ is_space c' = false /\ Ascii.eqb c' "-" = false /\ Ascii.eqb c' "+" = false /\
    forall w, number_ahead (((c :: t) ++ r) ++ w) = true).
  { intros c d t0 ds r [H ->] _. exists (digit_char d), (t0 ++ r). destruct (digit_char_facts d H) as (K1 & _ & K2). split; [reflexivity|]. split; [exact K2|]. split; [now apply digit_not|].
    split; [now apply digit_not|]. intros w. cbn [app number_ahead]. now rewrite K1. }
  intros [(a & b & ad & bd & -> & A & B & N & _)|(a & p & x & ad & pd & e & -> & A & P & X & N & _)].
  - destruct A as [|c d a ad H A]; [now elim N|]. eapply Dg; eauto.
  - destruct A as [|c d a ad H A]; [|eapply Dg; eauto]. destruct N as [N|N]; [now elim N|]. destruct P as [[-> ->]|(t' & -> & D)]; [now elim N|].
    destruct D as [|c d t' ds [H ->] D]; [now elim N|]. exists "."%char, ((digit_char d :: t') ++ x). split; [reflexivity|]. split; [reflexivity|]. split; [reflexivity|]. split; [reflexivity|].
    intros w. destruct (digit_char_facts d H) as (K1 & _ & _). change (number_ahead (((L"." ++ digit_char d :: t') ++ x) ++ w)) with (char_is_digit (digit_char d)). exact K1.
Qed.
Lemma ratio_complete t m w : says_ratio t m \/ says_decimal t m -> Forall blank w -> exists n d, read_ratio (t ++ w) = Ok (n, d) /\ 0 < d /\ (inject_Z n / inject_Z d == m)%Q.
Proof.
  intros [(a & b & ad & bd & -> & A & B & Na & Nb & N0 & Q)|(a & p & x & ad & pd & e & -> & A & P & X & N & Q)] W.
  - exists (decimal_value ad), (decimal_value bd). assert (G := digits_nonneg _ _ B). split; [|split; [lia|]].
    + rewrite <- !app_assoc. unfold read_ratio. rewrite (take_digits_app a (L"/" ++ b ++ w) (digits_chars _ _ A)) by reflexivity. rewrite (digits_int0 _ _ A). cbn [bind].
      change (match L"/" ++ b ++ w with c :: r' => if Ascii.eqb c "/" then Some r' else None | [] => None end) with (Some (b ++ w)). cbv iota zeta.
      rewrite (take_digits_app b w (digits_chars _ _ B) (blank_stops _ W)), (digits_int _ _ B Nb). cbn [bind]. now rewrite (proj2 (only_space_iff w) W).
    + rewrite <- Q. field. apply pos_not0. lia.
  - assert (Sx : stops (x ++ w) /\ (match x ++ w with c :: _ => Ascii.eqb c "." = false | [] => True end) /\ match x ++ w with c :: _ => Ascii.eqb c "/" = false | [] => True end).
    { destruct X as [[-> ->]|(letter & sign & mi & t' & ds & -> & [->| ->] & _)]; [|cbn; auto..]. cbn [app]. split; [now apply blank_stops|]. split; now apply blank_not. }
    destruct Sx as (S1 & S2 & S3). destruct (decimal_complete p pd (x ++ w) P S1 S2) as (dec & Ed & D).
    assert (S4 : stops (p ++ x ++ w) /\ match p ++ x ++ w with c :: r => if Ascii.eqb c "/" then Some r else None | [] => None end = None).
    { destruct P as [[-> ->]|(t' & -> & D')]; [cbn [app]|split; reflexivity]. split; [exact S1|]. destruct (x ++ w); [reflexivity|]. now rewrite S3. }
    destruct S4 as [S4 S5]. pose proof (decimal_num (decimal_value ad) (decimal_value pd) (zlen pd) e (zlen_nn pd)) as V. cbv zeta in V. pose proof (pow10_pos (zlen pd) (zlen_nn pd)) as Pk.
    assert (R : read_ratio ((a ++ p ++ x) ++ w) = if 0 <=? e then Ok ((decimal_value ad * 10 ^ zlen pd + decimal_value pd) * 10 ^ e, 10 ^ zlen pd)
      else Ok (decimal_value ad * 10 ^ zlen pd + decimal_value pd, 10 ^ zlen pd * 10 ^ (- e))).
    { rewrite <- !app_assoc. unfold read_ratio. rewrite (take_digits_app a (p ++ x ++ w) (digits_chars _ _ A) S4), (digits_int0 _ _ A). cbn [bind]. cbv zeta. rewrite S5, Ed, (digits_int0 _ _ D). cbn [bind].
      rewrite (exponent_complete x e w X W). cbn [bind]. rewrite (proj2 (only_space_iff w) W). now rewrite (digits_zlen _ _ D). }
    destruct (Z.leb_spec 0 e) as [He|He].
    + exists ((decimal_value ad * 10 ^ zlen pd + decimal_value pd) * 10 ^ e), (10 ^ zlen pd). split; [exact R|]. split; [exact Pk|]. rewrite Q. exact V.
    + exists (decimal_value ad * 10 ^ zlen pd + decimal_value pd), (10 ^ zlen pd * 10 ^ (- e)). split; [exact R|]. split; [apply Z.mul_pos_pos; [exact Pk|apply pow10_pos; lia]|]. rewrite Q. exact V.
Qed.
Lemma make_div n d : 0 < d -> (Qmake n (Z.to_pos d) == inject_Z n / inject_Z d)%Q.
Proof. intros H. rewrite Qmake_Qdiv. rewrite Z2Pos.id by exact H. reflexivity. Qed.
Lemma make_sign (b : bool) n d : 0 < d -> (Qmake (if b then - n else n) (Z.to_pos d) == (if b then - (inject_Z n / inject_Z d) else inject_Z n / inject_Z d))%Q.
Proof.
  intros H. destruct b; [|now apply make_div]. rewrite (make_div (- n) d H), inject_Z_opp. field. now apply pos_not0.
Qed.
Lemma py_fraction_iff s q : (exists q', py_fraction s = Ok q' /\ (q' == q)%Q) <-> says_fraction s q.
Proof.
  unfold py_fraction. split.
  - intros (q' & H & Eq). destruct (take_sign (lstrip s)) as [mi s1] eqn:Es. destruct (number_ahead s1) eqn:Ea; [|discriminate]. cbn [negb] in H.
    apply bind_ok in H as ([n d] & Er & H). destruct (Z.eqb_spec d 0) as [|Hd]; [discriminate|]. apply Ok_inj in H as <-.
    destruct (lstrip_spec s) as (w1 & E1 & F1 & _). apply take_sign_spec in Es as (sign & E2 & Sg). destruct (ratio_sound _ _ _ Ea Er Hd) as (Pd & t & w2 & -> & F2 & M).
    exists w1, sign, mi, t, w2, (inject_Z n / inject_Z d)%Q. split; [congruence|]. split; [exact F1|]. split; [exact F2|]. split; [exact Sg|]. split; [exact M|].
    rewrite <- Eq. now apply make_sign.
  - intros (w1 & sign & mi & t & w2 & m & -> & F1 & F2 & Sg & M & Eq). destruct (head_ok _ _ M) as (c & r & Et & B & M1 & M2 & Ah). 
    assert (Es : take_sign (lstrip (w1 ++ sign ++ t ++ w2)) = (mi, t ++ w2)).
    { rewrite lstrip_blank by exact F1. replace (lstrip (sign ++ t ++ w2)) with (sign ++ t ++ w2).
      - apply take_sign_app; [exact Sg|]. rewrite Et. cbn [app]. auto.
      - symmetry. assert (K : forall x u, sign ++ t ++ w2 = x :: u -> is_space x = false).
        { intros x u E. unfold signed in Sg. destruct mi; [rewrite Sg in E; injection E as <- _; reflexivity|].
          destruct Sg as [Sg|Sg]; rewrite Sg in E; [rewrite Et in E; injection E as <- _; exact B|injection E as <- _; reflexivity]. }
        destruct (sign ++ t ++ w2) as [|x u]; [reflexivity|]. apply lstrip_keep. apply not_blank. exact (K x u eq_refl). }
    rewrite Es, Ah. cbn [negb]. destruct (ratio_complete t m w2 M F2) as (n & d & Er & Pd & Em). rewrite Er. cbn [bind]. replace (d =? 0) with false by lia.
    eexists. split; [reflexivity|]. rewrite (make_sign mi n d Pd), Eq. destruct mi; now rewrite Em.
Qed.

(* ---- numbers with ", " between them ---------------------------------------------------- *)
Lemma listed_split parts : parts <> [] -> Forall (fun p => ~ In ","%char p) parts -> split_go (L", ") (listed parts) 0 [] = parts.
Proof.
  induction parts as [|p parts IH]; intros N F; [now elim N|]. inversion F as [|? ? Fp F']; subst. destruct parts as [|p' parts].
  - cbn [listed]. rewrite split_none; [reflexivity|]. intros (a & b & ->). apply Fp. rewrite !in_app_iff. right. left. left. reflexivity.
  - change (listed (p :: p' :: parts)) with (p ++ L", " ++ listed (p' :: parts)). rewrite (split_first (L", ") p ltac:(discriminate) _ (listed (p' :: parts))).
    + cbn [rev app]. f_equal. apply IH; [discriminate|exact F'].
    + split; [reflexivity|]. intros a' b' E. destruct (Nat.le_gt_cases (List.length p) (List.length a')) as [K|K]; [exact K|]. exfalso. apply Fp.
      apply (f_equal (fun l => nth_error l (List.length a'))) in E. rewrite nth_error_app1 in E by exact K. rewrite nth_error_app2, Nat.sub_diag in E by lia. cbn in E. exact (nth_error_In _ _ E).
Qed.
Lemma listed_app p a : a <> [] -> listed (p :: a) = p ++ L", " ++ listed a. Proof. destruct a; [congruence|reflexivity]. Qed.
Lemma split_listed_go s : forall cur, listed (split_go (L", ") s 0 cur) = rev cur ++ s /\ split_go (L", ") s 0 cur <> [].
Proof.
  induction s as [s IH] using (well_founded_induction (Wf_nat.well_founded_ltof _ (@List.length ascii))). unfold Wf_nat.ltof in IH. intros cur.
  destruct (substring_of (L", ") s) eqn:E.
  - apply substring_iff in E. destruct (first_exists _ _ E) as (a & b & F). rewrite (split_first (L", ") a ltac:(discriminate) s b F). destruct F as [-> _].
    destruct (IH b ltac:(rewrite !app_length; cbn; lia) []) as [E1 E2]. split; [|discriminate]. rewrite listed_app by exact E2. rewrite E1. cbn [rev app]. now rewrite <- app_assoc.
  - rewrite split_none by (intros C; apply substring_iff in C; congruence). split; [reflexivity|discriminate].
Qed.
Lemma inttuple_ok s zs : s <> [] -> (let! parts := str_split (L", ") s in mapM py_int parts) = Ok zs <-> says_ints s zs.
Proof.
  intros N. change (str_split (L", ") s) with (Ok (split_go (L", ") s 0 [])). cbn [bind]. rewrite (mapM_iff _ _ _ _ py_int_iff). split.
  - intros F. exists (split_go (L", ") s 0 []). split; [|exact F]. symmetry. apply (split_listed_go s []).
  - intros (parts & -> & F). rewrite listed_split; [exact F|intros ->; now elim N|]. clear N. induction F as [|p z ps zs H F IH]; constructor; [exact (says_int_no_comma _ _ H)|exact IH].
Qed.
Lemma says_int_nonempty z : ~ says_int [] z.
Proof.
  intros (w1 & sign & t & ds & w2 & E & _ & _ & Nm & _). symmetry in E. apply app_eq_nil in E as [_ E]. apply app_eq_nil in E as [_ E]. apply app_eq_nil in E as [-> _]. inversion Nm.
Qed.

(* ---- numbers as they are written ------------------------------------------------------- *)
Lemma uint_digits u : exists ds, digits (list_ascii_of_string (DecimalString.NilEmpty.string_of_uint u)) ds.
Proof.
  apply chars_digits. induction u as [|u IH|u IH|u IH|u IH|u IH|u IH|u IH|u IH|u IH|u IH]; cbn; constructor; (reflexivity || exact IH).
Qed.
Lemma nat_text z : 0 <= z -> exists ds, digits (z_to_str z) ds /\ ds <> [] /\ decimal_value ds = z.
Proof.
  intros H. assert (D : exists ds, digits (z_to_str z) ds).
  { destruct z as [|p|p]; [apply chars_digits; repeat constructor| |lia]. unfold z_to_str, L. cbn [Z.to_int]. cbn.
    destruct (uint_digits (Pos.to_uint p)) as [ds D]. destruct (Pos.to_uint p) eqn:E; [apply chars_digits; repeat constructor|..]; exists ds; exact D. }
  destruct D as [ds D]. exists ds. split; [exact D|]. assert (S1 := z_to_str_says z). apply py_int_iff in S1.
  assert (N : ds <> []) by (intros ->; inversion D as [E|]; rewrite <- E in S1; discriminate). split; [exact N|]. rewrite (digits_int _ _ D N) in S1. now apply Ok_inj in S1.
Qed.
Lemma neg_text p : z_to_str (Z.neg p) = L"-" ++ z_to_str (Z.pos p). Proof. reflexivity. Qed.
