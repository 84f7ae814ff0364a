(** * double_tos in terms of a rounded integer *)
From Coq Require Import Reals Psatz.
From Flocq Require Import Core Relative IEEE754.BinarySingleNaN.
From Verif Require Export FloatDigits.

Local Open Scope R_scope.
Notation fx := (FLT_exp (-1074) 53).
(** Rounding to a double. *)
Definition fl (z : R) : R := round radix2 fx ZnearestE z.
Notation val := (@B2R 53 1024).

Local Instance prec53 : Prec_gt_0 53 := p53.
Local Instance vfx : Valid_exp fx := FLT_exp_valid (-1074) 53.

Lemma fl_le a b : a <= b -> fl a <= fl b.
Proof. apply round_le; typeclasses eauto. Qed.
Lemma fl_opp a : fl (- a) = - fl a.
Proof. apply round_NE_opp. Qed.

(** Integers of at most 53 bits, over a power of two, are doubles. *)
Lemma format_F2R m e : (Z.abs m < 2 ^ 53)%Z -> (-1074 <= e)%Z ->
  generic_format radix2 fx (IZR m * bpow radix2 e).
Proof.
  intros Hm He. apply generic_format_FLT. exists (Float radix2 m e); auto.
Qed.
Lemma format_int m : (Z.abs m < 2 ^ 53)%Z -> generic_format radix2 fx (IZR m).
Proof.
  intros H. replace (IZR m) with (IZR m * bpow radix2 0) by (cbn; ring). apply format_F2R; auto. lia.
Qed.
Lemma format_half m : (Z.abs m < 2 ^ 53)%Z -> generic_format radix2 fx (IZR m / 2).
Proof.
  intros H. replace (IZR m / 2) with (IZR m * bpow radix2 (-1)) by (cbn; unfold Rdiv; f_equal; lra).
  apply format_F2R; auto. lia.
Qed.
Lemma fl_int m : (Z.abs m < 2 ^ 53)%Z -> fl (IZR m) = IZR m.
Proof. intros H. apply round_generic; [typeclasses eauto|now apply format_int]. Qed.

Lemma fl_bound z m : (0 <= m < 2 ^ 53)%Z -> Rabs z <= IZR m -> Rabs (fl z) <= IZR m.
Proof.
  intros Hm Hz. apply Rabs_le_inv in Hz. apply Rabs_le. split.
  - rewrite <- opp_IZR. rewrite <- (fl_int (- m)) by lia. apply fl_le. rewrite opp_IZR. lra.
  - rewrite <- (fl_int m) by lia. apply fl_le. lra.
Qed.

Lemma small_ok (r : R) m : (0 <= m < 2 ^ 53)%Z -> Rabs r <= IZR m ->
  Rlt_bool (Rabs r) (bpow radix2 1024) = true.
Proof.
  intros Hm H. apply Rlt_bool_true. apply Rle_lt_trans with (IZR m); auto.
  apply Rlt_trans with (bpow radix2 53).
  - change (bpow radix2 53) with (IZR (2 ^ 53)). apply IZR_lt. lia.
  - apply bpow_lt. lia.
Qed.

(** ** The constant 10^nd *)
Lemma tens_range nd : (0 <= nd <= 9)%Z -> (1 <= 10 ^ nd <= 1000000000)%Z.
Proof.
  intros H. assert (K : (nd = 0 \/ nd = 1 \/ nd = 2 \/ nd = 3 \/ nd = 4 \/ nd = 5 \/ nd = 6 \/ nd = 7 \/ nd = 8 \/ nd = 9)%Z) by lia.
  repeat (destruct K as [->|K]; [cbn; lia|]). subst. cbn; lia.
Qed.

Lemma dofint_ok nd : (0 <= nd <= 9)%Z ->
  val (dofint (10 ^ nd)) = p10 nd /\ is_finite (dofint (10 ^ nd)) = true /\
  Bsign (dofint (10 ^ nd)) = false.
Proof.
  intros H. pose proof (tens_range nd H) as T.
  pose proof (binary_normalize_correct 53 1024 p53 p53e mode_NE (10 ^ nd) 0 false) as B.
  cbn zeta in B. unfold dofint.
  assert (F : F2R (Float radix2 (10 ^ nd) 0) = IZR (10 ^ nd)) by (unfold F2R; cbn; ring).
  rewrite F in B. change (round_mode mode_NE) with ZnearestE in B.
  change (SpecFloat.fexp 53 1024) with fx in B. fold (fl (IZR (10 ^ nd))) in B.
  rewrite fl_int in B by lia. rewrite (small_ok _ (10 ^ nd)) in B; [|lia|].
  - destruct B as (B1 & B2 & B3). split; [|split; auto].
    + rewrite B1. apply p10_Z. lia.
    + rewrite B3. rewrite Rcompare_Gt; auto. apply IZR_lt. lia.
  - rewrite Rabs_pos_eq; [lra|]. apply IZR_le. lia.
Qed.

(** ** The integer behind a label *)
(** std::round of the product, as a number. *)
Definition units (nd : Z) (x : double) : Z := ZnearestA (fl (val x * p10 nd)).

(** The coordinates the six digits can tell apart: at most 999999 units. *)
Definition moderate (nd : Z) (x : double) : Prop :=
  is_finite x = true /\ Rabs (val x * p10 nd) <= 999999.

Lemma nearA_int z : IZR (ZnearestA z) = round radix2 (FIX_exp 0) ZnearestA z.
Proof.
  unfold round, F2R, scaled_mantissa, cexp, FIX_exp. cbn. rewrite !Rmult_1_r. reflexivity.
Qed.

Lemma nearA_bound z m : Rabs z <= IZR m -> (Z.abs (ZnearestA z) <= m)%Z.
Proof.
  intros H. apply Rabs_le_inv in H.
  assert (A : forall k, ZnearestA (IZR k) = k) by (intros k; apply Znearest_imp; rewrite Rminus_diag_eq, Rabs_R0 by auto; lra).
  assert (M : forall a b, a <= b -> (ZnearestA a <= ZnearestA b)%Z).
  { intros a b Hab. apply (@Zrnd_le ZnearestA); [typeclasses eauto|exact Hab]. }
  pose proof (M z (IZR m)) as U. pose proof (M (IZR (- m)) z) as L. rewrite A in U, L.
  rewrite opp_IZR in L. specialize (U ltac:(lra)). specialize (L ltac:(lra)). lia.
Qed.

Lemma fin_not_nan (x : double) : is_finite x = true -> is_nan x = false.
Proof. destruct x; cbn; auto; discriminate. Qed.

Lemma scaled_ok nd x : (0 <= nd <= 9)%Z -> moderate nd x ->
  let r := dround (dmul x (dofint (10 ^ nd))) in
  val r = IZR (units nd x) /\ is_finite r = true /\ Bsign r = Bsign x /\
  (Z.abs (units nd x) <= 999999)%Z.
Proof.
  intros H [F M]. destruct (dofint_ok nd H) as (T1 & T2 & T3).
  pose proof (Bmult_correct 53 1024 p53 p53e mode_NE x (dofint (10 ^ nd))) as B.
  rewrite T1 in B. change (round_mode mode_NE) with ZnearestE in B.
  change (SpecFloat.fexp 53 1024) with fx in B. fold (fl (val x * p10 nd)) in B.
  assert (Bd : Rabs (fl (val x * p10 nd)) <= 999999) by (apply (fl_bound _ 999999); [lia|exact M]).
  rewrite (small_ok _ 999999) in B; [|lia|exact Bd]. destruct B as (B1 & B2 & B3).
  rewrite F, T2 in B2. cbn in B2. fold (dmul x (dofint (10 ^ nd))) in *.
  specialize (B3 (fin_not_nan _ B2)). rewrite T3, xorb_false_r in B3.
  destruct (Bnearbyint_correct 53 1024 p53e mode_NA (dmul x (dofint (10 ^ nd)))) as (R1 & R2 & R3).
  fold (dround (dmul x (dofint (10 ^ nd)))) in *. cbv zeta.
  change (round_mode mode_NA) with ZnearestA in R1.
  rewrite B2 in R2. specialize (R3 (fin_not_nan _ R2)).
  split; [|split; [|split]]; auto.
  - rewrite R1, B1. unfold units. symmetry. apply nearA_int.
  - congruence.
  - apply nearA_bound. exact Bd.
Qed.

(** ** The quotient and its text *)
Definition canon (k nd : Z) : Z * Z :=
  let j := (6 - ndigits k)%Z in ((k * 10 ^ j)%Z, (5 - j - nd)%Z).

Lemma canon_ok k nd d X : (1 <= k <= 999999)%Z -> canon k nd = (d, X) ->
  (100000 <= d < 1000000)%Z /\ IZR k / p10 nd * p10 (5 - X) = IZR d.
Proof.
  intros H E. unfold canon in E. cbv zeta in E.
  pose proof (f_equal fst E) as Ed. pose proof (f_equal snd E) as EX. cbn [fst snd] in Ed, EX. clear E. destruct (ndigits_spec k) as [L U]; [lia|].
  assert (K1 : (1 <= ndigits k)%Z) by (apply ndigits_pos; lia).
  assert (K6 : (ndigits k <= 6)%Z).
  { destruct (Z.le_gt_cases (ndigits k) 6); auto. exfalso.
    assert (10 ^ 6 <= 10 ^ (ndigits k - 1))%Z by (apply Z.pow_le_mono_r; lia). lia. }
  assert (P1 : (10 ^ (ndigits k - 1) * 10 ^ (6 - ndigits k) = 100000)%Z).
  { rewrite <- Z.pow_add_r by lia. replace (ndigits k - 1 + (6 - ndigits k))%Z with 5%Z by lia. reflexivity. }
  assert (P2 : (10 ^ ndigits k * 10 ^ (6 - ndigits k) = 1000000)%Z).
  { rewrite <- Z.pow_add_r by lia. replace (ndigits k + (6 - ndigits k))%Z with 6%Z by lia. reflexivity. }
  assert (Pp : (0 < 10 ^ (6 - ndigits k))%Z) by (apply Z.pow_pos_nonneg; lia).
  split.
  { subst d. rewrite <- P1, <- P2. split.
    - apply Z.mul_le_mono_nonneg_r; lia.
    - apply Z.mul_lt_mono_pos_r; lia. }
  subst d X. rewrite mult_IZR. assert (J : (0 <= 6 - ndigits k)%Z) by lia. rewrite (p10_Z _ J).
  replace (5 - (5 - (6 - ndigits k) - nd))%Z with (nd + (6 - ndigits k))%Z by lia.
  rewrite bpow_plus. pose proof (p10_pos nd). field. lra.
Qed.

Lemma canon_inj k k' nd : (1 <= k <= 999999)%Z -> (1 <= k' <= 999999)%Z ->
  canon k nd = canon k' nd -> k = k'.
Proof.
  intros H H' E. destruct (canon k nd) as [d X] eqn:C. destruct (canon_ok k nd d X H C) as [_ V].
  symmetry in E. destruct (canon_ok k' nd d X H' E) as [_ V'].
  rewrite <- V' in V. apply eq_IZR.
  pose proof (p10_pos nd) as P1. pose proof (p10_pos (5 - X)) as P2.
  apply Rmult_eq_reg_r with (/ p10 nd * p10 (5 - X)).
  - unfold Rdiv in V. rewrite !Rmult_assoc in V. exact V.
  - apply Rgt_not_eq. apply Rmult_lt_0_compat; auto. apply Rinv_0_lt_compat; auto.
Qed.

(** The text of the integer k >= 1 divided by 10^nd. *)
Definition text (k nd : Z) : str := let '(d, X) := canon k nd in format_g d X.

Lemma text_inj k k' nd : (1 <= k <= 999999)%Z -> (1 <= k' <= 999999)%Z ->
  text k nd = text k' nd -> k = k'.
Proof.
  unfold text. intros H H' E.
  destruct (canon k nd) as [d X] eqn:C. destruct (canon k' nd) as [d' X'] eqn:C'.
  destruct (canon_ok k nd d X H C) as [D _]. destruct (canon_ok k' nd d' X' H' C') as [D' _].
  apply format_inj in E as [-> ->]; auto. apply (canon_inj k k' nd); auto. congruence.
Qed.

Lemma val_finite s m e B : val (B754_finite s m e B) = (if s then -1 else 1) * value2 m e.
Proof.
  cbn. unfold F2R, value2. cbn. destruct s; cbn [cond_Zopp];
    [change (Z.neg m) with (- Z.pos m)%Z; rewrite opp_IZR|]; ring.
Qed.

Lemma p10_400 : p10 (-400) <= p10 (-15).
Proof. apply bpow_le. lia. Qed.

Lemma label_text nd x : (0 <= nd <= 9)%Z -> moderate nd x ->
  label nd x =
    (if units nd x =? 0 then minus (Bsign x) ++ $"0"
     else minus (units nd x <? 0) ++ text (Z.abs (units nd x)) nd)%Z.
Proof.
  intros H M. destruct (scaled_ok nd x H M) as (R1 & R2 & R3 & R4).
  destruct (dofint_ok nd H) as (T1 & T2 & T3). unfold label.
  set (r := dround (dmul x (dofint (10 ^ nd)))) in *. set (t := dofint (10 ^ nd)) in *.
  set (k := units nd x) in *. pose proof (p10_pos nd) as Pn.
  assert (Tz : val t <> 0) by (rewrite T1; lra).
  assert (P1 : 1 <= p10 nd) by (change 1 with (p10 0); apply bpow_le; lia).
  assert (P9 : p10 nd <= 1000000000) by (change 1000000000 with (p10 9); apply bpow_le; lia).
  assert (Qb : Rabs (IZR k / p10 nd) <= 999999).
  { unfold Rdiv. rewrite Rabs_mult, (Rabs_pos_eq (/ p10 nd)) by (left; now apply Rinv_0_lt_compat).
    rewrite <- abs_IZR. apply IZR_le in R4.
    apply Rle_trans with (IZR (Z.abs k) * 1); [|lra].
    apply Rmult_le_compat_l; [apply IZR_le; lia|]. rewrite <- Rinv_1. apply Rinv_le; lra. }
  pose proof (Bdiv_correct 53 1024 p53 p53e mode_NE r t Tz) as B.
  rewrite R1, T1 in B. change (round_mode mode_NE) with ZnearestE in B.
  change (SpecFloat.fexp 53 1024) with fx in B. fold (fl (IZR k / p10 nd)) in B.
  rewrite (small_ok _ 999999) in B; [|lia|apply (fl_bound _ 999999); [lia|exact Qb]].
  fold (ddiv r t) in B. destruct B as (B1 & B2 & B3). rewrite R2 in B2.
  specialize (B3 (fin_not_nan _ B2)). rewrite R3, T3, xorb_false_r in B3.
  destruct (Z.eqb_spec k 0) as [K0|K0].
  - (* a signed zero *)
    assert (Vz : val (ddiv r t) = 0).
    { rewrite B1, K0. unfold Rdiv. rewrite Rmult_0_l. unfold fl. apply round_0. typeclasses eauto. }
    destruct (ddiv r t) as [s|s| |s m e Bd]; try discriminate.
    + cbn in B3. subst s. reflexivity.
    + exfalso. rewrite val_finite in Vz. unfold value2 in Vz.
      pose proof (bpow_gt_0 radix2 e). assert (0 < IZR (Z.pos m)) by (apply IZR_lt; lia).
      destruct s; nra.
  - (* a non-zero decimal *)
    set (w := IZR (Z.abs k) / p10 nd).
    assert (Kp : (1 <= Z.abs k <= 999999)%Z) by lia.
    assert (Wp : p10 (-9) <= w).
    { unfold w. apply Rmult_le_reg_r with (p10 nd); auto. unfold Rdiv.
      rewrite Rmult_assoc, Rinv_l, Rmult_1_r by lra. rewrite <- bpow_plus.
      apply Rle_trans with 1; [|apply IZR_le; lia]. change 1 with (p10 0). apply bpow_le. lia. }
    assert (Wpos : 0 < w) by (pose proof (p10_pos (-9)); lra).
    (* relative error of the division *)
    assert (Er : Rabs (fl w - w) <= / 9007199254740992 * w).
    { unfold fl.
      pose proof (relative_error_N_FLT radix2 (-1074) 53 prec53 (fun z => negb (Z.even z)) w) as Re.
      rewrite (Rabs_pos_eq w) in Re by lra.
      replace (/ 9007199254740992) with (/ 2 * bpow radix2 (-53 + 1)).
      - apply Re. apply Rle_trans with (p10 (-9)); [|exact Wp].
        apply Rle_trans with (bpow radix2 (-30)); [apply bpow_le; lia|].
        change (/ IZR (Z.pow_pos 2 30) <= / IZR (Z.pow_pos 10 9)).
        apply Rinv_le; [apply IZR_lt; reflexivity|]. apply IZR_le. cbn. lia.
      - change (/ 2 * / 4503599627370496 = / 9007199254740992). rewrite <- Rinv_mult. f_equal. }
    assert (Ab : Rabs (val (ddiv r t)) = fl w /\ (val (ddiv r t) < 0 <-> (k < 0)%Z)).
    { assert (Fw : 0 < fl w). { apply Rabs_le_inv in Er. nra. }
      rewrite B1. unfold w in *. destruct (Z.lt_ge_cases k 0) as [Neg|Pos].
      - rewrite Z.abs_neq in * by lia. rewrite opp_IZR in *.
        replace (- IZR k / p10 nd) with (- (IZR k / p10 nd)) in * by (field; lra).
        rewrite fl_opp in *. rewrite Rabs_left by lra. split; auto. split; intros; [lia|lra].
      - rewrite Z.abs_eq in * by lia. rewrite Rabs_pos_eq by lra. split; auto.
        split; intros; [lra|lia]. }
    destruct Ab as [Ab Sg].
    destruct (ddiv r t) as [s|s| |s m e Bd]; try discriminate.
    { exfalso. cbn in Ab. rewrite Rabs_R0 in Ab. apply Rabs_le_inv in Er. nra. }
    rewrite val_finite in Ab, Sg.
    assert (Vp : 0 < value2 m e).
    { unfold value2. apply Rmult_lt_0_compat; [apply IZR_lt; lia|apply bpow_gt_0]. }
    assert (Vw : value2 m e = fl w).
    { rewrite <- Ab. destruct s.
      - replace (-1 * value2 m e) with (- value2 m e) by ring. rewrite Rabs_Ropp, Rabs_pos_eq; lra.
      - rewrite Rmult_1_l, Rabs_pos_eq; lra. }
    assert (Sk : s = (k <? 0)%Z).
    { destruct s; destruct (Z.ltb_spec k 0) as [N|N]; auto; exfalso.
      - assert (k < 0)%Z by (apply Sg; lra). lia.
      - apply Sg in N. lra. }
    cbn [print_double]. unfold text. destruct (canon (Z.abs k) nd) as [d X] eqn:C.
    destruct (canon_ok _ _ _ _ Kp C) as [D V]. fold w in V.
    assert (E6 : six_digits m e = (d, X)).
    { apply six_digits_close; auto.
      - rewrite Vw. apply Rabs_le_inv in Er. apply Rle_trans with (p10 (-15)); [apply p10_400|].
        apply Rle_trans with (p10 (-9) * / 2); [|nra].
        change (/ IZR (Z.pow_pos 10 15) <= / IZR (Z.pow_pos 10 9) * / 2).
        rewrite <- Rinv_mult. apply Rinv_le; [apply Rmult_lt_0_compat; [apply IZR_lt; reflexivity|lra]|].
        rewrite <- mult_IZR. apply IZR_le. vm_compute. discriminate.
      - rewrite Vw, <- V, <- Rmult_minus_distr_r, Rabs_mult, (Rabs_pos_eq (p10 (5 - X))) by (left; apply p10_pos).
        apply Rle_lt_trans with (/ 9007199254740992 * w * p10 (5 - X)).
        + apply Rmult_le_compat_r; [left; apply p10_pos|exact Er].
        + rewrite Rmult_assoc, V. assert (IZR d <= 1000000) by (apply IZR_le; lia). lra. }
    rewrite E6, Sk. reflexivity.
Qed.

(** ** When two labels agree *)
Lemma text_no_minus k nd t : (1 <= k <= 999999)%Z -> text k nd <> "-"%char :: t.
Proof.
  intros Hj. unfold text. destruct (canon k nd) as [d X] eqn:C. apply format_no_minus.
  apply (canon_ok k nd d X Hj C).
Qed.

Lemma minus_text_inj a b k k' nd : (1 <= k <= 999999)%Z -> (1 <= k' <= 999999)%Z ->
  minus a ++ text k nd = minus b ++ text k' nd -> a = b /\ k = k'.
Proof.
  intros H H' E.
  pose proof (fun k t => text_no_minus k nd t) as Nm.
  destruct a, b; cbn [minus app list_ascii_of_string] in E.
  - injection E as E. split; auto. apply (text_inj k k' nd H H' E).
  - exfalso. symmetry in E. apply Nm in E; auto.
  - exfalso. apply Nm in E; auto.
  - split; auto. apply (text_inj k k' nd H H' E).
Qed.

(** The text of a non-zero number is not "0". *)
Lemma text_not_zero k nd : (1 <= k <= 999999)%Z -> text k nd <> $"0".
Proof.
  intros H E. unfold text in E. destruct (canon k nd) as [d X] eqn:C.
  destruct (canon_ok k nd d X H C) as [D _].
  rewrite format_parts in E. destruct (parts d X) as [[ip fp] sx] eqn:P.
  destruct (parts_ok _ _ _ _ _ P) as (A1 & A2 & A3).
  assert (E' : with_point ip fp ++ sx = with_point $"0" [] ++ []) by exact E.
  apply with_point_inj in E' as (E1 & E2 & E3); auto; try (left; reflexivity); try (now repeat constructor).
  destruct (digit_string_lead d D) as (j & t & Hj & Ds).
  unfold parts in P. destruct ((X <? -4) || (6 <=? X))%Z.
  - apply pair3 in P as (<- & _ & _). rewrite Ds in E1. cbn [firstn] in E1.
    apply (f_equal (hd "e"%char)) in E1. cbn [hd] in E1. change (digit j = digit 0) in E1.
    apply digit_inj in E1; lia.
  - destruct (Z.leb_spec 0 X).
    + apply pair3 in P as (<- & _ & _). rewrite Ds in E1.
      replace (Z.to_nat (X + 1)) with (S (Z.to_nat X)) in E1 by lia. cbn [firstn] in E1.
      apply (f_equal (hd "e"%char)) in E1. cbn [hd] in E1. change (digit j = digit 0) in E1.
      apply digit_inj in E1; lia.
    + apply pair3 in P as (_ & <- & _). rewrite Ds in E2.
      destruct (strip0_lead j t Hj) as (u & U). rewrite strip0_zeros, U in E2 by (rewrite U; discriminate).
      destruct (Z.to_nat (- X - 1)); discriminate.
Qed.

Theorem label_eq nd x y : (0 <= nd <= 9)%Z -> moderate nd x -> moderate nd y ->
  (label nd x = label nd y <->
   units nd x = units nd y /\ (units nd x = 0%Z -> Bsign x = Bsign y)).
Proof.
  intros H Mx My. rewrite (label_text nd x), (label_text nd y) by auto.
  destruct (scaled_ok nd x H Mx) as (_ & _ & _ & Kx). destruct (scaled_ok nd y H My) as (_ & _ & _ & Ky).
  set (k := units nd x) in *. set (k' := units nd y) in *.
  assert (Z1 : forall a b j, (1 <= j <= 999999)%Z -> minus a ++ $"0" <> minus b ++ text j nd).
  { intros a b j Hj E. destruct a, b; cbn [minus app list_ascii_of_string] in E.
    - injection E as E. symmetry in E. apply text_not_zero in E; auto.
    - symmetry in E. apply text_no_minus in E; auto.
    - discriminate.
    - symmetry in E. apply text_not_zero in E; auto. }
  destruct (Z.eqb_spec k 0) as [E0|E0], (Z.eqb_spec k' 0) as [E1|E1].
  - split.
    + intros E. split; [congruence|]. intros _. destruct (Bsign x), (Bsign y); auto; discriminate.
    + intros [_ E]. rewrite (E E0). reflexivity.
  - split; [|intros [E _]; congruence]. intros E. exfalso. eapply Z1; [|exact E]. lia.
  - split; [|intros [E _]; congruence]. intros E. exfalso. eapply Z1; [|symmetry; exact E]. lia.
  - split.
    + intros E. apply minus_text_inj in E as [Es Ek]; try lia.
    + intros [E _]. rewrite E. reflexivity.
Qed.
