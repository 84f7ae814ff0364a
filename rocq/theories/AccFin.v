(** * No overflow: bounds of computed doubles *)
From Coq Require Import Reals Psatz.
From Flocq Require Import Core IEEE754.BinarySingleNaN.
From Verif Require Export RoundFacts.
Local Open Scope R_scope.
Local Instance prec53f : Prec_gt_0 53 := p53.
Local Instance vfxf : Valid_exp fx := FLT_exp_valid (-1074) 53.

(** finite and at most k * 2^e *)
Definition ok (k e : Z) (c : double) : Prop := is_finite c = true /\ Rabs (B2R c) <= IZR k * bpow radix2 e.

Lemma fl_abs_le x k e : (0 <= k < 2 ^ 53)%Z -> (-1074 <= e)%Z -> Rabs x <= IZR k * bpow radix2 e -> Rabs (fl x) <= IZR k * bpow radix2 e.
Proof.
  intros Hk He H. assert (G : fl (IZR k * bpow radix2 e) = IZR k * bpow radix2 e) by (apply round_generic; [typeclasses eauto|apply format_F2R; lia]).
  apply Rabs_le_inv in H. apply Rabs_le. rewrite <- G. split; [rewrite <- fl_opp|]; apply fl_le; lra.
Qed.
Lemma fl_small x k e : (0 <= k < 2 ^ 53)%Z -> (-1074 <= e <= 960)%Z -> Rabs x <= IZR k * bpow radix2 e -> Rabs (fl x) < bpow radix2 1024.
Proof.
  intros Hk He H. apply Rle_lt_trans with (1 := fl_abs_le x k e Hk ltac:(lia) H). apply Rle_lt_trans with (bpow radix2 53 * bpow radix2 e).
  - apply Rmult_le_compat_r; [apply bpow_ge_0|]. rewrite <- IZR_Zpower by lia. apply IZR_le. change (Z.pow_pos radix2 53) with (2 ^ 53)%Z. change (radix2 ^ 53)%Z with (2 ^ 53)%Z. lia.
  - rewrite <- bpow_plus. apply bpow_lt. lia.
Qed.
Lemma ok_mono k e k' e' c : (0 <= k <= k')%Z -> (e <= e')%Z -> ok k e c -> ok k' e' c.
Proof.
  intros Hk He [F H]. split; [auto|]. apply Rle_trans with (1 := H). apply Rmult_le_compat; [apply IZR_le; lia|apply bpow_ge_0|apply IZR_le; lia|apply bpow_le; lia].
Qed.
(** k * 2^e is at most 2^(e+j) *)
Lemma ok_pow k e j c : (0 <= j)%Z -> (k <= 2 ^ j)%Z -> ok k e c -> ok 1 (e + j) c.
Proof.
  intros Hj Hk [F H]. split; [auto|]. apply Rle_trans with (1 := H). rewrite Rmult_1_l, Z.add_comm, bpow_plus. apply Rmult_le_compat_r; [apply bpow_ge_0|].
  rewrite <- IZR_Zpower by lia. apply IZR_le. exact Hk.
Qed.
Lemma dmul_ok e1 e2 c d : (-1074 <= e1 + e2 <= 960)%Z -> ok 1 e1 c -> ok 1 e2 d -> ok 1 (e1 + e2) (dmul c d).
Proof.
  intros He [Fc Hc] [Fd Hd]. rewrite Rmult_1_l in Hc, Hd.
  assert (B : Rabs (B2R c * B2R d) <= IZR 1 * bpow radix2 (e1 + e2)). { rewrite Rmult_1_l, bpow_plus, Rabs_mult. apply Rmult_le_compat; auto using Rabs_pos. }
  pose proof (Bmult_correct 53 1024 p53 p53e mode_NE c d) as C. fold (dmul c d) in C. change (round_mode mode_NE) with ZnearestE in C. change (SpecFloat.fexp 53 1024) with fx in C.
  fold (fl (B2R c * B2R d)) in C. rewrite Rlt_bool_true in C by (eapply fl_small; [| |exact B]; lia). destruct C as (C1 & C2 & _). rewrite Fc, Fd in C2.
  split; [exact C2|]. rewrite C1. apply fl_abs_le; [lia|lia|exact B].
Qed.
Lemma dadd_ok k1 k2 e c d : (0 <= k1)%Z -> (0 <= k2)%Z -> (k1 + k2 < 2 ^ 53)%Z -> (-1074 <= e <= 960)%Z -> ok k1 e c -> ok k2 e d -> ok (k1 + k2) e (dadd c d).
Proof.
  intros K1 K2 Hk He [Fc Hc] [Fd Hd].
  assert (B : Rabs (B2R c + B2R d) <= IZR (k1 + k2) * bpow radix2 e). { rewrite plus_IZR, Rmult_plus_distr_r. apply Rle_trans with (1 := Rabs_triang _ _). lra. }
  pose proof (Bplus_correct 53 1024 p53 p53e mode_NE c d Fc Fd) as C. change (round_mode mode_NE) with ZnearestE in C. change (SpecFloat.fexp 53 1024) with fx in C.
  fold (fl (B2R c + B2R d)) in C. rewrite Rlt_bool_true in C by (eapply fl_small; [| |exact B]; lia). destruct C as (C1 & C2 & _).
  split; [exact C2|]. unfold dadd. rewrite C1. apply fl_abs_le; [lia|lia|exact B].
Qed.
Lemma dsub_ok k1 k2 e c d : (0 <= k1)%Z -> (0 <= k2)%Z -> (k1 + k2 < 2 ^ 53)%Z -> (-1074 <= e <= 960)%Z -> ok k1 e c -> ok k2 e d -> ok (k1 + k2) e (dsub c d).
Proof.
  intros K1 K2 Hk He [Fc Hc] [Fd Hd].
  assert (B : Rabs (B2R c - B2R d) <= IZR (k1 + k2) * bpow radix2 e). { rewrite plus_IZR, Rmult_plus_distr_r. unfold Rminus. apply Rle_trans with (1 := Rabs_triang _ _). rewrite Rabs_Ropp. lra. }
  pose proof (Bminus_correct 53 1024 p53 p53e mode_NE c d Fc Fd) as C. change (round_mode mode_NE) with ZnearestE in C. change (SpecFloat.fexp 53 1024) with fx in C.
  fold (fl (B2R c - B2R d)) in C. rewrite Rlt_bool_true in C by (eapply fl_small; [| |exact B]; lia). destruct C as (C1 & C2 & _).
  split; [exact C2|]. unfold dsub. rewrite C1. apply fl_abs_le; [lia|lia|exact B].
Qed.
Lemma ddiv_ok e1 e2 c d : (-1074 <= e1 + e2 <= 960)%Z -> ok 1 e1 c -> bpow radix2 (- e2) <= Rabs (B2R d) -> ok 1 (e1 + e2) (ddiv c d).
Proof.
  intros He [Fc Hc] Hd. rewrite Rmult_1_l in Hc. pose proof (bpow_gt_0 radix2 (- e2)) as P.
  assert (Nd : B2R d <> 0) by (intros E; rewrite E, Rabs_R0 in Hd; lra).
  assert (B : Rabs (B2R c / B2R d) <= IZR 1 * bpow radix2 (e1 + e2)).
  { rewrite Rmult_1_l, bpow_plus. unfold Rdiv. rewrite Rabs_mult, Rabs_inv. apply Rmult_le_compat; [apply Rabs_pos| |exact Hc|].
    - left. apply Rinv_0_lt_compat. lra.
    - replace e2 with (- - e2)%Z by lia. rewrite (bpow_opp radix2 (- e2)). apply Rinv_le; auto. }
  pose proof (Bdiv_correct 53 1024 p53 p53e mode_NE c d Nd) as C. fold (ddiv c d) in C. change (round_mode mode_NE) with ZnearestE in C. change (SpecFloat.fexp 53 1024) with fx in C.
  fold (fl (B2R c / B2R d)) in C. rewrite Rlt_bool_true in C by (eapply fl_small; [| |exact B]; lia). destruct C as (C1 & C2 & _). rewrite Fc in C2.
  split; [exact C2|]. rewrite C1. apply fl_abs_le; [lia|lia|exact B].
Qed.
Lemma zero_ok e : ok 0 e (B754_zero false).
Proof. split; [reflexivity|]. cbn [B2R]. rewrite Rabs_R0, Rmult_0_l. lra. Qed.
Lemma zero_ok1 e : ok 1 e (B754_zero false).
Proof. apply ok_mono with 0%Z e; [lia|lia|apply zero_ok]. Qed.
Lemma int_ok n e k : (Z.abs n < 2 ^ 53)%Z -> (Z.abs n <= k)%Z -> (0 <= e)%Z -> ok k e (dofint n).
Proof.
  intros H Hk He. destruct (dofint_small n H) as [E F]. split; [exact F|]. rewrite E, <- abs_IZR.
  apply Rle_trans with (IZR k); [apply IZR_le; auto|]. rewrite <- (Rmult_1_r (IZR k)) at 1. apply Rmult_le_compat_l; [apply IZR_le; lia|]. change 1 with (bpow radix2 0). apply bpow_le. auto.
Qed.

(** the denominator 1 - x is not small unless it is zero *)
Lemma one_minus (c : double) : B2R (dsub (dofint 1) c) <> 0 -> is_finite (dsub (dofint 1) c) = true -> bpow radix2 (-54) <= Rabs (B2R (dsub (dofint 1) c)).
Proof.
  intros N F. destruct (dsub_spec _ _ F) as (_ & Fc & E). destruct (dofint_small 1 ltac:(lia)) as [E1 _]. rewrite E1 in E. rewrite E in N |- *. set (x := B2R c) in *.
  destruct (Rlt_or_le (Rabs (1 - x)) (bpow radix2 (-54))) as [L|L].
  - exfalso. apply N. replace (1 - x) with 0; [apply round_0; typeclasses eauto|].
    assert (L1 : bpow radix2 (-54) <= / 4) by (change (/ 4) with (bpow radix2 (-2)); apply bpow_le; lia).
    assert (X : / 2 <= Rabs x). { apply Rabs_def2 in L. rewrite Rabs_pos_eq; lra. }
    pose proof (generic_format_B2R 53 1024 c) as G. fold x in G. change (SpecFloat.fexp 53 1024) with fx in G. unfold generic_format, F2R in G. cbn [Fnum Fexp] in G.
    assert (M : (-53 <= cexp radix2 fx x)%Z).
    { unfold cexp, FLT_exp. assert (-1 < mag radix2 x)%Z by (apply mag_gt_bpow; exact X). lia. }
    set (m := Ztrunc (scaled_mantissa radix2 fx x)) in *. set (ee := cexp radix2 fx x) in *.
    assert (Q : 1 - x = IZR (2 ^ 53 - m * 2 ^ (ee + 53)) * bpow radix2 (-53)).
    { rewrite minus_IZR, mult_IZR, Rmult_minus_distr_r. f_equal.
      - change (IZR (2 ^ 53)) with (bpow radix2 53). rewrite <- bpow_plus. reflexivity.
      - rewrite G, Rmult_assoc. f_equal. change 2%Z with (radix_val radix2) at 1. rewrite IZR_Zpower by lia. rewrite <- bpow_plus. f_equal. lia. }
    set (z := (2 ^ 53 - m * 2 ^ (ee + 53))%Z) in *.
    assert (z = 0)%Z as Z0.
    { assert (Rabs (IZR z) < 1). { rewrite Q, Rabs_mult, (Rabs_pos_eq (bpow _ _)) in L by apply bpow_ge_0.
        apply Rmult_lt_reg_r with (bpow radix2 (-53)); [apply bpow_gt_0|]. apply Rlt_trans with (1 := L). rewrite Rmult_1_l. apply bpow_lt. lia. }
      rewrite <- abs_IZR in H. apply lt_IZR in H. lia. }
    rewrite Q, Z0. ring.
  - assert (B : fl (bpow radix2 (-54)) = bpow radix2 (-54)) by (apply round_generic; [typeclasses eauto|]; apply generic_format_bpow; cbn; lia).
    destruct (Rle_or_lt 0 (1 - x)) as [P|P].
    + rewrite (Rabs_pos_eq (1 - x)) in L by auto. apply fl_le in L. rewrite B in L. apply Rle_trans with (1 := L). apply Rle_abs.
    + rewrite (Rabs_left (1 - x)) in L by auto. apply fl_le in L. rewrite B, fl_opp in L. apply Rle_trans with (1 := L). rewrite <- Rabs_Ropp. apply Rle_abs.
Qed.

(** ** sums *)
Lemma accum_ok p n e1 e2 (c d : Z -> double) : (Z.of_nat n <= 2 ^ 31)%Z -> (-1074 <= e1 + e2 <= 900)%Z ->
  (forall i, ok 1 e1 (c i)) -> (forall i, ok 1 e2 (d i)) -> ok 1 (e1 + e2 + 31) (accum (binary64 p) n c d).
Proof.
  intros Hn He Hc Hd. apply ok_pow with (Z.of_nat n); [lia|lia|]. revert Hn. induction n as [|n IH]; intros Hn; [exact (zero_ok _)|].
  cbn [accum]. replace (Z.of_nat (S n)) with (Z.of_nat n + 1)%Z at 1 by lia. apply dadd_ok; [lia|lia|lia|lia|apply IH; lia|]. apply dmul_ok; [lia|auto|auto].
Qed.
Section Bounds.
Context (p : double -> double).
Let D := binary64 p.
Lemma projection_ok n (S P : Z -> Z -> double) z k : (Z.of_nat n <= 2 ^ 31)%Z -> (forall i j, ok 1 31 (S i j)) -> (forall i j, ok 1 31 (P i j)) -> (forall i, ok 1 31 (z i)) ->
  ok 1 155 (projection D n S P z k).
Proof.
  intros Hn HS HP Hz. unfold projection. change 155%Z with (31 + (31 + 31 + 31) + 31)%Z. apply accum_ok; auto; [lia|]. intros i. apply accum_ok; auto. lia.
Qed.
Lemma weighted_ok K e g i : (Z.of_nat K <= 2 ^ 31)%Z -> (forall k, ok 1 31 (e k)) -> (forall k, ok 1 155 (g k)) -> ok 1 217 (weighted D K e g i).
Proof.
  intros HK He Hg. unfold weighted. change 217%Z with (31 + 155 + 31)%Z. apply accum_ok; auto; [lia|]. intros k. destruct (i =? k)%Z; [auto|apply zero_ok1].
Qed.
Lemma quad_ok K e g h : (Z.of_nat K <= 2 ^ 31)%Z -> (forall k, ok 1 31 (e k)) -> (forall k, ok 1 155 (g k)) -> (forall k, ok 1 155 (h k)) -> ok 1 403 (accum D K g (weighted D K e h)).
Proof. intros HK He Hg Hh. change 403%Z with (155 + 217 + 31)%Z. apply accum_ok; auto; [lia|]. intros k. apply weighted_ok; auto. Qed.
Lemma over_ok K g h : (Z.of_nat K <= 2 ^ 31)%Z -> (forall k, ok 1 155 (g k)) -> (forall k, ok 1 155 (h k)) -> ok 1 341 (accum D K g h).
Proof. intros HK Hg Hh. change 341%Z with (155 + 155 + 31)%Z. apply accum_ok; auto; lia. Qed.
Lemma half_ok : ok 1 0 (ddiv (dofint 1) (dofint 2)).
Proof.
  change 0%Z with (0 + 0)%Z. apply ddiv_ok; [lia|apply int_ok; lia|]. destruct (dofint_small 2 ltac:(lia)) as [E _]. rewrite E. change (bpow radix2 (- 0)) with 1. rewrite Rabs_pos_eq; lra.
Qed.
Lemma num_ok K e gA gB : (Z.of_nat K <= 2 ^ 31)%Z -> (forall k, ok 1 31 (e k)) -> (forall k, ok 1 155 (gA k)) -> (forall k, ok 1 155 (gB k)) -> ok 1 746 (J_num D K e gA gB).
Proof.
  intros HK He Ha Hb. unfold J_num. apply (ok_pow 2 745 1); [lia|lia|]. change 2%Z with (1 + 1)%Z at 1. apply dsub_ok; try lia.
  - apply ok_mono with 1%Z 403%Z; [lia|lia|]. apply quad_ok; auto.
  - change 745%Z with ((0 + 404) + 341)%Z. apply dmul_ok; [lia| |apply over_ok; auto]. apply dmul_ok; [lia|exact half_ok|].
    apply (ok_pow 2 403 1); [lia|lia|]. change 2%Z with (1 + 1)%Z at 1. apply dadd_ok; try lia; apply quad_ok; auto.
Qed.
End Bounds.
