(** * How far apart two numbers with the same rounded product can be *)
From Coq Require Import Reals Psatz Znumtheory.
From Flocq Require Import Core Relative IEEE754.BinarySingleNaN.
From Verif Require Export FloatRound.

Local Open Scope R_scope.
Local Instance prec53' : Prec_gt_0 53 := p53.
Local Instance vfx' : Valid_exp fx := FLT_exp_valid (-1074) 53.
Local Instance mfx' : Monotone_exp fx := FLT_exp_monotone (-1074) 53.

Lemma fl_err z : Rabs z <= 1048576 -> Rabs (fl z - z) <= / 8589934592.
Proof.
  intros H. unfold fl. eapply Rle_trans; [apply error_le_half_ulp; typeclasses eauto|].
  apply Rle_trans with (/ 2 * ulp radix2 fx (bpow radix2 20)).
  - apply Rmult_le_compat_l; [lra|]. apply ulp_le; [typeclasses eauto|typeclasses eauto|].
    rewrite (Rabs_pos_eq (bpow radix2 20)) by (apply bpow_ge_0).
    change (bpow radix2 20) with 1048576. exact H.
  - rewrite ulp_bpow. change (fx (20 + 1))%Z with (-32)%Z.
    change (/ 2 * / 4294967296 <= / 8589934592). lra.
Qed.

(** Near k units the rounded product is k. *)
Lemma units_near nd x k : Rabs (val x * p10 nd) <= 1048576 ->
  Rabs (val x * p10 nd - IZR k) <= / 2 - / 1000000000 -> units nd x = k.
Proof.
  intros M H. unfold units. apply Znearest_imp.
  pose proof (fl_err _ M) as E. set (z := val x * p10 nd) in *.
  replace (fl z - IZR k) with ((fl z - z) + (z - IZR k)) by ring.
  eapply Rle_lt_trans; [apply Rabs_triang|]. lra.
Qed.

(** ** std::round *)
Lemma nearA_pos P : (0 <= ZnearestA P)%Z -> P < IZR (ZnearestA P) + / 2.
Proof.
  intros H. pose proof (Znearest_half (Z.leb 0) P) as A. apply Rabs_le_inv in A.
  destruct (Req_dec P (IZR (ZnearestA P) + / 2)) as [E|E]; [|lra]. exfalso.
  revert H E A. unfold Znearest.
  pose proof (Zfloor_lb P) as L. pose proof (Zfloor_ub P) as U.
  destruct (Rcompare_spec (P - IZR (Zfloor P)) (/ 2)) as [C|C|C].
  - intros; lra.
  - destruct (Z.leb_spec 0 (Zfloor P)) as [Hf|Hf].
    + intros _ E _. assert (K : Zceil P = (Zfloor P + 1)%Z).
      { apply Zceil_floor_neq. intros E'. rewrite E' in C. lra. }
      rewrite K, plus_IZR in E. lra.
    + intros H _ _. lia.
  - intros _ E A. assert (K : Zceil P = (Zfloor P + 1)%Z).
    { apply Zceil_floor_neq. intros E'. rewrite E' in C. lra. }
    rewrite K, plus_IZR in E. lra.
Qed.

Lemma nearA_opp P : ZnearestA (- P) = (- ZnearestA P)%Z.
Proof.
  apply eq_IZR. rewrite opp_IZR, !nearA_int. apply round_NA_opp.
Qed.

Lemma nearA_neg P : (ZnearestA P <= 0)%Z -> IZR (ZnearestA P) - / 2 < P.
Proof.
  intros H. pose proof (nearA_pos (- P)) as N. rewrite nearA_opp, opp_IZR in N.
  specialize (N ltac:(lia)). lra.
Qed.

Lemma nearA_near P Q : ZnearestA P = ZnearestA Q -> P - Q < 1.
Proof.
  intros E. pose proof (Znearest_half (Z.leb 0) P) as A. apply Rabs_le_inv in A.
  pose proof (Znearest_half (Z.leb 0) Q) as B. apply Rabs_le_inv in B.
  destruct (Z.le_ge_cases 0 (ZnearestA P)) as [H|H].
  - pose proof (nearA_pos P H). rewrite <- E in B. lra.
  - rewrite E in H. pose proof (nearA_neg Q H). rewrite E in A. lra.
Qed.

(** ** The rounding of the product *)
Lemma format_sub1 w : generic_format radix2 fx w -> 1 <= w <= 9007199254740991 ->
  generic_format radix2 fx (w - 1).
Proof.
  intros F W. apply FLT_format_generic in F; [|typeclasses eauto].
  destruct F as [[m e] F1 F2 F3]. cbn [Fnum Fexp] in F2, F3. unfold F2R in F1. cbn [Fnum Fexp] in F1.
  change (Z.abs m < 2 ^ 53)%Z in F2.
  destruct (Z.le_gt_cases e 0) as [He|He].
  - replace (w - 1) with (IZR (m - 2 ^ (- e)) * bpow radix2 e).
    + apply format_F2R; [|exact F3].
      assert (P : (0 < 2 ^ (- e))%Z) by (apply Z.pow_pos_nonneg; lia).
      assert (Q : (2 ^ (- e) <= m)%Z).
      { apply le_IZR. change 2%Z with (radix_val radix2). rewrite (IZR_Zpower radix2) by lia.
        apply Rmult_le_reg_r with (bpow radix2 e); [apply bpow_gt_0|].
        rewrite <- bpow_plus. replace (- e + e)%Z with 0%Z by lia. change (bpow radix2 0) with 1.
        rewrite <- F1. lra. }
      lia.
    + rewrite minus_IZR. change 2%Z with (radix_val radix2). rewrite (IZR_Zpower radix2) by lia.
      rewrite Rmult_minus_distr_r, <- bpow_plus. replace (- e + e)%Z with 0%Z by lia.
      change (bpow radix2 0) with 1. rewrite F1. reflexivity.
  - assert (P : (0 < 2 ^ e)%Z) by (apply Z.pow_pos_nonneg; lia).
    assert (Ew : w = IZR (m * 2 ^ e)).
    { rewrite mult_IZR. change 2%Z with (radix_val radix2). rewrite (IZR_Zpower radix2) by lia. exact F1. }
    rewrite Ew in W |- *. destruct W as [W1 W2]. apply le_IZR in W1, W2.
    replace (IZR (m * 2 ^ e) - 1) with (IZR (m * 2 ^ e - 1)) by (rewrite minus_IZR; reflexivity).
    apply format_int. lia.
Qed.

Lemma gap_pos N z1 z2 : (1 <= N <= 1000000)%Z ->
  IZR N - / 2 <= fl z2 -> fl z1 < IZR N + / 2 -> z1 - z2 <= 1.
Proof.
  intros HN L H. set (l := IZR N - / 2) in *. set (h := IZR N + / 2) in *.
  assert (N1 : 1 <= IZR N <= 1000000) by (split; apply IZR_le; lia).
  assert (Fl : generic_format radix2 fx l).
  { replace l with (IZR (2 * N - 1) / 2) by (unfold l; rewrite minus_IZR, mult_IZR; field).
    apply format_half. lia. }
  assert (Fh : generic_format radix2 fx h).
  { replace h with (IZR (2 * N + 1) / 2) by (unfold h; rewrite plus_IZR, mult_IZR; field).
    apply format_half. lia. }
  assert (F1 : generic_format radix2 fx 1) by (apply (format_int 1); lia).
  assert (Fz : generic_format radix2 fx (fl z1)) by (apply generic_format_round; typeclasses eauto).
  apply round_N_ge_ge_midp in L; [|typeclasses eauto|exact Fl].
  assert (P1 : fl z1 <= pred radix2 fx h) by (apply pred_ge_gt; auto; typeclasses eauto).
  apply round_N_le_le_midp in P1; [|typeclasses eauto|apply generic_format_pred; [typeclasses eauto|exact Fh]].
  rewrite succ_pred in P1; [|typeclasses eauto|exact Fh].
  assert (P2 : 1 <= pred radix2 fx h).
  { apply pred_ge_gt; auto; try typeclasses eauto. unfold h. lra. }
  assert (P3 : pred radix2 fx h < h) by (apply pred_lt_id; unfold h; lra).
  assert (Eh : h = l + 1) by (unfold h, l; lra).
  assert (Hh : h <= 1000001) by (unfold h; lra).
  assert (P4 : pred radix2 fx h - 1 <= pred radix2 fx l).
  { apply pred_ge_gt; [typeclasses eauto| |exact Fl|rewrite Eh in P3 at 2; lra].
    apply format_sub1; [apply generic_format_pred; [typeclasses eauto|exact Fh]|].
    lra. }
  lra.
Qed.

Lemma fl_half_lt z : fl z < / 2 -> z < / 2.
Proof.
  intros H. destruct (Rlt_or_le z (/ 2)) as [|C]; auto. exfalso.
  assert (F : fl (IZR 1 / 2) = IZR 1 / 2) by (apply round_generic; [typeclasses eauto|apply format_half; lia]).
  assert (IZR 1 / 2 <= fl z); [|lra]. rewrite <- F. apply fl_le. lra.
Qed.

Lemma gap z1 z2 : Rabs z1 <= 999999 -> Rabs z2 <= 999999 ->
  ZnearestA (fl z1) = ZnearestA (fl z2) -> z1 - z2 <= 1.
Proof.
  intros B1 B2 E.
  assert (C1 : (Z.abs (ZnearestA (fl z1)) <= 999999)%Z) by (apply nearA_bound; apply (fl_bound _ 999999); [lia|exact B1]).
  destruct (Z.lt_trichotomy (ZnearestA (fl z1)) 0) as [Neg|[Zero|Pos]].
  - (* mirror image *)
    assert (G : (- z2) - (- z1) <= 1); [|lra].
    apply (gap_pos (- ZnearestA (fl z1))); [lia| |].
    + rewrite fl_opp, opp_IZR. pose proof (Znearest_half (Z.leb 0) (fl z1)) as A.
      apply Rabs_le_inv in A. lra.
    + rewrite fl_opp, opp_IZR, E. rewrite E in Neg. pose proof (nearA_neg (fl z2) ltac:(lia)). lra.
  - pose proof (nearA_pos (fl z1) ltac:(lia)) as P. rewrite Zero in P.
    pose proof (nearA_neg (fl z2) ltac:(lia)) as Q. rewrite <- E, Zero in Q.
    assert (z1 < / 2) by (apply fl_half_lt; lra).
    assert (- z2 < / 2) by (apply fl_half_lt; rewrite fl_opp; lra). lra.
  - apply (gap_pos (ZnearestA (fl z1))); [lia| |].
    + rewrite E. pose proof (Znearest_half (Z.leb 0) (fl z2)) as A. apply Rabs_le_inv in A. lra.
    + apply nearA_pos. lia.
Qed.

(** ** Doubles are dyadic *)
Lemma val_dyadic (x : double) : exists a : Z, val x = IZR a * bpow radix2 (-1074).
Proof.
  pose proof (generic_format_B2R 53 1024 x) as F. change (SpecFloat.fexp 53 1024) with fx in F.
  apply FLT_format_generic in F; [|typeclasses eauto]. destruct F as [[m e] F1 F2 F3].
  cbn [Fnum Fexp] in F2, F3. unfold F2R in F1. cbn [Fnum Fexp] in F1.
  exists (m * 2 ^ (e + 1074))%Z. rewrite F1, mult_IZR. change 2%Z with (radix_val radix2).
  rewrite (IZR_Zpower radix2) by lia. rewrite Rmult_assoc, <- bpow_plus. f_equal. f_equal. lia.
Qed.

Lemma no_unit_gap nd (x y : double) : (1 <= nd)%Z -> val x * p10 nd - val y * p10 nd <> 1.
Proof.
  intros H E. destruct (val_dyadic x) as [a A]. destruct (val_dyadic y) as [b B].
  rewrite A, B in E. rewrite <- p10_Z in E by lia.
  assert (K : IZR ((a - b) * 10 ^ nd) = IZR (2 ^ 1074)).
  { change (2 ^ 1074)%Z with (radix2 ^ 1074)%Z. rewrite (IZR_Zpower radix2) by lia.
    rewrite mult_IZR, minus_IZR.
    replace (bpow radix2 1074) with (bpow radix2 1074 * 1) by ring. rewrite <- E.
    assert (bpow radix2 1074 * bpow radix2 (-1074) = 1) by (rewrite <- bpow_plus; reflexivity).
    set (u := bpow radix2 1074) in *. set (v := bpow radix2 (-1074)) in *.
    replace (u * (IZR a * v * IZR (10 ^ nd) - IZR b * v * IZR (10 ^ nd)))
      with ((u * v) * ((IZR a - IZR b) * IZR (10 ^ nd))) by ring. rewrite H0. ring. }
  apply eq_IZR in K. replace nd with (1 + (nd - 1))%Z in K by lia.
  rewrite Z.pow_add_r, Z.pow_1_r in K by lia.
  assert (Q : (5 | 2 ^ 1074)%Z).
  { exists ((a - b) * 2 * 10 ^ (nd - 1))%Z. rewrite <- K. ring. }
  apply Z.mod_divide in Q; [|lia]. vm_compute in Q. discriminate.
Qed.

Lemma fl_val (x : double) : fl (val x) = val x.
Proof.
  apply round_generic; [typeclasses eauto|].
  pose proof (generic_format_B2R 53 1024 x) as F. exact F.
Qed.

(** Same units: less than one unit apart. *)
Lemma units_apart nd x y : (0 <= nd)%Z -> moderate nd x -> moderate nd y ->
  units nd x = units nd y -> Rabs (val x - val y) * p10 nd < 1.
Proof.
  intros H [_ Mx] [_ My] E.
  assert (W : forall a b : double, Rabs (val a * p10 nd) <= 999999 -> Rabs (val b * p10 nd) <= 999999 ->
    units nd a = units nd b -> val a * p10 nd - val b * p10 nd < 1).
  { intros a b Ma Mb Eab. destruct (Z.eq_dec nd 0) as [->|N].
    - unfold units in Eab. change (p10 0) with 1 in *. rewrite !Rmult_1_r, !fl_val in *.
      now apply nearA_near.
    - pose proof (gap _ _ Ma Mb Eab). pose proof (no_unit_gap nd a b ltac:(lia)). lra. }
  pose proof (W x y Mx My E). pose proof (W y x My Mx (eq_sym E)).
  pose proof (p10_pos nd). rewrite <- (Rabs_pos_eq (p10 nd)) by lra. rewrite <- Rabs_mult.
  apply Rabs_def1; lra.
Qed.
