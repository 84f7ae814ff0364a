(** * The six digits of a positive number *)
From Coq Require Import Reals Psatz.
From Flocq Require Import Core.
From Verif Require Export FloatFormat.

Local Open Scope R_scope.

Definition ten : radix := Build_radix 10 eq_refl.
Notation p10 := (bpow ten).

Lemma p10_pos k : 0 < p10 k.
Proof. apply bpow_gt_0. Qed.
Lemma p10_Z k : (0 <= k)%Z -> IZR (10 ^ k) = p10 k.
Proof. intros H. rewrite <- IZR_Zpower by auto. reflexivity. Qed.
Lemma p10_inv k : p10 (- k) = / p10 k.
Proof. apply bpow_opp. Qed.

(** ** Number of digits *)
Lemma dec_loop_length fuel : forall z acc, (1 <= z < 2 ^ Z.of_nat fuel)%Z ->
  exists k, length (dec_loop fuel z acc) = (k + length acc)%nat /\ (1 <= k)%nat /\
    (10 ^ (Z.of_nat k - 1) <= z < 10 ^ Z.of_nat k)%Z.
Proof.
  induction fuel as [|n IH]; intros z acc Hz.
  { cbn in Hz. lia. }
  cbn [dec_loop]. destruct (Z.ltb_spec z 10).
  - exists 1%nat. cbn [length]. split; [lia|]. split; [lia|]. cbn. lia.
  - assert (Hq : (1 <= z / 10 < 2 ^ Z.of_nat n)%Z).
    { rewrite Nat2Z.inj_succ, Z.pow_succ_r in Hz by lia. split.
      - apply Z.div_le_lower_bound; lia.
      - apply Z.div_lt_upper_bound; lia. }
    destruct (IH (z / 10)%Z (digit (z mod 10) :: acc) Hq) as (k & E & K & B).
    exists (S k). rewrite E. cbn [length]. split; [lia|]. split; [lia|].
    rewrite Nat2Z.inj_succ. replace (Z.succ (Z.of_nat k) - 1)%Z with (Z.succ (Z.of_nat k - 1)) by lia.
    rewrite !Z.pow_succ_r by lia. pose proof (Z.div_mod z 10). pose proof (Z.mod_pos_bound z 10).
    lia.
Qed.

Lemma ndigits_spec n : (1 <= n)%Z -> (10 ^ (ndigits n - 1) <= n < 10 ^ ndigits n)%Z.
Proof.
  intros H. unfold ndigits, dec_nonneg.
  destruct (dec_loop_length (S (Z.to_nat (Z.log2 n))) n []) as (k & E & K & B).
  - split; auto. rewrite Nat2Z.inj_succ, Z2Nat.id by apply Z.log2_nonneg. apply Z.log2_spec. lia.
  - rewrite E. cbn [length]. rewrite Nat.add_0_r. exact B.
Qed.

Lemma ndigits_pos n : (1 <= n)%Z -> (1 <= ndigits n)%Z.
Proof.
  intros H. unfold ndigits, dec_nonneg.
  destruct (dec_loop_length (S (Z.to_nat (Z.log2 n))) n []) as (k & E & K & B).
  - split; auto. rewrite Nat2Z.inj_succ, Z2Nat.id by apply Z.log2_nonneg. apply Z.log2_spec. lia.
  - rewrite E. lia.
Qed.

(** Division with remainder, in the reals. *)
Lemma div_real n d : (0 < d)%Z -> IZR n / IZR d = IZR (n / d) + IZR (n mod d) / IZR d.
Proof.
  intros H. assert (D : IZR d <> 0) by (apply not_0_IZR; lia).
  rewrite (Z.div_mod n d) at 1 by lia. rewrite plus_IZR, mult_IZR. field. exact D.
Qed.
Lemma div_real_bounds n d : (0 < d)%Z -> IZR (n / d) <= IZR n / IZR d < IZR (n / d) + 1.
Proof.
  intros H. rewrite (div_real n d H). pose proof (Z.mod_pos_bound n d H) as [L U].
  apply IZR_le in L. apply IZR_lt in U. assert (D : 0 < IZR d) by (apply IZR_lt; lia).
  assert (0 <= IZR (n mod d) / IZR d < 1).
  { split.
    - apply Rmult_le_pos; [exact L|]. left. apply Rinv_0_lt_compat. exact D.
    - apply Rmult_lt_reg_r with (IZR d); [exact D|]. unfold Rdiv. rewrite Rmult_assoc, Rinv_l by lra. lra. }
  lra.
Qed.

Lemma dec_exponent_spec num den : (0 < num)%Z -> (0 < den)%Z -> p10 (-400) <= IZR num / IZR den ->
  p10 (dec_exponent num den) <= IZR num / IZR den < p10 (dec_exponent num den + 1).
Proof.
  intros Hn Hd Hv. unfold dec_exponent.
  set (n := (num * 10 ^ 400 / den)%Z).
  assert (P : IZR (num * 10 ^ 400) / IZR den = IZR num / IZR den * p10 400).
  { rewrite mult_IZR, (p10_Z 400) by lia. field. apply not_0_IZR. lia. }
  pose proof (div_real_bounds (num * 10 ^ 400) den Hd) as B. fold n in B. rewrite P in B.
  assert (N1 : (1 <= n)%Z).
  { assert (Q : 1 <= IZR num / IZR den * p10 400).
    { replace 1 with (p10 (-400) * p10 400).
      - apply Rmult_le_compat_r; [left; apply p10_pos|exact Hv].
      - rewrite <- bpow_plus. reflexivity. }
    assert (0 < n)%Z; [|lia]. apply lt_IZR. lra. }
  destruct (ndigits_spec n N1) as [L U]. pose proof (ndigits_pos n N1) as K.
  apply IZR_le in L. rewrite p10_Z in L by lia.
  assert (U' : IZR n + 1 <= p10 (ndigits n)).
  { rewrite <- p10_Z by lia. rewrite <- plus_IZR. apply IZR_le. lia. }
  assert (S1 : p10 (ndigits n - 1) = p10 (ndigits n - 401) * p10 400).
  { rewrite <- bpow_plus. f_equal. lia. }
  assert (S2 : p10 (ndigits n) = p10 (ndigits n - 401 + 1) * p10 400).
  { rewrite <- bpow_plus. f_equal. lia. }
  pose proof (p10_pos 400) as P4. split.
  - apply Rmult_le_reg_r with (p10 400); [exact P4|]. lra.
  - apply Rmult_lt_reg_r with (p10 400); [exact P4|]. lra.
Qed.

Lemma half_even_spec num den : (0 < den)%Z ->
  Rabs (IZR (div_half_even num den) - IZR num / IZR den) <= / 2.
Proof.
  intros Hd. unfold div_half_even. rewrite (div_real num den Hd).
  pose proof (Z.mod_pos_bound num den Hd) as [L U].
  assert (D : 0 < IZR den) by (apply IZR_lt; lia).
  assert (Q : forall a, IZR a / IZR den * IZR den = IZR a).
  { intros a. unfold Rdiv. rewrite Rmult_assoc, Rinv_l by lra. lra. }
  assert (Lo : (2 * (num mod den) <= den)%Z -> IZR (num mod den) / IZR den <= / 2).
  { intros H. apply IZR_le in H. rewrite mult_IZR in H. apply Rmult_le_reg_r with (IZR den); auto.
    rewrite Q. lra. }
  assert (Hi : (den <= 2 * (num mod den))%Z -> / 2 <= IZR (num mod den) / IZR den).
  { intros H. apply IZR_le in H. rewrite mult_IZR in H. apply Rmult_le_reg_r with (IZR den); auto.
    rewrite Q. lra. }
  assert (R01 : 0 <= IZR (num mod den) / IZR den <= 1).
  { apply IZR_le in L. apply IZR_lt in U. split; apply Rmult_le_reg_r with (IZR den); auto; rewrite Q; lra. }
  destruct (Z.compare_spec (2 * (num mod den)) den) as [C|C|C].
  - destruct (Z.even (num / den)); apply Rabs_le; rewrite ?plus_IZR;
      specialize (Lo ltac:(lia)); specialize (Hi ltac:(lia)); lra.
  - specialize (Lo ltac:(lia)). apply Rabs_le. lra.
  - specialize (Hi ltac:(lia)). rewrite plus_IZR. apply Rabs_le. lra.
Qed.

(** ** six_digits *)
Definition value2 (m : positive) (e : Z) : R := IZR (Zpos m) * bpow radix2 e.

Lemma value2_ratio m e : value2 m e = IZR (Zpos m * 2 ^ Z.max e 0) / IZR (2 ^ Z.max (- e) 0).
Proof.
  unfold value2. rewrite mult_IZR.
  assert (P : forall k, (0 <= k)%Z -> IZR (2 ^ k) = bpow radix2 k).
  { intros k H. rewrite <- IZR_Zpower by auto. reflexivity. }
  rewrite !P by lia. unfold Rdiv. rewrite <- bpow_opp, Rmult_assoc, <- bpow_plus. do 2 f_equal. lia.
Qed.

(** The pair found before normalisation. *)
Lemma six_digits_raw m e : p10 (-400) <= value2 m e ->
  exists X d, p10 X <= value2 m e < p10 (X + 1) /\
    Rabs (IZR d - value2 m e * p10 (5 - X)) <= / 2 /\
    six_digits m e = (if (d =? 1000000)%Z then (100000, (X + 1))%Z else (d, X)).
Proof.
  intros H. unfold six_digits. rewrite value2_ratio in *.
  set (num := (Zpos m * 2 ^ Z.max e 0)%Z) in *. set (den := (2 ^ Z.max (- e) 0)%Z) in *.
  assert (Hn : (0 < num)%Z) by (apply Z.mul_pos_pos; [lia|apply Z.pow_pos_nonneg; lia]).
  assert (Hd : (0 < den)%Z) by (apply Z.pow_pos_nonneg; lia).
  set (X := dec_exponent num den). exists X.
  set (a := (num * 10 ^ Z.max (5 - X) 0)%Z). set (b := (den * 10 ^ Z.max (X - 5) 0)%Z).
  exists (div_half_even a b). split; [now apply dec_exponent_spec|]. split; [|reflexivity].
  assert (Hb : (0 < b)%Z) by (apply Z.mul_pos_pos; [lia|apply Z.pow_pos_nonneg; lia]).
  replace (IZR num / IZR den * p10 (5 - X)) with (IZR a / IZR b); [now apply half_even_spec|].
  unfold a, b. rewrite !mult_IZR, !p10_Z by lia.
  replace (p10 (5 - X)) with (p10 (Z.max (5 - X) 0) / p10 (Z.max (X - 5) 0)).
  - pose proof (p10_pos (Z.max (X - 5) 0)). assert (IZR den <> 0) by (apply not_0_IZR; lia).
    field. split; lra.
  - unfold Rdiv. rewrite <- p10_inv, <- bpow_plus. f_equal. lia.
Qed.

Lemma p10_5 : p10 5 = 100000. Proof. reflexivity. Qed.
Lemma p10_6 : p10 6 = 1000000. Proof. reflexivity. Qed.

Lemma scaled_bounds v X : p10 X <= v < p10 (X + 1) -> 100000 <= v * p10 (5 - X) < 1000000.
Proof.
  intros [L U]. pose proof (p10_pos (5 - X)) as P.
  rewrite <- p10_5, <- p10_6.
  replace 5%Z with (X + (5 - X))%Z at 1 by lia. replace 6%Z with (X + 1 + (5 - X))%Z by lia.
  rewrite !bpow_plus. split.
  - apply Rmult_le_compat_r; lra.
  - replace (p10 X * p10 1 * p10 (5 - X)) with (p10 (X + 1) * p10 (5 - X)) by (rewrite bpow_plus; ring).
    apply Rmult_lt_compat_r; lra.
Qed.

Lemma six_digits_range m e d X : p10 (-400) <= value2 m e -> six_digits m e = (d, X) ->
  (100000 <= d < 1000000)%Z.
Proof.
  intros H E. destruct (six_digits_raw m e H) as (X0 & d0 & B & A & E0).
  apply scaled_bounds in B. rewrite E0 in E. apply Rabs_le_inv in A.
  assert (L : (99999 < d0)%Z) by (apply lt_IZR; lra).
  assert (U : (d0 < 1000001)%Z) by (apply lt_IZR; lra).
  destruct (Z.eqb_spec d0 1000000); injection E as <- <-; lia.
Qed.

(** Close to a six digit decimal, it is that decimal. *)
Lemma six_digits_close m e d X : p10 (-400) <= value2 m e -> (100000 <= d < 1000000)%Z ->
  Rabs (value2 m e * p10 (5 - X) - IZR d) < / 20 -> six_digits m e = (d, X).
Proof.
  intros H D C. destruct (six_digits_raw m e H) as (X0 & d0 & B & A & E0). rewrite E0. clear E0 H.
  set (v := value2 m e) in *.
  pose proof (scaled_bounds v X0 B) as B0. apply Rabs_lt_inv in C. apply Rabs_le_inv in A.
  destruct D as [D1 D2]. pose proof (IZR_le _ _ D1) as R1.
  assert (R2 : IZR d <= 999999) by (apply IZR_le; lia).
  assert (Vp : 0 < v) by (pose proof (p10_pos X0); lra).
  (* the exponent is X or X - 1 *)
  assert (Hx : (X0 = X \/ X0 = X - 1)%Z).
  { destruct (Z.lt_trichotomy X0 X) as [Lt|[Eq|Gt]]; auto.
    - right. destruct (Z.eq_dec X0 (X - 1)) as [->|N]; auto. exfalso.
      (* X0 <= X - 2: v*10^(5-X0) >= 100 * v*10^(5-X) *)
      assert (Q : v * p10 (5 - X0) = v * p10 (5 - X) * p10 (X - X0)).
      { rewrite Rmult_assoc, <- bpow_plus. do 2 f_equal. lia. }
      assert (G : p10 2 <= p10 (X - X0)) by (apply bpow_le; lia). change (p10 2) with 100 in G.
      rewrite Q in B0. nra.
    - exfalso. assert (Q : v * p10 (5 - X) = v * p10 (5 - X0) * p10 (X0 - X)).
      { rewrite Rmult_assoc, <- bpow_plus. do 2 f_equal. lia. }
      assert (G : p10 1 <= p10 (X0 - X)) by (apply bpow_le; lia). change (p10 1) with 10 in G.
      rewrite Q in C. nra. }
  destruct Hx as [->| ->].
  - assert (d0 = d).
    { assert (d0 < d + 1)%Z by (apply lt_IZR; rewrite plus_IZR; lra).
      assert (d < d0 + 1)%Z by (apply lt_IZR; rewrite plus_IZR; lra). lia. }
    subst d0. destruct (Z.eqb_spec d 1000000); [lia|reflexivity].
  - assert (Q : v * p10 (5 - (X - 1)) = v * p10 (5 - X) * 10).
    { change 10 with (p10 1). rewrite Rmult_assoc, <- bpow_plus. do 2 f_equal. lia. }
    rewrite Q in *.
    assert (Dm : d = 100000%Z).
    { assert (d < 100001)%Z; [|lia]. apply lt_IZR. lra. }
    subst d. assert (d0 = 1000000)%Z.
    { assert (d0 < 1000001)%Z by (apply lt_IZR; lra).
      assert (999999 < d0)%Z by (apply lt_IZR; lra). lia. }
    subst d0. cbn. f_equal. lia.
Qed.
