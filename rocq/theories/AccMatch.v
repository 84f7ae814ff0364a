(** * Coordinates: where the written ones agree the machine finds the atoms *)
From Coq Require Import Reals Psatz.
From Flocq Require Import Core IEEE754.BinarySingleNaN.
From Verif Require Export AccFacts.
From Verif Require Import FloatTol FloatProps.
From Verif Require Export StrSpec StrModel.
Local Open Scope R_scope.

Lemma gamma4_small : gamma 4 <= / 1000000000000000.
Proof.
  assert (Hu : u <= / 8000000000000000) by (rewrite u_bpow; cbn; lra). assert (Q : INR 4 = 4) by (cbn; lra). pose proof u_pos.
  apply Rle_trans with (1 := gamma_linear 4 ltac:(rewrite Q; lra)). rewrite Q. assert (4 * u * (4 * u) <= / 1000 * (4 * u)) by (apply Rmult_le_compat_r; lra). lra.
Qed.
(** a coordinate of at most 999999 units and its double *)
Lemma coordinate_close s a c : close (Some (s, a)) c -> Rabs (a * 10000) <= 999999 -> is_finite c = true /\ Bsign c = s /\ Rabs (B2R c * 10000 - a * 10000) <= / 200000000.
Proof.
  intros [C1 C2] H. rewrite Rabs_mult, (Rabs_pos_eq 10000) in H by lra. assert (F : is_finite c = true) by (apply C1; apply Rle_trans with 100; [lra|apply IZR_le; lia]).
  destruct (C2 F) as [Sg L]. split; [exact F|]. split; [exact Sg|]. rewrite <- Rmult_minus_distr_r, Rabs_mult, (Rabs_pos_eq 10000) by lra.
  assert (T : tiny <= 1) by (rewrite tiny_bpow; change 1 with (bpow radix2 0); apply bpow_le; lia). pose proof tiny_pos. pose proof (Rabs_pos a).
  assert (gamma 4 * (Rabs a + tiny) <= / 1000000000000000 * (Rabs a + tiny)) by (apply Rmult_le_compat_r; [lra|exact gamma4_small]). lra.
Qed.
Lemma label_of_tos x s : double_tos x 4 = Ok s -> label 4 x = s.
Proof. rewrite tos_label by lia. congruence. Qed.
Lemma same_label x y c d : same_decimal 4 x y -> close x c -> close y d -> label 4 c = label 4 d.
Proof.
  intros (s & a & t & b & k & -> & -> & Hk & A & B & Sg) Cc Cd. change (bpow ten 4) with 10000 in *.
  assert (K : -999998 <= IZR k <= 999998) by (split; apply IZR_le; lia).
  destruct (coordinate_close _ _ _ Cc) as (Fc & Sc & Lc). { apply Rabs_le. apply Rabs_le_inv in A. lra. }
  destruct (coordinate_close _ _ _ Cd) as (Fd & Sd & Ld). { apply Rabs_le. apply Rabs_le_inv in B. lra. }
  destruct (C20_equal_partial c d 4 k ltac:(lia) Fc Fd Hk) as (l & L1 & L2).
  - change (p10 4) with 10000. apply Rabs_le. apply Rabs_le_inv in A, Lc. lra.
  - change (p10 4) with 10000. apply Rabs_le. apply Rabs_le_inv in B, Ld. lra.
  - intros E. rewrite Sc, Sd. auto.
  - rewrite (label_of_tos _ _ L1), (label_of_tos _ _ L2). reflexivity.
Qed.
Lemma other_label x y c d : far_apart 4 x y -> close x c -> close y d -> label 4 c <> label 4 d.
Proof.
  intros (s & a & t & b & -> & -> & A & B & Ds) Cc Cd. change (bpow ten 4) with 10000 in *.
  destruct (coordinate_close _ _ _ Cc) as (Fc & Sc & Lc); [lra|]. destruct (coordinate_close _ _ _ Cd) as (Fd & Sd & Ld); [lra|].
  assert (E4 : 1 <= Rabs (B2R c - B2R d) * 10000).
  { assert (Q : forall z, Rabs z * 10000 = Rabs (z * 10000)) by (intros z; rewrite Rabs_mult, (Rabs_pos_eq 10000); lra). rewrite Q in Ds |- *.
    pose proof (Rabs_triang ((B2R c - B2R d) * 10000) ((a * 10000 - B2R c * 10000) + (B2R d * 10000 - b * 10000))) as T1.
    replace ((B2R c - B2R d) * 10000 + (a * 10000 - B2R c * 10000 + (B2R d * 10000 - b * 10000))) with ((a - b) * 10000) in T1 by ring.
    pose proof (Rabs_triang (a * 10000 - B2R c * 10000) (B2R d * 10000 - b * 10000)) as T2. rewrite (Rabs_minus_sym (a * 10000)) in T2. lra. }
  destruct (C20_different_partial c d 4 ltac:(lia) Fc Fd) as (l & l' & L1 & L2 & Nl).
  - change (p10 4) with 10000. apply Rabs_le. apply Rabs_le_inv in A, Lc. lra.
  - change (p10 4) with 10000. apply Rabs_le. apply Rabs_le_inv in B, Ld. lra.
  - change (p10 4) with 10000. exact E4.
  - rewrite (label_of_tos _ _ L1), (label_of_tos _ _ L2). exact Nl.
Qed.
Lemma located_finds N q q' c c' ord : located 4 N q q' ord -> (forall j i, close (q j i 1%Z) (c j i 1%Z)) -> (forall j i, close (q' j i 1%Z) (c' j i 1%Z)) ->
  finds (label 4) 3 N c c' ord.
Proof.
  intros H C C' i k E Hi. destruct (H i k E Hi) as (Hk & Sm & Ot). split; [exact Hk|]. intros k' Hk'. unfold same_atom. split.
  - intros L. destruct (Z.eq_dec k' k) as [|Nk]; [auto|]. destruct (Ot k' Hk' Nk) as (j & Hj & F). exfalso. exact (other_label _ _ _ _ F (C j i) (C' j k') (L j Hj)).
  - intros ->. intros j Hj. exact (same_label _ _ _ _ (Sm j Hj) (C j i) (C' j k)).
Qed.
Lemma position_close pow10 pts pts' j i s : Forall2 (prel written (machine pow10) close) pts pts' -> close (position written pts j i s) (position (machine pow10) pts' j i s).
Proof.
  intros H. unfold position, table. apply Forall2_nth; [|exact close_zero]. apply Forall2_nth; [|constructor].
  assert (Q : forall (f : num written * num written * num written -> num written) (g : num (machine pow10) * num (machine pow10) * num (machine pow10) -> num (machine pow10)),
    (forall x y, prel written (machine pow10) close x y -> close (f x) (g y)) -> Forall2 close (map f pts) (map g pts')).
  { intros f g Hfg. induction H; cbn [map]; constructor; auto. }
  repeat constructor; apply Q; intros x y (H1 & H2 & H3); assumption.
Qed.
