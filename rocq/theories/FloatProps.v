(** * Property C20: the tolerance of coordinate matching

    [double_tos x nd] (FloatModel.v) is the text matchRow/matchCol compare;
    [B2R x] (Flocq) is the real number a double stands for; [p10 nd] is 10^nd
    (Flocq's [bpow] in radix ten). *)
From Coq Require Import Reals Psatz.
From Flocq Require Import Core IEEE754.BinarySingleNaN.
From Verif Require Import FloatTol MatrixFinal.
Local Open Scope R_scope.

(** [p10] is the power of ten. *)
Lemma p10_is_power nd : (0 <= nd)%Z -> p10 nd = IZR (10 ^ nd).
Proof. intros H. symmetry. now apply p10_Z. Qed.

Lemma tos_label nd x : (0 <= nd <= 9)%Z -> double_tos x nd = Ok (label nd x).
Proof.
  intros H. unfold double_tos, tens_of.
  destruct (Z.ltb_spec nd 0); [lia|]. destruct (Z.leb_spec 309 nd); [lia|].
  destruct (Z.ltb_spec 9 nd); [lia|]. reflexivity.
Qed.

(** Outside 0..9 decimals no label is made: more than nine overflow an int (undefined), 309 or more, or fewer than none, throw. *)
Theorem C20_decimals_refuted : forall (x : double) nd,
  ((10 <= nd <= 308)%Z -> double_tos x nd = Undef SignedOverflow) /\ ((nd < 0 \/ 309 <= nd)%Z -> double_tos x nd = Throw OutOfRange).
Proof.
  intros x nd. unfold double_tos, tens_of. split; intros H; destruct (Z.ltb_spec nd 0); try lia; try reflexivity; destruct (Z.leb_spec 309 nd); try lia; try reflexivity. destruct (Z.ltb_spec 9 nd); [reflexivity|lia].
Qed.
Print Assumptions C20_decimals_refuted.

(** The exact criterion.  A coordinate of at most 999999 units is compared by
    (1) its product with 10^nd, rounded to a double and then to the nearest
    integer, halves away from zero, and (2) its sign bit if that integer is 0. *)
Theorem C20_exact_partial : forall (x y : double) nd, (0 <= nd <= 9)%Z ->
  is_finite x = true -> is_finite y = true ->
  Rabs (B2R x * p10 nd) <= 999999 -> Rabs (B2R y * p10 nd) <= 999999 ->
  let n z := ZnearestA (round radix2 (FLT_exp (-1074) 53) ZnearestE (B2R z * p10 nd)) in
  (double_tos x nd = double_tos y nd <->
   n x = n y /\ (n x = 0%Z -> Bsign x = Bsign y)).
Proof.
  intros x y nd H Fx Fy Mx My n. rewrite !tos_label by auto.
  change (n x) with (units nd x). change (n y) with (units nd y).
  rewrite <- (label_eq nd x y H (conj Fx Mx) (conj Fy My)).
  split; [intros E; injection E as E; exact E|intros ->; reflexivity].
Qed.
Print Assumptions C20_exact_partial.

(** Equal: two coordinates closest to the same decimal k/10^nd (and not within
    10^-9 units of a tie) have the same text, except that around zero they must
    also have the same sign. *)
Theorem C20_equal_partial : forall (x y : double) nd k, (0 <= nd <= 9)%Z ->
  is_finite x = true -> is_finite y = true -> (Z.abs k <= 999998)%Z ->
  Rabs (B2R x * p10 nd - IZR k) <= / 2 - / 1000000000 ->
  Rabs (B2R y * p10 nd - IZR k) <= / 2 - / 1000000000 ->
  (k = 0%Z -> Bsign x = Bsign y) ->
  exists s, double_tos x nd = Ok s /\ double_tos y nd = Ok s.
Proof.
  intros x y nd k H Fx Fy Hk Ex Ey Sg.
  assert (B : forall z : double, Rabs (B2R z * p10 nd - IZR k) <= / 2 - / 1000000000 ->
    Rabs (B2R z * p10 nd) <= 999999).
  { intros z Ez. apply Rabs_le_inv in Ez. assert (-999998 <= IZR k <= 999998) by (split; apply IZR_le; lia).
    apply Rabs_le. lra. }
  assert (U : forall z : double, Rabs (B2R z * p10 nd - IZR k) <= / 2 - / 1000000000 -> units nd z = k).
  { intros z Ez. apply units_near; [|exact Ez]. pose proof (B z Ez). lra. }
  exists (label nd x). split; [now apply tos_label|]. rewrite tos_label by auto. f_equal. symmetry.
  apply (label_eq nd x y H (conj Fx (B x Ex)) (conj Fy (B y Ey))).
  rewrite (U x Ex), (U y Ey). split; auto.
Qed.
Print Assumptions C20_equal_partial.

(** Different: two coordinates at least one unit of the last decimal apart have
    different texts. *)
Theorem C20_different_partial : forall (x y : double) nd, (0 <= nd <= 9)%Z ->
  is_finite x = true -> is_finite y = true ->
  Rabs (B2R x * p10 nd) <= 999999 -> Rabs (B2R y * p10 nd) <= 999999 ->
  1 <= Rabs (B2R x - B2R y) * p10 nd ->
  exists s t, double_tos x nd = Ok s /\ double_tos y nd = Ok t /\ s <> t.
Proof.
  intros x y nd H Fx Fy Mx My D. exists (label nd x), (label nd y).
  split; [now apply tos_label|]. split; [now apply tos_label|]. intros E.
  apply (label_eq nd x y H (conj Fx Mx) (conj Fy My)) in E as [E _].
  pose proof (units_apart nd x y ltac:(lia) (conj Fx Mx) (conj Fy My) E). lra.
Qed.
Print Assumptions C20_different_partial.

(** ** Where the claim fails *)

(** Around zero, opposite signs are always told apart ("0" and "-0"), however
    small the numbers. *)
Theorem C20_zero_sign_refuted : forall (x y : double) nd, (0 <= nd <= 9)%Z ->
  is_finite x = true -> is_finite y = true ->
  Rabs (B2R x * p10 nd) <= / 2 - / 1000000000 -> Rabs (B2R y * p10 nd) <= / 2 - / 1000000000 ->
  Bsign x = false -> Bsign y = true ->
  double_tos x nd = Ok $"0" /\ double_tos y nd = Ok $"-0".
Proof.
  intros x y nd H Fx Fy Mx My Sx Sy. rewrite !tos_label by auto.
  assert (U : forall z : double, Rabs (B2R z * p10 nd) <= / 2 - / 1000000000 -> units nd z = 0%Z).
  { intros z Ez. apply units_near; [lra|]. rewrite Rminus_0_r. exact Ez. }
  rewrite (label_text nd x), (label_text nd y) by (first [exact H|split; [assumption|lra]]).
  rewrite (U x Mx), (U y My), Sx, Sy. split; reflexivity.
Qed.
Print Assumptions C20_zero_sign_refuted.

(** Concrete doubles: m * 2^e. *)
Definition fin (s : bool) (m : positive) (e : Z) (B : SpecFloat.bounded 53 1024 m e = true) : double :=
  B754_finite s m e B.
Lemma val_fin s m e B : B2R (fin s m e B) = (if s then -1 else 1) * (IZR (Zpos m) * bpow radix2 e).
Proof. apply val_finite. Qed.
Definition d_0_00035 : double := fin false 6456360425798343 (-64) eq_refl.
Definition d_0_0003 : double := fin false 5534023222112865 (-64) eq_refl.
Definition d_100_0001 : double := fin false 7036881454640818 (-46) eq_refl.
Definition d_100_0003 : double := fin false 7036895528389653 (-46) eq_refl.
Definition d_1em5 : double := fin false 5902958103587057 (-69) eq_refl.
Definition d_m1em5 : double := fin true 5902958103587057 (-69) eq_refl.
Definition d_0_12344 : double := fin false 8894789408041824 (-56) eq_refl.
Definition d_0_12341 : double := fin false 8892627680220687 (-56) eq_refl.
Definition d_0_1235 : double := fin false 8899112863684100 (-56) eq_refl.

Ltac eval_d := rewrite ?val_fin;
  change (bpow radix2 (-64)) with (/ 18446744073709551616);
  change (bpow radix2 (-46)) with (/ 70368744177664);
  change (bpow radix2 (-69)) with (/ 590295810358705651712);
  change (bpow radix2 (-56)) with (/ 72057594037927936);
  change (p10 4) with 10000.

(** Next to a tie the product is rounded twice: 0.00035 is closer to 0.0003 than
    to 0.0004, as 0.0003 is, and the texts differ. *)
Theorem C20_boundary_refuted : exists (x y : double) s t,
  Rabs (B2R x * p10 4 - 3) < / 2 /\ Rabs (B2R y * p10 4 - 3) < / 2 /\
  double_tos x 4 = Ok s /\ double_tos y 4 = Ok t /\ s <> t.
Proof.
  exists d_0_00035, d_0_0003, $"0.0004"%string, $"0.0003"%string.
  split; [unfold d_0_00035; eval_d; apply Rabs_def1; lra|].
  split; [unfold d_0_0003; eval_d; apply Rabs_def1; lra|].
  split; [vm_compute; reflexivity|]. split; [vm_compute; reflexivity|]. discriminate.
Qed.
Print Assumptions C20_boundary_refuted.

(** From 10^6 units on (100 at four decimals) six digits are not enough: two
    coordinates two units apart have the same text. *)
Theorem C20_large_refuted : exists (x y : double) s,
  1 <= Rabs (B2R x - B2R y) * p10 4 /\ double_tos x 4 = Ok s /\ double_tos y 4 = Ok s.
Proof.
  exists d_100_0001, d_100_0003, $"100"%string.
  split; [unfold d_100_0001, d_100_0003; eval_d; rewrite Rabs_left; lra|].
  split; vm_compute; reflexivity.
Qed.
Print Assumptions C20_large_refuted.

(** ** What this means for matchCol: atoms (columns) are recognised if each atom
    of the first matrix agrees with one atom of the second and is one unit away
    from the others in some coordinate. *)
Definition agree (nd : Z) (x y : double) : Prop :=
  exists k, (Z.abs k <= 999998)%Z /\
    Rabs (B2R x * p10 nd - IZR k) <= / 2 - / 1000000000 /\
    Rabs (B2R y * p10 nd - IZR k) <= / 2 - / 1000000000 /\ (k = 0%Z -> Bsign x = Bsign y).
Definition apart (nd : Z) (x y : double) : Prop := 1 <= Rabs (B2R x - B2R y) * p10 nd.

Theorem C20_match_partial : forall m1 m2 R n N (f1 f2 : Z -> Z -> Z -> double) (p : Z -> Z) nd,
  (0 <= nd <= 9)%Z -> denotes m1 R n 1 f1 -> denotes m2 R N 1 f2 ->
  (forall j i, (1 <= j <= R)%Z -> (1 <= i <= n)%Z ->
     is_finite (f1 j i 1%Z) = true /\ Rabs (B2R (f1 j i 1%Z) * p10 nd) <= 999999) ->
  (forall j i, (1 <= j <= R)%Z -> (1 <= i <= N)%Z ->
     is_finite (f2 j i 1%Z) = true /\ Rabs (B2R (f2 j i 1%Z) * p10 nd) <= 999999) ->
  (forall i, (1 <= i <= n)%Z -> (1 <= p i <= N)%Z /\
     forall j, (1 <= j <= R)%Z -> agree nd (f1 j i 1%Z) (f2 j (p i) 1%Z)) ->
  (forall i ii, (1 <= i <= n)%Z -> (1 <= ii <= N)%Z -> ii <> p i ->
     exists j, (1 <= j <= R)%Z /\ apart nd (f1 j i 1%Z) (f2 j ii 1%Z)) ->
  exists w, matchCol (label nd) str_eqb m1 m2 = Ok w /\ lists w n p.
Proof.
  intros m1 m2 R n N f1 f2 p nd H D1 D2 M1 M2 Ag Ap.
  apply (match_recovers (label nd) m1 m2 R n N f1 f2 p D1 D2).
  { intros i Hi. apply (Ag i Hi). }
  intros i ii Hi Hii. split.
  - intros E. destruct (Z.eq_dec ii (p i)) as [|Ne]; auto. exfalso.
    destruct (Ap i ii Hi Hii Ne) as (j & Hj & A).
    destruct (M1 j i Hj Hi) as [F1 B1]. destruct (M2 j ii Hj Hii) as [F2 B2].
    destruct (C20_different_partial _ _ nd H F1 F2 B1 B2 A) as (s & t & E1 & E2 & Ne').
    rewrite tos_label in E1, E2 by auto. injection E1 as <-. injection E2 as <-. auto.
  - intros -> j Hj. destruct (Ag i Hi) as [_ A]. destruct (A j Hj) as (k & K & A1 & A2 & A3).
    destruct (M1 j i Hj Hi) as [F1 B1]. destruct (M2 j (p i) Hj Hii) as [F2 B2].
    destruct (C20_equal_partial _ _ nd k H F1 F2 K A1 A2 A3) as (s & E1 & E2).
    rewrite tos_label in E1, E2 by auto. congruence.
Qed.
Print Assumptions C20_match_partial.

(** Hypotheses are met by concrete coordinates. *)
Example C20_equal_example : agree 4 d_0_12344 d_0_12341 /\
  double_tos d_0_12344 4 = Ok $"0.1234" /\ double_tos d_0_12341 4 = Ok $"0.1234".
Proof.
  split; [|split; vm_compute; reflexivity]. exists 1234%Z. split; [lia|].
  unfold d_0_12344, d_0_12341.
  split; [eval_d; apply Rabs_le; lra|]. split; [eval_d; apply Rabs_le; lra|]. discriminate.
Qed.
Example C20_different_example : apart 4 d_0_1235 d_0_0003 /\
  Rabs (B2R d_0_1235 * p10 4) <= 999999 /\ Rabs (B2R d_0_0003 * p10 4) <= 999999 /\
  double_tos d_0_1235 4 = Ok $"0.1235" /\ double_tos d_0_0003 4 = Ok $"0.0003".
Proof.
  unfold apart, d_0_1235, d_0_0003.
  split; [eval_d; rewrite Rabs_pos_eq; lra|].
  split; [eval_d; apply Rabs_le; lra|]. split; [eval_d; apply Rabs_le; lra|].
  split; vm_compute; reflexivity.
Qed.
Example C20_zero_example : double_tos d_1em5 4 = Ok $"0" /\ double_tos d_m1em5 4 = Ok $"-0".
Proof. split; vm_compute; reflexivity. Qed.
Example C20_match_example :
  (m1 <- Matrix_of_vecs [[d_0_12344; d_0_0003]; [d_0_1235; d_1em5]] ;;
   m2 <- Matrix_of_vecs [[d_100_0001; d_0_0003; d_0_12341]; [d_1em5; d_1em5; d_0_1235]] ;;
   matchCol (label 4) str_eqb m1 m2) = Ok [3; 2]%Z.
Proof. vm_compute; reflexivity. Qed.
