(** * The coupling from written numbers *)
From Coq Require Import Reals Psatz FunctionalExtensionality.
From Flocq Require Import Core IEEE754.BinarySingleNaN.
From Verif Require Export AccMatch RoundProps.
From Verif Require Export StrSpec StrModel.
Local Open Scope R_scope.

(** ** only elements in range are used *)
Section Cut.
Context {T : Type} (A : arith T) (z : T).
Definition cut2 (N : Z) (f : Z -> Z -> T) (i j : Z) : T := if ((1 <=? j) && (j <=? N))%Z then f i j else z.
Definition cutS (N : Z) (f : Z -> Z -> T) (i j : Z) : T := if ((1 <=? i) && (i <=? N))%Z then cut2 N f i j else z.
Lemma cut2_in N f i j : (1 <= j <= N)%Z -> cut2 N f i j = f i j.
Proof. intros H. unfold cut2. replace ((1 <=? j) && (j <=? N))%Z with true by lia. reflexivity. Qed.
Lemma cutS_in N f i j : (1 <= i <= N)%Z -> (1 <= j <= N)%Z -> cutS N f i j = f i j.
Proof. intros H H'. unfold cutS. replace ((1 <=? i) && (i <=? N))%Z with true by lia. apply cut2_in. auto. Qed.
Lemma accum_ext n (u v u' v' : Z -> T) : (forall k, (1 <= k <= Z.of_nat n)%Z -> u k = u' k) -> (forall k, (1 <= k <= Z.of_nat n)%Z -> v k = v' k) -> accum A n u v = accum A n u' v'.
Proof.
  induction n as [|n IH]; intros H1 H2; [reflexivity|]. cbn [accum]. rewrite IH by (intros; first [apply H1|apply H2]; lia). rewrite H1, H2 by lia. reflexivity.
Qed.
Lemma projection_cut (N : Z) S P w w' k : (forall l, (1 <= l <= N)%Z -> w l = w' l) -> projection A (Z.to_nat N) S P w k = projection A (Z.to_nat N) (cutS N S) (cut2 N P) w' k.
Proof.
  intros H. unfold projection. apply accum_ext; intros l Hl; [apply H; lia|]. apply accum_ext; intros m Hm; [rewrite cutS_in by lia|rewrite cut2_in by lia]; reflexivity.
Qed.
Lemma gammaA_cut cp n1 N a fP fS r1 : (0 <= n1 <= N)%Z -> gammaA A cp n1 N a fP fS r1 = gammaA A cp n1 N (cut2 N a) (cut2 N fP) (cutS N fS) r1.
Proof.
  intros H. apply functional_extensionality. intros k. unfold gammaA. apply projection_cut. intros l Hl. destruct cp; [rewrite cut2_in by lia; reflexivity|].
  unfold pad_after. destruct (Z.leb_spec l n1); [rewrite cut2_in by lia|]; reflexivity.
Qed.
Lemma gammaB_cut cp n1 N b fP fS r2 : (0 <= n1 <= N)%Z -> gammaB A cp n1 N b fP fS r2 = gammaB A cp n1 N (cut2 N b) (cut2 N fP) (cutS N fS) r2.
Proof.
  intros H. apply functional_extensionality. intros k. unfold gammaB. apply projection_cut. intros l Hl. destruct cp; [rewrite cut2_in by lia; reflexivity|].
  unfold pad_before. destruct (Z.leb_spec l n1); [reflexivity|]. rewrite cut2_in by lia. reflexivity.
Qed.
End Cut.
Lemma J_value_gamma {T} (A : arith T) cp n1 N K a b fP fS e r1 r2 :
  J_value A cp n1 N K a b fP fS e r1 r2 = J_of A (Z.to_nat K) e (gammaA A cp n1 N a fP fS r1) (gammaB A cp n1 N b fP fS r2).
Proof. reflexivity. Qed.

Lemma J_value_cut {T} (A : arith T) z cp n1 N K a b fP fS e r1 r2 : (0 <= n1 <= N)%Z ->
  J_value A cp n1 N K a b fP fS e r1 r2 = J_value A cp n1 N K (cut2 z N a) (cut2 z N b) (cut2 z N fP) (cutS z N fS) e r1 r2.
Proof. intros H. rewrite (J_value_gamma A cp n1 N K a b fP fS e), (gammaA_cut A z cp n1 N a fP fS r1 H), (gammaB_cut A z cp n1 N b fP fS r2 H). reflexivity. Qed.

(** ** The bound *)
(** [wa] [wb]: coefficients of the monomers, [wP] [wS]: dimer coefficients and overlap, [we]: dimer energies, as written *)
Definition true_J cp n1 N K wa wb wP wS we r1 r2 : R := J_value real cp n1 N K (number2 wa) (number2 wb) (number2 wP) (number2 wS) (number1 we) r1 r2.
Definition true_den cp n1 N K wa wb wP wS r1 r2 : R :=
  J_den real (Z.to_nat K) (gammaA real cp n1 N (number2 wa) (number2 wP) (number2 wS) r1) (gammaB real cp n1 N (number2 wb) (number2 wP) (number2 wS) r2).
Definition written_A cp n1 N wa wP wS r1 := gammaA magnitude cp n1 N (scale2 wa) (scale2 wP) (scale2 wS) r1.
Definition written_B cp n1 N wb wP wS r2 := gammaB magnitude cp n1 N (scale2 wb) (scale2 wP) (scale2 wS) r2.
Definition true_den_error cp n1 N K wa wb wP wS r1 r2 : R := den_error 4 N K (written_A cp n1 N wa wP wS r1) (written_B cp n1 N wb wP wS r2).
Definition true_num_error cp n1 N K wa wb wP wS we r1 r2 : R := num_error 4 N K (scale1 we) (written_A cp n1 N wa wP wS r1) (written_B cp n1 N wb wP wS r2).

Lemma nearW x c : matched x c -> near 4 c (the x) (Rabs (the x) + tiny).
Proof. apply matched_near. Qed.
Lemma near_cut2 N w c : (forall i j, (1 <= j <= N)%Z -> matched (w i j) (c i j)) -> all_near 4 (cut2 (B754_zero false) N c) (cut2 0 N (number2 w)) (cut2 0 N (scale2 w)).
Proof.
  intros H i j. unfold cut2. destruct ((1 <=? j) && (j <=? N))%Z eqn:E; [apply nearW, H; lia|]. apply near_weaken with 0%nat; [lia|exact near_0].
Qed.
Lemma near_cutS N w c : (forall i j, (1 <= i <= N)%Z -> (1 <= j <= N)%Z -> matched (w i j) (c i j)) -> all_near 4 (cutS (B754_zero false) N c) (cutS 0 N (number2 w)) (cutS 0 N (scale2 w)).
Proof.
  intros H i j. unfold cutS, cut2. destruct ((1 <=? i) && (i <=? N))%Z eqn:E1; [destruct ((1 <=? j) && (j <=? N))%Z eqn:E; [apply nearW, H; lia|]|]; (apply near_weaken with 0%nat; [lia|exact near_0]).
Qed.
Lemma ok_cut2 N w c i j : (forall i j, (1 <= j <= N)%Z -> matched (w i j) (c i j)) -> ok 1 31 (cut2 (B754_zero false) N c i j).
Proof. intros H. unfold cut2. destruct ((1 <=? j) && (j <=? N))%Z eqn:E; [apply (matched_ok (w i j)), H; lia|apply zero_ok1]. Qed.
Lemma ok_cutS N w c i j : (forall i j, (1 <= i <= N)%Z -> (1 <= j <= N)%Z -> matched (w i j) (c i j)) -> ok 1 31 (cutS (B754_zero false) N c i j).
Proof. intros H. unfold cutS, cut2. destruct ((1 <=? i) && (i <=? N))%Z eqn:E1; [destruct ((1 <=? j) && (j <=? N))%Z eqn:E; [apply (matched_ok (w i j)), H; lia|]|]; apply zero_ok1. Qed.

Lemma den_finite p x : squares p -> ok 1 341 x -> is_finite (dsub (dofint 1) (p x)) = true.
Proof.
  intros [Sq Fi] [F B]. rewrite Rmult_1_l in B. assert (Fp : is_finite (p x) = true) by (apply Fi; [exact F|]; apply Rle_trans with (1 := B); rewrite (pow_IZR 400) by lia; apply bpow_le; lia).
  destruct (Sq x Fp) as [_ L]. assert (Q : ok 1 683 (p x)).
  { split; [exact Fp|]. rewrite Rmult_1_l. assert (X : B2R x * B2R x <= bpow radix2 682).
    { rewrite <- (Rabs_pos_eq (B2R x * B2R x)) by apply Rle_0_sqr. rewrite Rabs_mult. change 682%Z with (341 + 341)%Z. rewrite bpow_plus. apply Rmult_le_compat; auto using Rabs_pos. }
    pose proof (Rle_0_sqr (B2R x)) as X0. unfold Rsqr in X0. set (y := B2R x * B2R x) in *.
    assert (T : tiny <= bpow radix2 682) by (rewrite tiny_bpow; apply bpow_le; lia). pose proof tiny_pos.
    assert (gamma 2 * (y + tiny) <= / 1000 * (y + tiny)) by (apply Rmult_le_compat_r; [lra|apply gamma_le_1; lia]).
    assert (D2 : bpow radix2 683 = 2 * bpow radix2 682) by (change 683%Z with (1 + 682)%Z; rewrite bpow_plus; reflexivity). rewrite D2.
    apply Rabs_le_inv in L. apply Rabs_le. lra. }
  assert (O : ok 1 683 (dofint 1)) by (apply int_ok; lia). exact (proj1 (dsub_ok 1 1 683 _ _ ltac:(lia) ltac:(lia) ltac:(lia) ltac:(lia) O Q)).
Qed.

Theorem coupling_ok : forall p cp n1 N K r1 r2 a b fP fS e wa wb wP wS we, squares p -> (0 <= n1 <= N)%Z -> (N <= 2 ^ 31)%Z -> (K <= 2 ^ 31)%Z ->
  (forall i j, (1 <= j <= N)%Z -> matched (wa i j) (a i j)) -> (forall i j, (1 <= j <= N)%Z -> matched (wb i j) (b i j)) -> (forall i j, (1 <= j <= N)%Z -> matched (wP i j) (fP i j)) ->
  (forall i j, (1 <= i <= N)%Z -> (1 <= j <= N)%Z -> matched (wS i j) (fS i j)) -> (forall i, matched (we i) (e i)) ->
  true_den_error cp n1 N K wa wb wP wS r1 r2 < Rabs (true_den cp n1 N K wa wb wP wS r1 r2) ->
  let c := J_value (binary64 p) cp n1 N K a b fP fS e r1 r2 in
  ok 1 800 c /\
  Rabs (B2R c - true_J cp n1 N K wa wb wP wS we r1 r2) <=
    quotient_bound (true_J cp n1 N K wa wb wP wS we r1 r2) (true_den cp n1 N K wa wb wP wS r1 r2) (true_num_error cp n1 N K wa wb wP wS we r1 r2) (true_den_error cp n1 N K wa wb wP wS r1 r2).
Proof.
  intros p cp n1 N K r1 r2 a b fP fS e wa wb wP wS we Sq Hn HN HK Ha Hb HP HS He. unfold true_den_error, true_den, true_J, true_num_error, written_A, written_B. cbv zeta.
  rewrite (gammaA_cut real 0 cp n1 N (number2 wa)), (gammaB_cut real 0 cp n1 N (number2 wb)), (gammaA_cut magnitude 0 cp n1 N (scale2 wa)), (gammaB_cut magnitude 0 cp n1 N (scale2 wb)),
    (J_value_cut real 0 cp n1 N K (number2 wa)), (J_value_cut (binary64 p) (B754_zero false) cp n1 N K a) by lia.
  set (ca := cut2 (B754_zero false) N a). set (cb := cut2 (B754_zero false) N b). set (cP := cut2 (B754_zero false) N fP). set (cS := cutS (B754_zero false) N fS).
  intros Hd.
  pose proof (fun p' => C83_coupling p 4 cp n1 N K r1 r2 ca cb cP cS e _ _ _ _ _ _ _ _ _ _ p' (near_cut2 N wa a Ha) (near_cut2 N wb b Hb) (near_cut2 N wP fP HP) (near_cutS N wS fS HS) (fun k => nearW _ _ (He k))) as Q.
  cbv zeta in Q. specialize (Q (proj1 Sq)).
  pose proof (fun i j => ok_cut2 N wa a i j Ha) as Oa. pose proof (fun i j => ok_cut2 N wb b i j Hb) as Ob. pose proof (fun i j => ok_cut2 N wP fP i j HP) as OP. pose proof (fun i j => ok_cutS N wS fS i j HS) as OS.
  fold ca in Oa. fold cb in Ob. fold cP in OP. fold cS in OS.
  assert (GA : forall k, ok 1 155 (gammaA (binary64 p) cp n1 N ca cP cS r1 k)).
  { intros k. unfold gammaA. apply projection_ok; auto; [lia|]. intros i. destruct cp; [auto|]. unfold pad_after. destruct (i <=? n1)%Z; [auto|apply zero_ok1]. }
  assert (GB : forall k, ok 1 155 (gammaB (binary64 p) cp n1 N cb cP cS r2 k)).
  { intros k. unfold gammaB. apply projection_ok; auto; [lia|]. intros i. destruct cp; [auto|]. unfold pad_before. destruct (i <=? n1)%Z; [apply zero_ok1|auto]. }
  assert (Fd : is_finite (J_den (binary64 p) (Z.to_nat K) (gammaA (binary64 p) cp n1 N ca cP cS r1) (gammaB (binary64 p) cp n1 N cb cP cS r2)) = true).
  { unfold J_den. apply (den_finite p); [exact Sq|]. apply over_ok; auto. lia. }
  specialize (Q Fd Hd).
  assert (F : ok 1 800 (J_value (binary64 p) cp n1 N K ca cb cP cS e r1 r2)); [|split; [exact F|exact (Q (proj1 F))]].
  assert (Oe : forall k, ok 1 31 (e k)) by (intros k; exact (matched_ok _ _ (He k))).
  pose proof (num_ok p (Z.to_nat K) e _ _ ltac:(lia) Oe GA GB) as On.
  assert (Nd : B2R (J_den (binary64 p) (Z.to_nat K) (gammaA (binary64 p) cp n1 N ca cP cS r1) (gammaB (binary64 p) cp n1 N cb cP cS r2)) <> 0).
  { pose proof (near_den p _ (Z.to_nat K) _ _ _ _ _ _ (proj1 Sq) (fun k => near_gA p 4 cp n1 N r1 _ _ _ _ _ _ _ _ _ k (near_cut2 N wa a Ha) (near_cut2 N wP fP HP) (near_cutS N wS fS HS))
      (fun k => near_gB p 4 cp n1 N r2 _ _ _ _ _ _ _ _ _ k (near_cut2 N wb b Hb) (near_cut2 N wP fP HP) (near_cutS N wS fS HS))) as [_ L].
    fold ca cb cP cS in L. specialize (L Fd). intros Z0. rewrite Z0 in L. unfold Rminus in L. rewrite Rplus_0_l, Rabs_Ropp in L.
    unfold den_error in Hd. replace (4 * (3 * 4 + 2 * Z.to_nat N + 2) + 5 + 2 * Z.to_nat K)%nat with (12 * 4 + 8 * Z.to_nat N + 13 + 2 * Z.to_nat K)%nat in L by lia. lra. }
  pose proof (one_minus _ Nd Fd) as Lb. exact (ddiv_ok 746 54 _ _ ltac:(lia) On Lb).
Qed.
Theorem coupling : forall p cp n1 N K r1 r2 a b fP fS e wa wb wP wS we, squares p -> (0 <= n1 <= N)%Z -> (N <= 2 ^ 31)%Z -> (K <= 2 ^ 31)%Z ->
  (forall i j, (1 <= j <= N)%Z -> matched (wa i j) (a i j)) -> (forall i j, (1 <= j <= N)%Z -> matched (wb i j) (b i j)) -> (forall i j, (1 <= j <= N)%Z -> matched (wP i j) (fP i j)) ->
  (forall i j, (1 <= i <= N)%Z -> (1 <= j <= N)%Z -> matched (wS i j) (fS i j)) -> (forall i, matched (we i) (e i)) ->
  true_den_error cp n1 N K wa wb wP wS r1 r2 < Rabs (true_den cp n1 N K wa wb wP wS r1 r2) ->
  let c := J_value (binary64 p) cp n1 N K a b fP fS e r1 r2 in
  is_finite c = true /\
  Rabs (B2R c - true_J cp n1 N K wa wb wP wS we r1 r2) <=
    quotient_bound (true_J cp n1 N K wa wb wP wS we r1 r2) (true_den cp n1 N K wa wb wP wS r1 r2) (true_num_error cp n1 N K wa wb wP wS we r1 r2) (true_den_error cp n1 N K wa wb wP wS r1 r2).
Proof.
  intros p cp n1 N K r1 r2 a b fP fS e wa wb wP wS we Sq Hn HN HK Ha Hb HP HS He Hd. cbv zeta.
  destruct (coupling_ok p cp n1 N K r1 r2 a b fP fS e wa wb wP wS we Sq Hn HN HK Ha Hb HP HS He Hd) as [O B]. split; [exact (proj1 O)|exact B].
Qed.
