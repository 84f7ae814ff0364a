(** * Rounding error analysis *)
From Coq Require Import Reals Psatz.
From Flocq Require Import Core Relative IEEE754.BinarySingleNaN.
From Verif Require Export RoundSpec FloatRound.
Local Open Scope R_scope.
Local Instance prec53r : Prec_gt_0 53 := p53.
Local Instance vfxr : Valid_exp fx := FLT_exp_valid (-1074) 53.

Lemma u_bpow : u = bpow radix2 (-53).
Proof. reflexivity. Qed.
Lemma tiny_bpow : tiny = bpow radix2 (-1022).
Proof. unfold tiny. change (-1022)%Z with (- (1022))%Z. rewrite bpow_opp. reflexivity. Qed.
Lemma u_pos : 0 < u.
Proof. rewrite u_bpow. apply bpow_gt_0. Qed.
Lemma tiny_pos : 0 < tiny.
Proof. rewrite tiny_bpow. apply bpow_gt_0. Qed.
Lemma half_u : / 2 * bpow radix2 (- (53) + 1) = u.
Proof. rewrite u_bpow. change (/2) with (bpow radix2 (-1)). rewrite <- bpow_plus. reflexivity. Qed.

(** rounding in general, and of sums of doubles *)
Lemma fl_error z : Rabs (fl z - z) <= u * (Rabs z + tiny).
Proof.
  pose proof u_pos. pose proof tiny_pos. pose proof (Rabs_pos z).
  destruct (error_N_FLT radix2 (-1074) 53 ltac:(lia) (fun n => negb (Z.even n)) z) as (e & t & He & Ht & P & E).
  unfold fl. rewrite E. replace (z * (1 + e) + t - z) with (z * e + t) by ring.
  rewrite half_u in He. assert (Q : / 2 * bpow radix2 (-1074) = u * tiny).
  { rewrite u_bpow, tiny_bpow. change (/2) with (bpow radix2 (-1)). rewrite <- !bpow_plus. reflexivity. }
  rewrite Q in Ht. apply Rle_trans with (1 := Rabs_triang _ _). rewrite Rabs_mult. nra.
Qed.
Lemma fl_exact_grid z : generic_format radix2 (FIX_exp (-1074)) z -> Rabs (fl z - z) <= u * Rabs z.
Proof.
  intros G. apply FIX_format_generic in G. destruct G as [[m e] E F]. cbn in F. subst e.
  rewrite E, <- half_u. apply relative_error_N_FLT_F2R_emin. lia.
Qed.
Lemma grid (x : double) : generic_format radix2 (FIX_exp (-1074)) (B2R x).
Proof. apply generic_format_FIX_FLT with 53%Z. exact (generic_format_B2R 53 1024 x). Qed.
Lemma grid_add x y : generic_format radix2 (FIX_exp (-1074)) x -> generic_format radix2 (FIX_exp (-1074)) y ->
  generic_format radix2 (FIX_exp (-1074)) (x + y) /\ generic_format radix2 (FIX_exp (-1074)) (x - y).
Proof.
  intros G H. apply FIX_format_generic in G, H. destruct G as [[m e] E F], H as [[n e'] E' F']. cbn in F, F'. subst e e'.
  split; apply generic_format_FIX.
  - exists (Float radix2 (m + n) (-1074)); [|reflexivity]. rewrite E, E'. unfold F2R; cbn [Fnum Fexp]. rewrite plus_IZR. ring.
  - exists (Float radix2 (m - n) (-1074)); [|reflexivity]. rewrite E, E'. unfold F2R; cbn [Fnum Fexp]. rewrite minus_IZR. ring.
Qed.

(** ** The operations *)
Lemma not_finite_overflow (z : double) s : B2SF z = binary_overflow 53 1024 mode_NE s -> is_finite z = false.
Proof. destruct z; cbn; intros E; try reflexivity; discriminate E. Qed.
Lemma dadd_spec x y : is_finite (dadd x y) = true ->
  is_finite x = true /\ is_finite y = true /\ B2R (dadd x y) = fl (B2R x + B2R y).
Proof.
  intros F.
  assert (Q : is_finite x = true /\ is_finite y = true).
  { destruct x as [s|s| |s m e B], y as [s'|s'| |s' m' e' B']; try (split; reflexivity); cbn in F; try discriminate F.
    destruct (Bool.eqb s s'); discriminate F. }
  destruct Q as [Fx Fy]. split; [auto|]. split; [auto|].
  pose proof (Bplus_correct 53 1024 p53 p53e mode_NE x y Fx Fy) as C.
  destruct (Rlt_bool _ _) in C; [apply C|]. destruct C as [C _]. apply not_finite_overflow in C.
  unfold dadd in F. rewrite C in F. discriminate F.
Qed.
Lemma dsub_spec x y : is_finite (dsub x y) = true ->
  is_finite x = true /\ is_finite y = true /\ B2R (dsub x y) = fl (B2R x - B2R y).
Proof.
  intros F.
  assert (Q : is_finite x = true /\ is_finite y = true).
  { destruct x as [s|s| |s m e B], y as [s'|s'| |s' m' e' B']; try (split; reflexivity); cbn in F; try discriminate F.
    destruct (Bool.eqb s (negb s')); discriminate F. }
  destruct Q as [Fx Fy]. split; [auto|]. split; [auto|].
  pose proof (Bminus_correct 53 1024 p53 p53e mode_NE x y Fx Fy) as C.
  destruct (Rlt_bool _ _) in C; [apply C|]. destruct C as [C _]. apply not_finite_overflow in C.
  unfold dsub in F. rewrite C in F. discriminate F.
Qed.
Lemma dmul_spec x y : is_finite (dmul x y) = true ->
  is_finite x = true /\ is_finite y = true /\ B2R (dmul x y) = fl (B2R x * B2R y).
Proof.
  intros F. pose proof (Bmult_correct 53 1024 p53 p53e mode_NE x y) as C. fold (dmul x y) in C.
  destruct (Rlt_bool _ _) in C.
  - destruct C as (C1 & C2 & _). rewrite F in C2. symmetry in C2. apply andb_true_iff in C2. destruct C2. auto.
  - apply not_finite_overflow in C. rewrite F in C. discriminate C.
Qed.
Lemma ddiv_spec x y : is_finite (ddiv x y) = true -> B2R y <> 0 ->
  is_finite x = true /\ B2R (ddiv x y) = fl (B2R x / B2R y).
Proof.
  intros F Hy. pose proof (Bdiv_correct 53 1024 p53 p53e mode_NE x y Hy) as C. fold (ddiv x y) in C.
  destruct (Rlt_bool _ _) in C.
  - destruct C as (C1 & C2 & _). rewrite F in C2. auto.
  - apply not_finite_overflow in C. rewrite F in C. discriminate C.
Qed.

(** ** Error factors *)
Lemma gamma_0 : gamma 0 = 0.
Proof. unfold gamma. cbn. ring. Qed.
Lemma pow_ge_1 k : 1 <= (1 + u) ^ k.
Proof. pose proof u_pos. induction k as [|k IH]; cbn [pow]; nra. Qed.
Lemma gamma_pos k : 0 <= gamma k.
Proof. unfold gamma. pose proof (pow_ge_1 k). lra. Qed.
Lemma gamma_le j k : (j <= k)%nat -> gamma j <= gamma k.
Proof. intros H. unfold gamma. assert ((1 + u) ^ j <= (1 + u) ^ k); [|lra]. apply Rle_pow; [pose proof u_pos; lra|auto]. Qed.
Lemma gamma_S k : gamma (S k) = gamma k + u * (1 + gamma k).
Proof. unfold gamma. cbn [pow]. ring. Qed.
Lemma gamma_plus j k : gamma (j + k) = gamma j + gamma k + gamma j * gamma k.
Proof. unfold gamma. rewrite pow_add. ring. Qed.
Lemma gamma_1 : gamma 1 = u.
Proof. unfold gamma. cbn. ring. Qed.

(** one rounding after an error *)
Lemma one_more k c x m : Rabs x <= m -> Rabs (c - x) <= gamma k * m -> forall f t, 0 <= t -> Rabs (f - c) <= u * (Rabs c + t) -> Rabs (f - x) <= gamma (S k) * (m + t).
Proof.
  intros H1 H2 f t Ht H3. pose proof u_pos. pose proof (gamma_pos k). rewrite gamma_S.
  assert (Rabs c <= m + gamma k * m). { replace c with (c - x + x) by ring. apply Rle_trans with (1 := Rabs_triang _ _). lra. }
  replace (f - x) with ((f - c) + (c - x)) by ring. apply Rle_trans with (1 := Rabs_triang _ _).
  assert (0 <= gamma k * t) by (apply Rmult_le_pos; auto). assert (0 <= u * (gamma k * t)) by (apply Rmult_le_pos; lra).
  assert (u * (Rabs c + t) <= u * (m + gamma k * m + t)) by (apply Rmult_le_compat_l; lra). lra.
Qed.
Lemma near_weaken j k c x m : (j <= k)%nat -> near j c x m -> near k c x m.
Proof.
  intros H [H1 H2]. split; [auto|]. intros F. apply Rle_trans with (1 := H2 F). apply Rmult_le_compat_r; [|apply gamma_le; auto].
  pose proof (Rabs_pos x). lra.
Qed.
Lemma near_add k c x m d y n : near k c x m -> near k d y n -> near (S k) (dadd c d) (x + y) (m + n).
Proof.
  intros [X1 X2] [Y1 Y2]. split; [apply Rle_trans with (1 := Rabs_triang _ _); lra|]. intros F.
  destruct (dadd_spec _ _ F) as (Fc & Fd & E). rewrite E. replace (m + n) with (m + n + 0) by ring.
  apply one_more with (c := B2R c + B2R d).
  - apply Rle_trans with (1 := Rabs_triang _ _); lra.
  - replace (B2R c + B2R d - (x + y)) with ((B2R c - x) + (B2R d - y)) by ring. apply Rle_trans with (1 := Rabs_triang _ _).
    specialize (X2 Fc). specialize (Y2 Fd). lra.
  - lra.
  - rewrite Rplus_0_r. apply fl_exact_grid. apply grid_add; apply grid.
Qed.
Lemma near_sub k c x m d y n : near k c x m -> near k d y n -> near (S k) (dsub c d) (x - y) (m + n).
Proof.
  intros [X1 X2] [Y1 Y2].
  assert (Q : Rabs (x - y) <= m + n). { unfold Rminus. apply Rle_trans with (1 := Rabs_triang _ _). rewrite Rabs_Ropp. lra. }
  split; [auto|]. intros F.
  destruct (dsub_spec _ _ F) as (Fc & Fd & E). rewrite E. replace (m + n) with (m + n + 0) by ring.
  apply one_more with (c := B2R c - B2R d); [auto| |lra|].
  - replace (B2R c - B2R d - (x - y)) with ((B2R c - x) + - (B2R d - y)) by ring. apply Rle_trans with (1 := Rabs_triang _ _). rewrite Rabs_Ropp.
    specialize (X2 Fc). specialize (Y2 Fd). lra.
  - rewrite Rplus_0_r. apply fl_exact_grid. apply grid_add; apply grid.
Qed.
Lemma product_error j k c x m d y n : Rabs x <= m -> Rabs y <= n -> Rabs (c - x) <= gamma j * m -> Rabs (d - y) <= gamma k * n ->
  Rabs (c * d - x * y) <= gamma (j + k) * (m * n).
Proof.
  intros X1 Y1 X2 Y2. pose proof (gamma_pos j). pose proof (gamma_pos k).
  replace (c * d - x * y) with ((c - x) * (d - y) + ((c - x) * y + x * (d - y))) by ring.
  pose proof (Rabs_pos x). pose proof (Rabs_pos y). pose proof (Rabs_pos (c - x)). pose proof (Rabs_pos (d - y)).
  apply Rle_trans with (1 := Rabs_triang _ _). apply Rle_trans with (Rabs ((c - x) * (d - y)) + (Rabs ((c - x) * y) + Rabs (x * (d - y)))).
  { apply Rplus_le_compat_l. apply Rabs_triang. }
  rewrite !Rabs_mult.
  assert (Rabs (c - x) * Rabs (d - y) <= (gamma j * m) * (gamma k * n)) by (apply Rmult_le_compat; auto).
  assert (Rabs (c - x) * Rabs y <= (gamma j * m) * n) by (apply Rmult_le_compat; auto).
  assert (Rabs x * Rabs (d - y) <= m * (gamma k * n)) by (apply Rmult_le_compat; auto).
  rewrite gamma_plus. lra.
Qed.
Lemma abs_product x y m n : Rabs x <= m -> Rabs y <= n -> Rabs (x * y) <= m * n.
Proof. intros. rewrite Rabs_mult. apply Rmult_le_compat; auto using Rabs_pos. Qed.
Lemma near_mul j k c x m d y n : near j c x m -> near k d y n -> near (S (j + k)) (dmul c d) (x * y) (m * n + tiny).
Proof.
  intros [X1 X2] [Y1 Y2]. pose proof tiny_pos. pose proof (abs_product x y m n X1 Y1). split; [lra|]. intros F.
  destruct (dmul_spec _ _ F) as (Fc & Fd & E). rewrite E.
  apply one_more with (c := B2R c * B2R d); [auto|apply product_error; auto|lra|apply fl_error].
Qed.
Lemma near_square p k c x m : square p -> near k c x m -> near (k + k + 2) (p c) (x * x) (m * m + tiny).
Proof.
  intros P [X1 X2]. pose proof tiny_pos. pose proof (abs_product x x m m X1 X1). split; [lra|]. intros F.
  destruct (P c F) as [Fc E]. specialize (X2 Fc).
  pose proof (product_error k k (B2R c) x m (B2R c) x m X1 X1 X2 X2) as Q.
  replace (B2R (p c) - x * x) with ((B2R (p c) - B2R c * B2R c) + (B2R c * B2R c - x * x)) by ring.
  apply Rle_trans with (1 := Rabs_triang _ _).
  assert (B2R c * B2R c <= m * m + gamma (k + k) * (m * m)).
  { apply Rle_trans with (1 := Rle_abs _). replace (B2R c * B2R c) with ((B2R c * B2R c - x * x) + x * x) by ring. apply Rle_trans with (1 := Rabs_triang _ _). lra. }
  rewrite (gamma_plus (k + k) 2). pose proof (gamma_pos (k + k)). pose proof (gamma_pos 2).
  assert (0 <= gamma (k + k) * tiny) by (apply Rmult_le_pos; lra).
  assert (gamma 2 * (B2R c * B2R c + tiny) <= gamma 2 * (m * m + gamma (k + k) * (m * m) + tiny)) by (apply Rmult_le_compat_l; lra).
  assert (0 <= gamma 2 * (gamma (k + k) * tiny)) by (apply Rmult_le_pos; lra). lra.
Qed.
Lemma near_0 : near 0 (B754_zero false) 0 0.
Proof. split; [rewrite Rabs_R0; lra|]. intros _. cbn. rewrite Rminus_0_r, Rabs_R0, gamma_0. lra. Qed.
Lemma near_exact c : near 0 c (B2R c) (Rabs (B2R c)).
Proof. split; [lra|]. intros _. rewrite gamma_0. unfold Rminus. rewrite Rplus_opp_r, Rabs_R0. lra. Qed.
Lemma dofint_small n : (Z.abs n < 2 ^ 53)%Z -> B2R (dofint n) = IZR n /\ is_finite (dofint n) = true.
Proof.
  intros H. pose proof (binary_normalize_correct 53 1024 p53 p53e mode_NE n 0 false) as B.
  cbn zeta in B. unfold dofint. assert (F : F2R (Float radix2 n 0) = IZR n) by (unfold F2R; cbn; ring).
  rewrite F in B. change (round_mode mode_NE) with ZnearestE in B. change (SpecFloat.fexp 53 1024) with fx in B. fold (fl (IZR n)) in B.
  rewrite fl_int in B by lia. rewrite (small_ok _ (Z.abs n)) in B; [tauto|lia|]. rewrite <- abs_IZR. lra.
Qed.
Lemma near_one : near 0 (dofint 1) 1 1.
Proof. destruct (dofint_small 1 ltac:(lia)) as [E F]. pose proof (near_exact (dofint 1)) as H. rewrite E, (Rabs_pos_eq 1) in H by lra. exact H. Qed.
Lemma near_half : near 0 (ddiv (dofint 1) (dofint 2)) (1 / 2) (1 / 2).
Proof.
  destruct (dofint_small 1 ltac:(lia)) as [E1 F1]. destruct (dofint_small 2 ltac:(lia)) as [E2 F2].
  split; [rewrite Rabs_pos_eq; lra|]. intros F. destruct (ddiv_spec _ _ F) as [_ E]; [rewrite E2; lra|].
  rewrite E, E1, E2. unfold fl. rewrite round_generic; [|typeclasses eauto|apply (format_half 1); lia].
  rewrite gamma_0. unfold Rminus. rewrite Rplus_opp_r, Rabs_R0. lra.
Qed.

(** ** Sums of products *)
Lemma near_accum p j k n (c d : Z -> double) x m y l :
  (forall i, (1 <= i <= Z.of_nat n)%Z -> near j (c i) (x i) (m i)) -> (forall i, (1 <= i <= Z.of_nat n)%Z -> near k (d i) (y i) (l i)) ->
  near (j + k + 1 + n) (accum (binary64 p) n c d) (accum real n x y) (accum magnitude n m l).
Proof.
  induction n as [|n IH]; intros H1 H2; cbn [accum].
  - apply near_weaken with 0%nat; [lia|]. exact near_0.
  - replace (j + k + 1 + S n)%nat with (S (j + k + 1 + n)) by lia. apply near_add.
    + apply IH; intros i Hi; [apply H1|apply H2]; lia.
    + apply near_weaken with (S (j + k)); [lia|]. apply near_mul; [apply H1|apply H2]; lia.
Qed.

(** ** The numbers of the coupling *)
Section Coupling.
Variable p : double -> double.
Let D := binary64 p.

Lemma near_projection i N S P z Sx Px zx Sm Pm zm k :
  (forall l m, near i (S l m) (Sx l m) (Sm l m)) -> (forall l m, near i (P l m) (Px l m) (Pm l m)) -> (forall l, near i (z l) (zx l) (zm l)) ->
  near (3 * i + 2 * N + 2) (projection D N S P z k) (projection real N Sx Px zx k) (projection magnitude N Sm Pm zm k).
Proof.
  intros HS HP Hz. unfold projection. apply near_weaken with (i + (i + i + 1 + N) + 1 + N)%nat; [lia|].
  apply near_accum; intros; [apply Hz|]. apply near_accum; intros; auto.
Qed.
Lemma near_pad_after i n1 z zx zm : (forall l, near i (z l) (zx l) (zm l)) ->
  forall l, near i (pad_after D n1 z l) (pad_after real n1 zx l) (pad_after magnitude n1 zm l).
Proof. intros H l. unfold pad_after. destruct (l <=? n1)%Z; [auto|]. apply near_weaken with 0%nat; [lia|exact near_0]. Qed.
Lemma near_pad_before i n1 z zx zm : (forall l, near i (z l) (zx l) (zm l)) ->
  forall l, near i (pad_before D n1 z l) (pad_before real n1 zx l) (pad_before magnitude n1 zm l).
Proof. intros H l. unfold pad_before. destruct (l <=? n1)%Z; [|auto]. apply near_weaken with 0%nat; [lia|exact near_0]. Qed.
Lemma near_weighted i j K e ex em g gx gm l : (forall k, near i (e k) (ex k) (em k)) -> (forall k, near j (g k) (gx k) (gm k)) ->
  near (i + j + 1 + K) (weighted D K e g l) (weighted real K ex gx l) (weighted magnitude K em gm l).
Proof.
  intros He Hg. unfold weighted. apply near_accum; intros k Hk; [|apply Hg].
  destruct (l =? k)%Z; [apply He|]. apply near_weaken with 0%nat; [lia|exact near_0].
Qed.
Lemma near_weighted_sum i j K e ex em g gx gm h hx hm : (forall k, near i (e k) (ex k) (em k)) -> (forall k, near j (g k) (gx k) (gm k)) -> (forall k, near j (h k) (hx k) (hm k)) ->
  near (i + 2 * j + 2 + 2 * K) (accum D K g (weighted D K e h)) (accum real K gx (weighted real K ex hx)) (accum magnitude K gm (weighted magnitude K em hm)).
Proof.
  intros He Hg Hh. apply near_weaken with (j + (i + j + 1 + K) + 1 + K)%nat; [lia|]. apply near_accum; intros k Hk; [apply Hg|].
  apply near_weighted; auto.
Qed.
Lemma near_overlap j K g gx gm h hx hm : (forall k, near j (g k) (gx k) (gm k)) -> (forall k, near j (h k) (hx k) (hm k)) ->
  near (2 * j + 1 + K) (accum D K g h) (accum real K gx hx) (accum magnitude K gm hm).
Proof. intros Hg Hh. apply near_weaken with (j + j + 1 + K)%nat; [lia|]. apply near_accum; auto. Qed.

Lemma near_num i j K e ex em gA ax am gB bx bm : (forall k, near i (e k) (ex k) (em k)) -> (forall k, near j (gA k) (ax k) (am k)) -> (forall k, near j (gB k) (bx k) (bm k)) ->
  near (i + 4 * j + 7 + 3 * K) (J_num D K e gA gB) (J_num real K ex ax bx) (J_num magnitude K em am bm).
Proof.
  intros He Ha Hb. unfold J_num. replace (i + 4 * j + 7 + 3 * K)%nat with (S (i + 4 * j + 6 + 3 * K)) by lia. apply near_sub.
  - apply near_weaken with (i + 2 * j + 2 + 2 * K)%nat; [lia|]. apply near_weighted_sum; auto.
  - apply near_weaken with (S ((S (0 + S (i + 2 * j + 2 + 2 * K))) + (2 * j + 1 + K))); [lia|]. apply near_mul.
    + apply near_mul; [exact near_half|]. apply near_add; apply near_weighted_sum; auto.
    + apply near_overlap; auto.
Qed.
Lemma near_den j K gA ax am gB bx bm : square p -> (forall k, near j (gA k) (ax k) (am k)) -> (forall k, near j (gB k) (bx k) (bm k)) ->
  near (4 * j + 5 + 2 * K) (J_den D K gA gB) (J_den real K ax bx) (J_den magnitude K am bm).
Proof.
  intros P Ha Hb. unfold J_den. replace (4 * j + 5 + 2 * K)%nat with (S (4 * j + 4 + 2 * K)) by lia. apply near_sub.
  - apply near_weaken with 0%nat; [lia|exact near_one].
  - apply near_weaken with ((2 * j + 1 + K) + (2 * j + 1 + K) + 2)%nat; [lia|]. apply near_square; [auto|]. apply near_overlap; auto.
Qed.
End Coupling.

(** ** The quotient *)
Lemma quotient_error c d x y Ec Ed : Rabs (c - x) <= Ec -> Rabs (d - y) <= Ed -> Ed < Rabs y ->
  d <> 0 /\ Rabs (c / d - x / y) <= (Ec + Rabs (x / y) * Ed) / (Rabs y - Ed).
Proof.
  intros Hc Hd Hy. pose proof (Rabs_pos (d - y)). pose proof (Rabs_pos (c - x)).
  assert (Q : Rabs y - Ed <= Rabs d). { replace y with (d - (d - y)) by ring. unfold Rminus at 2. pose proof (Rabs_triang d (- (d - y))). rewrite Rabs_Ropp in H1. unfold Rminus in *. lra. }
  assert (Nd : d <> 0). { intros ->. rewrite Rabs_R0 in Q. lra. }
  assert (Ny : y <> 0). { intros ->. rewrite Rabs_R0 in Hy. lra. }
  split; [auto|].
  replace (c / d - x / y) with (((c - x) + - (x / y * (d - y))) / d) by (field; auto).
  unfold Rdiv at 1. rewrite Rabs_mult, Rabs_inv.
  pose proof (Rabs_pos (x / y)). assert (0 < Rabs d) by (apply Rabs_pos_lt; auto).
  assert (Rabs ((c - x) + - (x / y * (d - y))) <= Ec + Rabs (x / y) * Ed).
  { apply Rle_trans with (1 := Rabs_triang _ _). rewrite Rabs_Ropp, Rabs_mult.
    assert (Rabs (x / y) * Rabs (d - y) <= Rabs (x / y) * Ed) by (apply Rmult_le_compat_l; auto). lra. }
  unfold Rdiv. apply Rmult_le_compat; [apply Rabs_pos|left; apply Rinv_0_lt_compat; auto|exact H3|].
  apply Rinv_le; lra.
Qed.
Lemma near_quotient k l c x m d y n : near k c x m -> near l d y n -> is_finite (ddiv c d) = true -> is_finite d = true -> gamma l * n < Rabs y ->
  Rabs (B2R (ddiv c d) - x / y) <= (1 + u) * ((gamma k * m + Rabs (x / y) * (gamma l * n)) / (Rabs y - gamma l * n)) + u * (Rabs (x / y) + tiny).
Proof.
  intros [X1 X2] [Y1 Y2] F Fd Hy.
  assert (H0 : Rabs (B2R d - y) <= gamma l * n) by auto.
  assert (Nd : B2R d <> 0).
  { intros E. rewrite E in H0. unfold Rminus in H0. rewrite Rplus_0_l, Rabs_Ropp in H0. lra. }
  destruct (ddiv_spec c d F Nd) as [Fc E]. destruct (quotient_error (B2R c) (B2R d) x y _ _ (X2 Fc) H0 Hy) as [_ Q].
  set (q := (gamma k * m + Rabs (x / y) * (gamma l * n)) / (Rabs y - gamma l * n)) in *.
  rewrite E. pose proof (fl_error (B2R c / B2R d)) as G. pose proof u_pos. pose proof tiny_pos.
  assert (Rabs (B2R c / B2R d) <= q + Rabs (x / y)).
  { replace (B2R c / B2R d) with ((B2R c / B2R d - x / y) + x / y) by ring. apply Rle_trans with (1 := Rabs_triang _ _). lra. }
  replace (fl (B2R c / B2R d) - x / y) with ((fl (B2R c / B2R d) - B2R c / B2R d) + (B2R c / B2R d - x / y)) by ring.
  apply Rle_trans with (1 := Rabs_triang _ _).
  assert (u * (Rabs (B2R c / B2R d) + tiny) <= u * (q + Rabs (x / y) + tiny)) by (apply Rmult_le_compat_l; lra). lra.
Qed.
(** gamma is close to k * u *)
Lemma gamma_linear k : INR k * u <= 1 -> gamma k <= INR k * u + (INR k * u) * (INR k * u).
Proof.
  pose proof u_pos. induction k as [|k IH]; intros H1.
  - rewrite gamma_0. cbn [INR]. lra.
  - rewrite S_INR in *. pose proof (pos_INR k) as Hk. assert (Q : 0 <= INR k * u) by (apply Rmult_le_pos; lra).
    assert (Q1 : INR k * u <= 1) by lra. specialize (IH Q1). rewrite gamma_S.
    assert (INR k * u * (INR k * u) <= INR k * u * 1) by (apply Rmult_le_compat_l; lra).
    assert (u * gamma k <= u * (2 * (INR k * u))) by (apply Rmult_le_compat_l; lra).
    assert (0 <= u * u) by (apply Rmult_le_pos; lra). lra.
Qed.
