(** * The machine's numbers are the written ones up to four roundings *)
From Coq Require Import Reals Psatz.
From Flocq Require Import Core IEEE754.BinarySingleNaN.
From Verif Require Export AccSpec AccFin AccPara.
From Verif Require Import FloatTol FloatProps.
From Verif Require Export StrSpec StrModel.
Local Open Scope R_scope.
Local Instance prec53a : Prec_gt_0 53 := p53.
Local Instance vfxa : Valid_exp fx := FLT_exp_valid (-1074) 53.

Definition close (x : written_number) (c : double) : Prop :=
  match x with
  | None => True
  | Some (s, a) => (Rabs a <= IZR (2 ^ 30) -> is_finite c = true) /\
      (is_finite c = true -> Bsign c = s /\ Rabs (B2R c - a) <= gamma 4 * (Rabs a + tiny))
  end.
Lemma gamma_1_4 : gamma 1 <= gamma 4.
Proof. apply gamma_le. lia. Qed.
(** ** scanning *)
Lemma span_all q s a b : span q s = (a, b) -> Forall (fun c => q c = true) a.
Proof.
  revert a b. induction s as [|c s IH]; intros a b; cbn [span]; [intros E; inversion E; constructor|]. destruct (q c) eqn:Q.
  - destruct (span q s) as [a' b'] eqn:E'. intros E. inversion E; subst. constructor; [exact Q|exact (IH _ _ eq_refl)].
  - intros E. inversion E. constructor.
Qed.
Lemma mantissa_all q s a b r : mantissa q s = Some (a, b, r) -> Forall (fun c => q c = true) (a ++ b).
Proof.
  unfold mantissa. destruct (span q s) as [a' r'] eqn:E1. apply span_all in E1.
  destruct (match r' with c :: t => if Ascii.eqb c "." then span q t else ([], r') | [] => ([], r') end) as [b' r''] eqn:E2.
  assert (F : Forall (fun c => q c = true) b').
  { destruct r' as [|c t]; [inversion E2; constructor|]. destruct (Ascii.eqb c "."); [exact (span_all _ _ _ _ E2)|inversion E2; constructor]. }
  intros E. apply Forall_app. destruct a', b'; inversion E; subst; auto.
Qed.
Lemma digits_nonneg s : Forall (fun c => is_digit c = true) s -> (0 <= digits_val 0 s)%Z.
Proof.
  assert (Q : forall s a, (0 <= a)%Z -> Forall (fun c => is_digit c = true) s -> (0 <= digits_val a s)%Z); [|intros; apply Q; auto; lia].
  clear s. induction s as [|c s IH]; intros a Ha F; cbn [digits_val]; [auto|]. inversion F as [|? ? H1 H2]; subst. rewrite H1. apply IH; [|auto]. unfold is_digit in H1. unfold digit_val. lia.
Qed.
Lemma hex_nonneg s : Forall (fun c => is_hex c = true) s -> (0 <= hex_value s)%Z.
Proof.
  unfold hex_value. assert (Q : forall s a, (0 <= a)%Z -> Forall (fun c => is_hex c = true) s -> (0 <= fold_left (fun a c => 16 * a + hex_val c) s a)%Z); [|intros; apply Q; auto; lia].
  clear s. induction s as [|c s IH]; intros a Ha F; cbn [fold_left]; [auto|]. inversion F; subst. apply IH; [|auto]. unfold is_hex in H1. unfold hex_val. destruct (is_digit c) eqn:Dc; [unfold is_digit in Dc; unfold digit_val; lia|]. cbn [orb] in H1. lia.
Qed.
Lemma scan_number s neg base m e : scan s = Some (Number neg base m e) -> (0 < base)%Z /\ (0 <= m)%Z.
Proof.
  unfold scan. destruct (sign (drop_while is_space s)) as [ng t]. unfold scan_body. destruct (starts_ci $"inf" t); [discriminate|]. destruct (starts_ci $"nan" t); [discriminate|].
  destruct (if starts_ci $"0x" t then mantissa is_hex (skipn 2 t) else None) as [[[a b] r]|] eqn:E1.
  - intros E. assert (base = 2%Z /\ m = hex_value (a ++ b)) as [-> ->] by (split; congruence). split; [lia|]. apply hex_nonneg. destruct (starts_ci $"0x" t); [|discriminate]. exact (mantissa_all _ _ _ _ _ E1).
  - destruct (mantissa is_digit t) as [[[a b] r]|] eqn:E2; [|discriminate]. intros E. assert (base = 10%Z /\ m = digits_val 0 (a ++ b)) as [-> ->] by (split; congruence).
    split; [lia|]. apply digits_nonneg. exact (mantissa_all _ _ _ _ _ E2).
Qed.
Lemma to_double_sign neg base m e : Bsign (to_double (Number neg base m e)) = neg.
Proof.
  cbn [to_double]. destruct (as_ratio base m e) as [n d]. destruct n as [|n|n], d as [|d|d]; try reflexivity.
  unfold ratio. pose proof (proj2 (Bdiv_correct_aux 53 1024 p53 p53e mode_NE neg n 0 false d 0)) as C. cbv zeta in C.
  generalize (proj1 (Bdiv_correct_aux 53 1024 p53 p53e mode_NE neg n 0 false d 0)). intros H. cbv zeta in H.
  match type of H with SpecFloat.valid_binary _ _ ?z0 = true => set (z := z0) in * end. clearbody z. rewrite Bsign_SF2B.
  destruct (Rlt_bool _ _) in C; [destruct C as (_ & _ & C); rewrite C; destruct neg; reflexivity|]. rewrite C. destruct neg; reflexivity.
Qed.
Lemma small_fl r : Rabs r <= IZR (2 ^ 30) -> Rabs (fl r) < bpow radix2 1024.
Proof. intros H. apply fl_small with 1%Z 30%Z; [lia|lia|]. rewrite Rmult_1_l. rewrite <- (pow_IZR 30) by lia. exact H. Qed.
Lemma u_gamma4 a : 0 <= a -> u * a <= gamma 4 * a.
Proof. intros H. apply Rmult_le_compat_r; [auto|]. rewrite <- gamma_1. exact gamma_1_4. Qed.
Lemma gamma4_pos : 0 < gamma 4.
Proof. pose proof u_pos. pose proof gamma_1_4 as G. rewrite gamma_1 in G. lra. Qed.

Lemma stod_exact s x : written_stod s = Ok x -> exists c, dstod s = Ok c /\
  match x with None => True | Some (sg, a) => is_finite c = true /\ Bsign c = sg /\ B2R c = fl a /\ Rabs (B2R c - a) <= u * Rabs a end.
Proof.
  unfold written_stod, dstod. destruct (scan s) as [v|] eqn:Es; [|discriminate]. destruct (range_error v) eqn:Re; [discriminate|]. intros E. exists (to_double v). split; [reflexivity|].
  assert (x = shown_number v) as -> by congruence. clear E. destruct v as [neg base m e|neg|]; cbn [shown_number]; auto. destruct (scan_number _ _ _ _ _ Es) as [Hb Hm].
  destruct (no_range_error neg base m e Hb Hm Re) as (F & B & L). split; [exact F|]. split; [apply to_double_sign|]. split; [exact B|]. rewrite B. exact L.
Qed.
Lemma stod_close s x : written_stod s = Ok x -> exists c, dstod s = Ok c /\ close x c.
Proof.
  intros H. destruct (stod_exact s x H) as (c & E & Q). exists c. split; [exact E|]. destruct x as [[sg a]|]; cbn [close]; [|auto]. destruct Q as (F & Sg & _ & L).
  split; [auto|]. intros _. split; [exact Sg|]. apply Rle_trans with (1 := L). pose proof tiny_pos. pose proof (u_gamma4 (Rabs a) (Rabs_pos a)) as U4. assert (0 <= gamma 4 * tiny) by (apply Rmult_le_pos; [apply gamma_pos|lra]). lra.
Qed.
Lemma atof_close s : close (written_atof s) (datof s).
Proof.
  unfold written_atof, datof. destruct (scan s) as [v|] eqn:Es; [|exact I]. destruct v as [neg base m e|neg|]; cbn [shown_number close]; auto. destruct (scan_number _ _ _ _ _ Es) as [Hb Hm].
  destruct (to_double_spec neg base m e Hb Hm) as [S1 S2]. set (r := exactly _) in *. split.
  - intros H. apply S1. apply small_fl. exact H.
  - intros F. split; [apply to_double_sign|]. destruct (Rlt_or_le (Rabs (fl r)) (bpow radix2 1024)) as [L|L]; [|apply S2 in L; congruence]. destruct (S1 L) as [_ E]. rewrite E.
    apply Rle_trans with (1 := fl_error r). pose proof tiny_pos. pose proof (Rabs_pos r). apply u_gamma4. lra.
Qed.
Lemma fl_int k : (Z.abs k < 2 ^ 53)%Z -> fl (IZR k) = IZR k.
Proof. intros H. apply round_generic; [typeclasses eauto|]. apply format_int. exact H. Qed.
Lemma gamma_le_1 k : (k <= 100)%nat -> gamma k <= / 1000.
Proof.
  intros H. apply Rle_trans with (1 := gamma_le _ 100 H). assert (Hu : u <= / 1000000) by (rewrite u_bpow; cbn; lra). assert (Q : INR 100 = 100) by (cbn; lra).
  assert (L : INR 100 * u <= / 10000) by (rewrite Q; lra). pose proof u_pos. assert (0 <= INR 100 * u) by (rewrite Q; lra).
  apply Rle_trans with (1 := gamma_linear 100 ltac:(lra)). assert ((INR 100 * u) * (INR 100 * u) <= 1 * (INR 100 * u)) by (apply Rmult_le_compat_r; lra). lra.
Qed.
Lemma coef_close pow10 a b x y : powers pow10 -> written_stod a = Ok x -> written_stod b = Ok y ->
  exists x' y', dstod a = Ok x' /\ dstod b = Ok y' /\ close (written_mul x (written_pow10 y)) (dmul x' (pow10 y')).
Proof.
  intros P Ex Ey. destruct (stod_exact _ _ Ex) as (cx & Dx & Qx). destruct (stod_exact _ _ Ey) as (cy & Dy & Qy). exists cx, cy. split; [exact Dx|]. split; [exact Dy|].
  destruct x as [[sx ax]|]; [|exact I]. destruct y as [[sy ay]|]; [|exact I]. cbn [written_pow10]. set (k := Ztrunc ay). destruct (Req_EM_T ay (IZR k)) as [Ek|]; [|exact I].
  destruct (Z.leb_spec (Z.abs k) 300) as [Hk|]; [|exact I]. cbn [written_mul]. destruct Qx as (Fx & Sx & _ & Lx). destruct Qy as (Fy & _ & By & _).
  rewrite Ek, fl_int in By by lia. destruct (P cy k Fy By Hk) as [Fp Lp]. pose proof (bpow_gt_0 ten k) as T. set (t := bpow ten k) in *. pose proof tiny_pos as Tp.
  assert (N : near 4 (dmul cx (pow10 cy)) (ax * t) (Rabs ax * t + tiny)).
  { change 4%nat with (S (1 + 2)). apply near_mul.
    - split; [lra|]. intros _. rewrite gamma_1. exact Lx.
    - split; [rewrite Rabs_pos_eq; lra|]. intros _. exact Lp. }
  assert (M : Rabs (ax * t) = Rabs ax * t) by (rewrite Rabs_mult, (Rabs_pos_eq t); lra).
  assert (Pp : 0 < B2R (pow10 cy)). { assert (gamma 2 * t <= / 1000 * t) by (apply Rmult_le_compat_r; [lra|apply gamma_le_1; lia]). apply Rabs_le_inv in Lp. lra. }
  assert (Sp : Bsign (pow10 cy) = false).
  { destruct (pow10 cy) as [s0|s0| |s0 m0 e0 B0]; try discriminate Fp; [cbn in Pp; lra|]. destruct s0; [|reflexivity]. exfalso. cbn [B2R] in Pp.
    assert (F2R (Float radix2 (Zneg m0) e0) < 0) by (apply F2R_lt_0; cbn; lia). cbn [SpecFloat.cond_Zopp Z.opp] in Pp. lra. }
  cbn [close]. split.
  - intros H. rewrite M in H.
    assert (B : Rabs (B2R cx * B2R (pow10 cy)) <= IZR 2 * bpow radix2 30).
    { assert (Ht : Rabs t <= t) by (rewrite Rabs_pos_eq; lra). rewrite <- gamma_1 in Lx. pose proof (product_error 1 2 (B2R cx) ax (Rabs ax) (B2R (pow10 cy)) t t (Rle_refl _) Ht Lx Lp) as Q. change (1 + 2)%nat with 3%nat in Q.
      assert (gamma 3 * (Rabs ax * t) <= 1 * (Rabs ax * t)). { apply Rmult_le_compat_r; [apply Rmult_le_pos; [apply Rabs_pos|lra]|]. pose proof (gamma_le_1 3 ltac:(lia)). lra. }
      pose proof (Rabs_triang (B2R cx * B2R (pow10 cy) - ax * t) (ax * t)) as Tr. replace (B2R cx * B2R (pow10 cy) - ax * t + ax * t) with (B2R cx * B2R (pow10 cy)) in Tr by ring.
      rewrite M in Tr. rewrite <- (pow_IZR 30) by lia. lra. }
    pose proof (Bmult_correct 53 1024 p53 p53e mode_NE cx (pow10 cy)) as C. fold (dmul cx (pow10 cy)) in C. change (round_mode mode_NE) with ZnearestE in C. change (SpecFloat.fexp 53 1024) with fx in C.
    fold (fl (B2R cx * B2R (pow10 cy))) in C. rewrite Rlt_bool_true in C by (eapply fl_small; [| |exact B]; lia). destruct C as (_ & C2 & _). rewrite C2, Fx, Fp. reflexivity.
  - intros F. split; [|rewrite M; apply N; exact F].
    pose proof (Bmult_correct 53 1024 p53 p53e mode_NE cx (pow10 cy)) as C. fold (dmul cx (pow10 cy)) in C. destruct (Rlt_bool _ _) in C.
    + destruct C as (_ & _ & C). rewrite C, Sx, Sp; [reflexivity|]. destruct (dmul cx (pow10 cy)); try discriminate F; reflexivity.
    + apply not_finite_overflow in C. rewrite F in C. discriminate C.
Qed.
(** files that say something in written numbers are read by the machine *)
Lemma machine_contains pow10 disk p d : powers pow10 -> contain written disk p d -> exists e, contain (machine pow10) disk p e /\ drel written (machine pow10) close d e.
Proof.
  intros P H. apply (contain_para written (machine pow10) close); [exact stod_close|exact atof_close| |exact H].
  intros a b x y Ea Eb. exact (coef_close pow10 a b x y P Ea Eb).
Qed.

(** ** tables *)
Lemma close_zero : close (Some (false, 0)) (B754_zero false).
Proof. cbn [close]. split; [reflexivity|]. intros _. split; [reflexivity|]. cbn [B2R]. rewrite Rminus_0_r, Rabs_R0. apply Rmult_le_pos; [apply gamma_pos|]. pose proof tiny_pos. lra. Qed.
Lemma Forall2_nth {A B} (P : A -> B -> Prop) l l' n a b : Forall2 P l l' -> P a b -> P (nth n l a) (nth n l' b).
Proof. intros H. revert n. induction H; intros [|n] Pab; cbn [nth]; auto. Qed.
Lemma Forall_nth_d {A} (P : A -> Prop) l n a : Forall P l -> P a -> P (nth n l a).
Proof. intros H. revert n. induction H; intros [|n] Pa; cbn [nth]; auto. Qed.
Lemma moderate_zero : moderate_number (Some (false, 0)).
Proof. split; [discriminate|]. cbn [the]. rewrite Rabs_R0. apply IZR_le. lia. Qed.
(** a moderate number and its double *)
Definition matched (x : written_number) (c : double) : Prop := moderate_number x /\ close x c.
Lemma matched_near x c : matched x c -> near 4 c (the x) (Rabs (the x) + tiny).
Proof.
  intros [[N M] C]. pose proof tiny_pos. split; [lra|]. intros F. destruct x as [[s a]|]; [|destruct (N eq_refl)]. cbn [the close] in *. apply C. exact F.
Qed.
Lemma matched_ok x c : matched x c -> ok 1 31 c.
Proof.
  intros [[N M] C]. destruct x as [[s a]|]; [|destruct (N eq_refl)]. cbn [the close] in *. destruct C as [C1 C2]. specialize (C1 M). split; [exact C1|]. destruct (C2 C1) as [_ L].
  pose proof tiny_pos. pose proof (Rabs_pos a). assert (gamma 4 * (Rabs a + tiny) <= / 1000 * (Rabs a + tiny)) by (apply Rmult_le_compat_r; [lra|apply gamma_le_1; lia]).
  assert (tiny <= 1) by (rewrite tiny_bpow; change 1 with (bpow radix2 0); apply bpow_le; lia).
  pose proof (Rabs_triang (B2R c - a) a) as T. replace (B2R c - a + a) with (B2R c) in T by ring. assert (1 <= IZR (2 ^ 30)) by (apply IZR_le; lia).
  rewrite Rmult_1_l, <- (pow_IZR 31) by lia. replace (IZR (2 ^ 31)) with (2 * IZR (2 ^ 30)) by (rewrite <- mult_IZR; reflexivity). lra.
Qed.
Lemma table_matched pow10 rows rows' i j : Forall (Forall moderate_number) rows -> Forall2 (Forall2 close) rows rows' ->
  matched (table written rows i j) (table (machine pow10) rows' i j).
Proof.
  intros M C. unfold table. split.
  - apply Forall_nth_d; [apply Forall_nth_d; [exact M|constructor]|exact moderate_zero].
  - apply Forall2_nth; [apply Forall2_nth; [exact C|constructor]|exact close_zero].
Qed.
Lemma entry_matched pow10 l l' i : Forall moderate_number l -> Forall2 close l l' -> matched (entry written l i) (entry (machine pow10) l' i).
Proof. intros M C. unfold entry. split; [apply Forall_nth_d; [exact M|exact moderate_zero]|apply Forall2_nth; [exact C|exact close_zero]]. Qed.
