(** * The example of C73 in real numbers *)
From Coq Require Import Reals Psatz QArith Qreals.
From Flocq Require Import Core IEEE754.BinarySingleNaN.
From Verif Require Import MainExample.
From Verif Require Export AccJob.
Import ReaderExample.
From Verif Require Export StrSpec StrModel.
Local Open Scope R_scope.

(** ** the decimals of the examples denote what the texts say *)
Lemma digit_of_val c : digit_of c = if is_digit c then Some (digit_val c) else None.
Proof. reflexivity. Qed.
Lemma digits_span s : forall acc n, exists ds r, digits s acc n = (fold_left (fun a c => (10 * a + digit_val c)%Z) ds acc, (n + length ds)%nat, r) /\ s = ds ++ r /\ digs ds.
Proof.
  induction s as [|c s IH]; intros acc n; cbn [digits].
  - exists [], []. rewrite Nat.add_0_r. split; [reflexivity|]. split; [reflexivity|constructor].
  - rewrite digit_of_val. destruct (is_digit c) eqn:Dc.
    + destruct (IH (10 * acc + digit_val c)%Z (S n)) as (ds & r & E & -> & Hd). exists (c :: ds), r. rewrite E. cbn [fold_left length]. split; [f_equal; f_equal; lia|]. split; [reflexivity|constructor; auto].
    + exists [], (c :: s). rewrite Nat.add_0_r. split; [reflexivity|]. split; [reflexivity|constructor].
Qed.
Lemma amount_bound ds : digs ds -> (0 <= amount ds < 10 ^ Z.of_nat (length ds))%Z.
Proof.
  unfold amount. intros H. assert (Q : forall a, (0 <= a -> a * 10 ^ Z.of_nat (length ds) <= fold_left (fun a c => (10 * a + digit_val c)%Z) ds a < (a + 1) * 10 ^ Z.of_nat (length ds))%Z).
  { induction H as [|c ds Hc _ IH]; intros a Ha; [cbn; lia|]. cbn [fold_left length]. unfold is_digit in Hc. assert (Hc' : (48 <= code c <= 57)%Z) by (apply andb_true_iff in Hc as [H1 H2]; apply Z.leb_le in H1, H2; auto). assert (Ha' : (0 <= 10 * a + digit_val c)%Z) by (unfold digit_val; lia). specialize (IH _ Ha').
    rewrite Nat2Z.inj_succ, Z.pow_succ_r by lia. pose proof (Z.pow_pos_nonneg 10 (Z.of_nat (length ds)) ltac:(lia) ltac:(lia)) as PP. set (P := (10 ^ Z.of_nat (length ds))%Z) in *. assert (Dq : (0 <= digit_val c <= 9)%Z) by (unfold digit_val; lia). set (q := digit_val c) in *. assert (0 <= q * P <= 9 * P)%Z by nia. lia. }
  specialize (Q 0%Z ltac:(lia)). lia.
Qed.
Lemma parse_scan s m e : parse_decimal s = Some (m, e) -> scan s = Some (Number (m <? 0)%Z 10 (Z.abs m) e) /\ (-60 <= e <= 0)%Z /\ (Z.abs m < 10 ^ 60)%Z.
Proof.
  unfold parse_decimal, scan, ltrim. set (t := drop_while is_space s). change (match t with c :: t0 => if Ascii.eqb c "-" then (true, t0) else if Ascii.eqb c "+" then (false, t0) else (false, t) | [] => (false, t) end) with (sign t).
  destruct (sign t) as [neg b]. clear t. destruct (digits_span b 0%Z 0%nat) as (ip & r & -> & Eb & Hi).
  set (q := match r with c :: t => if Ascii.eqb c "." then digits t (fold_left (fun a c => (10 * a + digit_val c)%Z) ip 0%Z) 0 else (fold_left (fun a c => (10 * a + digit_val c)%Z) ip 0%Z, O, r) | [] => _ end).
  assert (X : exists ft fp rest, q = (amount (ip ++ fp), length fp, rest) /\ digs fp /\ r = ft ++ rest /\ (ft = [] /\ fp = [] \/ ft = "."%char :: fp)).
  { subst q. destruct r as [|c t]; [exists [], [], []; rewrite app_nil_r; repeat split; auto; constructor|]. destruct (Ascii.eqb_spec c ".") as [->|Nc].
    - destruct (digits_span t (fold_left (fun a c => (10 * a + digit_val c)%Z) ip 0%Z) 0%nat) as (fp & rest & -> & -> & Hf). exists ("."%char :: fp), fp, rest. unfold amount. rewrite fold_left_app. repeat split; auto.
    - exists [], [], (c :: t). rewrite app_nil_r. repeat split; auto; constructor. }
  destruct X as (ft & fp & rest & -> & Hf & Er & Hft).
  cbn [Nat.add].
  destruct ((length ip + length fp =? 0)%nat) eqn:E0; [cbn [orb]; discriminate|]. destruct (str_eqb rest []) eqn:E1; [|cbn [orb negb]; discriminate]. destruct ((60 <? length b)%nat) eqn:E2; [cbn [orb negb]; discriminate|].
  destruct (neg && (amount (ip ++ fp) =? 0)%Z) eqn:E3; [cbn [orb negb]; discriminate|]. cbn [orb negb]. intros E. apply str_eqb_eq in E1. subst rest. rewrite app_nil_r in Er. subst r.
  assert (HD : digs (ip ++ fp)) by (apply Forall_app; auto). pose proof (amount_bound _ HD) as Bd. rewrite app_length in Bd.
  assert (Em : m = if neg then (- amount (ip ++ fp))%Z else amount (ip ++ fp)) by congruence. assert (Ee : e = (- Z.of_nat (length fp))%Z) by congruence. clear E.
  apply Nat.ltb_ge in E2. apply Nat.eqb_neq in E0. assert (Lb : (length ip + length fp <= length b)%nat) by (rewrite Eb, app_length; destruct Hft as [[-> ->]| ->]; cbn [length]; lia).
  assert (Sg : (m <? 0)%Z = neg). { subst m. destruct neg; cbn [andb] in E3; lia. }
  assert (Am : Z.abs m = amount (ip ++ fp)) by (subst m; destruct neg; lia).
  split; [|split; [lia|]].
  - assert (Ne : ip ++ fp <> []) by (intros Q; apply (f_equal (@length ascii)) in Q; rewrite app_length in Q; cbn [length] in Q; lia).
    pose proof (scan_body_decimal neg ip ft fp [] Hi Hf Hft Ne I) as Sb. rewrite app_nil_r in Sb. rewrite Sg, Am, Ee, Eb. exact Sb.
  - rewrite Am. apply Z.lt_le_trans with (1 := proj2 Bd). apply Z.pow_le_mono_r; lia.
Qed.
(** the number of a decimal *)
Definition val (x : Z * Z) : written_number := Some ((fst x <? 0)%Z, IZR (fst x) * bpow ten (snd x)).
Definition denoted (x : Z * Z) (w : written_number) : Prop := (snd x <= 1000)%Z -> w = val x.
Lemma shown_val m e : shown_number (Number (m <? 0)%Z 10 (Z.abs m) e) = val (m, e).
Proof.
  unfold shown_number, val. rewrite exactly_dec. cbn [fst snd]. f_equal. f_equal. f_equal. destruct (Z.ltb_spec m 0).
  - rewrite Z.abs_neq, opp_IZR by lia. ring.
  - rewrite Z.abs_eq by lia. ring.
Qed.
Lemma decimal_range (neg : bool) m e : (-60 <= e <= 0)%Z -> (0 <= m < 10 ^ 60)%Z -> range_error (Number neg 10 m e) = false.
Proof.
  intros He Hm. pose proof (bpow_gt_0 ten e) as T0.
  assert (T1 : bpow ten e <= 1) by (change 1 with (bpow ten 0); apply bpow_le; lia).
  assert (M0 : 0 <= IZR m) by (apply IZR_le; lia). assert (M1 : IZR m <= IZR (10 ^ 60)) by (apply IZR_le; lia).
  assert (Ab : Rabs (exactly (Number neg 10 m e)) = IZR m * bpow ten e).
  { rewrite exactly_dec. rewrite !Rabs_mult, (Rabs_pos_eq (IZR m)), (Rabs_pos_eq (bpow ten e)) by lra. replace (Rabs (if neg then -1 else 1)) with 1; [ring|]. destruct neg; [rewrite Rabs_left; lra|rewrite Rabs_R1; reflexivity]. }
  apply in_range; [lia|lia| |].
  - apply fl_small with 1%Z 200%Z; [lia|lia|]. rewrite Rmult_1_l, Ab. apply Rle_trans with (IZR m * 1); [apply Rmult_le_compat_l; lra|]. rewrite Rmult_1_r. apply Rle_trans with (1 := M1).
    rewrite <- (pow_IZR 200) by lia. apply IZR_le. vm_compute. discriminate.
  - destruct (Z.eq_dec m 0) as [->|Nm]; [left|right].
    + rewrite exactly_dec. ring.
    + rewrite Ab. assert (1 <= IZR m) by (apply IZR_le; lia). apply Rle_trans with (1 * bpow ten e); [|apply Rmult_le_compat_r; lra]. rewrite Rmult_1_l.
      apply Rle_trans with (bpow ten (-60)); [|apply bpow_le; lia]. change (-1022)%Z with (- (1022))%Z. change (-60)%Z with (- (60))%Z. rewrite !bpow_opp. apply Rinv_le; [apply bpow_gt_0|].
      rewrite <- !IZR_Zpower by lia. apply IZR_le. vm_compute. discriminate.
Qed.
Lemma stod_denoted s x : n_stod D s = Ok x -> written_stod s = Ok (val x).
Proof.
  cbn [n_stod D decimals]. destruct (parse_decimal s) as [[m e]|] eqn:E; [|discriminate]. intros Q. assert (x = (m, e)) as -> by congruence. destruct (parse_scan s m e E) as (Es & He & Hm).
  unfold written_stod. rewrite Es, decimal_range by lia. rewrite shown_val. reflexivity.
Qed.
Lemma written_contain disk p d : contain D disk p d -> exists e, contain written disk p e /\ drel D written denoted d e.
Proof.
  intros H. apply (contain_para D written denoted); [| | |exact H].
  - intros s x E. exists (val x). split; [exact (stod_denoted s x E)|]. intros _. reflexivity.
  - intros s. cbn [n_atof D decimals written]. unfold denoted. destruct (parse_decimal s) as [[m e]|] eqn:E; [|cbn [snd]; lia]. intros _. destruct (parse_scan s m e E) as (Es & _).
    unfold written_atof. rewrite Es. apply shown_val.
  - intros a b x y Ea Eb. exists (val x), (val y). split; [exact (stod_denoted _ _ Ea)|]. split; [exact (stod_denoted _ _ Eb)|]. cbn [n_mul n_pow10 D decimals written]. unfold denoted.
    cbn [n_stod D decimals] in Ea. destruct (parse_decimal a) as [[m e]|] eqn:Pa; [|discriminate]. assert (x = (m, e)) as -> by congruence. apply parse_scan in Pa.
    destruct ((snd y =? 0)%Z && (Z.abs (fst y) <=? 300)%Z) eqn:Y; cbn [fst snd]; [|intros L; exfalso; lia]. intros _. destruct y as [k z]. cbn [fst snd] in *.
    assert (z = 0%Z) as -> by lia. unfold val. cbn [fst snd written_pow10 bpow]. rewrite Rmult_1_r, Ztrunc_IZR. destruct (Req_EM_T (IZR k) (IZR k)) as [_|N]; [|destruct (N eq_refl)].
    replace (Z.abs k <=? 300)%Z with true by lia. cbn [written_mul]. rewrite xorb_false_r, Z.mul_1_r, Rmult_assoc, <- bpow_plus. reflexivity.
Qed.

(** ** rational values *)
Definition qval (x : Z * Z) : Q := if (0 <=? snd x)%Z then inject_Z (fst x * 10 ^ snd x) else Qred (Qmake (fst x) (Z.to_pos (10 ^ (- snd x)))).
Lemma Q2R_red q : Q2R (Qred q) = Q2R q.
Proof. apply Qeq_eqR, Qred_correct. Qed.
Lemma qval_val x : the (val x) = Q2R (qval x).
Proof.
  destruct x as [m e]. unfold val, qval. cbn [the fst snd]. destruct (Z.leb_spec 0 e).
  - unfold Q2R, inject_Z. cbn [Qnum Qden]. rewrite Rinv_1, Rmult_1_r, mult_IZR. f_equal. rewrite <- IZR_Zpower by lia. reflexivity.
  - rewrite Q2R_red. unfold Q2R. cbn [Qnum Qden]. f_equal. assert (P : (0 < 10 ^ (- e))%Z) by (apply Z.pow_pos_nonneg; lia). rewrite Z2Pos.id by exact P.
    replace e with (- - e)%Z at 1 by lia. rewrite bpow_opp. f_equal. rewrite <- IZR_Zpower by lia. reflexivity.
Qed.
Definition rational : arith Q := mkArith Q 0%Q 1%Q 2%Q (fun x y => Qred (x + y)) (fun x y => Qred (x - y)) (fun x y => Qred (x * y)) (fun x y => Qred (x / y)) (fun x => Qred (x * x)).
Lemma accum_rational n u v qu qv : (forall k, (1 <= k <= Z.of_nat n)%Z -> u k = Q2R (qu k)) -> (forall k, (1 <= k <= Z.of_nat n)%Z -> v k = Q2R (qv k)) ->
  accum real n u v = Q2R (accum rational n qu qv).
Proof.
  induction n as [|n IH]; intros H1 H2.
  - cbn [accum real rational a_zero]. unfold Q2R. cbn. lra.
  - cbn [accum]. rewrite IH by (intros; first [apply H1|apply H2]; lia). rewrite (H1 (Z.of_nat (S n))), (H2 (Z.of_nat (S n))) by lia. cbn [a_add a_mul real rational]. rewrite Q2R_red, Q2R_plus, Q2R_red, Q2R_mult. reflexivity.
Qed.
Lemma projection_rational n S P w qS qP qw k : (forall i j, (1 <= i <= Z.of_nat n)%Z -> (1 <= j <= Z.of_nat n)%Z -> S i j = Q2R (qS i j)) ->
  (forall j, (1 <= j <= Z.of_nat n)%Z -> P k j = Q2R (qP k j)) -> (forall j, (1 <= j <= Z.of_nat n)%Z -> w j = Q2R (qw j)) ->
  projection real n S P w k = Q2R (projection rational n qS qP qw k).
Proof. intros HS HP Hw. unfold projection. apply accum_rational; [exact Hw|]. intros l Hl. apply accum_rational; auto. Qed.
Lemma den_rational cp n1 N K a b fP fS qa qb qP qS r1 r2 : (0 <= n1 <= N)%Z ->
  (forall i j, (1 <= j <= N)%Z -> number2 a i j = Q2R (qa i j)) -> (forall i j, (1 <= j <= N)%Z -> number2 b i j = Q2R (qb i j)) ->
  (forall i j, (1 <= j <= N)%Z -> number2 fP i j = Q2R (qP i j)) -> (forall i j, (1 <= i <= N)%Z -> (1 <= j <= N)%Z -> number2 fS i j = Q2R (qS i j)) ->
  true_den cp n1 N K a b fP fS r1 r2 = Q2R (J_den rational (Z.to_nat K) (gammaA rational cp n1 N qa qP qS r1) (gammaB rational cp n1 N qb qP qS r2)).
Proof.
  intros Hn Ha Hb HP HS. assert (Z0 : 0 = Q2R 0) by (unfold Q2R; cbn; lra). unfold true_den, J_den. cbn [a_sub a_one a_pow2 real rational]. rewrite Q2R_red, Q2R_minus, Q2R_red, Q2R_mult.
  assert (Z1 : 1 = Q2R 1) by (unfold Q2R; cbn; lra).
  assert (E : accum real (Z.to_nat K) (gammaB real cp n1 N (number2 b) (number2 fP) (number2 fS) r2) (gammaA real cp n1 N (number2 a) (number2 fP) (number2 fS) r1) =
    Q2R (accum rational (Z.to_nat K) (gammaB rational cp n1 N qb qP qS r2) (gammaA rational cp n1 N qa qP qS r1))); [|rewrite E, <- Z1; reflexivity].
  apply accum_rational; intros k Hk; unfold gammaA, gammaB; apply projection_rational; intros; try (apply HS; lia); try (apply HP; lia); destruct cp; try (apply Ha; lia); try (apply Hb; lia).
  - unfold pad_before. destruct (Z.leb_spec j n1); [exact Z0|apply Hb; lia].
  - unfold pad_after. destruct (Z.leb_spec j n1); [apply Ha; lia|exact Z0].
Qed.

(** ** a crude bound for the error of the denominator *)
Lemma accum_crude n u v (U V : R) : 0 <= U -> 0 <= V -> (forall k, (1 <= k <= Z.of_nat n)%Z -> 0 <= u k <= U) -> (forall k, (1 <= k <= Z.of_nat n)%Z -> 0 <= v k <= V) ->
  0 <= accum magnitude n u v <= INR n * (U * V + 1).
Proof.
  intros HU HV H1 H2. assert (T : 0 < tiny <= 1). { split; [apply tiny_pos|]. rewrite tiny_bpow. change 1 with (bpow radix2 0). apply bpow_le. lia. }
  induction n as [|n IH]; [cbn [accum magnitude a_zero INR]; lra|]. rewrite S_INR. cbn [accum]. cbn [a_add a_mul magnitude].
  assert (IH' : 0 <= accum magnitude n u v <= INR n * (U * V + 1)) by (apply IH; intros; first [apply H1|apply H2]; lia).
  assert (A : 0 <= u (Z.of_nat (S n)) <= U) by (apply H1; lia). assert (B : 0 <= v (Z.of_nat (S n)) <= V) by (apply H2; lia).
  assert (0 <= u (Z.of_nat (S n)) * v (Z.of_nat (S n))) by (apply Rmult_le_pos; lra). assert (u (Z.of_nat (S n)) * v (Z.of_nat (S n)) <= U * V) by (apply Rmult_le_compat; lra). lra.
Qed.
(** numbers of at most 1 *)
Definition unit_number (x : written_number) : Prop := x <> None /\ Rabs (the x) <= 1.
Lemma unit_scale x : unit_number x -> 0 <= Rabs (the x) + tiny <= 2.
Proof. intros [_ H]. pose proof (Rabs_pos (the x)). assert (T : 0 < tiny <= 1). { split; [apply tiny_pos|]. rewrite tiny_bpow. change 1 with (bpow radix2 0). apply bpow_le. lia. } lra. Qed.
Lemma gamma_101 : gamma 101 <= / 10000000000000.
Proof.
  assert (Hu : u <= / 8000000000000000) by (rewrite u_bpow; cbn; lra). assert (Q : INR 101 = 101) by (cbn; lra). pose proof u_pos.
  apply Rle_trans with (1 := gamma_linear 101 ltac:(rewrite Q; lra)). rewrite Q. assert (101 * u * (101 * u) <= / 1000 * (101 * u)) by (apply Rmult_le_compat_r; lra). lra.
Qed.
Lemma error_crude cp n1 a b fP fS r1 r2 : (0 <= n1 <= 4)%Z ->
  (forall i j, (1 <= j <= 4)%Z -> unit_number (a i j)) -> (forall i j, (1 <= j <= 4)%Z -> unit_number (b i j)) ->
  (forall i j, (1 <= j <= 4)%Z -> unit_number (fP i j)) -> (forall i j, (1 <= i <= 4)%Z -> (1 <= j <= 4)%Z -> unit_number (fS i j)) ->
  true_den_error cp n1 4 4 a b fP fS r1 r2 <= / 100.
Proof.
  intros Hn Ha Hb HP HS. unfold true_den_error, den_error. change (12 * 4 + 8 * Z.to_nat 4 + 13 + 2 * Z.to_nat 4)%nat with 101%nat. change (Z.to_nat 4) with 4%nat. set (m := J_den _ _ _ _).
  assert (I4 : INR 4 = 4) by (cbn; lra).
  assert (G : forall w k, (forall j, (1 <= j <= 4)%Z -> 0 <= w j <= 2) -> 0 <= projection magnitude 4 (scale2 fS) (scale2 fP) w k <= 164).
  { intros w k Hw. unfold projection. replace 164 with (INR 4 * (2 * 20 + 1)) by (rewrite I4; lra). apply accum_crude; try lra; [intros; apply Hw; lia|]. intros l Hl.
    replace 20 with (INR 4 * (2 * 2 + 1)) by (rewrite I4; lra). apply accum_crude; try lra; intros j Hj; apply unit_scale; [apply HS; lia|apply HP; lia]. }
  assert (T : 0 < tiny <= 1). { split; [apply tiny_pos|]. rewrite tiny_bpow. change 1 with (bpow radix2 0). apply bpow_le. lia. }
  assert (Bm : 0 <= m <= 12000000000).
  { subst m. unfold J_den. cbn [a_sub a_one a_pow2 magnitude]. set (s := accum magnitude 4 _ _).
    assert (Hs : 0 <= s <= 107588).
    { subst s. replace 107588 with (INR 4 * (164 * 164 + 1)) by (rewrite I4; lra). apply accum_crude; try lra; intros k _; unfold written_A, written_B, gammaA, gammaB; change (Z.to_nat 4) with 4%nat; apply G; intros j Hj.
      - destruct cp; [apply unit_scale, Hb; lia|]. unfold pad_before. destruct (Z.leb_spec j n1); [cbn; lra|apply unit_scale, Hb; lia].
      - destruct cp; [apply unit_scale, Ha; lia|]. unfold pad_after. destruct (Z.leb_spec j n1); [apply unit_scale, Ha; lia|cbn; lra]. }
    assert (0 <= s * s) by (apply Rmult_le_pos; lra). assert (s * s <= 107588 * 107588) by (apply Rmult_le_compat; lra). lra. }
  pose proof gamma_101 as G1. pose proof (gamma_pos 101) as G0. apply Rle_trans with (/ 10000000000000 * 12000000000); [apply Rmult_le_compat; lra|lra].
Qed.

(** ** the data *)
Definition unitb (x : Z * Z) : bool := ((snd x <=? 0) && (Z.abs (fst x) <=? 10 ^ (- snd x)))%Z.
Lemma unit_val x : unitb x = true -> unit_number (val x).
Proof.
  destruct x as [m e]. unfold unitb, val. cbn [fst snd]. intros H. apply andb_true_iff in H as [H1 H2]. apply Z.leb_le in H1, H2. split; [discriminate|]. cbn [the].
  rewrite Rabs_mult, <- abs_IZR, (Rabs_pos_eq (bpow ten e)) by apply bpow_ge_0. apply Rle_trans with (bpow ten (- e) * bpow ten e).
  - apply Rmult_le_compat_r; [apply bpow_ge_0|]. rewrite <- IZR_Zpower by lia. apply IZR_le. exact H2.
  - rewrite <- bpow_plus. replace (- e + e)%Z with 0%Z by lia. cbn. lra.
Qed.
Lemma unit_moderate x : unit_number x -> moderate_number x.
Proof. intros [H1 H2]. split; [exact H1|]. assert (1 <= IZR (2 ^ 30)) by (apply IZR_le; lia). lra. Qed.
Lemma unitb_exp x : unitb x = true -> (snd x <= 1000)%Z.
Proof. unfold unitb. intros H. apply andb_true_iff in H as [H _]. apply Z.leb_le in H. lia. Qed.
Lemma list_val l l' : Forall2 denoted l l' -> forallb unitb l = true -> l' = map val l.
Proof. induction 1 as [|x y l l' H _ IH]; intros F; [reflexivity|]. cbn [forallb] in F. apply andb_true_iff in F as [F1 F2]. cbn [map]. rewrite (H (unitb_exp x F1)), (IH F2). reflexivity. Qed.
Lemma rows_val l l' : Forall2 (Forall2 denoted) l l' -> forallb (forallb unitb) l = true -> l' = map (map val) l.
Proof. induction 1 as [|x y l l' H _ IH]; intros F; [reflexivity|]. cbn [forallb] in F. apply andb_true_iff in F as [F1 F2]. cbn [map]. rewrite (list_val x y H F1), (IH F2). reflexivity. Qed.
Lemma val_0 : val (0, 0)%Z = Some (false, 0).
Proof. unfold val. cbn [fst snd]. rewrite Rmult_0_l. reflexivity. Qed.
Lemma table_val (rows : list (list (num D))) i j : table written (map (map val) rows) i j = val (table D rows i j).
Proof.
  unfold table. change (n_zero written) with (Some (false, 0)). rewrite <- val_0. change (0, 0)%Z with (n_zero D). rewrite <- (map_nth val). f_equal. exact (map_nth (map val) rows [] (Z.to_nat (i - 1))).
Qed.
Lemma table_unit (rows : list (list (num D))) i j : forallb (forallb unitb) rows = true -> unitb (table D rows i j) = true.
Proof.
  intros H. unfold table. rewrite forallb_forall in H. destruct (nth_in_or_default (Z.to_nat (i - 1)) rows []) as [I|E0]; [|rewrite E0; destruct (Z.to_nat (j - 1)); reflexivity].
  specialize (H _ I). rewrite forallb_forall in H. destruct (nth_in_or_default (Z.to_nat (j - 1)) (nth (Z.to_nat (i - 1)) rows []) (n_zero D)) as [I'|E0]; [exact (H _ I')|rewrite E0; reflexivity].
Qed.
(** every number of the data is at most 1 *)
Definition unit_data (d : data D) : bool :=
  forallb (forallb unitb) (coef1 D d) && forallb (forallb unitb) (coef2 D d) && forallb (forallb unitb) (coefP D d) && forallb unitb (enP D d) &&
  forallb (fun i => forallb (fun j => unitb (symmetric D (over D d) i j)) [1; 2; 3; 4]%Z) [1; 2; 3; 4]%Z && (size D d =? 4)%Z && (count (coefP D d) =? 4)%Z.
Section Data.
Context (d : data D) (e : data written) (R : drel D written denoted d e) (U : unit_data d = true).
Lemma unit_parts : forallb (forallb unitb) (coef1 D d) = true /\ forallb (forallb unitb) (coef2 D d) = true /\ forallb (forallb unitb) (coefP D d) = true /\ forallb unitb (enP D d) = true /\
  (forall i j, (1 <= i <= 4)%Z -> (1 <= j <= 4)%Z -> unitb (symmetric D (over D d) i j) = true) /\ size D d = 4%Z /\ count (coefP D d) = 4%Z.
Proof.
  unfold unit_data in U. rewrite !andb_true_iff in U. destruct U as ((((((U1 & U2) & U3) & U4) & U5) & U6) & U7). apply Z.eqb_eq in U6, U7. repeat (split; [assumption|]). split; [|split; assumption].
  intros i j Hi Hj. rewrite forallb_forall in U5. assert (I4 : forall k, (1 <= k <= 4)%Z -> In k [1; 2; 3; 4]%Z) by (intros k Hk; cbn [In]; lia). specialize (U5 i (I4 i Hi)). rewrite forallb_forall in U5. exact (U5 j (I4 j Hj)).
Qed.
Lemma e_size : size written e = 4%Z /\ count (coefP written e) = 4%Z.
Proof. destruct unit_parts as (_ & _ & _ & _ & _ & H1 & H2). rewrite <- (dr_n _ _ _ _ _ R), <- (count_rel _ _ _ (dr_cP _ _ _ _ _ R)). auto. Qed.
Lemma e_1 i j : table written (coef1 written e) i j = val (table D (coef1 D d) i j) /\ unit_number (val (table D (coef1 D d) i j)).
Proof. destruct unit_parts as (H & _). rewrite (rows_val _ _ (dr_c1 _ _ _ _ _ R) H). split; [apply table_val|apply unit_val, table_unit, H]. Qed.
Lemma e_2 i j : table written (coef2 written e) i j = val (table D (coef2 D d) i j) /\ unit_number (val (table D (coef2 D d) i j)).
Proof. destruct unit_parts as (_ & H & _). rewrite (rows_val _ _ (dr_c2 _ _ _ _ _ R) H). split; [apply table_val|apply unit_val, table_unit, H]. Qed.
Lemma e_P i j : table written (coefP written e) i j = val (table D (coefP D d) i j) /\ unit_number (val (table D (coefP D d) i j)).
Proof. destruct unit_parts as (_ & _ & H & _). rewrite (rows_val _ _ (dr_cP _ _ _ _ _ R) H). split; [apply table_val|apply unit_val, table_unit, H]. Qed.
Lemma e_S i j : (1 <= i <= 4)%Z -> (1 <= j <= 4)%Z -> symmetric written (over written e) i j = val (symmetric D (over D d) i j) /\ unit_number (val (symmetric D (over D d) i j)).
Proof.
  intros Hi Hj. destruct unit_parts as (_ & _ & _ & _ & H & Hn & _). split; [|apply unit_val, H; auto]. pose proof (dr_S _ _ _ _ _ R) as O. unfold orel in O. rewrite Hn in O.
  unfold symmetric. apply O; [lia|lia|]. apply unitb_exp. apply (H i j Hi Hj).
Qed.
Lemma forall_unit (l : list (num D)) : forallb unitb l = true -> Forall moderate_number (map val l).
Proof. intros H. apply Forall_map, Forall_forall. intros x I. apply unit_moderate, unit_val. rewrite forallb_forall in H. auto. Qed.
Lemma e_readable : readable e.
Proof.
  destruct unit_parts as (H1 & H2 & HP & He & HS & Hn & _).
  assert (Q : forall rows : list (list (num D)), forallb (forallb unitb) rows = true -> Forall (Forall moderate_number) (map (map val) rows)).
  { intros rows F. apply Forall_map, Forall_forall. intros x I. apply forall_unit. rewrite forallb_forall in F. auto. }
  constructor.
  - rewrite (rows_val _ _ (dr_c1 _ _ _ _ _ R) H1). auto.
  - rewrite (rows_val _ _ (dr_c2 _ _ _ _ _ R) H2). auto.
  - rewrite (rows_val _ _ (dr_cP _ _ _ _ _ R) HP). auto.
  - rewrite (list_val _ _ (dr_eP _ _ _ _ _ R) He). apply forall_unit, He.
  - rewrite (proj1 e_size). intros i j Hj Hi. destruct (e_S i j ltac:(lia) ltac:(lia)) as [E1 E2]. rewrite <- E1 in E2. unfold symmetric in E2. rewrite Z.max_l, Z.min_r in E2 by lia. apply unit_moderate, E2.
Qed.
(** the elements listed in another order *)
Lemma e_regular p n1 s2 sP r1 r2 : width written (coef1 written e) = n1 -> (0 <= n1 <= 4)%Z -> (forall j, (1 <= j <= 4)%Z -> (1 <= sP j <= 4)%Z) ->
  let q1 i j := qval (table D (coef1 D d) i j) in let q2 i j := qval (table D (coef2 D d) i (s2 j)) in let qP i j := qval (table D (coefP D d) i (sP j)) in let qS i j := qval (symmetric D (over D d) (sP i) (sP j)) in
  (1 # 50 <= Qabs.Qabs (J_den rational 4 (gammaA rational (counterPoise p) n1 4 q1 qP qS r1) (gammaB rational (counterPoise p) n1 4 q2 qP qS r2)))%Q ->
  regular p e (fun i j => table written (coef2 written e) i (s2 j)) (fun i j => table written (coefP written e) i (sP j)) (fun i j => symmetric written (over written e) (sP i) (sP j)) r1 r2.
Proof.
  intros Hw Hn Hs q1 q2 qP qS HQ. unfold regular. cbv zeta. destruct e_size as [-> ->]. rewrite Hw.
  assert (L : / 50 <= Rabs (true_den (counterPoise p) n1 4 4 (table written (coef1 written e)) (fun i j => table written (coef2 written e) i (s2 j)) (fun i j => table written (coefP written e) i (sP j)) (fun i j => symmetric written (over written e) (sP i) (sP j)) r1 r2)).
  { rewrite (den_rational (counterPoise p) n1 4 4 _ _ _ _ q1 q2 qP qS); [|exact Hn|..].
    - change (Z.to_nat 4) with 4%nat. set (q := J_den _ _ _ _) in *. apply Qle_Rle in HQ. assert (Q50 : Q2R (1 # 50) = / 50) by (unfold Q2R; cbn; lra). rewrite Q50 in HQ. apply Rle_trans with (1 := HQ).
      clear. revert q. intros q. apply Qabs.Qabs_case; intros H; [apply Rle_abs|]. rewrite Q2R_opp. rewrite <- Rabs_Ropp. apply Rle_abs.
    - intros i j _. unfold number2, q1. rewrite (proj1 (e_1 i j)). apply qval_val.
    - intros i j _. unfold number2, q2. rewrite (proj1 (e_2 i _)). apply qval_val.
    - intros i j _. unfold number2, qP. rewrite (proj1 (e_P i _)). apply qval_val.
    - intros i j Hi Hj. unfold number2, qS. rewrite (proj1 (e_S _ _ (Hs i Hi) (Hs j Hj))). apply qval_val. }
  apply Rle_lt_trans with (/ 100); [|lra]. apply error_crude; [exact Hn|..].
  - intros i j _. destruct (e_1 i j) as [-> H]. exact H.
  - intros i j _. destruct (e_2 i (s2 j)) as [-> H]. exact H.
  - intros i j _. destruct (e_P i (sP j)) as [-> H]. exact H.
  - intros i j Hi Hj. destruct (e_S (sP i) (sP j) (Hs i Hi) (Hs j Hj)) as [-> H]. exact H.
Qed.
End Data.

(** ** coordinates *)
Definition valp (p : num D * num D * num D) : written_number * written_number * written_number := (val (fst (fst p)), val (snd (fst p)), val (snd p)).
Lemma points_val pts pts' : Forall2 (prel D written denoted) pts pts' -> Forall (fun p => (snd (fst (fst p)) <= 1000 /\ snd (snd (fst p)) <= 1000 /\ snd (snd p) <= 1000)%Z) pts -> pts' = map valp pts.
Proof.
  induction 1 as [|x y l l' H _ IH]; intros F; [reflexivity|]. inversion F as [|? ? (F1 & F2 & F3) F4]; subst. cbn [map]. rewrite <- (IH F4). f_equal. destruct H as (H1 & H2 & H3).
  unfold valp. rewrite <- (H1 F1), <- (H2 F2), <- (H3 F3). destruct y as [[y1 y2] y3]. reflexivity.
Qed.
Lemma whole_decimal (m k : Z) : (m = k * 100)%Z -> (Z.abs k <= 999998)%Z -> same_decimal 4 (val (m, -6)%Z) (val (m, -6)%Z).
Proof.
  intros Hm Hk. unfold val. cbn [fst snd]. exists (m <? 0)%Z, (IZR m * bpow ten (-6)), (m <? 0)%Z, (IZR m * bpow ten (-6)), k. split; [reflexivity|]. split; [reflexivity|]. split; [exact Hk|].
  assert (E : IZR m * bpow ten (-6) * bpow ten 4 - IZR k = 0).
  { rewrite Rmult_assoc, <- bpow_plus. change (-6 + 4)%Z with (-2)%Z. rewrite Hm, mult_IZR. cbn. field. }
  rewrite E, Rabs_R0. split; [lra|]. split; [lra|]. auto.
Qed.
Lemma other_decimal (m m' : Z) : (Z.abs m <= 99999800)%Z -> (Z.abs m' <= 99999800)%Z -> (101 <= Z.abs (m - m'))%Z -> far_apart 4 (val (m, -6)%Z) (val (m', -6)%Z).
Proof.
  intros H1 H2 H3. unfold val. cbn [fst snd]. exists (m <? 0)%Z, (IZR m * bpow ten (-6)), (m' <? 0)%Z, (IZR m' * bpow ten (-6)). split; [reflexivity|]. split; [reflexivity|].
  assert (P : bpow ten (-6) * bpow ten 4 = / 100) by (rewrite <- bpow_plus; reflexivity).
  rewrite !Rmult_assoc, P. rewrite !Rabs_mult, (Rabs_pos_eq (/ 100)), <- !abs_IZR by lra. apply IZR_le in H1, H2, H3.
  split; [lra|]. split; [lra|]. rewrite <- Rmult_minus_distr_r, Rabs_mult, (Rabs_pos_eq (bpow ten (-6))) by apply bpow_ge_0. rewrite Rmult_assoc, P, <- minus_IZR, <- abs_IZR. lra.
Qed.
Lemma pts_small : Forall (fun p : num D * num D * num D => (snd (fst (fst p)) <= 1000 /\ snd (snd (fst p)) <= 1000 /\ snd (snd p) <= 1000)%Z) [pt1; pt2].
Proof. repeat constructor; vm_compute; discriminate. Qed.
Definition z0 := whole_decimal 0 0 eq_refl ltac:(lia).
Lemma same_1 : same_decimal 4 (val (670000, -6)%Z) (val (670000, -6)%Z). Proof. apply (whole_decimal 670000 6700); lia. Qed.
Lemma same_2 : same_decimal 4 (val (5670000, -6)%Z) (val (5670000, -6)%Z). Proof. apply (whole_decimal 5670000 56700); lia. Qed.
Lemma apart_12 : far_apart 4 (val (670000, -6)%Z) (val (5670000, -6)%Z). Proof. apply other_decimal; lia. Qed.
Lemma apart_21 : far_apart 4 (val (5670000, -6)%Z) (val (670000, -6)%Z). Proof. apply other_decimal; lia. Qed.
(** the atom at [i] of [pts] is the one at [k] of [pts'] *)
Ltac atoms k0 sm ap :=
  let j := fresh in split; [lia|]; split;
  [intros j Hj; assert (j = 1 \/ j = 2 \/ j = 3)%Z as [->|[->| ->]] by lia; [exact z0|exact z0|exact sm]
  |intros k' Hk' Nk; assert (k' = k0) as -> by lia; exists 3%Z; split; [lia|exact ap]].
Lemma find_1 : located 4 2 (position written (map valp [pt1])) (position written (map valp [pt2; pt1])) [2%Z].
Proof.
  intros i k E Hi. destruct (Z.to_nat (i - 1)) as [|n] eqn:En; [|destruct n; discriminate E]. assert (i = 1%Z) as -> by lia. assert (k = 2%Z) as -> by (cbn in E; congruence). atoms 1%Z same_1 apart_12.
Qed.
Lemma find_2 : located 4 2 (position written (map valp [pt2])) (position written (map valp [pt2; pt1])) [1%Z].
Proof.
  intros i k E Hi. destruct (Z.to_nat (i - 1)) as [|n] eqn:En; [|destruct n; discriminate E]. assert (i = 1%Z) as -> by lia. assert (k = 1%Z) as -> by (cbn in E; congruence). atoms 2%Z same_2 apart_21.
Qed.
Lemma find_12 : located 4 2 (position written (map valp [pt1; pt2])) (position written (map valp [pt2; pt1])) [2%Z; 1%Z].
Proof.
  intros i k E Hi. destruct (Z.to_nat (i - 1)) as [|[|n]] eqn:En; [| |destruct n; discriminate E].
  - assert (i = 1%Z) as -> by lia. assert (k = 2%Z) as -> by (cbn in E; congruence). atoms 1%Z same_1 apart_12.
  - assert (i = 2%Z) as -> by lia. assert (k = 1%Z) as -> by (cbn in E; congruence). atoms 2%Z same_2 apart_21.
Qed.
(** two blocks of two exchanged *)
Definition sw (c : Z) : Z := (if c <=? 2 then c + 2 else c - 2)%Z.
Lemma sw_block (i k j : Z) : (1 <= i)%Z -> nth_error [2; 1]%Z (Z.to_nat (i - 1)) = Some k -> (1 <= j <= size_of [2; 2] k)%Z -> sw (off (reordered [2; 2] [2; 1]) i + j)%Z = (off [2; 2] k + j)%Z.
Proof.
  intros Hi E Hj. destruct (Z.to_nat (i - 1)) as [|[|n]] eqn:En; [| |destruct n; discriminate E].
  - assert (i = 1%Z) as -> by lia. assert (k = 2%Z) as -> by (cbn in E; congruence). change (1 <= j <= 2)%Z in Hj. assert (j = 1 \/ j = 2)%Z as [->| ->] by lia; reflexivity.
  - assert (i = 2%Z) as -> by lia. assert (k = 1%Z) as -> by (cbn in E; congruence). change (1 <= j <= 2)%Z in Hj. assert (j = 1 \/ j = 2)%Z as [->| ->] by lia; reflexivity.
Qed.
Lemma sw_moved {X} (f : Z -> Z -> X) : blocks_moved [2; 2]%Z [2; 1]%Z f (fun i j => f i (sw j)).
Proof. intros x i k j Hi E Hj. cbv beta. rewrite (sw_block i k j Hi E Hj). reflexivity. Qed.
Lemma sw_moved2 {X} (f : Z -> Z -> X) : blocks_moved2 [2; 2]%Z [2; 1]%Z f (fun i j => f (sw i) (sw j)).
Proof. intros i k j i' k' j' Hi E Hj Hi' E' Hj'. cbv beta. rewrite (sw_block i k j Hi E Hj), (sw_block i' k' j' Hi' E' Hj'). reflexivity. Qed.
Lemma sw_range j : (1 <= j <= 4)%Z -> (1 <= sw j <= 4)%Z.
Proof. intros H. unfold sw. destruct (Z.leb_spec j 2); lia. Qed.
