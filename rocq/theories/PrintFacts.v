(** * The text of a double *)
From Coq Require Import Reals Psatz.
From Flocq Require Import Core IEEE754.BinarySingleNaN.
From Verif Require Export PrintSpec FloatRound.
Local Open Scope R_scope.

Lemma amount_acc s : forall a, fold_left (fun a c => (10 * a + digit_val c)%Z) s a = (a * 10 ^ Z.of_nat (length s) + amount s)%Z.
Proof.
  unfold amount. induction s as [|c s IH]; intros a; cbn [fold_left length]; [lia|].
  rewrite (IH (10 * a + digit_val c)%Z), (IH (10 * 0 + digit_val c)%Z). rewrite Nat2Z.inj_succ, Z.pow_succ_r by lia. ring.
Qed.
Lemma amount_app s t : amount (s ++ t) = (amount s * 10 ^ Z.of_nat (length t) + amount t)%Z.
Proof. unfold amount at 1. rewrite fold_left_app, amount_acc. reflexivity. Qed.
Lemma amount_zeros k : amount (repeat "0"%char k) = 0%Z.
Proof.
  induction k as [|k IH]; [reflexivity|]. cbn [repeat]. change ("0"%char :: repeat "0"%char k) with (["0"%char] ++ repeat "0"%char k).
  rewrite amount_app, IH. change (amount ["0"%char]) with 0%Z. lia.
Qed.
Lemma amount_val s : digs s -> amount s = digits_val 0 s.
Proof.
  unfold amount. generalize 0%Z. induction s as [|c s IH]; intros a H; cbn [fold_left digits_val]; auto. inversion H as [|? ? Hc Hs]; subst. rewrite Hc.
  rewrite (IH _ Hs). f_equal. lia.
Qed.
Lemma amount_dec z : (0 <= z)%Z -> amount (dec_nonneg z) = z.
Proof.
  intros H. destruct (dec_nonneg_digits z H) as (ds & E & _ & F & _). rewrite amount_val; [apply dec_value; auto|].
  rewrite E. apply Forall_forall. intros c I. apply in_map_iff in I as (d & <- & I). rewrite Forall_forall in F. apply digit_is; auto.
Qed.
Lemma dec_nonneg_digs z : (0 <= z)%Z -> digs (dec_nonneg z) /\ dec_nonneg z <> [].
Proof.
  intros H. destruct (dec_nonneg_digits z H) as (ds & E & N & F & _). rewrite E. split.
  - apply Forall_forall. intros c I. apply in_map_iff in I as (d & <- & I). rewrite Forall_forall in F. apply digit_is; auto.
  - destruct ds; [contradiction|discriminate].
Qed.
Lemma amount_digit_string d : (0 <= d < 1000000)%Z -> amount (digit_string d) = d.
Proof.
  intros H. rewrite digit_string_eq. unfold amount. cbn [fold_left].
  assert (V : forall z, (0 <= z < 10)%Z -> digit_val (digit z) = z) by (intros z Hz; apply digit_facts in Hz; tauto).
  rewrite !V by (apply Z.mod_pos_bound; lia). Z.to_euclidean_division_equations; lia.
Qed.
Lemma exponent_amount X : exponent (exponent_text X) X.
Proof.
  unfold exponent_text. set (ds := if (Z.abs X <? 10)%Z then _ else _).
  assert (D : digs ds /\ ds <> [] /\ amount ds = Z.abs X).
  { destruct (dec_nonneg_digs (Z.abs X) (Z.abs_nonneg X)) as [A B]. subst ds. destruct (Z.abs X <? 10)%Z; [|split; [|split; [|apply amount_dec; lia]]; auto].
    split; [constructor; auto|]. split; [discriminate|]. change ("0"%char :: dec_nonneg (Z.abs X)) with (["0"%char] ++ dec_nonneg (Z.abs X)). rewrite amount_app, amount_dec by lia.
    change (amount ["0"%char]) with 0%Z. lia. }
  destruct D as (D1 & D2 & D3). clearbody ds. destruct (Z.ltb_spec X 0).
  - replace X with (- amount ds)%Z by lia. constructor; auto.
  - replace X with (amount ds) by lia. constructor; auto.
Qed.
Lemma with_point_numeral neg ip fp et k : digs ip -> ip <> [] -> digs fp -> exponent et k ->
  numeral (minus neg ++ with_point ip fp ++ et) ((if neg then -1 else 1) * IZR (amount (ip ++ fp)) * bpow ten (k - Z.of_nat (length fp))).
Proof.
  intros Di Ni Df Ek. destruct (strip0_pad fp) as (z & Ez). pose proof (strip0_digs fp Df) as Ds. unfold with_point.
  assert (V : forall q, q = strip0 fp -> IZR (amount (ip ++ fp)) * bpow ten (k - Z.of_nat (length fp)) = IZR (amount (ip ++ q)) * bpow ten (k - Z.of_nat (length q))).
  { intros q ->. rewrite Ez at 1 2. rewrite app_assoc, amount_app, amount_zeros, Z.add_0_r, app_length, repeat_length, mult_IZR, p10_Z by lia.
    rewrite Rmult_assoc, <- bpow_plus. do 2 f_equal. lia. }
  destruct (strip0 fp) as [|c s] eqn:Es.
  - exists neg, ip, [], [], et, k. split; [auto|]. split; [auto|]. split; [left; auto|]. split; [auto|]. split; [reflexivity|]. rewrite !Rmult_assoc. f_equal. exact (V [] eq_refl).
  - exists neg, ip, ("."%char :: c :: s), (c :: s), et, k. split; [auto|]. split; [auto|]. split; [right; split; [reflexivity|split; [discriminate|exact Ds]]|]. split; [auto|].
    split; [rewrite <- app_assoc; reflexivity|]. rewrite !Rmult_assoc. f_equal. exact (V (c :: s) eq_refl).
Qed.
Lemma format_numeral neg d X : (100000 <= d < 1000000)%Z -> numeral (minus neg ++ format_g d X) ((if neg then -1 else 1) * (IZR d * bpow ten (X - 5))).
Proof.
  intros H. rewrite format_parts. destruct (parts d X) as [[ip fp] sx] eqn:Ep. destruct (parts_ok d X ip fp sx Ep) as (Di & Df & _).
  assert (A : amount (digit_string d) = d) by (apply amount_digit_string; lia). pose proof (digit_string_len d) as L.
  assert (Q : exists k, exponent sx k /\ ip <> [] /\ amount (ip ++ fp) = d /\ (k - Z.of_nat (length fp) = X - 5)%Z).
  { unfold parts in Ep. destruct ((X <? -4)%Z || (6 <=? X)%Z) eqn:C; [|destruct (Z.leb_spec 0 X)]; apply pair3 in Ep as (<- & <- & <-).
    - exists X. split; [apply exponent_amount|]. split; [destruct (digit_string d); discriminate|]. split; [rewrite firstn_skipn; exact A|]. rewrite skipn_length, L. lia.
    - apply orb_false_iff in C as [C1 C2]. apply Z.ltb_ge in C1. apply Z.leb_gt in C2. exists 0%Z. split; [constructor|].
      split; [destruct (digit_string d); [discriminate|]; replace (Z.to_nat (X + 1)) with (S (Z.to_nat X)) by lia; discriminate|]. split; [rewrite firstn_skipn; exact A|]. rewrite skipn_length, L. lia.
    - apply orb_false_iff in C as [C1 C2]. apply Z.ltb_ge in C1. exists 0%Z. split; [constructor|]. split; [discriminate|].
      split; [rewrite !amount_app, A, amount_zeros; change (amount $"0") with 0%Z; lia|]. rewrite app_length, repeat_length, L. lia. }
  destruct Q as (k & Ek & Ni & Ea & El). pose proof (with_point_numeral neg ip fp sx k Di Ni Df Ek) as W. rewrite Ea, El, Rmult_assoc in W. exact W.
Qed.
(** six significant digits *)
Lemma six_digits_near m e d X : p10 (-400) <= value2 m e -> six_digits m e = (d, X) -> Rabs (IZR d * p10 (X - 5) - value2 m e) <= 5 / 1000000 * value2 m e.
Proof.
  intros H E. destruct (six_digits_raw m e H) as (X0 & d0 & B & A & E0). rewrite E0 in E. clear E0 H.
  assert (V : IZR d * p10 (X - 5) = IZR d0 * p10 (X0 - 5)).
  { destruct (Z.eqb_spec d0 1000000) as [Q|N]; apply (f_equal fst) in E as E1; apply (f_equal snd) in E as E2; cbn [fst snd] in E1, E2; rewrite <- E1, <- E2; [|reflexivity].
    rewrite Q. replace (X0 + 1 - 5)%Z with (1 + (X0 - 5))%Z by lia. rewrite bpow_plus. change (p10 1) with 10. lra. }
  rewrite V. apply scaled_bounds in B as B1. set (v := value2 m e) in *. set (w := v * p10 (5 - X0)) in *.
  assert (Ev : v = w * p10 (X0 - 5)). { unfold w. rewrite Rmult_assoc, <- bpow_plus. replace (5 - X0 + (X0 - 5))%Z with 0%Z by lia. change (p10 0) with 1. lra. }
  rewrite Ev. rewrite <- Rmult_minus_distr_r, Rabs_mult, (Rabs_pos_eq (p10 (X0 - 5))) by apply bpow_ge_0.
  rewrite <- Rmult_assoc. apply Rmult_le_compat_r; [apply bpow_ge_0|]. lra.
Qed.
Lemma smallest_400 : p10 (-400) <= bpow radix2 (-1074).
Proof.
  change (-400)%Z with (- (400))%Z. change (-1074)%Z with (- (1074))%Z. rewrite !bpow_opp.
  apply Rinv_le; [apply bpow_gt_0|]. rewrite <- !IZR_Zpower by lia. apply IZR_le. vm_compute. discriminate.
Qed.
Lemma finite_big s m e B : p10 (-400) <= value2 m e /\ Rabs (val (B754_finite s m e B)) = value2 m e.
Proof.
  assert (P : bpow radix2 (-1074) <= value2 m e).
  { unfold value2. assert (He : (-1074 <= e)%Z).
    { unfold SpecFloat.bounded, SpecFloat.canonical_mantissa in B. apply andb_true_iff in B as [B _]. apply Zeq_bool_eq in B. unfold SpecFloat.fexp, SpecFloat.emin in B. lia. }
    apply Rle_trans with (1 * bpow radix2 e); [rewrite Rmult_1_l; apply bpow_le; auto|]. apply Rmult_le_compat_r; [apply bpow_ge_0|]. apply IZR_le. lia. }
  split; [apply Rle_trans with (2 := P); apply smallest_400|]. rewrite val_finite, Rabs_mult, (Rabs_pos_eq (value2 m e)).
  - destruct s; [rewrite Rabs_left by lra|rewrite Rabs_pos_eq by lra]; lra.
  - apply Rle_trans with (2 := P). apply bpow_ge_0.
Qed.
(** ** a numeral denotes one number *)
Lemma exponent_fun t k k' : exponent t k -> exponent t k' -> k = k'.
Proof.
  intros H. inversion H; subst; intros H'; inversion H'; subst; auto; discriminate.
Qed.
Lemma exponent_suff t k : exponent t k -> suffix t.
Proof. intros []; [left; auto|right; eexists; reflexivity|right; eexists; reflexivity]. Qed.
Lemma numeral_fun t v v' : numeral t v -> numeral t v' -> v = v'.
Proof.
  intros (neg & ip & ft & fp & et & k & Di & Ni & Hf & He & -> & ->) (neg' & ip' & ft' & fp' & et' & k' & Di' & Ni' & Hf' & He' & Et & ->).
  assert (M : forall i s, digs i -> i <> [] -> forall r, i ++ s <> "-"%char :: r).
  { intros [|c i] s D N r X; [contradiction|]. inversion D as [|? ? Dc _]; subst. cbn [app] in X. apply (f_equal (hd " "%char)) in X. cbn [hd] in X. subst c. discriminate Dc. }
  assert (Q : neg = neg' /\ ip ++ ft ++ et = ip' ++ ft' ++ et').
  { destruct neg, neg'; cbn [app list_ascii_of_string] in Et.
    - split; [auto|]. injection Et as Et. exact Et.
    - symmetry in Et. destruct (M _ _ Di' Ni' _ Et).
    - destruct (M _ _ Di Ni _ Et).
    - auto. }
  destruct Q as (<- & Q). clear Et.
  assert (Sp : forall f f0 e k0, fraction f f0 -> exponent e k0 -> stops (f ++ e)).
  { intros f f0 e k0 [(-> & _)|(-> & _)] E c t X; [|apply (f_equal (hd " "%char)) in X; cbn [hd app] in X; subst c; reflexivity].
    exact (suffix_stops _ (exponent_suff _ _ E) c t X). }
  apply span_eq in Q as (<- & Q); [|auto|auto|exact (Sp _ _ _ _ Hf He)|exact (Sp _ _ _ _ Hf' He')].
  assert (F : fp = fp' /\ et = et').
  { destruct Hf as [(-> & ->)|(-> & N & D)], Hf' as [(-> & ->)|(-> & N' & D')].
    - auto.
    - exfalso. cbn [app] in Q. destruct (exponent_suff _ _ He) as [->|(t & ->)]; [discriminate Q|]. discriminate Q.
    - exfalso. cbn [app] in Q. destruct (exponent_suff _ _ He') as [->|(t & ->)]; discriminate Q.
    - cbn [app] in Q. injection Q as Q. apply span_eq in Q as (-> & ->); auto using suffix_stops; apply suffix_stops; eapply exponent_suff; eauto. }
  destruct F as (<- & <-). rewrite (exponent_fun _ _ _ He He'). reflexivity.
Qed.
(** ** the digits are those of the nearest decimal number *)
Lemma half_even_nearest num den : (0 < den)%Z -> div_half_even num den = ZnearestE (IZR num / IZR den).
Proof.
  intros Hd. assert (D : 0 < IZR den) by (apply IZR_lt; lia). set (q := (num / den)%Z). set (r := (num mod den)%Z).
  assert (E : IZR num / IZR den = IZR q + IZR r / IZR den) by (apply div_real; auto).
  pose proof (Z.mod_pos_bound num den Hd) as [L U]. fold r in L, U.
  assert (R01 : 0 <= IZR r / IZR den < 1).
  { apply IZR_le in L. apply IZR_lt in U. split; [apply Rmult_le_reg_r with (IZR den)|apply Rmult_lt_reg_r with (IZR den)]; auto; unfold Rdiv; rewrite Rmult_assoc, Rinv_l by lra; lra. }
  assert (F : Zfloor (IZR num / IZR den) = q) by (apply Zfloor_imp; rewrite E, plus_IZR; lra).
  unfold Znearest. rewrite F. replace (IZR num / IZR den - IZR q) with (IZR r / IZR den) by lra. unfold div_half_even. fold q r.
  assert (Q : IZR r / IZR den * IZR den = IZR r) by (unfold Rdiv; rewrite Rmult_assoc, Rinv_l by lra; lra).
  assert (Ce : r <> 0%Z -> Zceil (IZR num / IZR den) = (q + 1)%Z).
  { intros Nr. rewrite Zceil_floor_neq; [rewrite F; reflexivity|]. rewrite F, E. assert (0 < IZR r) by (apply IZR_lt; lia). assert (0 < IZR r / IZR den) by (apply Rdiv_lt_0_compat; auto). lra. }
  destruct (Z.compare_spec (2 * r) den) as [C|C|C].
  - assert (IZR r / IZR den = / 2) as ->. { apply IZR_eq in C. rewrite mult_IZR in C. apply Rmult_eq_reg_r with (IZR den); [|lra]. rewrite Q. lra. }
    rewrite Rcompare_Eq by reflexivity. destruct (Z.even q); cbn [negb]; [reflexivity|]. symmetry. apply Ce. lia.
  - rewrite Rcompare_Lt; [reflexivity|]. apply IZR_lt in C. rewrite mult_IZR in C. apply Rmult_lt_reg_r with (IZR den); [auto|]. rewrite Q. lra.
  - rewrite Rcompare_Gt; [symmetry; apply Ce; lia|]. apply IZR_lt in C. rewrite mult_IZR in C. apply Rmult_lt_reg_r with (IZR den); [auto|]. rewrite Q. lra.
Qed.
Lemma six_digits_round m e d X : p10 (-400) <= value2 m e -> six_digits m e = (d, X) -> IZR d * p10 (X - 5) = round ten (FLX_exp 6) ZnearestE (value2 m e).
Proof.
  intros H E6. unfold six_digits in E6. revert H E6. rewrite value2_ratio.
  set (num := (Zpos m * 2 ^ Z.max e 0)%Z). set (den := (2 ^ Z.max (- e) 0)%Z).
  assert (Hn : (0 < num)%Z) by (apply Z.mul_pos_pos; [lia|apply Z.pow_pos_nonneg; lia]).
  assert (Hd : (0 < den)%Z) by (apply Z.pow_pos_nonneg; lia).
  set (Y := dec_exponent num den). intros H.
  pose proof (dec_exponent_spec num den Hn Hd H) as Sp. fold Y in Sp.
  set (a := (num * 10 ^ Z.max (5 - Y) 0)%Z). set (b := (den * 10 ^ Z.max (Y - 5) 0)%Z).
  assert (Hb : (0 < b)%Z) by (apply Z.mul_pos_pos; [lia|apply Z.pow_pos_nonneg; lia]).
  assert (Eab : IZR a / IZR b = IZR num / IZR den * p10 (5 - Y)).
  { unfold a, b. rewrite !mult_IZR, !p10_Z by lia.
    replace (p10 (5 - Y)) with (p10 (Z.max (5 - Y) 0) / p10 (Z.max (Y - 5) 0)).
    - pose proof (p10_pos (Z.max (Y - 5) 0)). assert (IZR den <> 0) by (apply not_0_IZR; lia). field. split; lra.
    - unfold Rdiv. rewrite <- p10_inv, <- bpow_plus. f_equal. lia. }
  assert (Mg : mag ten (IZR num / IZR den) = (Y + 1)%Z :> Z).
  { apply mag_unique_pos. replace (Y + 1 - 1)%Z with Y by lia. exact Sp. }
  unfold round, scaled_mantissa, cexp, FLX_exp. rewrite Mg. unfold F2R; cbn [Fnum Fexp]. replace (- (Y + 1 - 6))%Z with (5 - Y)%Z by lia. replace (Y + 1 - 6)%Z with (Y - 5)%Z by lia.
  rewrite <- Eab, <- half_even_nearest by auto. intros E6. destruct (Z.eqb_spec (div_half_even a b) 1000000) as [K|K].
  - injection E6 as <- <-. rewrite K. replace (Y + 1 - 5)%Z with (1 + (Y - 5))%Z by lia. rewrite bpow_plus. change (bpow ten 1) with 10. lra.
  - injection E6 as <- <-. reflexivity.
Qed.
