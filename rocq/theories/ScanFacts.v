(** * Reading numbers *)
From Coq Require Import Reals Psatz.
From Flocq Require Import Core Relative IEEE754.BinarySingleNaN.
From Verif Require Export ScanModel RoundFacts PrintFacts ScanSpec.
From Verif Require Export StrSpec StrModel.
Local Open Scope R_scope.
Local Instance prec53s : Prec_gt_0 53 := p53.
Local Instance vfxs : Valid_exp fx := FLT_exp_valid (-1074) 53.

Lemma span_app p a b : Forall (fun c => p c = true) a -> match b with [] => True | c :: _ => p c = false end -> span p (a ++ b) = (a, b).
Proof.
  intros H Hb. induction H as [|c a Hc Ha IH]; cbn [app span].
  - destruct b as [|c b]; [reflexivity|]. cbn [span]. rewrite Hb. reflexivity.
  - rewrite Hc, IH. reflexivity.
Qed.
Lemma span_spec p s : forall a b, span p s = (a, b) -> s = a ++ b /\ Forall (fun c => p c = true) a /\ match b with [] => True | c :: _ => p c = false end.
Proof.
  induction s as [|c s IH]; intros a b E; cbn [span] in E.
  - inversion E; subst. auto.
  - destruct (p c) eqn:P.
    + destruct (span p s) as [a' b'] eqn:Es. inversion E; subst. destruct (IH _ _ eq_refl) as (-> & F & G). split; [reflexivity|]. auto.
    + inversion E; subst. split; [reflexivity|]. split; [constructor|exact P].
Qed.
Lemma drop_spaces ws s : Forall (fun c => is_space c = true) ws -> match s with [] => True | c :: _ => is_space c = false end -> drop_while is_space (ws ++ s) = s.
Proof.
  intros H Hs. induction H as [|c ws Hc Hw IH]; cbn [app drop_while].
  - destruct s as [|c s]; [reflexivity|]. cbn [drop_while]. rewrite Hs. reflexivity.
  - rewrite Hc. exact IH.
Qed.
(** characters *)
Lemma all_ascii (P : ascii -> bool) : forallb P (map ascii_of_nat (seq 0 256)) = true -> forall c, P c = true.
Proof.
  intros H c. rewrite forallb_forall in H. apply H. rewrite <- (ascii_nat_embedding c). apply in_map. apply in_seq. pose proof (nat_ascii_bounded c). lia.
Qed.
Definition digit_char (c : ascii) : bool := negb (is_digit c) || (negb (is_space c) && negb (Ascii.eqb c "-") && negb (Ascii.eqb c "+") && negb (Ascii.eqb c ".") && negb (lower c =? 105)%Z && negb (lower c =? 110)%Z && negb (lower c =? 120)%Z && negb (lower c =? 101)%Z).
Lemma digit_chars c : is_digit c = true -> is_space c = false /\ Ascii.eqb c "-" = false /\ Ascii.eqb c "+" = false /\ Ascii.eqb c "." = false /\ (lower c =? 105)%Z = false /\ (lower c =? 110)%Z = false /\ (lower c =? 120)%Z = false /\ (lower c =? 101)%Z = false.
Proof.
  intros H. assert (Q : digit_char c = true) by (revert c H; intros c _; apply all_ascii; vm_compute; reflexivity).
  unfold digit_char in Q. rewrite H in Q. cbn [negb orb] in Q. repeat (apply andb_true_iff in Q; destruct Q as [Q ?]).
  repeat match goal with X : negb _ = true |- _ => apply negb_true_iff in X end. auto 12.
Qed.
Lemma lower_e c : (lower c =? 101)%Z = true <-> c = "e"%char \/ c = "E"%char.
Proof.
  assert (Q : Bool.eqb (lower c =? 101)%Z (Ascii.eqb c "e" || Ascii.eqb c "E") = true) by (revert c; apply all_ascii; vm_compute; reflexivity).
  apply eqb_prop in Q. rewrite Q, orb_true_iff, !Ascii.eqb_eq. reflexivity.
Qed.
Lemma lower_x c : (lower c =? 120)%Z = true <-> c = "x"%char \/ c = "X"%char.
Proof.
  assert (Q : Bool.eqb (lower c =? 120)%Z (Ascii.eqb c "x" || Ascii.eqb c "X") = true) by (revert c; apply all_ascii; vm_compute; reflexivity).
  apply eqb_prop in Q. rewrite Q, orb_true_iff, !Ascii.eqb_eq. reflexivity.
Qed.
(** what can follow the digits *)
Definition after_digits (r : str) : Prop :=
  match r with [] => True | c :: _ => is_digit c = false /\ Ascii.eqb c "." = false /\ (lower c =? 120)%Z = false end.
Lemma stops_after rest : stops rest -> after_digits rest.
Proof.
  destruct rest as [|c t]; [auto|]. intros [H1 H2]. split; [auto|]. split.
  - destruct (Ascii.eqb_spec c "."); [|auto]. subst. exfalso. apply H2. cbn; auto.
  - destruct (lower c =? 120)%Z eqn:E; [|auto]. apply lower_x in E. exfalso. apply H2. cbn. destruct E; subst; auto 10.
Qed.
Lemma power_after et k rest : power et k -> stops rest -> after_digits (et ++ rest).
Proof.
  intros H S. destruct H as [|c sg neg ds Hc _ _ _]; [apply stops_after; auto|]. cbn [app after_digits]. destruct Hc; subst c; auto.
Qed.
Lemma power_exponent et k rest : power et k -> stops rest -> exponent_of 101 (et ++ rest) = k.
Proof.
  intros H S. destruct H as [|c sg neg ds Hc Hs Hd Hn].
  - cbn [app]. destruct rest as [|c t]; [reflexivity|]. cbn [exponent_of]. destruct (lower c =? 101)%Z eqn:E; [|reflexivity].
    apply lower_e in E. destruct S as [_ S]. exfalso. apply S. cbn. destruct E; subst; auto 10.
  - rewrite (amount_val ds Hd). cbn [app exponent_of]. replace (lower c =? 101)%Z with true by (symmetry; apply lower_e; exact Hc).
    assert (E : sign ((sg ++ ds) ++ rest) = (neg, ds ++ rest)).
    { destruct Hs as [[-> ->]|[[-> ->]|[-> ->]]]; cbn [app]; try reflexivity. destruct ds as [|d ds]; [contradiction|].
      cbn [app sign]. inversion Hd as [|? ? Hd1 _]; subst. destruct (digit_chars d Hd1) as (_ & -> & -> & _). reflexivity. }
    rewrite E, span_app; [reflexivity|exact Hd|]. destruct rest as [|x r]; [auto|]. exact (proj1 S).
Qed.
Lemma mantissa_ok ip ft fp r : digs ip -> digs fp -> (ft = [] /\ fp = [] \/ ft = "."%char :: fp) -> ip ++ fp <> [] -> after_digits r ->
  mantissa is_digit (ip ++ ft ++ r) = Some (ip, fp, r).
Proof.
  intros Hi Hf Ht Hn Hr. unfold mantissa.
  assert (R : match r with [] => True | c :: _ => is_digit c = false end) by (destruct r; [auto|exact (proj1 Hr)]).
  destruct Ht as [[-> ->]| ->].
  - cbn [app]. rewrite span_app by auto. rewrite app_nil_r in Hn.
    assert (E : match r with c :: t => if Ascii.eqb c "." then span is_digit t else ([], r) | [] => ([], r) end = ([], r)).
    { destruct r as [|c t]; [reflexivity|]. destruct Hr as (_ & -> & _). reflexivity. }
    rewrite E. destruct ip; [contradiction|reflexivity].
  - rewrite span_app; [|auto|reflexivity]. cbn [app]. change (Ascii.eqb "." ".") with true. cbn iota. rewrite span_app by auto.
    destruct ip; [|reflexivity]. destruct fp; [contradiction|reflexivity].
Qed.
(** the first character of a number without sign *)
Lemma body_head ip ft fp r : digs ip -> digs fp -> (ft = [] /\ fp = [] \/ ft = "."%char :: fp) -> ip ++ fp <> [] -> after_digits r ->
  exists c t, ip ++ ft ++ r = c :: t /\ (is_digit c = true \/ c = "."%char) /\ (c = "0"%char -> match t with [] => True | x :: _ => (lower x =? 120)%Z = false end).
Proof.
  intros Hi Hf Ht Hn Hr.
  assert (Q : match ft ++ r with [] => True | x :: _ => (lower x =? 120)%Z = false end).
  { destruct Ht as [[-> _]| ->]; cbn [app]; [|reflexivity]. destruct r as [|c t]; [auto|]. apply Hr. }
  destruct ip as [|c ip].
  - destruct Ht as [[-> ->]| ->]; [contradiction|]. cbn [app]. eexists _, _. split; [reflexivity|]. split; [auto|]. discriminate.
  - inversion Hi as [|? ? Hc Hi']; subst. cbn [app]. exists c, (ip ++ ft ++ r). split; [reflexivity|]. split; [auto|]. intros _.
    destruct ip as [|d ip]; [exact Q|]. cbn [app]. inversion Hi' as [|? ? Hd _]; subst. apply (digit_chars d Hd).
Qed.
Lemma scan_body_decimal neg ip ft fp r : digs ip -> digs fp -> (ft = [] /\ fp = [] \/ ft = "."%char :: fp) -> ip ++ fp <> [] -> after_digits r ->
  scan_body neg (ip ++ ft ++ r) = Some (Number neg 10 (amount (ip ++ fp)) (exponent_of 101 r - Z.of_nat (length fp))).
Proof.
  intros Hi Hf Ht Hn Hr. destruct (body_head _ _ _ _ Hi Hf Ht Hn Hr) as (c & t & E & Hc & Hx). unfold scan_body. rewrite (mantissa_ok _ _ _ _ Hi Hf Ht Hn Hr), E.
  assert (Q : (lower c =? 105)%Z = false /\ (lower c =? 110)%Z = false).
  { destruct Hc as [Hc| ->]; [|split; reflexivity]. pose proof (digit_chars c Hc). tauto. }
  destruct Q as [Q1 Q2]. cbn [starts_ci list_ascii_of_string]. rewrite (Z.eqb_sym (code "i")), (Z.eqb_sym (code "n")), (Z.eqb_sym (code "0")). change (code "i") with 105%Z. change (code "n") with 110%Z. rewrite Q1, Q2. cbn [andb].
  assert (X : starts_ci $"0x" (c :: t) = false).
  { cbn [starts_ci list_ascii_of_string]. destruct (code "0" =? lower c)%Z eqn:E0; [|reflexivity]. cbn [andb].
    assert (c = "0"%char). { assert (K : Bool.eqb (code "0" =? lower c)%Z (Ascii.eqb c "0") = true) by (clear; revert c; apply all_ascii; vm_compute; reflexivity). apply eqb_prop in K. rewrite E0 in K. symmetry in K. apply Ascii.eqb_eq in K. exact K. }
    specialize (Hx H). destruct t as [|x t]; [reflexivity|]. rewrite (Z.eqb_sym (code "x")). change (code "x") with 120%Z. rewrite Hx. reflexivity. }
  cbn [starts_ci list_ascii_of_string] in X. rewrite (Z.eqb_sym (code "0")) in X. rewrite X.
  rewrite <- (amount_val (ip ++ fp)) by (apply Forall_app; auto). reflexivity.
Qed.
(** the number a text shows *)
Definition exactly (v : shown) : R :=
  match v with
  | Number neg base m e => (if neg then -1 else 1) * (let '(n, d) := as_ratio base m e in IZR n / IZR d)
  | _ => 0
  end.
Lemma exactly_dec (neg : bool) m e : exactly (Number neg 10 m e) = (if neg then -1 else 1) * IZR m * bpow ten e.
Proof.
  cbn [exactly]. unfold as_ratio. rewrite Rmult_assoc. f_equal. destruct (Z.leb_spec 0 e).
  - rewrite mult_IZR, p10_Z by lia. field.
  - rewrite p10_Z by lia. rewrite p10_inv. field. apply Rgt_not_eq, p10_pos.
Qed.
Lemma scan_decimal s v : begins_with s v -> exists neg m e, scan s = Some (Number neg 10 m e) /\ (0 <= m)%Z /\ exactly (Number neg 10 m e) = v.
Proof.
  intros (ws & t & rest & -> & Hw & (sg & neg & ip & ft & fp & et & k & Hs & Hi & Hf & Ht & Hn & Hp & -> & ->) & Hr).
  pose proof (power_after _ _ _ Hp Hr) as Ha. exists neg, (amount (ip ++ fp)), (k - Z.of_nat (length fp))%Z.
  split; [|split; [|rewrite exactly_dec; reflexivity]].
  - destruct (body_head _ _ _ _ Hi Hf Ht Hn Ha) as (c & b & E & Hc & _). unfold scan.
    assert (Sp : is_space c = false /\ Ascii.eqb c "-" = false /\ Ascii.eqb c "+" = false).
    { destruct Hc as [Hc| ->]; [|repeat split]. pose proof (digit_chars c Hc). tauto. }
    rewrite <- !app_assoc. rewrite drop_spaces; [|exact Hw|destruct Hs as [[-> _]|[[-> _]|[-> _]]]; cbn [app list_ascii_of_string]; rewrite ?E; [apply Sp|reflexivity|reflexivity]].
    assert (Es : sign (sg ++ ip ++ ft ++ et ++ rest) = (neg, ip ++ ft ++ et ++ rest)).
    { destruct Hs as [[-> ->]|[[-> ->]|[-> ->]]]; cbn [app list_ascii_of_string]; try reflexivity. rewrite E. cbn [sign]. destruct Sp as (_ & -> & ->). reflexivity. }
    rewrite Es. rewrite (scan_body_decimal neg ip ft fp (et ++ rest)) by auto. rewrite (power_exponent et k rest) by auto. reflexivity.
  - assert (D : digs (ip ++ fp)) by (apply Forall_app; auto). clear - D. unfold amount. assert (Q : forall a, (0 <= a)%Z -> (0 <= fold_left (fun a c => 10 * a + digit_val c) (ip ++ fp) a)%Z); [|apply Q; lia].
    induction D as [|c l Hc Hl IH]; intros a Ha; cbn [fold_left]; [auto|]. apply IH. unfold is_digit in Hc. unfold digit_val. lia.
Qed.

(** ** Rounding *)
Lemma ratio_spec (neg : bool) (n d : positive) : let r := (if neg then -1 else 1) * (IZR (Zpos n) / IZR (Zpos d)) in
  (Rabs (fl r) < bpow radix2 1024 -> is_finite (ratio neg n d) = true /\ B2R (ratio neg n d) = fl r) /\
  (bpow radix2 1024 <= Rabs (fl r) -> is_finite (ratio neg n d) = false).
Proof.
  intros r. unfold ratio. generalize (proj1 (Bdiv_correct_aux 53 1024 p53 p53e mode_NE neg n 0 false d 0)). intros H. pose proof (proj2 (Bdiv_correct_aux 53 1024 p53 p53e mode_NE neg n 0 false d 0)) as C.
  cbv zeta in C, H. change (round_mode mode_NE) with ZnearestE in C. change (SpecFloat.fexp 53 1024) with fx in C.
  assert (E : F2R (Float radix2 (SpecFloat.cond_Zopp neg (Zpos n)) 0) / F2R (Float radix2 (SpecFloat.cond_Zopp false (Zpos d)) 0) = r).
  { subst r. unfold F2R. cbn [Fnum Fexp bpow SpecFloat.cond_Zopp]. rewrite !Rmult_1_r. destruct neg; cbn [SpecFloat.cond_Zopp]; [|ring].
    rewrite opp_IZR. unfold Rdiv. ring. }
  rewrite E in C. fold (fl r) in C.
  match type of H with SpecFloat.valid_binary _ _ ?z0 = true => set (z := z0) in * end. clearbody z.
  split; intros Q.
  - rewrite Rlt_bool_true in C by auto. destruct C as (C1 & C2 & _). split.
    + rewrite is_finite_SF2B. exact C2.
    + rewrite B2R_SF2B. exact C1.
  - rewrite Rlt_bool_false in C by auto. rewrite is_finite_SF2B, C. reflexivity.
Qed.
Lemma as_ratio_pos base m e n d : (0 < base)%Z -> (0 <= m)%Z -> as_ratio base m e = (n, d) -> (0 <= n)%Z /\ (0 < d)%Z.
Proof.
  intros Hb Hm E. unfold as_ratio in E. destruct (Z.leb_spec 0 e); inversion E; subst.
  - split; [|lia]. apply Z.mul_nonneg_nonneg; [lia|]. apply Z.pow_nonneg. lia.
  - split; [lia|]. apply Z.pow_pos_nonneg; lia.
Qed.
Lemma fl_0 : fl 0 = 0.
Proof. apply round_0. typeclasses eauto. Qed.
Lemma to_double_spec (neg : bool) base m e : (0 < base)%Z -> (0 <= m)%Z -> let r := exactly (Number neg base m e) in
  (Rabs (fl r) < bpow radix2 1024 -> is_finite (to_double (Number neg base m e)) = true /\ B2R (to_double (Number neg base m e)) = fl r) /\
  (bpow radix2 1024 <= Rabs (fl r) -> is_finite (to_double (Number neg base m e)) = false).
Proof.
  intros Hb Hm. cbn [exactly to_double]. destruct (as_ratio base m e) as [n d] eqn:E. destruct (as_ratio_pos _ _ _ _ _ Hb Hm E) as [Hn Hd].
  destruct d as [|d|d]; try lia. destruct n as [|n|n]; try lia.
  - assert (Z0 : (if neg then -1 else 1) * (0 / IZR (Zpos d)) = 0) by (unfold Rdiv; ring). rewrite Z0, fl_0, Rabs_R0. split; [intros _; split; reflexivity|].
    pose proof (bpow_gt_0 radix2 1024). lra.
  - apply ratio_spec.
Qed.
(** below the normal numbers *)
Lemma near_normal r : bpow radix2 (-1022) * (1 - / IZR (2 ^ 54)) <= Rabs r < bpow radix2 (-1022) -> Rabs (fl r - r) <= u * Rabs r.
Proof.
  intros H. assert (Q : forall x, 0 <= x -> bpow radix2 (-1022) * (1 - / IZR (2 ^ 54)) <= x < bpow radix2 (-1022) -> Rabs (fl x - x) <= u * x).
  { intros x Hx Hr. set (t := bpow radix2 (-1022)) in *. assert (T : 0 < t) by apply bpow_gt_0.
    assert (G : generic_format radix2 fx t) by (unfold t; apply generic_format_bpow; cbn; lia).
    pose proof (@round_N_pt radix2 fx (FLT_exp_valid (-1074) 53) (fun n => negb (Z.even n)) x) as [_ N]. specialize (N t G). fold (fl x) in N.
    apply Rle_trans with (1 := N). rewrite (Rabs_pos_eq (t - x)) by lra. unfold u.
    assert (t * / IZR (2 ^ 54) <= / IZR (2 ^ 53) * x); [|lra].
    assert (I : / IZR (2 ^ 53) = 2 * / IZR (2 ^ 54)) by (cbn; lra). rewrite I. assert (0 < / IZR (2 ^ 54)) by (apply Rinv_0_lt_compat; apply IZR_lt; lia).
    assert (/ IZR (2 ^ 54) <= / 2) by (apply Rinv_le; [lra|apply IZR_le; lia]).
    assert (t / 2 <= x) by nra. nra. }
  pose proof (Rabs_pos r) as Hr0. destruct (Rle_or_lt 0 r) as [Hr|Hr].
  - rewrite (Rabs_pos_eq r) in * by auto. apply Q; auto.
  - rewrite (Rabs_left r) in * by auto. specialize (Q (- r) ltac:(lra) H). rewrite fl_opp in Q. replace (fl r - r) with (- (- fl r - - r)) by ring. rewrite Rabs_Ropp. exact Q.
Qed.
Lemma normal_error r : bpow radix2 (-1022) <= Rabs r -> Rabs (fl r - r) <= u * Rabs r.
Proof. intros H. unfold fl. rewrite <- half_u. apply relative_error_N_FLT; [lia|exact H]. Qed.
Lemma abs_ratio (neg : bool) n d : (0 <= n)%Z -> (0 < d)%Z -> Rabs ((if neg then -1 else 1) * (IZR n / IZR d)) = IZR n / IZR d.
Proof.
  intros Hn Hd. assert (0 < IZR d) by (apply IZR_lt; auto). assert (0 <= IZR n) by (apply IZR_le; auto).
  assert (0 <= IZR n / IZR d) by (apply Rmult_le_pos; [auto|left; apply Rinv_0_lt_compat; auto]).
  rewrite Rabs_mult, (Rabs_pos_eq (IZR n / IZR d)) by auto. destruct neg; [rewrite Rabs_left by lra|rewrite Rabs_pos_eq by lra]; ring.
Qed.
Lemma pow_IZR k : (0 <= k)%Z -> IZR (2 ^ k) = bpow radix2 k.
Proof. intros H. exact (IZR_Zpower radix2 k H). Qed.
Lemma no_range_error (neg : bool) base m e : (0 < base)%Z -> (0 <= m)%Z -> let r := exactly (Number neg base m e) in
  range_error (Number neg base m e) = false ->
  is_finite (to_double (Number neg base m e)) = true /\ B2R (to_double (Number neg base m e)) = fl r /\ Rabs (fl r - r) <= u * Rabs r.
Proof.
  intros Hb Hm r H. destruct (to_double_spec neg base m e Hb Hm) as [S1 S2]. fold r in S1, S2. unfold range_error in H.
  apply orb_false_iff in H as [F U]. apply negb_false_iff in F. split; [exact F|].
  destruct (Rlt_or_le (Rabs (fl r)) (bpow radix2 1024)) as [L|L]; [|apply S2 in L; congruence]. split; [apply S1; exact L|].
  clear S1 S2 F L. subst r. cbn [exactly]. destruct (as_ratio base m e) as [n d] eqn:E. destruct (as_ratio_pos _ _ _ _ _ Hb Hm E) as [Hn Hd].
  set (r := (if neg then -1 else 1) * (IZR n / IZR d)). assert (Ha : Rabs r = IZR n / IZR d) by (apply abs_ratio; auto).
  assert (Pd : 0 < IZR d) by (apply IZR_lt; auto). unfold underflows in U. apply andb_false_iff in U as [U|U].
  - apply Z.ltb_ge in U. destruct (Rle_or_lt (bpow radix2 (-1022)) (Rabs r)) as [L|L]; [apply normal_error; exact L|]. apply near_normal. split; [|exact L].
    rewrite Ha. apply IZR_le in U. rewrite !mult_IZR, minus_IZR, (pow_IZR 1076) in U by lia.
    apply Rmult_le_reg_r with (IZR d); [exact Pd|]. unfold Rdiv. rewrite (Rmult_assoc (IZR n)), Rinv_l, Rmult_1_r by lra.
    apply Rmult_le_reg_r with (bpow radix2 1076); [apply bpow_gt_0|]. apply Rle_trans with (2 := U). apply Req_le.
    replace (bpow radix2 1076) with (bpow radix2 1022 * IZR (2 ^ 54)) by (rewrite (pow_IZR 54), <- bpow_plus by lia; reflexivity).
    change (-1022)%Z with (- (1022))%Z. rewrite bpow_opp. field. split; [apply IZR_neq; lia|]. apply Rgt_not_eq, bpow_gt_0.
  - apply negb_false_iff, Z.eqb_eq in U. apply Z.mod_divide in U; [|lia]. destruct U as [q Hq].
    assert (G : generic_format radix2 (FIX_exp (-1074)) r).
    { apply generic_format_FIX. exists (Float radix2 (if neg then - q else q) (-1074)); [|reflexivity]. unfold F2R. cbn [Fnum Fexp].
      apply (f_equal IZR) in Hq. rewrite !mult_IZR, (pow_IZR 1074) in Hq by lia. change (-1074)%Z with (- (1074))%Z. rewrite bpow_opp.
      assert (B : 0 < bpow radix2 1074) by apply bpow_gt_0.
      assert (En : IZR n / IZR d = IZR q * / bpow radix2 1074) by (apply Rmult_eq_reg_r with (bpow radix2 1074 * IZR d); [field_simplify; [lra|lra|lra]|nra]).
      subst r. rewrite En. destruct neg; rewrite ?opp_IZR; ring. }
    apply fl_exact_grid in G. exact G.
Qed.
Lemma in_range (neg : bool) base m e : (0 < base)%Z -> (0 <= m)%Z -> let r := exactly (Number neg base m e) in
  Rabs (fl r) < bpow radix2 1024 -> (r = 0 \/ bpow radix2 (-1022) <= Rabs r) -> range_error (Number neg base m e) = false.
Proof.
  intros Hb Hm r L N. destruct (to_double_spec neg base m e Hb Hm) as [S1 _]. unfold range_error. destruct (S1 L) as [F _]. rewrite F. cbn [negb orb].
  clear S1 F L. subst r. cbn [exactly] in N. destruct (as_ratio base m e) as [n d] eqn:E. destruct (as_ratio_pos _ _ _ _ _ Hb Hm E) as [Hn Hd].
  unfold underflows. assert (Pd : 0 < IZR d) by (apply IZR_lt; auto). destruct N as [N|N].
  - assert (n = 0%Z) as ->.
    { apply eq_IZR. assert (Q : IZR n / IZR d = 0) by (destruct neg; lra). apply Rmult_eq_reg_r with (/ IZR d); [rewrite Rmult_0_l; exact Q|]. apply Rinv_neq_0_compat. lra. }
    rewrite Z.mul_0_l, Z.mod_0_l by lia. apply andb_false_r.
  - apply andb_false_iff. left. apply Z.ltb_ge. rewrite abs_ratio in N by auto.
    assert (Q : (d <= n * 2 ^ 1022)%Z).
    { apply le_IZR. rewrite mult_IZR, (pow_IZR 1022) by lia. apply Rmult_le_reg_l with (bpow radix2 (-1022)); [apply bpow_gt_0|].
      replace (bpow radix2 (-1022) * (IZR n * bpow radix2 1022)) with (IZR n * (bpow radix2 (-1022) * bpow radix2 1022)) by ring. rewrite <- bpow_plus. change (bpow radix2 (-1022 + 1022)) with 1. rewrite Rmult_1_r.
      apply Rmult_le_compat_r with (r := IZR d) in N; [|lra]. unfold Rdiv in N. rewrite (Rmult_assoc (IZR n)), Rinv_l in N by lra. lra. }
    change (2 ^ 1076)%Z with (2 ^ 1022 * 2 ^ 54)%Z. nia.
Qed.
