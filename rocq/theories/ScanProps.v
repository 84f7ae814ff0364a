(** * Property C84: numbers are read with correct rounding

    [begins_with s v] (ScanSpec.v): the text [s] is white space, a decimal numeral that
    denotes the real number [v], and something that does not continue it.  [fl v] is
    the double nearest to [v], ties to even ([FloatRound.v]); [u] = 2^-53. *)
From Coq Require Import Reals Psatz.
From Flocq Require Import Core Relative IEEE754.BinarySingleNaN.
From Verif Require Export ScanFacts.
From Verif Require Import PrintProps.
From Verif Require Export StrSpec StrModel.
Local Open Scope R_scope.
Definition dshow (o : outcome double) : str + exn := match o with Ok x => inl (print_double x) | Throw e => inr e | _ => inr RuntimeError end.

(** whatever std::stod returns for a decimal text is the nearest double, with a relative error of at most 2^-53 *)
Theorem C84_accurate : forall s v x, begins_with s v -> dstod s = Ok x ->
  is_finite x = true /\ B2R x = round radix2 (FLT_exp (-1074) 53) ZnearestE v /\ Rabs (B2R x - v) <= u * Rabs v.
Proof.
  intros s v x H E. destruct (scan_decimal s v H) as (neg & m & e & Es & Hm & <-). unfold dstod in E. rewrite Es in E.
  destruct (range_error (Number neg 10 m e)) eqn:R; [discriminate E|]. assert (X : x = to_double (Number neg 10 m e)) by congruence. rewrite X. clear E X.
  destruct (no_range_error neg 10 m e ltac:(lia) Hm R) as (F & B & L). split; [exact F|]. split; [exact B|]. rewrite B. exact L.
Qed.
Print Assumptions C84_accurate.
(** it returns one for zero and every number in the range of the normal doubles *)
Theorem C84_in_range : forall s v, begins_with s v -> v = 0 \/ / IZR (2 ^ 1022) <= Rabs v <= IZR (2 ^ 1023) -> exists x, dstod s = Ok x.
Proof.
  intros s v H R. destruct (scan_decimal s v H) as (neg & m & e & Es & Hm & <-). unfold dstod. rewrite Es.
  rewrite in_range; [eauto|lia|exact Hm| |].
  - set (r := exactly _) in *. assert (Q : Rabs (fl r) <= bpow radix2 1023).
    { assert (B : fl (bpow radix2 1023) = bpow radix2 1023) by (apply round_generic; [typeclasses eauto|]; apply generic_format_bpow; cbn; lia).
      assert (L : Rabs r <= bpow radix2 1023). { destruct R as [->|R]; [rewrite Rabs_R0; apply bpow_ge_0|]. rewrite <- (pow_IZR 1023) by lia. lra. }
      apply Rabs_le_inv in L. apply Rabs_le. rewrite <- B. split; [rewrite <- fl_opp|]; apply fl_le; lra. }
    apply Rle_lt_trans with (1 := Q). apply bpow_lt. lia.
  - destruct R as [R|[R _]]; [left; exact R|right]. change (-1022)%Z with (- (1022))%Z. rewrite bpow_opp, <- (pow_IZR 1022) by lia. exact R.
Qed.
Print Assumptions C84_in_range.
(** numbers beyond the doubles are refused *)
Theorem C84_too_large : forall s v, begins_with s v -> IZR (2 ^ 1024) <= Rabs v -> dstod s = Throw OutOfRange.
Proof.
  intros s v H R. destruct (scan_decimal s v H) as (neg & m & e & Es & Hm & <-). unfold dstod. rewrite Es. unfold range_error.
  destruct (to_double_spec neg 10 m e ltac:(lia) Hm) as [_ S]. rewrite S; [reflexivity|]. set (r := exactly _) in *.
  rewrite pow_IZR in R by lia.
  assert (B : fl (bpow radix2 1024) = bpow radix2 1024) by (apply round_generic; [typeclasses eauto|]; apply generic_format_bpow; cbn; lia).
  destruct (Rle_or_lt 0 r) as [P|P].
  - rewrite (Rabs_pos_eq r) in R by auto. apply fl_le in R. rewrite B in R. apply Rle_trans with (1 := R). apply Rle_abs.
  - rewrite (Rabs_left r) in R by auto. apply fl_le in R. rewrite B, fl_opp in R. apply Rle_trans with (1 := R). rewrite <- Rabs_Ropp. apply Rle_abs.
Qed.
Print Assumptions C84_too_large.
(** atof rounds in the same way; beyond the doubles it gives an infinity *)
Theorem C84_atof : forall s v, begins_with s v -> is_finite (datof s) = true ->
  B2R (datof s) = round radix2 (FLT_exp (-1074) 53) ZnearestE v /\ Rabs (B2R (datof s) - v) <= u * (Rabs v + / IZR (2 ^ 1022)).
Proof.
  intros s v H F. destruct (scan_decimal s v H) as (neg & m & e & Es & Hm & <-). unfold datof in *. rewrite Es in *.
  destruct (to_double_spec neg 10 m e ltac:(lia) Hm) as [S1 S2]. set (r := exactly _) in *.
  destruct (Rlt_or_le (Rabs (fl r)) (bpow radix2 1024)) as [L|L]; [|apply S2 in L; congruence]. destruct (S1 L) as [_ E]. split; [exact E|]. rewrite E. apply fl_error.
Qed.
Print Assumptions C84_atof.

(** ** Texts that are not numbers *)
Lemma no_digit_mantissa s : Forall (fun c => is_digit c = false) s -> mantissa is_digit s = None.
Proof.
  intros H. unfold mantissa. destruct s as [|c t]; [reflexivity|]. inversion H as [|? ? Hc Ht]; subst. cbn [span]. rewrite Hc.
  destruct (Ascii.eqb c "."); [|reflexivity]. destruct t as [|d t]; [reflexivity|]. cbn [span]. inversion Ht as [|? ? Hd _]; subst. rewrite Hd. reflexivity.
Qed.
Lemma in_sign s neg t c : sign s = (neg, t) -> In c t -> In c s.
Proof.
  destruct s as [|a s]; cbn [sign]; [intros E; inversion E; auto|]. destruct (Ascii.eqb a "-"); [intros E; inversion E; subst; intros; right; auto|].
  destruct (Ascii.eqb a "+"); intros E; inversion E; subst; intros; [right; auto|auto].
Qed.
Lemma in_drop p s c : In c (drop_while p s) -> In c s.
Proof. induction s as [|a s IH]; cbn [drop_while]; [auto|]. destruct (p a); [intros I; right; auto|auto]. Qed.
Lemma starts_needs w s : starts_ci w s = true -> forall a, In a w -> exists b, In b s /\ code a = lower b.
Proof.
  revert s. induction w as [|x w IH]; intros s H a I; [destruct I|]. destruct s as [|y s]; [discriminate H|]. cbn [starts_ci] in H. apply andb_true_iff in H as [H1 H2].
  destruct I as [<-|I]; [exists y; split; [left; auto|lia]|]. destruct (IH s H2 a I) as (b & B1 & B2). exists b. split; [right; auto|auto].
Qed.
Theorem C84_rejects : forall s, (forall c, In c s -> is_digit c = false /\ c <> "n"%char /\ c <> "N"%char) ->
  dstod s = Throw InvalidArgument /\ datof s = B754_zero false.
Proof.
  intros s H. assert (E : scan s = None).
  { unfold scan. destruct (sign (drop_while is_space s)) as [neg t] eqn:Et.
    assert (Q : forall c, In c t -> is_digit c = false /\ c <> "n"%char /\ c <> "N"%char) by (intros c I; apply H; eapply in_drop, in_sign; eauto).
    assert (Nn : forall b, In b t -> code "n" <> lower b).
    { intros b I K. destruct (Q b I) as (_ & Q1 & Q2). assert (X : Bool.eqb (code "n" =? lower b)%Z (Ascii.eqb b "n" || Ascii.eqb b "N") = true) by (clear; revert b; apply all_ascii; vm_compute; reflexivity).
      apply eqb_prop in X. rewrite (proj2 (Z.eqb_eq _ _) K) in X. symmetry in X. apply orb_true_iff in X as [X|X]; apply Ascii.eqb_eq in X; auto. }
    unfold scan_body. destruct (starts_ci $"inf" t) eqn:E1; [destruct (starts_needs _ _ E1 "n"%char) as (b & B1 & B2); [right; left; auto|destruct (Nn b B1 B2)]|].
    destruct (starts_ci $"nan" t) eqn:E2; [destruct (starts_needs _ _ E2 "n"%char) as (b & B1 & B2); [left; auto|destruct (Nn b B1 B2)]|].
    destruct (starts_ci $"0x" t) eqn:E3.
    - destruct (starts_needs _ _ E3 "0"%char) as (b & B1 & B2); [left; auto|]. destruct (Q b B1) as (Q1 & _).
      assert (X : negb (code "0" =? lower b)%Z || is_digit b = true) by (clear; revert b; apply all_ascii; vm_compute; reflexivity).
      rewrite (proj2 (Z.eqb_eq _ _) B2), Q1 in X. discriminate X.
    - rewrite no_digit_mantissa; [reflexivity|]. apply Forall_forall. intros c I. apply Q; auto. }
  unfold dstod, datof. rewrite E. split; reflexivity.
Qed.
Print Assumptions C84_rejects.
(** inf and nan, in any case, followed by anything, are accepted and are what they say *)
Theorem C84_not_finite : forall ws sg (neg : bool) c1 c2 c3 rest, Forall (fun c => is_space c = true) ws ->
  (sg = [] /\ neg = false \/ sg = $"+" /\ neg = false \/ sg = $"-" /\ neg = true) -> let s := ws ++ sg ++ [c1; c2; c3] ++ rest in
  (In c1 ["i"; "I"]%char -> In c2 ["n"; "N"]%char -> In c3 ["f"; "F"]%char -> dstod s = Ok (B754_infinity neg) /\ datof s = B754_infinity neg) /\
  (In c1 ["n"; "N"]%char -> In c2 ["a"; "A"]%char -> In c3 ["n"; "N"]%char -> dstod s = Ok B754_nan /\ datof s = B754_nan).
Proof.
  intros ws sg neg c1 c2 c3 rest Hw Hs s.
  assert (Dr : forall t, drop_while is_space (ws ++ t) = drop_while is_space t).
  { intros t. induction Hw as [|c w Hc _ IH]; [reflexivity|]. cbn [app drop_while]. rewrite Hc. exact IH. }
  assert (Sc : In c1 ["i"; "I"; "n"; "N"]%char -> scan s = scan_body neg (c1 :: c2 :: c3 :: rest)).
  { intros I. unfold scan, s. rewrite Dr. destruct Hs as [[-> ->]|[[-> ->]|[-> ->]]]; [|reflexivity|reflexivity].
    cbn [In] in I. destruct I as [<-|[<-|[<-|[<-|[]]]]]; reflexivity. }
  unfold dstod, datof. split; intros I1 I2 I3; (rewrite Sc; [|cbn [In] in *; tauto]); cbn [In] in I1, I2, I3;
  destruct I1 as [<-|[<-|[]]]; destruct I2 as [<-|[<-|[]]]; destruct I3 as [<-|[<-|[]]]; split; reflexivity.
Qed.
Print Assumptions C84_not_finite.

(** ** What is printed can be read back, to six digits *)
Lemma numeral_decimal t v : numeral t v -> begins_with t v.
Proof.
  intros (neg & ip & ft & fp & et & k & Hi & Ni & Hf & He & -> & ->). exists [], ((if neg then $"-" else []) ++ ip ++ ft ++ et), [].
  split; [cbn [app]; rewrite app_nil_r; reflexivity|]. split; [constructor|]. split; [|exact I].
  exists (if neg then $"-" else []), neg, ip, ft, fp, et, k. split; [destruct neg; auto|]. split; [exact Hi|]. split; [destruct Hf as [[_ ->]|(_ & _ & Hf)]; [constructor|exact Hf]|].
  split; [destruct Hf as [Hf|(Hf & _)]; auto|]. split; [destruct ip; [contradiction|discriminate]|]. split; [|auto].
  destruct He as [|ds Hd Hn|ds Hd Hn]; [constructor| |].
  - exact (with_power "e" $"+" false ds (or_introl eq_refl) (or_intror (or_introl (conj eq_refl eq_refl))) Hd Hn).
  - exact (with_power "e" $"-" true ds (or_introl eq_refl) (or_intror (or_intror (conj eq_refl eq_refl))) Hd Hn).
Qed.
Theorem C84_printed : forall x : double, is_finite x = true -> B2R x = 0 \/ / IZR (2 ^ 1000) <= Rabs (B2R x) <= IZR (2 ^ 1000) ->
  exists y, dstod (print_double x) = Ok y /\ is_finite y = true /\ Rabs (B2R y - B2R x) <= 6 / 1000000 * Rabs (B2R x).
Proof.
  intros x F R. destruct (C82_accurate x F) as (v & Hv & Ha & _). apply numeral_decimal in Hv. pose proof (Rabs_pos (B2R x)) as Px.
  assert (V : Rabs v <= 2 * Rabs (B2R x) /\ Rabs (B2R x) <= 2 * Rabs v).
  { pose proof (Rabs_triang (v - B2R x) (B2R x)) as T1. replace (v - B2R x + B2R x) with v in T1 by ring.
    pose proof (Rabs_triang (- (v - B2R x)) v) as T2. replace (- (v - B2R x) + v) with (B2R x) in T2 by ring. rewrite Rabs_Ropp in T2. lra. }
  destruct (C84_in_range _ v Hv) as (y & E).
  { destruct R as [R|R]; [left|right].
    - rewrite R, Rabs_R0 in V. destruct V as [V _]. pose proof (Rabs_pos v). destruct (Req_dec v 0) as [|Q]; [auto|]. apply Rabs_pos_lt in Q. lra.
    - rewrite !pow_IZR in * by lia. rewrite <- !bpow_opp in *. assert (E1 : bpow radix2 (- (1022)) * 2 <= bpow radix2 (- (1000))) by (change 2 with (bpow radix2 1); rewrite <- bpow_plus; apply bpow_le; lia).
      assert (E2 : bpow radix2 1000 * 2 <= bpow radix2 1023) by (change 2 with (bpow radix2 1); rewrite <- bpow_plus; apply bpow_le; lia). lra. }
  exists y. split; [exact E|]. destruct (C84_accurate _ v y Hv E) as (Fy & _ & L). split; [exact Fy|].
  replace (B2R y - B2R x) with ((B2R y - v) + (v - B2R x)) by ring. apply Rle_trans with (1 := Rabs_triang _ _).
  assert (U : u <= 1 / 10000000) by (unfold u; cbn; lra). assert (u * Rabs v <= 1 / 10000000 * Rabs v) by (apply Rmult_le_compat_r; [apply Rabs_pos|exact U]). lra.
Qed.
Print Assumptions C84_printed.

(** an energy, a coordinate and a coefficient as Gaussian prints them *)
Example C84_example : begins_with $" -10.20610" (- 102061 / 10000) /\ begins_with $"0.5E+02 x" 50 /\ dshow (dstod $" -10.20610") = inl $"-10.2061".
Proof.
  split; [|split; [|vm_compute; reflexivity]].
  - exists $" ", $"-10.20610", []. split; [reflexivity|]. split; [repeat constructor|]. split; [|exact I].
    exists $"-", true, $"10", $".20610", $"20610", [], 0%Z. split; [auto|]. split; [repeat constructor|]. split; [repeat constructor|]. split; [auto|]. split; [discriminate|]. split; [constructor|]. split; [reflexivity|].
    change (amount _) with 1020610%Z. change (bpow ten _) with (/ 100000). lra.
  - exists [], $"0.5E+02", $" x". split; [reflexivity|]. split; [constructor|]. split.
    + exists [], false, $"0", $".5", $"5", $"E+02", 2%Z. split; [auto|]. split; [repeat constructor|]. split; [repeat constructor|]. split; [auto|]. split; [discriminate|].
      split; [exact (with_power "E" $"+" false $"02" (or_intror eq_refl) (or_intror (or_introl (conj eq_refl eq_refl))) ltac:(repeat constructor) ltac:(discriminate))|]. split; [reflexivity|].
      change (amount _) with 5%Z. change (bpow ten _) with 10. lra.
    + split; [reflexivity|]. cbn. intros [H|[H|[H|[H|[H|[]]]]]]; discriminate H.
Qed.

(** what the model does on some texts *)
Example dstod_ex : dshow (dstod $" -10.2061D") = inl $"-10.2061" /\ dshow (dstod $"-0.102061E+2") = inl $"-10.2061" /\ dshow (dstod $"1e400") = inr OutOfRange /\
  dshow (dstod $"abc") = inr InvalidArgument /\ dshow (dstod $"0x1.8p1") = inl $"3" /\ print_double (datof $"--") = $"0" /\
  print_double (datof $"27.21138505xyz") = $"27.2114" /\ dshow (dstod $"1e-310") = inr OutOfRange /\ dshow (dstod $"-Infinity") = inl $"-inf".
Proof. repeat (split; [vm_compute; reflexivity|]). vm_compute; reflexivity. Qed.
