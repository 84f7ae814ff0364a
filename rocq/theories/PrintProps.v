(** * Property C82: the printed numbers

    [B2R x] (Flocq) is the real number a double stands for; [numeral t v]
    (PrintSpec.v): the text [t] denotes the real number [v]. *)
From Coq Require Import Reals Psatz.
From Flocq Require Import Core IEEE754.BinarySingleNaN.
From Verif Require Import OutputProps.
From Verif Require Export PrintFacts.
From Verif Require Export StrSpec StrModel.
Local Open Scope R_scope.

(** the text of a finite double denotes it up to half a unit of the sixth significant digit *)
Theorem C82_accurate : forall x : double, is_finite x = true ->
  exists v, numeral (print_double x) v /\ Rabs (v - B2R x) <= 5 / 1000000 * Rabs (B2R x) /\ (forall v', numeral (print_double x) v' -> v' = v).
Proof.
  intros x F.
  assert (H : exists v, numeral (print_double x) v /\ Rabs (v - B2R x) <= 5 / 1000000 * Rabs (B2R x)).
  { destruct x as [s|s| |s m e B]; try discriminate F; cbn [print_double].
    - exists ((if s then -1 else 1) * 0 * bpow ten 0). split.
      + exists s, $"0", [], [], [], 0%Z. split; [repeat constructor|]. split; [discriminate|]. split; [left; auto|]. split; [constructor|]. split; [unfold minus; rewrite !app_nil_r; reflexivity|reflexivity].
      + cbn [B2R]. rewrite Rmult_0_r, Rmult_0_l, Rminus_0_r, Rabs_R0. lra.
    - destruct (finite_big s m e B) as [H1 H2]. destruct (six_digits m e) as [d X] eqn:E6. exists ((if s then -1 else 1) * (IZR d * bpow ten (X - 5))).
      split; [apply format_numeral; eapply six_digits_range; eauto|]. rewrite H2, val_finite, <- Rmult_minus_distr_l, Rabs_mult.
      pose proof (six_digits_near m e d X H1 E6). destruct s; [rewrite (Rabs_left (-1)) by lra|rewrite (Rabs_pos_eq 1) by lra]; lra. }
  destruct H as (v & H1 & H2). exists v. split; [auto|]. split; [auto|]. intros v' H'. exact (numeral_fun _ _ _ H' H1).
Qed.
Print Assumptions C82_accurate.
(** it denotes the nearest number with six significant decimal digits (of two, the one with the even last digit): Flocq's rounding in base ten *)
Theorem C82_nearest : forall x : double, is_finite x = true -> numeral (print_double x) (round ten (FLX_exp 6) ZnearestE (B2R x)).
Proof.
  intros x F. destruct x as [s|s| |s m e B]; try discriminate F; cbn [print_double].
  - cbn [B2R]. rewrite round_0 by auto with typeclass_instances. exists s, $"0", [], [], [], 0%Z. split; [repeat constructor|]. split; [discriminate|]. split; [left; auto|]. split; [constructor|]. split; [unfold minus; rewrite !app_nil_r; reflexivity|].
    change (amount ($"0" ++ [])) with 0%Z. lra.
  - destruct (finite_big s m e B) as [H1 H2]. destruct (six_digits m e) as [d X] eqn:E6.
    replace (round ten (FLX_exp 6) ZnearestE (B2R (B754_finite s m e B))) with ((if s then -1 else 1) * (IZR d * bpow ten (X - 5))); [apply format_numeral; eapply six_digits_range; eauto|].
    rewrite (six_digits_round m e d X H1 E6). unfold B2R, F2R; cbn [Fnum Fexp]. fold (value2 m e). destruct s; cbn [cond_Zopp].
    + change (Z.neg m) with (- Z.pos m)%Z. rewrite opp_IZR, Ropp_mult_distr_l_reverse. fold (value2 m e). rewrite round_NE_opp. lra.
    + fold (value2 m e). lra.
Qed.
Print Assumptions C82_nearest.
(** infinities and NaNs cannot be mistaken for numbers *)
Theorem C82_not_finite : forall x : double, is_finite x = false -> forall v, ~ numeral (print_double x) v.
Proof.
  intros x F v (neg & ip & ft & fp & et & k & Di & Ni & _ & _ & Et & _).
  assert (Q : forall c s t, print_double x = minus s ++ c :: t -> is_digit c = false -> c <> "-"%char -> False).
  { intros c s t E Hc Hm. destruct ip as [|i ip]; [contradiction|]. apply Forall_inv in Di. rewrite E in Et.
    destruct s, neg; cbn [minus app list_ascii_of_string] in Et.
    - apply (f_equal (fun l => hd " "%char (tl l))) in Et. cbn [hd tl] in Et. subst i. rewrite Hc in Di. discriminate Di.
    - apply (f_equal (hd " "%char)) in Et. cbn [hd] in Et. subst i. discriminate Di.
    - apply (f_equal (hd " "%char)) in Et. cbn [hd] in Et. auto.
    - apply (f_equal (hd " "%char)) in Et. cbn [hd] in Et. subst i. rewrite Hc in Di. discriminate Di. }
  destruct x as [s|s| |s m e B]; try discriminate F.
  - exact (Q "i"%char s $"nf" eq_refl eq_refl ltac:(discriminate)).
  - exact (Q "n"%char false $"an" eq_refl eq_refl ltac:(discriminate)).
Qed.
Print Assumptions C82_not_finite.

(** the five numbers at the end of the output of a run in binary64 *)
Definition accurately (t : str) (x : double) : Prop :=
  is_finite x = true -> exists v, numeral t v /\ Rabs (v - B2R x) <= 5 / 1000000 * Rabs (B2R x).
Theorem C82_report : forall mulN stod atof pow10 zero, let N := mkNums double zero mulN stod atof pow10 in
  forall (A : arith double) h version E lab disk fuel argv out err,
  main_output N A print_double h version E lab disk fuel argv = Ok (out, err) ->
  exists J_ab e_a e_b S_ab J rest t1 t2 t3 t4 t5, main E N A lab disk fuel argv = Ok J /\
    out = rest ++ [$"J_ab  " ++ t1 ++ $" eV"; $"e_a   " ++ t2 ++ $" eV"; $"e_b   " ++ t3 ++ $" eV"; $"S_ab  " ++ t4; $"J_eff " ++ t5 ++ $" eV"] /\
    J = a_div A (a_sub A J_ab (a_mul A (a_mul A (a_div A (a_one A) (a_two A)) (a_add A e_b e_a)) S_ab)) (a_sub A (a_one A) (a_pow2 A S_ab)) /\
    accurately t1 (a_mul A J_ab h) /\ accurately t2 (a_mul A e_a h) /\ accurately t3 (a_mul A e_b h) /\ accurately t4 S_ab /\ accurately t5 (a_mul A J h).
Proof.
  intros mulN stod atof pow10 zero N A h version E lab disk fuel argv out err H.
  destruct (C80_report N A print_double h version E lab disk fuel argv) as (_ & K & _). destruct (K out err H) as (a & b & c & d & J & rest & H1 & H2 & H3).
  exists a, b, c, d, J, rest, (print_double (a_mul A a h)), (print_double (a_mul A b h)), (print_double (a_mul A c h)), (print_double d), (print_double (a_mul A J h)).
  assert (P : forall x, accurately (print_double x) x) by (intros x F; destruct (C82_accurate x F) as (v & V1 & V2 & _); eauto).
  split; [exact H1|]. split; [exact H3|]. split; [exact H2|]. auto 10.
Qed.
Print Assumptions C82_report.

(** 27.2114 is printed as such; 1/3 with six digits; a large and a tiny number with exponents *)
Definition dbl (s : bool) (m : positive) (e : Z) (B : SpecFloat.bounded 53 1024 m e = true) : double := B754_finite s m e B.
Example C82_example :
  print_double (dbl false 7659328181264345 (-48) eq_refl) = $"27.2114" /\ print_double (dbl true 6004799503160661 (-54) eq_refl) = $"-0.333333" /\
  print_double (dbl false 4503599627370496 0 eq_refl) = $"4.5036e+15" /\ print_double (dbl false 1 (-1074) eq_refl) = $"4.94066e-324".
Proof. split; [vm_compute; reflexivity|split; [vm_compute; reflexivity|split; vm_compute; reflexivity]]. Qed.
