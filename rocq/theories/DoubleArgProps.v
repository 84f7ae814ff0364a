(** * C90: arguments of type double *)
From Coq Require Import Reals Lra SpecFloat.
From Flocq Require Import Core IEEE754.BinarySingleNaN.
From Verif Require Import ScanProps ParserProps ArgsFacts.
From Verif Require Import DoubleArgSpec.
From Verif Require Export StrSpec StrModel.
Open Scope Z_scope.

(** whatever the doubles are: after any history of settings of MIN and MAX the last ones are in force *)
Theorem C90_limits_any : forall E settings, (forall k v, In (k, v) settings -> k = $"MIN" \/ k = $"MAX") ->
  let lo := last_given $"MIN" (d_lowest E) settings in
  let hi := last_given $"MAX" (d_max E) settings in
  exists a, for_each settings (fun kv => setArgPropertyOpt_dbl E $"PROPERTY_DOUBLE" (fst kv) (snd kv)) (ArgumentDouble E) = Ok a /\
    forall v, argValid_dbl E v a = if d_lt E v lo || d_lt E hi v then Throw InvalidArgument else Ok a.
Proof.
  intros E settings H lo hi.
  destruct (settings_ok settings (PropertyDouble E)) as (p & Ep & K & G).
  { intros k v I. destruct (H k v I) as [-> | ->]; eexists; reflexivity. }
  exists (mkArg E ADouble [] [p] [] [] [] []). split.
  - change (ArgumentDouble E) with (mkArg E ADouble [] [PropertyDouble E] [] [] [] []).
    assert (Kq : p_kind (PropertyDouble E) = PDouble) by reflexivity. revert Ep Kq. clear. generalize (PropertyDouble E).
    induction settings as [|[k v] t IH]; intros q Ep Kq; simpl in *; [congruence|].
    unfold setArgPropertyOpt_dbl at 1. cbn [a_int fst snd a_kind a_dbl a_size a_str a_set a_vec].
    rewrite set_in_one by (rewrite Kq; reflexivity).
    destruct (setPropOption k v q) as [q'| | | |] eqn:Eq; try discriminate. cbn [bind fst snd] in *.
    apply IH; auto. unfold setPropOption in Eq. destruct (propOptionValid_ q k); inversion Eq; auto.
  - intros v. assert (G1 : getPropOption p $"MIN" = Ok lo) by (apply G; reflexivity).
    assert (G2 : getPropOption p $"MAX" = Ok hi) by (apply G; reflexivity).
    unfold argValid_dbl, double_propValid. cbn [a_dbl each]. rewrite G1, G2. cbn [bind].
    destruct (d_lt E v lo); cbn [orb bind]; [reflexivity|]. destruct (d_lt E hi v); cbn [bind]; reflexivity.
Qed.
Print Assumptions C90_limits_any.

(** ** the doubles of the machine *)
Lemma lt_le (x y : double) : not_nan x -> not_nan y -> (Bltb x y = false <-> dle y x).
Proof.
  intros Nx Ny. assert (F : is_finite x = true -> is_finite y = true -> (Bltb x y = false <-> (B2R y <= B2R x)%R)).
  { intros Fx Fy. rewrite (Bltb_correct 53 1024 x y Fx Fy). destruct (Rlt_bool_spec (B2R x) (B2R y)); split; intros Hq; auto; try discriminate. lra. }
  destruct x as [sx|[|]| |sx mx ex Hx], y as [sy|[|]| |sy my ey Hy]; unfold not_nan in *; try congruence;
    try (cbn [dle]; unfold Bltb, SFltb; cbn; tauto); try (cbn [dle]; apply F; reflexivity).
  all: cbn [dle]; split; auto; try tauto; unfold Bltb, SFltb; cbn; try discriminate; try tauto.
Qed.
Section Machine.
Context (show : double -> str) (disk : str -> bool).
Let E := machine_env show disk.
(** a number within the limits is accepted, any other is rejected *)
Theorem C90_limits_partial : forall settings, (forall k v, In (k, v) settings -> (k = $"MIN" \/ k = $"MAX") /\ not_nan v) ->
  let lo := last_given $"MIN" dbl_lowest settings in
  let hi := last_given $"MAX" dbl_max settings in
  exists a, for_each settings (fun kv => setArgPropertyOpt_dbl E $"PROPERTY_DOUBLE" (fst kv) (snd kv)) (ArgumentDouble E) = Ok a /\
    forall v, not_nan v -> (dle lo v /\ dle v hi -> argValid_dbl E v a = Ok a) /\ (~ (dle lo v /\ dle v hi) -> argValid_dbl E v a = Throw InvalidArgument).
Proof.
  intros settings H lo hi. destruct (C90_limits_any E settings) as (a & Ha & Hv); [intros k v I; apply (H k v I)|].
  assert (Nl : forall k d, not_nan d -> not_nan (last_given k d settings)).
  { clear - H. induction settings as [|[k' v'] t IH]; intros k d Nd; cbn [last_given]; [auto|].
    apply IH; [intros k2 v2 I; apply (H k2 v2); right; auto|]. destruct (str_dec k k'); [apply (H k' v'); left; auto|auto]. }
  exists a. split; [exact Ha|]. intros v Nv.
  assert (X : argValid_dbl E v a = if Bltb (v : double) (lo : double) || Bltb (hi : double) (v : double) then Throw InvalidArgument else Ok a) by exact (Hv v).
  rewrite X. clear X Hv Ha.
  assert (N1 : not_nan lo) by (apply Nl; discriminate). assert (N2 : not_nan hi) by (apply Nl; discriminate).
  pose proof (lt_le v lo Nv N1) as L1. pose proof (lt_le hi v N2 Nv) as L2. split.
  - intros [A B]. apply L1 in A. apply L2 in B. rewrite A, B. reflexivity.
  - intros Nb. destruct (Bltb v lo) eqn:B1; [reflexivity|]. destruct (Bltb hi v) eqn:B2; [reflexivity|]. exfalso. apply Nb. split; [apply L1|apply L2]; auto.
Qed.
(** an argument nobody configured accepts every finite double and rejects the infinities *)
Theorem C90_default : forall v : double,
  (is_finite v = true -> argValid_dbl E v (ArgumentDouble E) = Ok (ArgumentDouble E)) /\
  (v = B754_infinity true \/ v = B754_infinity false -> argValid_dbl E v (ArgumentDouble E) = Throw InvalidArgument).
Proof.
  intros v. destruct (C90_limits_any E []) as (a & Ha & Hv); [intros k w []|]. cbn [for_each] in Ha. assert (a = ArgumentDouble E) by congruence. subst a.
  specialize (Hv v). cbn [last_given] in Hv. rewrite Hv. clear Hv Ha. change (d_lt E) with (@Bltb 53 1024). change (d_lowest E) with dbl_lowest. change (d_max E) with dbl_max. split.
  - intros F.
    assert (M : (Rabs (B2R v) <= B2R dbl_max)%R).
    { pose proof (abs_B2R_le_emax_minus_prec 53 1024 ltac:(reflexivity) v) as L. replace (B2R dbl_max) with (bpow radix2 1024 - bpow radix2 (1024 - 53))%R; [exact L|].
      unfold dbl_max, B2R, F2R. cbn [cond_Zopp Fnum Fexp]. change (bpow radix2 1024) with (bpow radix2 (53 + 971)). rewrite bpow_plus. change (1024 - 53) with 971.
      change (bpow radix2 53) with (IZR 9007199254740992). replace (IZR 9007199254740992) with (IZR 9007199254740991 + 1)%R by (rewrite <- plus_IZR; reflexivity). ring. }
    assert (Ml : B2R dbl_lowest = (- B2R dbl_max)%R).
    { unfold dbl_lowest, dbl_max, B2R, F2R. cbn [cond_Zopp Fnum Fexp]. rewrite opp_IZR. ring. }
    apply Rabs_le_inv in M. change (D E) with double.
    rewrite (Bltb_correct 53 1024 v dbl_lowest F eq_refl), (Bltb_correct 53 1024 dbl_max v eq_refl F), Ml.
    destruct (Rlt_bool_spec (B2R v) (- B2R dbl_max)) as [L|L]; [lra|]. destruct (Rlt_bool_spec (B2R dbl_max) (B2R v)) as [L'|L']; [lra|]. reflexivity.
  - intros [-> | ->]; reflexivity.
Qed.
(** refuted: NaN is accepted whatever the limits are, and the text "nan" is read as NaN *)
Theorem C90_nan_refuted : forall settings, (forall k v, In (k, v) settings -> k = $"MIN" \/ k = $"MAX") ->
  dstod $"nan" = Ok B754_nan /\
  exists a, for_each settings (fun kv => setArgPropertyOpt_dbl E $"PROPERTY_DOUBLE" (fst kv) (snd kv)) (ArgumentDouble E) = Ok a /\
    argValid_dbl E B754_nan a = Ok a.
Proof.
  intros settings H. split; [reflexivity|]. destruct (C90_limits_any E settings H) as (a & Ha & Hv). exists a. split; [exact Ha|]. rewrite Hv.
  change (d_lt E) with (@Bltb 53 1024). set (lo := last_given _ (d_lowest E) _). set (hi := last_given _ _ _). change (D E) with double in lo, hi. clearbody lo hi.
  assert (X1 : Bltb (B754_nan : double) lo = false) by reflexivity. assert (X2 : Bltb hi (B754_nan : double) = false) by (destruct hi; reflexivity).
  change (D E) with double. rewrite X1, X2. reflexivity.
Qed.
(** from the command line: the value is the nearest double to the number written *)
Theorem C90_command_line : forall (P : parser E) prog l, regular P -> valid P l -> ~ all_notes (words l) ->
  (forall f, required P f -> found P f \/ exists w, In (f, w) (given l)) ->
  exists P', parse (prog :: words l) P = Ok P' /\
    forall f w v, has_kind P f KDouble -> last_value f l w -> begins_with w v -> v = 0%R \/ (/ IZR (2 ^ 1022) <= Rabs v <= IZR (2 ^ 1023))%R ->
    exists x : double, getDouble P' f = Ok x /\ is_finite x = true /\ B2R x = round radix2 (FLT_exp (-1074) 53) ZnearestE v.
Proof.
  intros P prog l R V N Q. destruct (C53_command_line E P prog l R V N Q) as (P' & Hp & _ & _ & Hd & _). exists P'. split; [exact Hp|].
  intros f w v K L B Rg. destruct (C84_in_range w v B Rg) as (x & Hx). exists x. split; [apply (Hd f w x K L Hx)|].
  destruct (C84_accurate w v x B Hx) as (F & Rd & _). auto.
Qed.
End Machine.
Print Assumptions C90_limits_partial.
Print Assumptions C90_default.
Print Assumptions C90_nan_refuted.
Print Assumptions C90_command_line.

(** ** a case: limits [-2, 3] *)
Definition show0 : double -> str := fun _ => [].
Lemma not_nan_b (x : double) : is_nan x = false -> not_nan x.
Proof. intros H ->. discriminate. Qed.
Example C90_example : let E := machine_env show0 (fun _ => false) in
  let settings := [($"MIN", dofint (-2)); ($"MAX", dofint 3)] in
  (forall k v, In (k, v) settings -> (k = $"MIN" \/ k = $"MAX") /\ not_nan v) /\
  exists x y, dstod $"2.5" = Ok x /\ dstod $"3.5" = Ok y /\ dle (dofint (-2)) x /\ dle x (dofint 3) /\ ~ dle y (dofint 3).
Proof.
  cbv zeta.
  assert (T : match dstod $"2.5", dstod $"3.5" with
    | Ok x, Ok y => negb (is_nan x) && negb (is_nan y) && negb (is_nan (dofint (-2))) && negb (is_nan (dofint 3)) &&
        negb (Bltb x (dofint (-2))) && negb (Bltb (dofint 3) x) && Bltb (dofint 3) y
    | _, _ => false end = true) by (vm_compute; reflexivity).
  destruct (dstod $"2.5") as [x| | | |]; try discriminate. destruct (dstod $"3.5") as [y| | | |]; try discriminate.
  revert T. generalize (dofint (-2)) as m, (dofint 3) as k. intros. 
  apply andb_prop in T as [T T7]. apply andb_prop in T as [T T6]. apply andb_prop in T as [T T5]. apply andb_prop in T as [T T4]. apply andb_prop in T as [T T3]. apply andb_prop in T as [T1 T2].
  apply negb_true_iff in T1, T2, T3, T4, T5, T6. apply not_nan_b in T1, T2, T3, T4. split.
  - intros k0 v0 [I|[I|[]]]; inversion I; subst; auto.
  - exists x, y. split; [reflexivity|]. split; [reflexivity|]. split; [apply (lt_le x m); auto|]. split; [apply (lt_le k x); auto|].
    intros L. apply (lt_le k y) in L; auto. congruence.
Qed.
