(** * Property C83: the computed numbers are the exact ones up to a stated number of roundings

    [real] is exact arithmetic of real numbers, [binary64 pow2] that of the machine
    (RoundSpec.v); [gamma k] = (1 + 2^-53)^k - 1 is the relative error k roundings can cause. *)
From Coq Require Import Reals Psatz.
From Flocq Require Import Core IEEE754.BinarySingleNaN.
From Verif Require Import MatrixProps QcProps MainProps.
From Verif Require Export RoundFacts Exact.
Local Open Scope R_scope.

(** real arithmetic is exact, so that the theorems about exact arithmetic (C30-C33) apply to it *)
Theorem C83_real_exact : exact_arith real Ropp Rinv.
Proof. constructor; cbn; [|reflexivity|reflexivity]. exact Rfield. Qed.
Print Assumptions C83_real_exact.
(** k roundings: about k * 2^-53 *)
Theorem C83_gamma : forall k, INR k * u <= 1 -> INR k * u <= gamma k <= INR k * u + (INR k * u) * (INR k * u).
Proof.
  intros k H. split; [|apply gamma_linear; auto]. clear H. pose proof u_pos. induction k as [|k IH]; [rewrite gamma_0; cbn [INR]; lra|].
  rewrite S_INR, gamma_S. pose proof (gamma_pos k). assert (0 <= u * gamma k) by (apply Rmult_le_pos; lra). lra.
Qed.
Print Assumptions C83_gamma.
(** x * x rounded satisfies what is asked of pow(x, 2) *)
Theorem C83_square : square (fun x => dmul x x).
Proof.
  intros x F. destruct (dmul_spec _ _ F) as (Fx & _ & E). split; [auto|]. rewrite E. pose proof (fl_error (B2R x * B2R x)) as H.
  pose proof u_pos. pose proof tiny_pos. pose proof (Rle_0_sqr (B2R x)) as Q0; unfold Rsqr in Q0. rewrite (Rabs_pos_eq (B2R x * B2R x)) in H by lra.
  apply Rle_trans with (1 := H). apply Rmult_le_compat_r; [lra|]. assert (0 <= u * u) by (apply Rmult_le_pos; lra). unfold gamma. cbn [pow]. lra.
Qed.
Print Assumptions C83_square.

(** ** Matrix products *)
Theorem C83_product : forall p m1 m2 R N C f1 f2,
  denotes m1 R N 1 f1 -> denotes m2 N C 1 f2 -> (1 <= R)%Z -> (1 <= C)%Z -> (R * C <= INT_MAX)%Z ->
  exists m' f, mat_mul (binary64 p) m1 m2 = Ok m' /\ denotes m' R C 1 f /\
    forall i j, is_finite (f i j 1%Z) = true ->
    Rabs (B2R (f i j 1%Z) - sum real (Z.to_nat N) (fun k => B2R (f1 i k 1%Z) * B2R (f2 k j 1%Z)))
    <= gamma (Z.to_nat N + 1) * (sum real (Z.to_nat N) (fun k => Rabs (B2R (f1 i k 1%Z) * B2R (f2 k j 1%Z)) + tiny)).
Proof.
  intros p m1 m2 R N C f1 f2 D1 D2 HR HC HI. destruct (MatrixProps.C09_product _ (binary64 p) m1 m2 R N C f1 f2 D1 D2 HR HC HI) as (m' & E & D).
  eexists _, _. split; [exact E|]. split; [exact D|]. intros i j F. cbn beta in F |- *.
  pose proof (near_accum p 0 0 (Z.to_nat N) (fun k => f1 i k 1%Z) (fun k => f2 k j 1%Z) (fun k => B2R (f1 i k 1%Z)) (fun k => Rabs (B2R (f1 i k 1%Z)))
    (fun k => B2R (f2 k j 1%Z)) (fun k => Rabs (B2R (f2 k j 1%Z))) (fun k _ => near_exact _) (fun k _ => near_exact _)) as [_ Q].
  specialize (Q F). rewrite (accum_sum real), (accum_sum magnitude) in Q. cbn [a_mul real magnitude] in Q.
  replace (0 + 0 + 1 + Z.to_nat N)%nat with (Z.to_nat N + 1)%nat in Q by lia.
  replace (sum real (Z.to_nat N) (fun k => Rabs (B2R (f1 i k 1%Z) * B2R (f2 k j 1%Z)) + tiny)) with (sum magnitude (Z.to_nat N) (fun k => Rabs (B2R (f1 i k 1%Z)) * Rabs (B2R (f2 k j 1%Z)) + tiny)); [exact Q|].
  clear. induction (Z.to_nat N) as [|n IH]; [reflexivity|]. cbn [sum]. rewrite IH, Rabs_mult. reflexivity.
Qed.
Print Assumptions C83_product.

(** ** The coupling *)
(** Doubles [c], the exact values [x] they approximate, and magnitudes [m] of these:
    one reads [near i] as: up to i roundings. *)
Definition all_near (i : nat) (c : Z -> Z -> double) (x m : Z -> Z -> R) : Prop := forall k l, near i (c k l) (x k l) (m k l).

Lemma near_gA p i cp n1 N r1 a fP fS xa xP xS ma mP mS k : all_near i a xa ma -> all_near i fP xP mP -> all_near i fS xS mS ->
  near (3 * i + 2 * Z.to_nat N + 2) (gammaA (binary64 p) cp n1 N a fP fS r1 k) (gammaA real cp n1 N xa xP xS r1 k) (gammaA magnitude cp n1 N ma mP mS r1 k).
Proof.
  intros Ha HP HS. unfold gammaA. apply near_projection; auto. destruct cp; [intros; apply Ha|]. apply near_pad_after. intros; apply Ha.
Qed.
Lemma near_gB p i cp n1 N r2 b fP fS xb xP xS mb mP mS k : all_near i b xb mb -> all_near i fP xP mP -> all_near i fS xS mS ->
  near (3 * i + 2 * Z.to_nat N + 2) (gammaB (binary64 p) cp n1 N b fP fS r2 k) (gammaB real cp n1 N xb xP xS r2 k) (gammaB magnitude cp n1 N mb mP mS r2 k).
Proof.
  intros Hb HP HS. unfold gammaB. apply near_projection; auto. destruct cp; [intros; apply Hb|]. apply near_pad_before. intros; apply Hb.
Qed.

(** S_ab, J_ab and the two orbital energies *)
Theorem C83_numbers : forall p i cp n1 N K r1 r2 a b fP fS e xa xb xP xS xe ma mb mP mS me,
  all_near i a xa ma -> all_near i b xb mb -> all_near i fP xP mP -> all_near i fS xS mS -> (forall k, near i (e k) (xe k) (me k)) ->
  let n := Z.to_nat N in let kk := Z.to_nat K in
  let D := binary64 p in
  let gA := gammaA D cp n1 N a fP fS r1 in let gB := gammaB D cp n1 N b fP fS r2 in
  let xA := gammaA real cp n1 N xa xP xS r1 in let xB := gammaB real cp n1 N xb xP xS r2 in
  let mA := gammaA magnitude cp n1 N ma mP mS r1 in let mB := gammaB magnitude cp n1 N mb mP mS r2 in
  near (6 * i + 4 * n + 5 + kk) (accum D kk gB gA) (accum real kk xB xA) (accum magnitude kk mB mA) /\
  near (7 * i + 4 * n + 6 + 2 * kk) (accum D kk gB (weighted D kk e gA)) (accum real kk xB (weighted real kk xe xA)) (accum magnitude kk mB (weighted magnitude kk me mA)) /\
  near (7 * i + 4 * n + 6 + 2 * kk) (accum D kk gA (weighted D kk e gA)) (accum real kk xA (weighted real kk xe xA)) (accum magnitude kk mA (weighted magnitude kk me mA)) /\
  near (7 * i + 4 * n + 6 + 2 * kk) (accum D kk gB (weighted D kk e gB)) (accum real kk xB (weighted real kk xe xB)) (accum magnitude kk mB (weighted magnitude kk me mB)).
Proof.
  intros p i cp n1 N K r1 r2 a b fP fS e xa xb xP xS xe ma mb mP mS me Ha Hb HP HS He. cbv zeta.
  pose proof (fun k => near_gA p i cp n1 N r1 _ _ _ _ _ _ _ _ _ k Ha HP HS) as GA. pose proof (fun k => near_gB p i cp n1 N r2 _ _ _ _ _ _ _ _ _ k Hb HP HS) as GB.
  set (n := Z.to_nat N) in *. set (kk := Z.to_nat K).
  split; [|split; [|split]].
  - replace (6 * i + 4 * n + 5 + kk)%nat with (2 * (3 * i + 2 * n + 2) + 1 + kk)%nat by lia. apply near_overlap; auto.
  - replace (7 * i + 4 * n + 6 + 2 * kk)%nat with (i + 2 * (3 * i + 2 * n + 2) + 2 + 2 * kk)%nat by lia. apply near_weighted_sum; auto.
  - replace (7 * i + 4 * n + 6 + 2 * kk)%nat with (i + 2 * (3 * i + 2 * n + 2) + 2 + 2 * kk)%nat by lia. apply near_weighted_sum; auto.
  - replace (7 * i + 4 * n + 6 + 2 * kk)%nat with (i + 2 * (3 * i + 2 * n + 2) + 2 + 2 * kk)%nat by lia. apply near_weighted_sum; auto.
Qed.
Print Assumptions C83_numbers.

(** error bounds of numerator and denominator, and of their rounded quotient *)
Definition num_error (i : nat) (N K : Z) (me mA mB : Z -> R) : R :=
  gamma (13 * i + 8 * Z.to_nat N + 15 + 3 * Z.to_nat K) * J_num magnitude (Z.to_nat K) me mA mB.
Definition den_error (i : nat) (N K : Z) (mA mB : Z -> R) : R :=
  gamma (12 * i + 8 * Z.to_nat N + 13 + 2 * Z.to_nat K) * J_den magnitude (Z.to_nat K) mA mB.
Definition quotient_bound (J den en ed : R) : R := (1 + u) * ((en + Rabs J * ed) / (Rabs den - ed)) + u * (Rabs J + tiny).

Theorem C83_coupling : forall p i cp n1 N K r1 r2 a b fP fS e xa xb xP xS xe ma mb mP mS me, square p ->
  all_near i a xa ma -> all_near i b xb mb -> all_near i fP xP mP -> all_near i fS xS mS -> (forall k, near i (e k) (xe k) (me k)) ->
  let c := J_value (binary64 p) cp n1 N K a b fP fS e r1 r2 in
  let J := J_value real cp n1 N K xa xb xP xS xe r1 r2 in
  let den := J_den real (Z.to_nat K) (gammaA real cp n1 N xa xP xS r1) (gammaB real cp n1 N xb xP xS r2) in
  let mA := gammaA magnitude cp n1 N ma mP mS r1 in let mB := gammaB magnitude cp n1 N mb mP mS r2 in
  let ed := den_error i N K mA mB in
  is_finite (J_den (binary64 p) (Z.to_nat K) (gammaA (binary64 p) cp n1 N a fP fS r1) (gammaB (binary64 p) cp n1 N b fP fS r2)) = true ->
  ed < Rabs den -> is_finite c = true ->
  Rabs (B2R c - J) <= quotient_bound J den (num_error i N K me mA mB) ed.
Proof.
  intros p i cp n1 N K r1 r2 a b fP fS e xa xb xP xS xe ma mb mP mS me P Ha Hb HP HS He. cbv zeta. intros Fd Hd F.
  pose proof (fun k => near_gA p i cp n1 N r1 _ _ _ _ _ _ _ _ _ k Ha HP HS) as GA. pose proof (fun k => near_gB p i cp n1 N r2 _ _ _ _ _ _ _ _ _ k Hb HP HS) as GB.
  pose proof (near_num p i _ (Z.to_nat K) _ _ _ _ _ _ _ _ _ He GA GB) as Hn.
  pose proof (near_den p _ (Z.to_nat K) _ _ _ _ _ _ P GA GB) as Hq.
  replace (i + 4 * (3 * i + 2 * Z.to_nat N + 2) + 7 + 3 * Z.to_nat K)%nat with (13 * i + 8 * Z.to_nat N + 15 + 3 * Z.to_nat K)%nat in Hn by lia.
  replace (4 * (3 * i + 2 * Z.to_nat N + 2) + 5 + 2 * Z.to_nat K)%nat with (12 * i + 8 * Z.to_nat N + 13 + 2 * Z.to_nat K)%nat in Hq by lia.
  exact (near_quotient _ _ _ _ _ _ _ _ Hn Hq F Fd Hd).
Qed.
Print Assumptions C83_coupling.

(** ** The function calcJ *)
(** [exact_J] and [tolerated]: the exact value for the stored doubles, and the bound *)
Definition exact_J cp n1 N K a b fP fS (e : Z -> double) r1 r2 : R := J_value real cp n1 N K (reals a) (reals b) (reals fP) (reals fS) (fun k => B2R (e k)) r1 r2.
Definition exact_den cp n1 N K a b fP fS r1 r2 : R :=
  J_den real (Z.to_nat K) (gammaA real cp n1 N (reals a) (reals fP) (reals fS) r1) (gammaB real cp n1 N (reals b) (reals fP) (reals fS) r2).
Definition sizeA cp n1 N a fP fS r1 := gammaA magnitude cp n1 N (sizes a) (sizes fP) (sizes fS) r1.
Definition sizeB cp n1 N b fP fS r2 := gammaB magnitude cp n1 N (sizes b) (sizes fP) (sizes fS) r2.
Definition within_bound p cp n1 N K a b fP fS (e : Z -> double) r1 r2 (c : double) : Prop :=
  let den := exact_den cp n1 N K a b fP fS r1 r2 in let J := exact_J cp n1 N K a b fP fS e r1 r2 in
  let ed := den_error 0 N K (sizeA cp n1 N a fP fS r1) (sizeB cp n1 N b fP fS r2) in
  let en := num_error 0 N K (fun k => Rabs (B2R (e k))) (sizeA cp n1 N a fP fS r1) (sizeB cp n1 N b fP fS r2) in
  is_finite (J_den (binary64 p) (Z.to_nat K) (gammaA (binary64 p) cp n1 N a fP fS r1) (gammaB (binary64 p) cp n1 N b fP fS r2)) = true ->
  ed < Rabs den -> is_finite c = true -> Rabs (B2R c - J) <= quotient_bound J den en ed.
Lemma J_value_bound p cp n1 N K a b fP fS e r1 r2 : square p -> within_bound p cp n1 N K a b fP fS e r1 r2 (J_value (binary64 p) cp n1 N K a b fP fS e r1 r2).
Proof.
  intros P. unfold within_bound, exact_den, exact_J, sizeA, sizeB. cbv zeta. intros Fd Hd F.
  assert (Q : forall f, all_near 0 f (reals f) (sizes f)) by (intros f k l; apply near_exact).
  exact (C83_coupling p 0 cp n1 N K r1 r2 a b fP fS e _ _ _ _ _ _ _ _ _ _ P (Q a) (Q b) (Q fP) (Q fS) (fun k => near_exact _) Fd Hd F).
Qed.
Theorem C83_calcJ : forall p tc N1 N2 n1 n2 N K a b fP fS e ot on t1 t2 k1 k2 r1 r2, square p ->
  fits_together tc N1 N2 n1 n2 N K a b fP fS e ->
  map_at ot sMon1 = Ok t1 -> map_at ot sMon2 = Ok t2 -> map_at on sMon1 = Ok k1 -> map_at on sMon2 = Ok k2 ->
  orbital_row N1 (snd (tc_orbs1 tc)) t1 k1 = Some r1 -> orbital_row N2 (snd (tc_orbs2 tc)) t2 k2 = Some r2 ->
  exists c, calcJ (binary64 p) tc ot on = Ok c /\ within_bound p (tc_cp tc) n1 N K a b fP fS e r1 r2 c.
Proof.
  intros p tc N1 N2 n1 n2 N K a b fP fS e ot on t1 t2 k1 k2 r1 r2 P Hf A1 A2 A3 A4 A5 A6.
  eexists. split; [exact (QcProps.C30_calcJ_formula _ _ _ _ _ _ _ _ _ _ _ _ _ _ _ _ _ _ _ _ _ _ Hf A1 A2 A3 A4 A5 A6)|].
  apply J_value_bound. exact P.
Qed.
Print Assumptions C83_calcJ.

(** ** A run of the program (files without population analysis: the orbitals are used as read) *)
Theorem C83_run : forall p mulN stod atof pow10 zero, square p -> let N := mkNums double zero mulN stod atof pow10 in
  forall E lab disk fuel argv P q R n1 n2 n a b fP fS x1 x2 xP r1 r2,
  parse argv (catnip E) = Ok P -> prepareParameters P = Ok q ->
  readers_hold N disk fuel q R -> agree N (counterPoise q) R n1 n2 n a b fP fS ->
  three N (x_1 N R) x1 -> three N (x_2 N R) x2 -> three N (x_P N R) xP ->
  orbital_row (count (e_1 N R)) (h_1 N R) (orb_type1 q) (orb_num1 q) = Some r1 ->
  orbital_row (count (e_2 N R)) (h_2 N R) (orb_type2 q) (orb_num2 q) = Some r2 ->
  b_1 N R = [] \/ b_2 N R = [] \/ b_P N R = [] ->
  exists c, main E N (binary64 p) lab disk fuel argv = Ok c /\
    within_bound p (counterPoise q) n1 n (count (e_P N R)) a b fP fS (entry N (e_P N R)) r1 r2 c.
Proof.
  intros p mulN stod atof pow10 zero Hp N E lab disk fuel argv P q R n1 n2 n a b fP fS x1 x2 xP r1 r2 A1 A2 A3 A4 A5 A6 A7 A8 A9 A10.
  eexists. split; [exact (C73_as_read E N (binary64 p) lab disk fuel argv P q R n1 n2 n a b fP fS x1 x2 xP r1 r2 A1 A2 A3 A4 A5 A6 A7 A8 A9 A10)|].
  apply J_value_bound. exact Hp.
Qed.
Print Assumptions C83_run.

(** ** A complex of two monomers with one basis function each, overlap 1/2, two dimer
    orbitals; every hypothesis of [C83_coupling] holds and the bound is small *)
Definition half : double := ddiv (dofint 1) (dofint 2).
Definition exa (_ _ : Z) : double := dofint 1.
Definition exS (i j : Z) : double := if (i =? j)%Z then dofint 1 else half.
Definition exP (i j : Z) : double := if (i =? 1)%Z then half else if (j =? 1)%Z then dofint 1 else dofint (-1).
Definition exe (i : Z) : double := if (i =? 1)%Z then dofint 3 else dofint 1.
(** the numbers these doubles stand for *)
Definition ra (_ _ : Z) : R := 1.
Definition rS (i j : Z) : R := if (i =? j)%Z then 1 else 1 / 2.
Definition rP (i j : Z) : R := if (i =? 1)%Z then 1 / 2 else if (j =? 1)%Z then 1 else -1.
Definition re (i : Z) : R := if (i =? 1)%Z then 3 else 1.
Lemma near_int n : (Z.abs n < 2 ^ 53)%Z -> near 0 (dofint n) (IZR n) (Rabs (IZR n)).
Proof. intros H. destruct (dofint_small n H) as [E F]. pose proof (near_exact (dofint n)) as Q. rewrite E in Q. exact Q. Qed.
Example C83_example_inputs : all_near 0 exa ra ra /\ all_near 0 exS rS rS /\ all_near 0 exP rP (fun i j => Rabs (rP i j)) /\ (forall k, near 0 (exe k) (re k) (re k)).
Proof.
  assert (N1 := near_int 1 ltac:(lia)). assert (N3 := near_int 3 ltac:(lia)). assert (Nm := near_int (-1) ltac:(lia)).
  rewrite Rabs_pos_eq in N1, N3 by lra. assert (Nh := near_half).
  split; [intros i j; exact N1|]. split; [intros i j; unfold exS, rS; destruct (i =? j)%Z; [exact N1|exact Nh]|]. split.
  - intros i j. unfold exP, rP. destruct (i =? 1)%Z; [rewrite (Rabs_pos_eq (1 / 2)) by lra; exact Nh|]. destruct (j =? 1)%Z; [rewrite (Rabs_pos_eq 1) by lra; exact N1|exact Nm].
  - intros k. unfold exe, re. destruct (k =? 1)%Z; [exact N3|exact N1].
Qed.
Definition exJ : double := J_value (binary64 (fun x => dmul x x)) false 1 2 2 exa exa exP exS exe 1 1.
Definition exD : double := J_den (binary64 (fun x => dmul x x)) 2 (gammaA (binary64 (fun x => dmul x x)) false 1 2 exa exP exS 1) (gammaB (binary64 (fun x => dmul x x)) false 1 2 exa exP exS 1).
Example C83_example_finite : is_finite exJ = true /\ is_finite exD = true.
Proof. split; vm_compute; reflexivity. Qed.
Lemma tiny_small : tiny <= 1 / 1000000.
Proof.
  rewrite tiny_bpow. apply Rle_trans with (bpow radix2 (-20)); [apply bpow_le; lia|]. cbn. lra.
Qed.
Lemma gamma_small k : (k <= 100)%nat -> gamma k <= 2 / 10 ^ 14.
Proof.
  intros H. apply Rle_trans with (1 := gamma_le k 100 H). destruct (C83_gamma 100) as [_ Q]; unfold u in *; cbn [INR] in *; lra.
Qed.
Lemma times x y a b : 0 <= x <= a -> 0 <= y <= b -> 0 <= x * y <= a * b.
Proof. intros [H1 H2] [H3 H4]. split; [apply Rmult_le_pos; auto|apply Rmult_le_compat; auto]. Qed.
Example C83_example : J_value real false 1 2 2 ra ra rP rS re 1 1 = 71 / 77 /\ Rabs (B2R exJ - 71 / 77) <= 1 / 10 ^ 9.
Proof.
  assert (EJ : J_value real false 1 2 2 ra ra rP rS re 1 1 = 71 / 77).
  { cbv [J_value J_of projection weighted pad_after pad_before ra rS rP re]. change (Z.to_nat 2) with 2%nat. cbn -[IZR]. field. }
  split; [exact EJ|]. destruct C83_example_inputs as (Ha & HS & HP & He). destruct C83_example_finite as [FJ FD].
  pose proof (C83_coupling (fun x => dmul x x) 0 false 1 2 2 1 1 exa exa exP exS exe _ _ _ _ _ _ _ _ _ _ C83_square Ha Ha HP HS He FD) as B.
  rewrite EJ in B.
  match type of B with (den_error _ _ _ ?a ?b < Rabs ?d -> _) => set (mA := a) in *; set (mB := b) in *; set (den := d) in * end.
  assert (Ed : den = 231 / 256). { subst den. cbv [J_den gammaA gammaB projection pad_after pad_before ra rS rP]. change (Z.to_nat 2) with 2%nat. cbn -[IZR]. field. }
  pose proof tiny_small as T. pose proof tiny_pos as T0.
  assert (QA : forall k, 0 <= mA k <= 4).
  { intros k. subst mA. cbv [gammaA projection pad_after ra rS rP]. change (Z.to_nat 2) with 2%nat. cbn -[IZR Rabs].
    destruct (k =? 1)%Z; rewrite ?(Rabs_pos_eq (1 / 2)), ?(Rabs_pos_eq 1), ?Rabs_Ropp, ?(Rabs_left (-1)) by lra; lra. }
  assert (QB : forall k, 0 <= mB k <= 4).
  { intros k. subst mB. cbv [gammaB projection pad_before ra rS rP]. change (Z.to_nat 2) with 2%nat. cbn -[IZR Rabs].
    destruct (k =? 1)%Z; rewrite ?(Rabs_pos_eq (1 / 2)), ?(Rabs_pos_eq 1), ?Rabs_Ropp, ?(Rabs_left (-1)) by lra; lra. }
  clearbody mA mB den.
  assert (QS : 0 <= accum magnitude 2 mB mA <= 33).
  { cbn -[IZR]. pose proof (times _ _ _ _ (QB 1%Z) (QA 1%Z)). pose proof (times _ _ _ _ (QB 2%Z) (QA 2%Z)). lra. }
  assert (QD : 0 <= J_den magnitude 2 mA mB <= 1100).
  { unfold J_den. cbn [a_sub a_one a_pow2 magnitude]. pose proof (times _ _ _ _ QS QS). lra. }
  assert (QW : forall g, (forall k, 0 <= g k <= 4) -> forall i, 0 <= weighted magnitude 2 re g i <= 25).
  { intros g Hg i. unfold weighted. cbn -[IZR]. pose proof (Hg 1%Z). pose proof (Hg 2%Z). unfold re. destruct (i =? 1)%Z, (i =? 2)%Z; lra. }
  assert (QE : forall g h, (forall k, 0 <= g k <= 4) -> (forall k, 0 <= h k <= 4) -> 0 <= accum magnitude 2 h (weighted magnitude 2 re g) <= 201).
  { intros g h Hg Hh. cbn -[IZR weighted]. pose proof (times _ _ _ _ (Hh 1%Z) (QW g Hg 1%Z)). pose proof (times _ _ _ _ (Hh 2%Z) (QW g Hg 2%Z)). lra. }
  assert (QN : 0 <= J_num magnitude 2 re mA mB <= 10000).
  { unfold J_num. cbn [a_sub a_mul a_add a_div a_one a_two magnitude]. pose proof (QE mA mB QA QB). pose proof (QE mB mB QB QB). pose proof (QE mA mA QA QA).
    set (h := 1 / 2 * _ + tiny). assert (Qh : 0 <= h <= 202) by (subst h; lra). pose proof (times _ _ _ _ Qh QS). lra. }
  assert (GN : 0 <= num_error 0 2 2 re mA mB <= 2 / 10 ^ 10).
  { unfold num_error. change (Z.to_nat 2) with 2%nat. pose proof (times _ _ _ _ (conj (gamma_pos _) (gamma_small (13 * 0 + 8 * 2 + 15 + 3 * 2) ltac:(lia))) QN). lra. }
  assert (GD : 0 <= den_error 0 2 2 mA mB <= 22 / 10 ^ 12).
  { unfold den_error. change (Z.to_nat 2) with 2%nat. pose proof (times _ _ _ _ (conj (gamma_pos _) (gamma_small (12 * 0 + 8 * 2 + 13 + 2 * 2) ltac:(lia))) QD). lra. }
  fold exJ in B. rewrite Ed in B. rewrite (Rabs_pos_eq (231 / 256)) in B by lra. specialize (B ltac:(lra) FJ). apply Rle_trans with (1 := B).
  unfold quotient_bound. rewrite (Rabs_pos_eq (231 / 256)), (Rabs_pos_eq (71 / 77)) by lra.
  set (en := num_error 0 2 2 re mA mB) in *. set (ed := den_error 0 2 2 mA mB) in *.
  assert (U : 0 < u <= 1 / 10 ^ 12) by (split; [exact u_pos|unfold u; lra]).
  assert (H1 : 0 <= (en + 71 / 77 * ed) / (231 / 256 - ed) <= 9 / 10 ^ 10).
  { assert (I : 0 < / (231 / 256 - ed)) by (apply Rinv_0_lt_compat; lra). split; [apply Rmult_le_pos; lra|].
    apply Rmult_le_reg_r with (231 / 256 - ed); [lra|]. unfold Rdiv at 1. rewrite Rmult_assoc, Rinv_l by lra. lra. }
  pose proof (times _ _ _ _ (conj (Rlt_le _ _ (proj1 U)) (proj2 U)) H1). assert (u * (71 / 77 + tiny) <= 1 / 10 ^ 12 * 2) by (apply Rmult_le_compat; lra). lra.
Qed.
