(** * The five printed lines, in terms of the numbers written in the files *)
From Coq Require Import Reals Psatz.
From Flocq Require Import Core IEEE754.BinarySingleNaN.
From Verif Require Import MainProps QcOrder OutputProps.
From Verif Require Export PrintProps ScanProps AccJob.
From Verif Require Export StrSpec StrModel.
Local Open Scope R_scope.

(** constants.hpp:4, the literal 27.2114, which the compiler rounds to the nearest double *)
Definition hartreeToeV : double := datof $"27.2114".
(** the number in the source *)
Definition eV : R := 272114 / 10000.

(** [shows t x err]: the text [t] is a decimal numeral, and denotes a number that differs
    from [x] by at most 6/10^6 of [x] (six digits are printed) and 1.01 [err] *)
Definition shows (t : str) (x err : R) : Prop :=
  exists v, numeral t v /\ Rabs (v - x) <= 6 / 1000000 * Rabs x + 101 / 100 * err + tiny.
(** matrix element of the dimer's energies between two projected orbitals *)
Definition between {T} (A : arith T) (K : nat) (e g h : Z -> T) : T := accum A K g (weighted A K e h).

(** the lines of the report for the data [d] as written, with the coefficients [f2] of monomer 2, [fP] of the dimer and overlap [fS] *)
Definition report_accurate (p : params) (d : data written) (f2 fP fS : Z -> Z -> written_number) (r1 r2 : Z) (lines : list str) : Prop :=
  let n1 := width written (coef1 written d) in let N := size written d in let K := count (coefP written d) in
  let f1 := table written (coef1 written d) in let e := entry written (enP written d) in let cp := counterPoise p in
  let k := Z.to_nat K in
  let xA := gammaA real cp n1 N (number2 f1) (number2 fP) (number2 fS) r1 in let xB := gammaB real cp n1 N (number2 f2) (number2 fP) (number2 fS) r2 in
  let mA := written_A cp n1 N f1 fP fS r1 in let mB := written_B cp n1 N f2 fP fS r2 in
  let g := gamma (4 * Z.to_nat N + 34 + 2 * k) in
  exists t1 t2 t3 t4 t5, lines = [$"J_ab  " ++ t1 ++ $" eV"; $"e_a   " ++ t2 ++ $" eV"; $"e_b   " ++ t3 ++ $" eV"; $"S_ab  " ++ t4; $"J_eff " ++ t5 ++ $" eV"] /\
    shows t1 (eV * between real k (number1 e) xB xA) (eV * (g * between magnitude k (scale1 e) mB mA)) /\
    shows t2 (eV * between real k (number1 e) xA xA) (eV * (g * between magnitude k (scale1 e) mA mA)) /\
    shows t3 (eV * between real k (number1 e) xB xB) (eV * (g * between magnitude k (scale1 e) mB mB)) /\
    shows t4 (accum real k xB xA) (g * accum magnitude k mB mA) /\
    (regular p d f2 fP fS r1 r2 ->
     shows t5 (eV * true_J cp n1 N K f1 f2 fP fS e r1 r2)
       (eV * quotient_bound (true_J cp n1 N K f1 f2 fP fS e r1 r2) (true_den cp n1 N K f1 f2 fP fS r1 r2) (true_num_error cp n1 N K f1 f2 fP fS e r1 r2) (true_den_error cp n1 N K f1 f2 fP fS r1 r2))).

(** ** Printing *)
Lemma hartree_begins : begins_with $"27.2114" eV.
Proof.
  exists [], $"27.2114", []. split; [reflexivity|]. split; [constructor|]. split; [|exact I].
  exists [], false, $"27", $".2114", $"2114", [], 0%Z. split; [auto|]. split; [repeat constructor|]. split; [repeat constructor|]. split; [auto|]. split; [discriminate|]. split; [constructor|]. split; [reflexivity|].
  change (amount _) with 272114%Z. change (bpow ten _) with (/ 10000). unfold eV. lra.
Qed.
Lemma hartree_near : ok 1 5 hartreeToeV /\ Rabs (B2R hartreeToeV - eV) <= u * (eV + tiny).
Proof.
  assert (F : is_finite hartreeToeV = true) by (vm_compute; reflexivity).
  destruct (C84_atof _ _ hartree_begins F) as [_ L]. fold hartreeToeV tiny in L. rewrite (Rabs_pos_eq eV) in L by (unfold eV; lra). split; [|exact L].
  split; [exact F|]. change (IZR 1 * bpow radix2 5) with (1 * 32). pose proof tiny_small. pose proof tiny_pos. assert (U : 0 < u <= / 1000) by (split; [exact u_pos|unfold u; lra]).
  assert (u * (eV + tiny) <= / 1000 * 30) by (apply Rmult_le_compat; unfold eV in *; lra). apply Rabs_le_inv in L. apply Rabs_le. unfold eV in *. lra.
Qed.
Lemma u_tiny : 0 < u <= / 10 ^ 12 /\ 0 < tiny <= / 10 ^ 6.
Proof. pose proof tiny_small. pose proof tiny_pos. split; [split; [exact u_pos|unfold u; lra]|lra]. Qed.
Lemma show_plain c x err : is_finite c = true -> Rabs (B2R c - x) <= err -> shows (print_double c) x err.
Proof.
  intros F E. destruct (C82_accurate c F) as (v & Hv & Hd & _). exists v. split; [exact Hv|]. destruct u_tiny as [_ T].
  pose proof (Rabs_pos (B2R c - x)). pose proof (Rabs_triang (v - B2R c) (B2R c - x)) as T1. replace (v - B2R c + (B2R c - x)) with (v - x) in T1 by ring.
  pose proof (Rabs_triang (B2R c - x) x) as T2. replace (B2R c - x + x) with (B2R c) in T2 by ring. pose proof (Rabs_pos x). lra.
Qed.
Lemma show_energy c x err : ok 1 800 c -> Rabs (B2R c - x) <= err -> shows (print_double (dmul c hartreeToeV)) (eV * x) (eV * err).
Proof.
  intros Oc E. destruct hartree_near as [Oh Eh]. pose proof (dmul_ok 800 5 _ _ ltac:(lia) Oc Oh) as [F _]. destruct (C82_accurate _ F) as (v & Hv & Hd & _). exists v. split; [exact Hv|]. clear Hv.
  destruct (dmul_spec _ _ F) as (_ & _ & Em). rewrite Em in Hd. pose proof (fl_error (B2R c * B2R hartreeToeV)) as Er. set (h := B2R hartreeToeV) in *. set (y := fl (B2R c * h)) in *. clearbody h y. clear Em F Oh Oc.
  destruct u_tiny as [U T]. assert (P : 0 <= err) by (pose proof (Rabs_pos (B2R c - x)); lra). set (z := B2R c) in *. clearbody z.
  assert (Ve : eV = 272114 / 10000) by reflexivity. rewrite Rabs_mult, (Rabs_pos_eq eV) by lra.
  (* z h - eV x *)
  assert (Q1 : Rabs (z * h - eV * x) <= eV * err * (1 + 2 * u) + Rabs x * (eV * (2 * u))).
  { replace (z * h - eV * x) with ((z - x) * h + x * (h - eV)) by ring. apply Rle_trans with (1 := Rabs_triang _ _). rewrite !Rabs_mult.
    assert (H1 : Rabs (h - eV) <= eV * (2 * u)). { apply Rle_trans with (1 := Eh). replace (eV * (2 * u)) with (u * (eV + eV)) by ring. apply Rmult_le_compat_l; lra. }
    assert (H2 : Rabs h <= eV * (1 + 2 * u)). { pose proof (Rabs_triang (h - eV) eV) as T1. replace (h - eV + eV) with h in T1 by ring. rewrite (Rabs_pos_eq eV) in T1 by lra. lra. }
    apply Rplus_le_compat; [|apply Rmult_le_compat_l; [apply Rabs_pos|exact H1]].
    replace (eV * err * (1 + 2 * u)) with (err * (eV * (1 + 2 * u))) by ring. apply Rmult_le_compat; auto using Rabs_pos. }
  assert (B0 : 0 <= eV * err) by (apply Rmult_le_pos; lra). assert (C0 : 0 <= eV * Rabs x) by (apply Rmult_le_pos; [lra|apply Rabs_pos]).
  replace (Rabs x * (eV * (2 * u))) with (eV * Rabs x * (2 * u)) in Q1 by ring. set (B := eV * err) in *. set (X := eV * Rabs x) in *.
  assert (HX : Rabs (eV * x) = X) by (unfold X; rewrite Rabs_mult, (Rabs_pos_eq eV) by lra; reflexivity).
  assert (Bu : B * (1 + 2 * u) <= B * (1 + 2 / 10 ^ 12)) by (apply Rmult_le_compat_l; lra). assert (Xu : X * (2 * u) <= X * (2 / 10 ^ 12)) by (apply Rmult_le_compat_l; lra).
  pose proof (Rabs_triang (z * h - eV * x) (eV * x)) as T2. replace (z * h - eV * x + eV * x) with (z * h) in T2 by ring. rewrite HX in T2.
  assert (Er' : Rabs (y - z * h) <= / 10 ^ 12 * (Rabs (z * h) + tiny)). { apply Rle_trans with (1 := Er). apply Rmult_le_compat_r; [pose proof (Rabs_pos (z * h)); lra|lra]. }
  assert (Q2 : Rabs (y - eV * x) <= B * (1 + 4 / 10 ^ 12) + X * (4 / 10 ^ 12) + tiny * / 10 ^ 12).
  { pose proof (Rabs_triang (y - z * h) (z * h - eV * x)) as T3. replace (y - z * h + (z * h - eV * x)) with (y - eV * x) in T3 by ring. lra. }
  pose proof (Rabs_triang (y - eV * x) (eV * x)) as T4. replace (y - eV * x + eV * x) with y in T4 by ring. rewrite HX in T4.
  pose proof (Rabs_triang (v - y) (y - eV * x)) as T5. replace (v - y + (y - eV * x)) with (v - eV * x) in T5 by ring. lra.
Qed.

(** ** The four numbers *)
Lemma four p cp n1 N K r1 r2 a b fP fS e wa wb wP wS we : (0 <= n1 <= N)%Z -> (N <= 2 ^ 31)%Z -> (K <= 2 ^ 31)%Z ->
  (forall i j, (1 <= j <= N)%Z -> matched (wa i j) (a i j)) -> (forall i j, (1 <= j <= N)%Z -> matched (wb i j) (b i j)) -> (forall i j, (1 <= j <= N)%Z -> matched (wP i j) (fP i j)) ->
  (forall i j, (1 <= i <= N)%Z -> (1 <= j <= N)%Z -> matched (wS i j) (fS i j)) -> (forall i, matched (we i) (e i)) ->
  let D := binary64 p in let k := Z.to_nat K in
  let gA := gammaA D cp n1 N a fP fS r1 in let gB := gammaB D cp n1 N b fP fS r2 in
  let xA := gammaA real cp n1 N (number2 wa) (number2 wP) (number2 wS) r1 in let xB := gammaB real cp n1 N (number2 wb) (number2 wP) (number2 wS) r2 in
  let mA := written_A cp n1 N wa wP wS r1 in let mB := written_B cp n1 N wb wP wS r2 in
  let g := gamma (4 * Z.to_nat N + 34 + 2 * k) in
  (ok 1 800 (between D k e gB gA) /\ Rabs (B2R (between D k e gB gA) - between real k (number1 we) xB xA) <= g * between magnitude k (scale1 we) mB mA) /\
  (ok 1 800 (between D k e gA gA) /\ Rabs (B2R (between D k e gA gA) - between real k (number1 we) xA xA) <= g * between magnitude k (scale1 we) mA mA) /\
  (ok 1 800 (between D k e gB gB) /\ Rabs (B2R (between D k e gB gB) - between real k (number1 we) xB xB) <= g * between magnitude k (scale1 we) mB mB) /\
  (is_finite (accum D k gB gA) = true /\ Rabs (B2R (accum D k gB gA) - accum real k xB xA) <= g * accum magnitude k mB mA).
Proof.
  intros Hn HN HK Ha Hb HP HS He. unfold written_A, written_B. cbv zeta.
  rewrite (gammaA_cut real 0 cp n1 N (number2 wa)), (gammaB_cut real 0 cp n1 N (number2 wb)), (gammaA_cut magnitude 0 cp n1 N (scale2 wa)), (gammaB_cut magnitude 0 cp n1 N (scale2 wb)),
    (gammaA_cut (binary64 p) (B754_zero false) cp n1 N a), (gammaB_cut (binary64 p) (B754_zero false) cp n1 N b) by lia.
  pose proof (fun i j => ok_cut2 N wa a i j Ha) as Oa. pose proof (fun i j => ok_cut2 N wb b i j Hb) as Ob. pose proof (fun i j => ok_cut2 N wP fP i j HP) as OP. pose proof (fun i j => ok_cutS N wS fS i j HS) as OS.
  pose proof (C83_numbers p 4 cp n1 N K r1 r2 _ _ _ _ e _ _ _ _ _ _ _ _ _ _ (near_cut2 N wa a Ha) (near_cut2 N wb b Hb) (near_cut2 N wP fP HP) (near_cutS N wS fS HS) (fun k => nearW _ _ (He k))) as Q. cbv zeta in Q.
  set (ca := cut2 (B754_zero false) N a) in *. set (cb := cut2 (B754_zero false) N b) in *. set (cP := cut2 (B754_zero false) N fP) in *. set (cS := cutS (B754_zero false) N fS) in *.
  assert (GA : forall k, ok 1 155 (gammaA (binary64 p) cp n1 N ca cP cS r1 k)).
  { intros k. unfold gammaA. apply projection_ok; auto; [lia|]. intros i. destruct cp; [auto|]. unfold pad_after. destruct (i <=? n1)%Z; [auto|apply zero_ok1]. }
  assert (GB : forall k, ok 1 155 (gammaB (binary64 p) cp n1 N cb cP cS r2 k)).
  { intros k. unfold gammaB. apply projection_ok; auto; [lia|]. intros i. destruct cp; [auto|]. unfold pad_before. destruct (i <=? n1)%Z; [apply zero_ok1|auto]. }
  assert (Oe : forall k, ok 1 31 (e k)) by (intros k; exact (matched_ok _ _ (He k))).
  destruct Q as (Q1 & Q2 & Q3 & Q4). assert (HK' : (Z.of_nat (Z.to_nat K) <= 2 ^ 31)%Z) by lia.
  assert (W : forall j c x m, near j c x m -> (j <= 4 * Z.to_nat N + 34 + 2 * Z.to_nat K)%nat -> is_finite c = true -> Rabs (B2R c - x) <= gamma (4 * Z.to_nat N + 34 + 2 * Z.to_nat K) * m).
  { intros j c x m Hj Hl F. exact (proj2 (near_weaken _ _ _ _ _ Hl Hj) F). }
  unfold between. split; [|split; [|split]].
  - pose proof (quad_ok p (Z.to_nat K) e _ _ HK' Oe GB GA) as O. split; [apply ok_mono with 1%Z 403%Z; [lia|lia|exact O]|]. exact (W _ _ _ _ Q2 ltac:(lia) (proj1 O)).
  - pose proof (quad_ok p (Z.to_nat K) e _ _ HK' Oe GA GA) as O. split; [apply ok_mono with 1%Z 403%Z; [lia|lia|exact O]|]. exact (W _ _ _ _ Q3 ltac:(lia) (proj1 O)).
  - pose proof (quad_ok p (Z.to_nat K) e _ _ HK' Oe GB GB) as O. split; [apply ok_mono with 1%Z 403%Z; [lia|lia|exact O]|]. exact (W _ _ _ _ Q4 ltac:(lia) (proj1 O)).
  - pose proof (over_ok p (Z.to_nat K) _ _ HK' GB GA) as O. split; [exact (proj1 O)|]. exact (W _ _ _ _ Q1 ltac:(lia) (proj1 O)).
Qed.

Lemma job_report pow10 pow2 disk p d e f2 fP fS g2 gP gS r1 r2 : squares pow2 -> contain written disk p d -> belong written (counterPoise p) d -> readable d ->
  drel written (machine pow10) close d e ->
  (forall i j, (1 <= j <= size written d)%Z -> matched (f2 i j) (g2 i j)) -> (forall i j, (1 <= j <= size written d)%Z -> matched (fP i j) (gP i j)) ->
  (forall i j, (1 <= i <= size written d)%Z -> (1 <= j <= size written d)%Z -> matched (fS i j) (gS i j)) ->
  report_accurate p d f2 fP fS r1 r2 (numbers_of_job (machine pow10) (binary64 pow2) (result_lines (binary64 pow2) print_double hartreeToeV) p e g2 gP gS r1 r2).
Proof.
  intros Sq C B Re R H2 HP HS. unfold report_accurate, numbers_of_job, numbers_value, numbers_of. cbv zeta.
  rewrite <- (width_rel _ _ _ _ _ (dr_c1 _ _ _ _ _ R)), <- (dr_n _ _ _ _ _ R), <- (count_rel _ _ _ (dr_cP _ _ _ _ _ R)).
  destruct (contain_size _ _ _ _ C) as [S1 S2]. apply square_max in S2. pose proof (square_max _ (proj1 (be_max _ _ _ B))) as K2. pose proof (be_w _ _ _ B) as W.
  assert (Hn : (0 <= width written (coef1 written d) <= size written d)%Z).
  { assert (0 <= width written (coef2 written d))%Z by (unfold width; lia). assert (0 <= width written (coef1 written d))%Z by (unfold width; lia). destruct (counterPoise p); [destruct W|]; lia. }
  assert (H1 : forall i j, (1 <= j <= size written d)%Z -> matched (table written (coef1 written d) i j) (table (machine pow10) (coef1 (machine pow10) e) i j)).
  { intros i j _. apply table_matched; [apply (re_1 d Re)|apply (dr_c1 _ _ _ _ _ R)]. }
  assert (He : forall i, matched (entry written (enP written d) i) (entry (machine pow10) (enP (machine pow10) e) i)).
  { intros i. apply entry_matched; [apply (re_e d Re)|apply (dr_eP _ _ _ _ _ R)]. }
  pose proof (four pow2 (counterPoise p) _ _ _ r1 r2 _ _ _ _ _ _ _ _ _ _ Hn S2 K2 H1 H2 HP HS He) as (Q1 & Q2 & Q3 & Q4).
  unfold result_lines. cbv zeta. eexists _, _, _, _, _. split; [reflexivity|].
  split; [apply show_energy; [exact (proj1 Q1)|exact (proj2 Q1)]|]. split; [apply show_energy; [exact (proj1 Q2)|exact (proj2 Q2)]|]. split; [apply show_energy; [exact (proj1 Q3)|exact (proj2 Q3)]|].
  split; [apply show_plain; [exact (proj1 Q4)|exact (proj2 Q4)]|]. intros Rg. unfold regular in Rg. cbv zeta in Rg.
  pose proof (coupling_ok pow2 (counterPoise p) _ _ _ r1 r2 _ _ _ _ _ _ _ _ _ _ Sq Hn S2 K2 H1 H2 HP HS He Rg) as Q5. cbv zeta in Q5.
  apply show_energy; [exact (proj1 Q5)|exact (proj2 Q5)].
Qed.
