(** * Property C114: requests whose coupling is not defined *)
From Coq Require Import Reals.
From Flocq Require Import Core IEEE754.BinarySingleNaN.
From Verif Require Import QcOrder QcFinal QcProps QcExact.
From Verif Require Import MixProps LevelsRun LevelsProps ElementRun ElementProps LowdinRun LowdinProps RangeRun RangeProps.
From Verif Require Import ParserWf ParserCheck CatnipProps ReaderProps ReaderPunProps.
From Verif Require Import MainExample MainProps OutputProps AccPara AccExample AccFacts AccProps AccReportProps PhaseProps.
From Verif Require Export QcSpec Exact PhaseFloatSpec AccSpec.
From Verif Require Export ReaderModel MainSpec ContentSpec PhaseSpec LevelsSpec ElementSpec RangeSpec.
Import ReaderExample.
From Verif Require Export StrSpec StrModel.
Open Scope Z_scope.

Section Same.
Context {T : Type} (A : arith T) (opp inv : T -> T) (HA : exact_arith A opp inv).
Let FT := ea_field A opp inv HA.
Add Field TFS : FT.
Lemma same_numbers n (S P : Z -> Z -> T) K (e : Z -> T) w1 w2 gA gB : 0 <= n -> same_up_to_sign A n w1 w2 ->
  (forall k, gA k = overlap_with A (Z.to_nat n) S P w1 k) -> (forall k, gB k = overlap_with A (Z.to_nat n) S P w2 k) -> sum A K (fun k => a_mul A (gA k) (gA k)) = a_one A ->
  exists t, a_mul A t t = a_one A /\ accum A K gB (weighted A K e gA) = a_mul A t (accum A K gA (weighted A K e gA)) /\ accum A K gB (weighted A K e gB) = accum A K gA (weighted A K e gA) /\ accum A K gB gA = t.
Proof.
  intros Hn Hs G1 G2 N1. assert (W : exists t, a_mul A t t = a_one A /\ forall c, 1 <= c <= n -> w2 c = a_mul A t (w1 c)).
  { destruct Hs as [H|H]; [exists (a_one A)|exists (a_sub A (a_zero A) (a_one A))]; (split; [ring|]); intros c Hc; rewrite (H c Hc); ring. }
  destruct W as (t & Ht & W). exists t. split; [exact Ht|].
  assert (G : forall k, gB k = a_mul A t (gA k)) by (intros k; rewrite G1, G2; apply (projections_scale A opp inv HA); assumption).
  rewrite !(quad_exact A opp inv HA), (accum_sum A). split; [|split].
  - rewrite <- (sum_scale_l A opp inv HA). apply sum_ext. intros k _. rewrite G. ring.
  - apply sum_ext. intros k _. rewrite G. transitivity (a_mul A (e k) (a_mul A (a_mul A t t) (a_mul A (gA k) (gA k)))); [ring|]. rewrite Ht. ring.
  - transitivity (a_mul A t (sum A K (fun k => a_mul A (gA k) (gA k)))); [|rewrite N1; ring]. rewrite <- (sum_scale_l A opp inv HA). apply sum_ext. intros k _. rewrite G. ring.
Qed.
Lemma same_value t a : a_add A (a_one A) (a_one A) <> a_zero A -> a_mul A t t = a_one A -> J_eff A (a_mul A t a) a a t = a_div A (a_zero A) (a_zero A).
Proof.
  intros H2 Ht. unfold J_eff. rewrite (ea_two A opp inv HA), (ea_pow2 A opp inv HA), Ht. f_equal; [field; exact H2|ring].
Qed.
End Same.

(** Exact arithmetic, complete orbitals of the dimer, normalised orbitals of the monomers.  If the two orbitals asked for
    are the same in the dimer up to the sign, the value calculated is 0 / 0; the program reports it like any other, with
    no further message. *)
Theorem C114_undefined : forall E N A opp inv pr h version lab disk (prog : str) l p d r1 r2 u, exact_arith A opp inv -> a_add A (a_one A) (a_one A) <> a_zero A ->
  job N E disk l p d r1 r2 -> lined_up N lab (counterPoise p) d u -> complete A (size N d) (count (coefP N d)) (symmetric N (over N d)) (table N (coefP N d)) ->
  exists w1 w2, in_dimer N A lab (counterPoise p) d r1 r2 w1 w2 u /\
    (element A (size N d) (symmetric N (over N d)) w1 w1 = a_one A -> same_up_to_sign A (size N d) w1 w2 ->
     exists J_ab e S_ab bound, forall fuel, (bound <= fuel)%nat ->
       main_output N A pr h version E lab disk fuel (prog :: words l) = Ok (heading version p ++ result_lines A pr h J_ab e e S_ab, advice u) /\
       J_eff A J_ab e e S_ab = a_div A (a_zero A) (a_zero A) /\ main E N A lab disk fuel (prog :: words l) = Ok (a_div A (a_zero A) (a_zero A))).
Proof.
  intros E N A opp inv pr h version lab disk prog l p d r1 r2 u HA H2 Hj Hl Hc. pose proof (size_nonneg N E disk l p d r1 r2 Hj) as Hn.
  destruct (levels_run N A lab E disk prog l p d r1 r2 u Hj Hl) as (gA & gB & Hsh & H). destruct (shape_in_dimer N A opp inv HA lab _ _ _ _ _ _ _ Hsh) as (w1 & w2 & Hw & G1 & G2).
  exists w1, w2. split; [exact Hw|]. intros N1 Hs. assert (V0 : levels N (fun e => e) d d r1 r2 r1 r2) by (constructor; auto; split; auto).
  destruct (H _ (lines_of_run N A pr h version) _ E disk prog l p d r1 r2 (lines_same N A pr h version p) Hj eq_refl V0) as (b1 & R1).
  destruct (H _ (J_of_run A) _ E disk prog l p d r1 r2 (fun _ _ => eq_refl) Hj eq_refl V0) as (b2 & R2). clear H.
  destruct (projections_of N A opp inv HA E disk l p d r1 r2 w1 w2 gA gB Hj Hc G1 G2) as (S1 & _). rewrite N1 in S1.
  destruct (same_numbers A opp inv HA (size N d) _ _ _ (entry N (enP N d)) w1 w2 gA gB Hn Hs G1 G2 S1) as (t & Ht & Q1 & Q2 & Q3).
  pose proof (same_value A opp inv HA t (accum A (length (coefP N d)) gA (weighted A (length (coefP N d)) (entry N (enP N d)) gA)) H2 Ht) as QV.
  eexists _, _, _, (b1 + b2)%nat. intros fuel Hf. split; [|split; [exact QV|]].
  - refine (eq_trans (R1 fuel ltac:(lia)) (f_equal Ok _)). unfold numbers_of. rewrite Q1, Q2, Q3. apply lines_spec.
  - refine (eq_trans (R2 fuel ltac:(lia)) (f_equal Ok _)). unfold numbers_of, J_of_run. rewrite Q1, Q2, Q3. exact QV.
Qed.
Print Assumptions C114_undefined.
(** In an ordered field these are the only requests without a defined coupling. *)
Theorem C114_defined_partial : forall E N A opp inv le pr h version lab disk (prog : str) l p d r1 r2 u, exact_arith A opp inv -> ordered A le ->
  job N E disk l p d r1 r2 -> lined_up N lab (counterPoise p) d u -> complete A (size N d) (count (coefP N d)) (symmetric N (over N d)) (table N (coefP N d)) ->
  exists w1 w2, in_dimer N A lab (counterPoise p) d r1 r2 w1 w2 u /\
    (element A (size N d) (symmetric N (over N d)) w1 w1 = a_one A -> element A (size N d) (symmetric N (over N d)) w2 w2 = a_one A -> ~ same_up_to_sign A (size N d) w1 w2 ->
     exists J_ab e_a e_b S_ab bound, forall fuel, (bound <= fuel)%nat ->
       main_output N A pr h version E lab disk fuel (prog :: words l) = Ok (heading version p ++ result_lines A pr h J_ab e_a e_b S_ab, advice u) /\
       a_sub A (a_one A) (a_mul A S_ab S_ab) <> a_zero A /\
       exists J, main E N A lab disk fuel (prog :: words l) = Ok J /\
         a_mul A J (a_sub A (a_one A) (a_mul A S_ab S_ab)) = a_sub A J_ab (a_mul A (a_mul A (a_div A (a_one A) (a_add A (a_one A) (a_one A))) (a_add A e_b e_a)) S_ab)).
Proof.
  intros E N A opp inv le pr h version lab disk prog l p d r1 r2 u HA HO Hj Hl Hc.
  destruct (levels_run N A lab E disk prog l p d r1 r2 u Hj Hl) as (gA & gB & Hsh & H). destruct (shape_in_dimer N A opp inv HA lab _ _ _ _ _ _ _ Hsh) as (w1 & w2 & Hw & G1 & G2).
  exists w1, w2. split; [exact Hw|]. intros N1 N2 Hs. assert (V0 : levels N (fun e => e) d d r1 r2 r1 r2) by (constructor; auto; split; auto).
  destruct (H _ (lines_of_run N A pr h version) _ E disk prog l p d r1 r2 (lines_same N A pr h version p) Hj eq_refl V0) as (b1 & R1).
  destruct (H _ (J_of_run A) _ E disk prog l p d r1 r2 (fun _ _ => eq_refl) Hj eq_refl V0) as (b2 & R2). clear H.
  destruct (projections_of N A opp inv HA E disk l p d r1 r2 w1 w2 gA gB Hj Hc G1 G2) as (S1 & S2 & S3). pose proof (parallel_iff N A opp inv HA le HO E disk l p d r1 r2 w1 w2 gA gB Hj Hc G1 G2 N1 N2) as PI.
  assert (S3' : accum A (length (coefP N d)) gB gA = element A (size N d) (symmetric N (over N d)) w1 w2).
  { rewrite <- S3, (accum_sum A). apply sum_ext. intros k _. apply (Ring_theory.Rmul_comm (Field_theory.F_R (ea_field A opp inv HA))). }
  assert (Hd : a_sub A (a_one A) (a_mul A (element A (size N d) (symmetric N (over N d)) w1 w2) (element A (size N d) (symmetric N (over N d)) w1 w2)) <> a_zero A).
  { intros Q. apply (equal_of_difference A opp inv HA) in Q. exact (Hs (proj1 PI (eq_sym Q))). }
  eexists _, _, _, _, (b1 + b2)%nat. intros fuel Hf. split; [refine (eq_trans (R1 fuel ltac:(lia)) (f_equal Ok (lines_spec N A pr h version p u _ _ _ _)))|].
  rewrite S3'. split; [exact Hd|]. eexists. split; [exact (R2 fuel ltac:(lia))|]. unfold numbers_of. rewrite S3'. unfold J_of_run, J_eff. rewrite (ea_two A opp inv HA), (ea_pow2 A opp inv HA).
  assert (Dv : forall x y : num N, y <> a_zero A -> a_mul A (a_div A x y) y = x).
  { intros x y Hy. rewrite (Fdiv_def (ea_field A opp inv HA)), <- (Ring_theory.Rmul_assoc (Field_theory.F_R (ea_field A opp inv HA))), (Field_theory.Finv_l (ea_field A opp inv HA) y Hy). apply (mul_one_r A opp inv HA). }
  apply Dv. exact Hd.
Qed.
Print Assumptions C114_defined_partial.

(** In doubles: one calculation given for both monomers.  The run succeeds, prints no warning and reports "nan". *)
Definition same_overlaps : ReaderSpec.item D := Overlaps D $" *** Overlap ***"
   [$"                1             2             3             4";
    $"      1  0.100000D+01";
    $"      2  0.000000D+00  0.100000D+01";
    $"      3  0.000000D+00  0.000000D+00  0.100000D+01";
    $"      4  0.000000D+00  0.000000D+00  0.000000D+00  0.100000D+01"] (Some []) 4 tri_value.
Definition same_items : list (ReaderSpec.item D) :=
  [Other D $" Entering Gaussian System"; coords [carbon_1; carbon_2] [pt1; pt2]; same_overlaps;
   energies_item $" Alpha  occ. eigenvalues --   -0.60000  -0.50000" $" Alpha virt. eigenvalues --    0.10000   0.20000" [$"-0.60000"; $"-0.50000"] [$"0.10000"; $"0.20000"]; Other D $" Mulliken";
   populations [$"   1 1   C  1S          1.99222"; $"   2        2S          1.17000"; $"   3 2   C  1S          1.99222"; $"   4        2S          1.17000"] dimer_atoms].
Definition unit_rows : list (list str) := [[f1; f0; f0; f0]; [f0; f1; f0; f0]; [f0; f0; f1; f0]; [f0; f0; f0; f1]].
Definition same_disk : str -> option str :=
  six (file_of same_items) (file_of same_items) (file_of same_items) (MainExample.the_pun unit_rows) (MainExample.the_pun unit_rows) (MainExample.the_pun unit_rows).
Definition same_line : list ParserSpec.item := cp_line ++ [IVal $"-orb_ty_1" $"--orbital_type_1" $"LUMO"].
Theorem C114_nan_refuted : let o := binary64_run same_disk same_line in
  last_lines o = [$"J_ab  2.72114 eV"; $"e_a   2.72114 eV"; $"e_b   2.72114 eV"; $"S_ab  1"; $"J_eff nan eV"] /\ (exists out, o = Ok (out, [])).
Proof. split; [vm_compute; reflexivity|]. eexists. vm_compute. reflexivity. Qed.
Print Assumptions C114_nan_refuted.
