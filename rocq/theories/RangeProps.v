(** * Property C113: the size of the coupling *)
From Coq Require Import QArith Qcanon.
From Verif Require Import QcOrder QcFinal QcProps QcExact.
From Verif Require Import MixProps LevelsRun LevelsExample LevelsProps ElementRun ElementExample ElementProps LowdinRun LowdinExample LowdinProps RangeRun.
From Verif Require Import ParserWf ParserCheck CatnipProps ReaderProps ReaderPunProps.
From Verif Require Import MainExample MainProps OutputProps AccPara ExchangeExample ExchangeProps PhaseProps.
From Verif Require Export QcSpec Exact.
From Verif Require Export ReaderModel MainSpec ContentSpec PhaseSpec LevelsSpec ElementSpec RangeSpec.
Import ReaderExample.
From Verif Require Export StrSpec StrModel.
Open Scope Z_scope.

Section Numbers.
Context (N : nums) (A : arith (num N)) (opp inv : num N -> num N) (HA : exact_arith A opp inv) (le : num N -> num N -> Prop) (HO : ordered A le) (lab : num N -> str).
Notation el d := (element A (size N d)).
Notation Sd d := (symmetric N (over N d)).
(** the projections of two orbitals with the sums that C113 needs *)
Lemma projections_of E disk l p (d : data N) r1 r2 w1 w2 gA gB : job N E disk l p d r1 r2 -> complete A (size N d) (count (coefP N d)) (Sd d) (table N (coefP N d)) ->
  (forall k, gA k = overlap_with A (Z.to_nat (size N d)) (Sd d) (table N (coefP N d)) w1 k) -> (forall k, gB k = overlap_with A (Z.to_nat (size N d)) (Sd d) (table N (coefP N d)) w2 k) ->
  sum A (length (coefP N d)) (fun k => a_mul A (gA k) (gA k)) = el d (Sd d) w1 w1 /\ sum A (length (coefP N d)) (fun k => a_mul A (gB k) (gB k)) = el d (Sd d) w2 w2 /\
  sum A (length (coefP N d)) (fun k => a_mul A (gA k) (gB k)) = el d (Sd d) w1 w2.
Proof.
  intros Hj Hc G1 G2. pose proof (size_nonneg N E disk l p d r1 r2 Hj) as Hn.
  assert (Hs : forall i j, 1 <= i <= size N d -> 1 <= j <= size N d -> Sd d i j = Sd d j i) by (intros i j _ _; unfold symmetric; rewrite Z.max_comm, Z.min_comm; reflexivity).
  assert (Hk : Z.to_nat (count (coefP N d)) = length (coefP N d)) by (unfold count; lia).
  assert (Q : forall x y g h, (forall k, g k = overlap_with A (Z.to_nat (size N d)) (Sd d) (table N (coefP N d)) x k) -> (forall k, h k = overlap_with A (Z.to_nat (size N d)) (Sd d) (table N (coefP N d)) y k) ->
     sum A (length (coefP N d)) (fun k => a_mul A (g k) (h k)) = el d (Sd d) x y).
  { intros x y g h Hg Hh. rewrite (S_sym N A opp inv HA d x y Hn). rewrite <- (overlap_sum A opp inv HA (size N d) (count (coefP N d)) _ (table N (coefP N d)) y x Hn ltac:(unfold count; lia) Hs Hc), Hk.
    apply sum_ext. intros k _. rewrite Hg, Hh. reflexivity. }
  auto.
Qed.
Lemma parallel_iff E disk l p (d : data N) r1 r2 w1 w2 gA gB : job N E disk l p d r1 r2 -> complete A (size N d) (count (coefP N d)) (Sd d) (table N (coefP N d)) ->
  (forall k, gA k = overlap_with A (Z.to_nat (size N d)) (Sd d) (table N (coefP N d)) w1 k) -> (forall k, gB k = overlap_with A (Z.to_nat (size N d)) (Sd d) (table N (coefP N d)) w2 k) ->
  el d (Sd d) w1 w1 = a_one A -> el d (Sd d) w2 w2 = a_one A ->
  (a_mul A (el d (Sd d) w1 w2) (el d (Sd d) w1 w2) = a_one A <-> same_up_to_sign A (size N d) w1 w2).
Proof.
  intros Hj Hc G1 G2 N1 N2. pose proof (size_nonneg N E disk l p d r1 r2 Hj) as Hn.
  assert (Hs : forall i j, 1 <= i <= size N d -> 1 <= j <= size N d -> Sd d i j = Sd d j i) by (intros i j _ _; unfold symmetric; rewrite Z.max_comm, Z.min_comm; reflexivity).
  destruct (projections_of E disk l p d r1 r2 w1 w2 gA gB Hj Hc G1 G2) as (S1 & S2 & S3). rewrite N1 in S1. rewrite N2 in S2. split.
  - intros H. pose proof (parallel A opp inv HA le HO _ gA gB _ S1 S2 S3 H) as Hp.
    assert (W : forall c, 1 <= c <= size N d -> w2 c = a_mul A (el d (Sd d) w1 w2) (w1 c)).
    { intros c Hi. rewrite (from_projections A opp inv HA (size N d) (count (coefP N d)) (Sd d) (table N (coefP N d)) w2 c Hn Hs Hc Hi).
      rewrite (from_projections A opp inv HA (size N d) (count (coefP N d)) (Sd d) (table N (coefP N d)) w1 c Hn Hs Hc Hi), <- (sum_scale_l A opp inv HA). apply sum_ext. intros k Hk.
      rewrite <- G1, <- G2, (Hp k) by (unfold count in Hk; lia).
      rewrite !(Ring_theory.Rmul_assoc (Field_theory.F_R (ea_field A opp inv HA))), (Ring_theory.Rmul_comm (Field_theory.F_R (ea_field A opp inv HA)) (table N (coefP N d) k c)). reflexivity. }
    destruct (unit_sign A opp inv HA _ H) as [E1|E1]; rewrite E1 in W; [left|right]; intros c Hi; rewrite (W c Hi); symmetry; [apply (one_times A opp inv HA)|apply (zero_minus A opp inv HA)].
  - intros [H|H].
    + rewrite (element_scale A opp inv HA (size N d) (Sd d) w1 w2 (a_one A) Hn) by (intros c Hi; rewrite (H c Hi); apply (one_times A opp inv HA)). rewrite N1. apply (one_square A opp inv HA).
    + rewrite (element_scale A opp inv HA (size N d) (Sd d) w1 w2 (a_sub A (a_zero A) (a_one A)) Hn) by (intros c Hi; rewrite (H c Hi); apply (zero_minus A opp inv HA)). rewrite N1. apply (sign_square A opp inv HA).
Qed.
End Numbers.

(** Exact arithmetic in an ordered field (the rational or real numbers).  Complete orbitals of the dimer, normalised
    orbitals of the monomers.  The denominator 1 - S_ab^2 is never negative, and zero only if the two orbitals are the
    same up to the sign; e_a and e_b are between the lowest and the highest energy of the dimer's orbitals; the value
    is at most half their difference. *)
Theorem C113_bounded : forall E N A opp inv le pr h version lab disk (prog : str) l p d r1 r2 u lo hi, exact_arith A opp inv -> ordered A le ->
  job N E disk l p d r1 r2 -> lined_up N lab (counterPoise p) d u -> complete A (size N d) (count (coefP N d)) (symmetric N (over N d)) (table N (coefP N d)) ->
  energies_within N le d lo hi ->
  exists w1 w2, in_dimer N A lab (counterPoise p) d r1 r2 w1 w2 u /\
    (element A (size N d) (symmetric N (over N d)) w1 w1 = a_one A -> element A (size N d) (symmetric N (over N d)) w2 w2 = a_one A ->
     exists J_ab e_a e_b S_ab bound, (forall fuel, (bound <= fuel)%nat ->
       main_output N A pr h version E lab disk fuel (prog :: words l) = Ok (heading version p ++ result_lines A pr h J_ab e_a e_b S_ab, advice u) /\
       main E N A lab disk fuel (prog :: words l) = Ok (J_eff A J_ab e_a e_b S_ab)) /\
     le lo e_a /\ le e_a hi /\ le lo e_b /\ le e_b hi /\
     le (a_zero A) (a_sub A (a_one A) (a_mul A S_ab S_ab)) /\ (a_sub A (a_one A) (a_mul A S_ab S_ab) = a_zero A <-> same_up_to_sign A (size N d) w1 w2) /\
     (~ same_up_to_sign A (size N d) w1 w2 -> let J := J_eff A J_ab e_a e_b S_ab in le (a_add A J J) (a_sub A hi lo) /\ le (a_sub A lo hi) (a_add A J J))).
Proof.
  intros E N A opp inv le pr h version lab disk prog l p d r1 r2 u lo hi HA HO Hj Hl Hc He.
  destruct (levels_run N A lab E disk prog l p d r1 r2 u Hj Hl) as (gA & gB & Hsh & H). destruct (shape_in_dimer N A opp inv HA lab _ _ _ _ _ _ _ Hsh) as (w1 & w2 & Hw & G1 & G2).
  exists w1, w2. split; [exact Hw|]. intros N1 N2. assert (V0 : levels N (fun e => e) d d r1 r2 r1 r2) by (constructor; auto; split; auto).
  destruct (H _ (lines_of_run N A pr h version) _ E disk prog l p d r1 r2 (lines_same N A pr h version p) Hj eq_refl V0) as (b1 & R1).
  destruct (H _ (J_of_run A) _ E disk prog l p d r1 r2 (fun _ _ => eq_refl) Hj eq_refl V0) as (b2 & R2). clear H.
  destruct (projections_of N A opp inv HA E disk l p d r1 r2 w1 w2 gA gB Hj Hc G1 G2) as (S1 & S2 & S3). pose proof (parallel_iff N A opp inv HA le HO E disk l p d r1 r2 w1 w2 gA gB Hj Hc G1 G2 N1 N2) as PI.
  set (K := length (coefP N d)) in *. set (e := entry N (enP N d)) in *. set (s := element A (size N d) (symmetric N (over N d)) w1 w2) in *. rewrite N1 in S1. rewrite N2 in S2.
  assert (S3' : accum A K gB gA = s).
  { rewrite <- S3, (accum_sum A). apply sum_ext. intros k _. apply (Ring_theory.Rmul_comm (Field_theory.F_R (ea_field A opp inv HA))). }
  assert (Hk : forall k, 1 <= k <= Z.of_nat K -> le lo (e k) /\ le (e k) hi) by (intros k Hk; exact (He k Hk)).
  assert (ZI : a_sub A (a_one A) (a_mul A s s) = a_zero A <-> a_mul A s s = a_one A).
  { split; [intros Q; symmetry; exact (equal_of_difference A opp inv HA _ _ Q)|intros ->; apply (difference_of_equal A opp inv HA); reflexivity]. }
  exists (accum A K gB (weighted A K e gA)), (accum A K gA (weighted A K e gA)), (accum A K gB (weighted A K e gB)), s, (b1 + b2)%nat. split.
  { intros fuel Hf. split; [refine (eq_trans (R1 fuel ltac:(lia)) (f_equal Ok _))|refine (eq_trans (R2 fuel ltac:(lia)) (f_equal Ok _))].
    - unfold numbers_of. rewrite S3'. apply lines_spec.
    - unfold numbers_of. rewrite S3'. reflexivity. }
  clear R1 R2. rewrite !(quad_exact A opp inv HA).
  destruct (weighted_range A opp inv HA le HO K e gA lo hi Hk) as [A1 A2]. destruct (weighted_range A opp inv HA le HO K e gB lo hi Hk) as [B1 B2]. rewrite S1 in A1, A2. rewrite S2 in B1, B2. rewrite (mul_one_r A opp inv HA) in A1, A2, B1, B2.
  split; [exact A1|]. split; [exact A2|]. split; [exact B1|]. split; [exact B2|]. split; [|split].
  - apply (le_diff A opp inv HA le HO). exact (overlap_at_most_one A opp inv HA le HO K gA gB s S1 S2 S3).
  - exact (iff_trans ZI PI).
  - intros Hne. cbv zeta. apply (coupling_bound A opp inv HA le HO K e gA gB s S1 S2 S3 _ _ _ lo hi Hk); try reflexivity. intros Q. exact (Hne (proj1 PI Q)).
Qed.
Print Assumptions C113_bounded.
(** ** A concrete run in fractions *)
Lemma qc_ordered : ordered qc_arith Qcle.
Proof.
  constructor.
  - intros x y. destruct (Qclt_le_dec x y) as [H|H]; [left; apply Qclt_le_weak, H|right; exact H].
  - exact Qcle_antisym.
  - exact Qcle_trans.
  - intros x y z H. apply (Qcplus_le_compat x y z z H (Qcle_refl z)).
  - intros x y H1 H2. change (Qcle 0 (Qcmult x y)). rewrite <- (Qcmult_0_l y). apply Qcmult_le_compat_r; assumption.
Qed.
(** the value -36/245 is within half of 0.841 + 0.6 *)
Example C113_example : exact_arith q_arith Qcopp Qcinv /\ ordered q_arith Qcle /\
  (exists e, job fractions disk1 low_disk the_line (the_params false) e 1 2 /\ lined_up fractions q_lab false e true /\ let n := size fractions e in let S := symmetric fractions (over fractions e) in
     complete q_arith n (count (coefP fractions e)) S (table fractions (coefP fractions e)) /\
     energies_within fractions Qcle e (Q2Qc (-6 # 10)) (Q2Qc (841 # 1000)) /\
     in_dimer fractions q_arith q_lab false e 1 2 (only 3) (only 2) true /\
     element q_arith n S (only 3) (only 3) = 1%Qc /\ element q_arith n S (only 2) (only 2) = 1%Qc /\ ~ same_up_to_sign q_arith n (only 3) (only 2)) /\
  low_run = Ok (Q2Qc (-36 # 245)).
Proof.
  split; [exact qc_exact|]. split; [exact qc_ordered|]. split.
  - destruct low_job as (e & J & R). exists e. destruct (low_fields e R) as (F1 & F2 & F3 & F6 & F7 & F8 & F9). split; [exact J|]. split; [exact F8|]. cbv zeta. unfold energies_within. rewrite F1, F2.
    assert (ES : forall w w', element q_arith 4 (symmetric fractions (over fractions e)) w w' = element q_arith 4 S5 w w') by (intros w w'; apply element_same; auto; lia).
    split; [apply (complete_same q_arith 4 4 _ S5 _ P5); auto; try lia; apply complete_b; vm_compute; reflexivity|]. split.
    { intros k Hk. rewrite F6. assert (k = 1 \/ k = 2 \/ k = 3 \/ k = 4) as [->|[->|[->| ->]]] by lia; split; unfold Qcle, Qle; vm_compute; discriminate. }
    split; [exact F9|]. rewrite !ES. split; [apply qc_by; vm_compute; reflexivity|]. split; [apply qc_by; vm_compute; reflexivity|].
    intros [H|H]; specialize (H 3 ltac:(lia)); revert H; intros H; apply (f_equal this) in H; revert H; vm_compute; discriminate.
  - exact (proj2 (proj2 (proj2 (proj2 C109_C110_example)))).
Qed.
