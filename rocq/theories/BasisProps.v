(** * Property C111: other basis functions *)
From Coq Require Import QArith Qcanon.
From Verif Require Import QcOrder QcFinal QcProps QcExact.
From Verif Require Import MixProps LevelsRun LevelsExample LevelsProps ElementRun ElementExample ElementProps LowdinRun LowdinProps MoveRun BasisExample.
From Verif Require Import ParserWf ParserCheck CatnipProps ReaderProps ReaderPunProps.
From Verif Require Import MainExample MainProps OutputProps AccPara ExchangeExample ExchangeProps PhaseProps.
From Verif Require Export QcSpec Exact.
From Verif Require Export ReaderModel MainSpec ContentSpec PhaseSpec LevelsSpec ElementSpec BasisSpec.
Import ReaderExample.
From Verif Require Export StrSpec StrModel.
Open Scope Z_scope.

Section Algebra.
Context (N : nums) (A : arith (num N)) (opp inv : num N -> num N) (HA : exact_arith A opp inv).
Let FT := ea_field A opp inv HA.
Add Field TFB : FT.
Notation "x * y" := (a_mul A x y).
Notation Sum := (sum A).
Lemma overlap_rebased n n' B (S S' : Z -> Z -> num N) x x' y y' : 0 <= n -> 0 <= n' ->
  (forall i j, 1 <= i <= n' -> 1 <= j <= n' -> S' i j = element A n S (fun a => B a i) (fun b => B b j)) -> in_old N A n n' B x' x -> in_old N A n n' B y' y ->
  element A n S x y = element A n' S' x' y'.
Proof.
  intros Hn Hn' HS Hx Hy. unfold element. set (m := Z.to_nat n) in *. set (m' := Z.to_nat n') in *.
  transitivity (Sum m (fun a => Sum m' (fun i => B a i * x' i) * Sum m (fun b => S a b * Sum m' (fun j => B b j * y' j)))).
  - apply sum_ext. intros a Ha. unfold m in Ha. rewrite (Hx a) by lia. fold m'. f_equal. apply sum_ext. intros b Hb. unfold m in Hb. rewrite (Hy b) by lia. reflexivity.
  - transitivity (Sum m (fun a => Sum m' (fun i => Sum m (fun b => Sum m' (fun j => x' i * (B a i * (S a b * (B b j * y' j)))))))).
    + apply sum_ext. intros a _. rewrite <- (sum_scale_r A opp inv HA). apply sum_ext. intros i _. rewrite <- (sum_scale_l A opp inv HA). apply sum_ext. intros b _.
      transitivity ((x' i * (B a i * S a b)) * Sum m' (fun j => B b j * y' j)); [ring|]. rewrite <- (sum_scale_l A opp inv HA). apply sum_ext. intros j _. ring.
    + rewrite (sum_swap A opp inv HA). apply sum_ext. intros i Hi. unfold m' in Hi.
      transitivity (x' i * Sum m (fun a => Sum m' (fun j => Sum m (fun b => B a i * (S a b * (B b j * y' j)))))).
      * rewrite <- (sum_scale_l A opp inv HA). apply sum_ext. intros a _. rewrite (sum_swap A opp inv HA), <- (sum_scale_l A opp inv HA). apply sum_ext. intros j _. rewrite <- (sum_scale_l A opp inv HA). reflexivity.
      * f_equal. rewrite (sum_swap A opp inv HA). apply sum_ext. intros j Hj. unfold m' in Hj. rewrite (HS i j) by lia. unfold element. fold m.
        rewrite <- (sum_scale_r A opp inv HA). apply sum_ext. intros a _. transitivity (B a i * (Sum m (fun b => S a b * B b j) * y' j)); [|ring].
        rewrite <- (sum_scale_r A opp inv HA), <- (sum_scale_l A opp inv HA). apply sum_ext. intros b _. ring.
Qed.
Lemma overlap_element n S P z k : overlap_with A n S P z k = Sum n (fun l => z l * Sum n (fun m => S l m * P k m)).
Proof. exact (overlap_nested A opp inv HA n S P z k). Qed.
End Algebra.

(** Exact arithmetic.  Whatever the basis functions of the two calculations are (other functions, another number of
    them, functions turned with the molecules), if they describe the same orbitals the report and the value are the
    same. *)
Theorem C111_basis : forall E E' N A opp inv pr h version lab disk disk' (prog prog' : str) l l' p p' d d' r1 r2 r1' r2' u u', exact_arith A opp inv ->
  job N E disk l p d r1 r2 -> lined_up N lab (counterPoise p) d u -> job N E' disk' l' p' d' r1' r2' -> lined_up N lab (counterPoise p') d' u' ->
  exists w1 w2 w1' w2', in_dimer N A lab (counterPoise p) d r1 r2 w1 w2 u /\ in_dimer N A lab (counterPoise p') d' r1' r2' w1' w2' u' /\
    forall B, rebased N A B d d' w1 w2 w1' w2' ->
    exists J_ab e_a e_b S_ab bound, forall fuel, (bound <= fuel)%nat ->
      main_output N A pr h version E lab disk fuel (prog :: words l) = Ok (heading version p ++ result_lines A pr h J_ab e_a e_b S_ab, advice u) /\
      main_output N A pr h version E' lab disk' fuel (prog' :: words l') = Ok (heading version p' ++ result_lines A pr h J_ab e_a e_b S_ab, advice u') /\
      main E N A lab disk fuel (prog :: words l) = Ok (J_eff A J_ab e_a e_b S_ab) /\ main E' N A lab disk' fuel (prog' :: words l') = Ok (J_eff A J_ab e_a e_b S_ab).
Proof.
  intros E E' N A opp inv pr h version lab disk disk' prog prog' l l' p p' d d' r1 r2 r1' r2' u u' HA Hj Hl Hj' Hl'.
  destruct (levels_run N A lab E disk prog l p d r1 r2 u Hj Hl) as (gA & gB & Hsh & H). destruct (shape_in_dimer N A opp inv HA lab _ _ _ _ _ _ _ Hsh) as (w1 & w2 & Hw & G1 & G2).
  destruct (levels_run N A lab E' disk' prog' l' p' d' r1' r2' u' Hj' Hl') as (gA' & gB' & Hsh' & H'). destruct (shape_in_dimer N A opp inv HA lab _ _ _ _ _ _ _ Hsh') as (w1' & w2' & Hw' & G1' & G2').
  exists w1, w2, w1', w2'. split; [exact Hw|]. split; [exact Hw'|]. intros B [RS [RK RE] RP R1 R2].
  pose proof (size_nonneg N E disk l p d r1 r2 Hj) as Hn. pose proof (size_nonneg N E' disk' l' p' d' r1' r2' Hj') as Hn'.
  assert (V0 : levels N (fun e => e) d d r1 r2 r1 r2) by (constructor; auto; split; auto). assert (V1 : levels N (fun e => e) d' d' r1' r2' r1' r2') by (constructor; auto; split; auto).
  assert (EL : length (coefP N d') = length (coefP N d)) by (unfold count in RK; lia).
  assert (EN : forall R (f : num N -> num N -> num N -> num N -> R), numbers_of A f (length (coefP N d')) (entry N (enP N d')) gA' gB' = numbers_of A f (length (coefP N d)) (entry N (enP N d)) gA gB).
  { intros R f. rewrite EL, (numbers_energies A f (length (coefP N d)) (entry N (enP N d)) (entry N (enP N d')) gA' gB').
    - apply numbers_ext; intros k Hk; rewrite ?G1, ?G2, ?G1', ?G2', !(overlap_element N A opp inv HA).
      + symmetry. exact (overlap_rebased N A opp inv HA _ _ B _ _ w1 w1' _ _ Hn Hn' RS R1 (RP k Hk)).
      + symmetry. exact (overlap_rebased N A opp inv HA _ _ B _ _ w2 w2' _ _ Hn Hn' RS R2 (RP k Hk)).
    - intros k Hk. apply RE. exact Hk. }
  destruct (H _ (lines_of_run N A pr h version) _ E disk prog l p d r1 r2 (lines_same N A pr h version p) Hj eq_refl V0) as (b1 & X1). destruct (H _ (J_of_run A) _ E disk prog l p d r1 r2 (fun _ _ => eq_refl) Hj eq_refl V0) as (b2 & X2).
  destruct (H' _ (lines_of_run N A pr h version) _ E' disk' prog' l' p' d' r1' r2' (lines_same N A pr h version p') Hj' eq_refl V1) as (b3 & X3). destruct (H' _ (J_of_run A) _ E' disk' prog' l' p' d' r1' r2' (fun _ _ => eq_refl) Hj' eq_refl V1) as (b4 & X4). clear H H'.
  rewrite EN in X3, X4. unfold numbers_of in X1, X2, X3, X4. do 4 eexists. exists (b1 + b2 + b3 + b4)%nat. intros fuel Hf.
  split; [refine (eq_trans (X1 fuel ltac:(lia)) (f_equal Ok (lines_spec N A pr h version p u _ _ _ _)))|].
  split; [refine (eq_trans (X3 fuel ltac:(lia)) (f_equal Ok (lines_spec N A pr h version p' u' _ _ _ _)))|].
  split; [exact (X2 fuel ltac:(lia))|exact (X4 fuel ltac:(lia))].
Qed.
Print Assumptions C111_basis.

(** ** Concrete runs in fractions *)
Lemma bas_job : exists e, job fractions disk1 bas_disk the_line (the_params false) e 1 2 /\ drel D fractions ExchangeExample.reads bas_data e.
Proof.
  destruct (request_params the_line false the_request) as [H1 H2].
  destruct (fractions_contain _ (the_params false) _ bas_contain) as (e & He & R). exists e. split; [|exact R]. constructor; [exact H1|exact H2|exact He| |].
  - apply (belong_para D fractions ExchangeExample.reads false _ e R). clear. belong_b; cbv; repeat split; discriminate.
  - apply (rows_para D fractions ExchangeExample.reads (the_params false) _ e 1 2 R). clear. split; reflexivity.
Qed.
Definition S6 : Z -> Z -> Qc := symmetric fractions (fun i j => frac (tri6_value i j)).
Definition P6 : Z -> Z -> Qc := table fractions (map (map frac) (MainExample.vals bas_rows)).
Definition e6 : Z -> Qc := entry fractions (map frac bas_en).
Definition half_3 (i : Z) : Qc := if i =? 3 then Q2Qc (1 # 2) else 0%Qc.
Lemma bas_fields e : drel D fractions ExchangeExample.reads bas_data e ->
  size fractions e = 4 /\ count (coefP fractions e) = 4 /\ (forall k c, table fractions (coefP fractions e) k c = P6 k c) /\ (forall k, entry fractions (enP fractions e) k = e6 k) /\
  (forall i j, 1 <= i <= 4 -> 1 <= j <= 4 -> symmetric fractions (over fractions e) i j = S6 i j) /\ lined_up fractions q_lab false e true /\
  in_dimer fractions q_arith q_lab false e 1 2 (half_3) (only 2) true.
Proof.
  intros R. assert (CP : coefP fractions e = map (map frac) (MainExample.vals bas_rows)) by (apply (rows_frac _ _ (dr_cP _ _ _ _ _ R)); reflexivity).
  pose proof (rows_frac _ _ (dr_c1 _ _ _ _ _ R) eq_refl) as C1. pose proof (rows_frac _ _ (dr_c2 _ _ _ _ _ R) eq_refl) as C2.
  pose proof (list_frac _ _ (dr_eP _ _ _ _ _ R) eq_refl) as EP.
  pose proof (pts_frac _ _ (dr_a1 _ _ _ _ _ R) eq_refl) as A1. pose proof (pts_frac _ _ (dr_a2 _ _ _ _ _ R) eq_refl) as A2. pose proof (pts_frac _ _ (dr_aP _ _ _ _ _ R) eq_refl) as AP.
  pose proof (dr_b1 _ _ _ _ _ R) as B1. pose proof (dr_b2 _ _ _ _ _ R) as B2. pose proof (dr_bP _ _ _ _ _ R) as BP.
  pose proof (dr_n _ _ _ _ _ R) as Sn. pose proof (dr_S _ _ _ _ _ R) as So.
  split; [rewrite <- Sn; reflexivity|]. split; [rewrite CP; reflexivity|]. split; [intros k c; rewrite CP; reflexivity|]. split; [intros k; rewrite EP; reflexivity|]. split; [|split].
  - intros i j Hi Hj. unfold S6, symmetric. assert (Hm : 1 <= Z.min i j <= Z.max i j /\ Z.max i j <= 4) by lia. revert Hm. generalize (Z.max i j) (Z.min i j). clear Hi Hj i j. intros i j [Hj Hi].
    rewrite (So i j Hj); [|exact Hi|].
    + reflexivity.
    + change (over D bas_data) with tri6_value. clear - Hj Hi. apply Z.leb_le.
      assert (i = 1 \/ i = 2 \/ i = 3 \/ i = 4) as [->|[->|[->| ->]]] by lia; (assert (j = 1 \/ j = 2 \/ j = 3 \/ j = 4) as [->|[->|[->| ->]]] by lia); vm_compute; reflexivity.
  - clear So EP CP. apply (lu_plain fractions q_lab false e [2] [1]); rewrite <- ?B1, <- ?B2, <- ?BP, <- ?Sn, ?A1, ?A2, ?AP; try reflexivity; try discriminate; [repeat constructor; lia|apply ffinds_b; vm_compute; reflexivity|apply ffinds_b; vm_compute; reflexivity|order_b].
  - clear So EP CP. apply (in_plain fractions q_arith q_lab false e 1 2 _ _ [2] [1]); unfold spread_1, spread_2; rewrite ?C1, ?C2, <- ?B1, <- ?B2, <- ?BP, ?A1, ?A2, ?AP; try reflexivity.
    + order_b.
    + apply ffinds_b; vm_compute; reflexivity.
    + apply ffinds_b; vm_compute; reflexivity.
    + apply moved_4; intros j Hj; (assert (j = 1 \/ j = 2) as [->| ->] by lia); apply Qc_is_canon, Qeq_bool_eq; vm_compute; reflexivity.
    + apply moved_4; intros j Hj; (assert (j = 1 \/ j = 2) as [->| ->] by lia); apply Qc_is_canon, Qeq_bool_eq; vm_compute; reflexivity.
Qed.

(** function 3 is multiplied by 2 *)
Definition twice_3 (i j : Z) : Qc := if i =? j then if i =? 3 then Q2Qc 2 else 1%Qc else 0%Qc.
Definition bas_run : outcome (num fractions) := main disk1 fractions q_arith q_lab bas_disk 3000 ($"calc_J" :: words the_line).
Definition bas_four : outcome (num fractions * num fractions * num fractions * num fractions) := main_with disk1 fractions q_arith q_lab bas_disk (four fractions) 3000 ($"calc_J" :: words the_line).
Example C111_example : exact_arith q_arith Qcopp Qcinv /\
  (exists d d', job fractions disk1 (elt_disk false Some_energies) the_line (the_params false) d 1 2 /\ lined_up fractions q_lab false d true /\
     job fractions disk1 bas_disk the_line (the_params false) d' 1 2 /\ lined_up fractions q_lab false d' true /\
     in_dimer fractions q_arith q_lab false d 1 2 (only 3) (only 2) true /\ in_dimer fractions q_arith q_lab false d' 1 2 half_3 (only 2) true /\
     rebased fractions q_arith twice_3 d d' (only 3) (only 2) half_3 (only 2)) /\
  elt_four false Some_energies = Ok (Q2Qc (-201 # 625), Q2Qc (-403 # 3125), Q2Qc (-67 # 125), Q2Qc (3 # 5)) /\
  bas_four = Ok (Q2Qc (-201 # 625), Q2Qc (-403 # 3125), Q2Qc (-67 # 125), Q2Qc (3 # 5)) /\ bas_run = Ok (Q2Qc (-477 # 2500)).
Proof.
  split; [exact qc_exact|]. split.
  - destruct (elt_job false Some_energies) as (d & J & R). destruct bas_job as (d' & J' & R'). exists d, d'. destruct (elt_fields false d R) as (F1 & F2 & F3 & F5 & F6 & F7). destruct (bas_fields d' R') as (G1 & G2 & G3 & G5 & G6 & G7 & G8).
    split; [exact J|]. split; [exact F7|]. split; [exact J'|]. split; [exact G7|]. split; [exact (elt_in_dimer false d R)|]. split; [exact G8|].
    assert (L : forall k : Z, 1 <= k <= 4 -> k = 1 \/ k = 2 \/ k = 3 \/ k = 4) by (intros; lia).
    constructor; rewrite ?F1, ?F2, ?G1, ?G2.
    + intros i j Hi Hj. rewrite (element_same q_arith 4 _ (S4 false)) by (auto; lia). rewrite G6 by auto. destruct (L i Hi) as [->|[->|[->| ->]]], (L j Hj) as [->|[->|[->| ->]]]; apply qc_by; vm_compute; reflexivity.
    + split; [reflexivity|]. intros k Hk. rewrite F5, G5. reflexivity.
    + intros k Hk i Hi. rewrite F3. rewrite (sum_ext q_arith 4 _ (fun j => a_mul q_arith (twice_3 i j) (P6 k j))); [|intros j _; rewrite G3; reflexivity].
      destruct (L k Hk) as [->|[->|[->| ->]]], (L i Hi) as [->|[->|[->| ->]]]; apply qc_by; vm_compute; reflexivity.
    + intros i Hi. destruct (L i Hi) as [->|[->|[->| ->]]]; apply qc_by; vm_compute; reflexivity.
    + intros i Hi. destruct (L i Hi) as [->|[->|[->| ->]]]; apply qc_by; vm_compute; reflexivity.
  - split; [apply four_are_ok; vm_compute; reflexivity|]. split; [apply four_are_ok; vm_compute; reflexivity|]. apply runs_are. vm_compute. reflexivity.
Qed.
