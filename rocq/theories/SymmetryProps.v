(** * Property C118: selection rule *)
From Coq Require Import QArith Qcanon.
From Verif Require Import QcOrder QcFinal QcProps QcExact.
From Verif Require Import MixProps LevelsRun LevelsExample LevelsProps ElementRun ElementExample ElementProps LowdinRun LowdinProps MoveRun BasisProps SymmetryExample.
From Verif Require Import ParserWf ParserCheck CatnipProps ReaderProps ReaderPunProps.
From Verif Require Import MainExample MainProps OutputProps AccPara ExchangeExample ExchangeProps PhaseProps.
From Verif Require Export QcSpec Exact.
From Verif Require Export ReaderModel MainSpec ContentSpec PhaseSpec LevelsSpec ElementSpec BasisSpec SymmetrySpec.
Import ReaderExample.
From Verif Require Export StrSpec StrModel.
Open Scope Z_scope.

Section Rule.
Context (N : nums) (A : arith (num N)) (opp inv : num N -> num N) (HA : exact_arith A opp inv).
Let FT := ea_field A opp inv HA.
Add Field TFSy : FT.
Notation "x * y" := (a_mul A x y).
Notation Sum := (sum A).
Lemma element_scaled n S (a s : num N) x y : element A n S (fun i => a * x i) (fun j => s * y j) = a * s * element A n S x y.
Proof.
  unfold element. rewrite <- (sum_scale_l A opp inv HA). apply sum_ext. intros i _. transitivity (a * s * x i * Sum (Z.to_nat n) (fun j => S i j * y j)); [|ring].
  transitivity (a * x i * (s * Sum (Z.to_nat n) (fun j => S i j * y j))); [|ring]. f_equal. rewrite <- (sum_scale_l A opp inv HA). apply sum_ext. intros j _. ring.
Qed.
Lemma multiplied n M S (a s : num N) x y : 0 <= n -> (forall i j, 1 <= i <= n -> 1 <= j <= n -> element A n S (fun i' => M i' i) (fun j' => M j' j) = S i j) ->
  multiplies A n M a x -> multiplies A n M s y -> element A n S x y = a * s * element A n S x y.
Proof.
  intros Hn HS Hx Hy. rewrite <- element_scaled. symmetry. apply (overlap_rebased N A opp inv HA n n M S S _ _ _ _ Hn Hn).
  - intros i j Hi Hj. symmetry. apply HS; assumption.
  - intros i Hi. symmetry. apply Hx. exact Hi.
  - intros i Hi. symmetry. apply Hy. exact Hi.
Qed.
Lemma forbidden (a b s x y : num N) : a <> b -> x = a * s * x -> y = b * s * y -> x * y = a_zero A.
Proof.
  intros Hab Hx Hy. assert (D0 : a_sub A a b <> a_zero A). { intros Q. apply Hab. transitivity (a_add A b (a_sub A a b)); [ring|]. rewrite Q. ring. }
  assert (Q : x * y * a_sub A a b = a_zero A).
  { transitivity (a_sub A (a * x * y) (x * (b * y))); [ring|]. rewrite Hy at 1. rewrite Hx at 2. ring. }
  transitivity (a_div A (x * y * a_sub A a b) (a_sub A a b)); [field; exact D0|]. rewrite Q. field. exact D0.
Qed.
Lemma symmetric_zero n K M S P a b w1 w2 : 0 <= n -> a <> b -> symmetry_of A n K M S P a b w1 w2 -> forall k, 1 <= k <= K ->
  overlap_with A (Z.to_nat n) S P w1 k * overlap_with A (Z.to_nat n) S P w2 k = a_zero A.
Proof.
  intros Hn Hab [HS HP H1 H2] k Hk. destruct (HP k Hk) as (s & Hs). rewrite !(overlap_element N A opp inv HA).
  apply (forbidden a b s); [exact Hab|exact (multiplied n M S a s w1 (P k) Hn HS H1 Hs)|exact (multiplied n M S b s w2 (P k) Hn HS H2 Hs)].
Qed.
End Rule.

(** Exact arithmetic.  If a symmetry of the dimer multiplies the orbitals of the two monomers by different numbers (one is
    even, the other is odd, say), J_ab, S_ab and the value are zero. *)
Theorem C118_selection_rule : forall E N A opp inv pr h version lab disk (prog : str) l p d r1 r2 u, exact_arith A opp inv ->
  job N E disk l p d r1 r2 -> lined_up N lab (counterPoise p) d u ->
  exists w1 w2, in_dimer N A lab (counterPoise p) d r1 r2 w1 w2 u /\
    forall M a b, a <> b -> symmetry_of A (size N d) (count (coefP N d)) M (symmetric N (over N d)) (table N (coefP N d)) a b w1 w2 ->
    exists e_a e_b bound, forall fuel, (bound <= fuel)%nat ->
      main_output N A pr h version E lab disk fuel (prog :: words l) = Ok (heading version p ++ result_lines A pr h (a_zero A) e_a e_b (a_zero A), advice u) /\
      main E N A lab disk fuel (prog :: words l) = Ok (a_zero A).
Proof.
  intros E N A opp inv pr h version lab disk prog l p d r1 r2 u HA Hj Hl.
  destruct (levels_run N A lab E disk prog l p d r1 r2 u Hj Hl) as (gA & gB & Hsh & H). destruct (shape_in_dimer N A opp inv HA lab _ _ _ _ _ _ _ Hsh) as (w1 & w2 & Hw & G1 & G2).
  exists w1, w2. split; [exact Hw|]. intros M a b Hab Hs.
  assert (V0 : levels N (fun e => e) d d r1 r2 r1 r2) by (constructor; auto; split; auto).
  destruct (H _ (lines_of_run N A pr h version) _ E disk prog l p d r1 r2 (lines_same N A pr h version p) Hj eq_refl V0) as (b1 & R1).
  destruct (H _ (J_of_run A) _ E disk prog l p d r1 r2 (fun _ _ => eq_refl) Hj eq_refl V0) as (b2 & R2). clear H.
  pose proof (size_nonneg N E disk l p d r1 r2 Hj) as Hn.
  destruct (numbers_apart A opp inv HA (@tuple_of (num N)) (length (coefP N d)) (entry N (enP N d)) gA gB) as (ea & eb & Q).
  { intros k Hk. rewrite G1, G2. apply (symmetric_zero N A opp inv HA _ (count (coefP N d)) M _ _ a b); auto. }
  exists ea, eb, (b1 + b2)%nat. intros fuel Hf. split.
  - refine (eq_trans (R1 fuel ltac:(lia)) (f_equal Ok _)). rewrite Q. apply lines_spec.
  - refine (eq_trans (R2 fuel ltac:(lia)) (f_equal Ok _)). rewrite Q. apply (J_eff_none A opp inv HA).
Qed.
Print Assumptions C118_selection_rule.

(** ** Concrete runs in fractions *)
Lemma sym_job odd : exists e, job fractions disk1 (sym_disk odd) the_line (the_params false) e 1 2 /\ drel D fractions ExchangeExample.reads (sym_data odd) e.
Proof.
  destruct (request_params the_line false the_request) as [H1 H2].
  destruct (fractions_contain _ (the_params false) _ (sym_contain odd)) as (e & He & R). exists e. split; [|exact R]. constructor; [exact H1|exact H2|exact He| |].
  - apply (belong_para D fractions ExchangeExample.reads false _ e R). clear. destruct odd; belong_b; cbv; repeat split; discriminate.
  - apply (rows_para D fractions ExchangeExample.reads (the_params false) _ e 1 2 R). clear. destruct odd; split; reflexivity.
Qed.
Definition S8 : Z -> Z -> Qc := symmetric fractions (fun i j => frac (tri8_value i j)).
Definition P8 : Z -> Z -> Qc := table fractions (map (map frac) (MainExample.vals sym_rows)).
Definition e8 : Z -> Qc := entry fractions (map frac sym_en).
Definition odd_2 (odd : bool) (i : Z) : Qc := if i =? 1 then Q2Qc (1 # 2) else if i =? 2 then if odd then Q2Qc (-1 # 2) else Q2Qc (1 # 2) else 0%Qc.
Definition even_1 (i : Z) : Qc := if 3 <=? i then Q2Qc (1 # 2) else 0%Qc.
Lemma sym_fields odd e : drel D fractions ExchangeExample.reads (sym_data odd) e ->
  size fractions e = 4 /\ count (coefP fractions e) = 4 /\ (forall k c, table fractions (coefP fractions e) k c = P8 k c) /\ (forall k, entry fractions (enP fractions e) k = e8 k) /\
  (forall i j, 1 <= i <= 4 -> 1 <= j <= 4 -> symmetric fractions (over fractions e) i j = S8 i j) /\ lined_up fractions q_lab false e true /\
  in_dimer fractions q_arith q_lab false e 1 2 even_1 (odd_2 odd) true.
Proof.
  intros R. assert (CP : coefP fractions e = map (map frac) (MainExample.vals sym_rows)) by (apply (rows_frac _ _ (dr_cP _ _ _ _ _ R)); reflexivity).
  pose proof (rows_frac _ _ (dr_c1 _ _ _ _ _ R) eq_refl) as C1. assert (C2 : coef2 fractions e = map (map frac) (coef2 D (sym_data odd))) by (apply (rows_frac _ _ (dr_c2 _ _ _ _ _ R)); destruct odd; reflexivity).
  pose proof (list_frac _ _ (dr_eP _ _ _ _ _ R) eq_refl) as EP.
  pose proof (pts_frac _ _ (dr_a1 _ _ _ _ _ R) eq_refl) as A1. pose proof (pts_frac _ _ (dr_a2 _ _ _ _ _ R) eq_refl) as A2. pose proof (pts_frac _ _ (dr_aP _ _ _ _ _ R) eq_refl) as AP.
  pose proof (dr_b1 _ _ _ _ _ R) as B1. pose proof (dr_b2 _ _ _ _ _ R) as B2. pose proof (dr_bP _ _ _ _ _ R) as BP.
  pose proof (dr_n _ _ _ _ _ R) as Sn. pose proof (dr_S _ _ _ _ _ R) as So.
  split; [rewrite <- Sn; reflexivity|]. split; [rewrite CP; reflexivity|]. split; [intros k c; rewrite CP; reflexivity|]. split; [intros k; rewrite EP; reflexivity|]. split; [|split].
  - intros i j Hi Hj. unfold S8, symmetric. assert (Hm : 1 <= Z.min i j <= Z.max i j /\ Z.max i j <= 4) by lia. revert Hm. generalize (Z.max i j) (Z.min i j). clear Hi Hj i j. intros i j [Hj Hi].
    rewrite (So i j Hj); [|exact Hi|].
    + reflexivity.
    + change (over D (sym_data odd)) with tri8_value. clear - Hj Hi. apply Z.leb_le.
      assert (i = 1 \/ i = 2 \/ i = 3 \/ i = 4) as [->|[->|[->| ->]]] by lia; (assert (j = 1 \/ j = 2 \/ j = 3 \/ j = 4) as [->|[->|[->| ->]]] by lia); vm_compute; reflexivity.
  - clear So EP CP. apply (lu_plain fractions q_lab false e [2] [1]); rewrite <- ?B1, <- ?B2, <- ?BP, <- ?Sn, ?A1, ?A2, ?AP; try reflexivity; try discriminate; [repeat constructor; lia|apply ffinds_b; vm_compute; reflexivity|apply ffinds_b; vm_compute; reflexivity|order_b].
  - clear So EP CP. apply (in_plain fractions q_arith q_lab false e 1 2 _ _ [2] [1]); unfold spread_1, spread_2; rewrite ?C1, ?C2, <- ?B1, <- ?B2, <- ?BP, ?A1, ?A2, ?AP; try reflexivity.
    + order_b.
    + apply ffinds_b; vm_compute; reflexivity.
    + apply ffinds_b; vm_compute; reflexivity.
    + apply moved_4; intros j Hj; (assert (j = 1 \/ j = 2) as [->| ->] by lia); destruct odd; apply Qc_is_canon, Qeq_bool_eq; vm_compute; reflexivity.
    + apply moved_4; intros j Hj; (assert (j = 1 \/ j = 2) as [->| ->] by lia); destruct odd; apply Qc_is_canon, Qeq_bool_eq; vm_compute; reflexivity.
Qed.


(** the functions of each atom are exchanged *)
Definition exchanged (i j : Z) : Qc := if (i =? 1) && (j =? 2) || (i =? 2) && (j =? 1) || (i =? 3) && (j =? 4) || (i =? 4) && (j =? 3) then 1%Qc else 0%Qc.
Definition sym_run (odd : bool) : outcome (num fractions) := main disk1 fractions q_arith q_lab (sym_disk odd) 3000 ($"calc_J" :: words the_line).
Definition sym_four (odd : bool) : outcome (num fractions * num fractions * num fractions * num fractions) := main_with disk1 fractions q_arith q_lab (sym_disk odd) (four fractions) 3000 ($"calc_J" :: words the_line).
(** HOMO of monomer 1 even, LUMO of monomer 2 odd: the value is 0.  With an even LUMO it is not. *)
Example C118_example : exact_arith q_arith Qcopp Qcinv /\ a_one q_arith <> Qcopp (a_one q_arith) /\
  (exists d, job fractions disk1 (sym_disk true) the_line (the_params false) d 1 2 /\ lined_up fractions q_lab false d true /\
     in_dimer fractions q_arith q_lab false d 1 2 even_1 (odd_2 true) true /\
     symmetry_of q_arith (size fractions d) (count (coefP fractions d)) exchanged (symmetric fractions (over fractions d)) (table fractions (coefP fractions d)) (a_one q_arith) (Qcopp (a_one q_arith)) even_1 (odd_2 true)) /\
  sym_four true = Ok (Q2Qc 0, Q2Qc (-9059 # 25000), Q2Qc (1683 # 25000), Q2Qc 0) /\ sym_run true = Ok (Q2Qc 0) /\
  sym_four false = Ok (Q2Qc (-7369 # 25000), Q2Qc (-9059 # 25000), Q2Qc (-9059 # 25000), Q2Qc (12 # 25)) /\ sym_run false = Ok (Q2Qc (-157 # 1000)).
Proof.
  split; [exact qc_exact|]. split; [discriminate|]. split.
  - destruct (sym_job true) as (d & J & R). exists d. destruct (sym_fields true d R) as (F1 & F2 & F3 & F5 & F6 & F7 & F8).
    split; [exact J|]. split; [exact F7|]. split; [exact F8|].
    assert (L : forall k : Z, 1 <= k <= 4 -> k = 1 \/ k = 2 \/ k = 3 \/ k = 4) by (intros; lia).
    constructor; rewrite ?F1, ?F2.
    + intros i j Hi Hj. rewrite (element_same q_arith 4 _ S8) by (auto; lia). rewrite F6 by auto. destruct (L i Hi) as [->|[->|[->| ->]]], (L j Hj) as [->|[->|[->| ->]]]; apply qc_by; vm_compute; reflexivity.
    + intros k Hk. exists (if k <=? 2 then a_one q_arith else Qcopp (a_one q_arith)). intros i Hi. rewrite F3. rewrite (sum_ext q_arith 4 _ (fun j => a_mul q_arith (exchanged i j) (P8 k j))); [|intros j _; rewrite F3; reflexivity].
      destruct (L k Hk) as [->|[->|[->| ->]]], (L i Hi) as [->|[->|[->| ->]]]; apply qc_by; vm_compute; reflexivity.
    + intros i Hi. destruct (L i Hi) as [->|[->|[->| ->]]]; apply qc_by; vm_compute; reflexivity.
    + intros i Hi. destruct (L i Hi) as [->|[->|[->| ->]]]; apply qc_by; vm_compute; reflexivity.
  - split; [apply four_are_ok; vm_compute; reflexivity|]. split; [apply runs_are; vm_compute; reflexivity|]. split; [apply four_are_ok; vm_compute; reflexivity|]. apply runs_are. vm_compute. reflexivity.
Qed.
