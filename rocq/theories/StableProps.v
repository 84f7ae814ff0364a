(** * Property C115: the coupling changes no more than the energies *)
From Coq Require Import QArith Qcanon.
From Verif Require Import QcOrder QcFinal QcProps QcExact.
From Verif Require Import MixProps LevelsRun LevelsExample LevelsProps ElementRun ElementExample ElementProps LowdinRun LowdinExample LowdinProps RangeRun RangeProps StableRun.
From Verif Require Import ParserWf ParserCheck CatnipProps ReaderProps ReaderPunProps.
From Verif Require Import MainExample MainProps OutputProps AccPara ExchangeExample ExchangeProps PhaseProps.
From Verif Require Export QcSpec Exact.
From Verif Require Export ReaderModel MainSpec ContentSpec PhaseSpec LevelsSpec ElementSpec RangeSpec StableSpec.
Import ReaderExample.
From Verif Require Export StrSpec StrModel.
Open Scope Z_scope.

(** Exact arithmetic in an ordered field.  Complete orbitals of the dimer, two normalised orbitals of the monomers that
    are not the same up to the sign.  Calculations with other energies of the dimer's orbitals, each changed by at most
    [c], give the same S_ab, and J_ab, e_a, e_b and the value change by at most [c]. *)
Theorem C115_stable : forall E N A opp inv le pr h version lab disk (prog : str) l p d r1 r2 u, exact_arith A opp inv -> ordered A le ->
  job N E disk l p d r1 r2 -> lined_up N lab (counterPoise p) d u -> complete A (size N d) (count (coefP N d)) (symmetric N (over N d)) (table N (coefP N d)) ->
  exists w1 w2, in_dimer N A lab (counterPoise p) d r1 r2 w1 w2 u /\
    (element A (size N d) (symmetric N (over N d)) w1 w1 = a_one A -> element A (size N d) (symmetric N (over N d)) w2 w2 = a_one A -> ~ same_up_to_sign A (size N d) w1 w2 ->
     forall c E' disk' (prog' : str) l' p' d' r1' r2', job N E' disk' l' p' d' r1' r2' -> counterPoise p' = counterPoise p -> relevelled N d d' r1 r2 r1' r2' ->
       (forall k, 1 <= k <= count (coefP N d) -> within A le c (entry N (enP N d') k) (entry N (enP N d) k)) ->
     exists J_ab e_a e_b J_ab' e_a' e_b' S_ab bound, (forall fuel, (bound <= fuel)%nat ->
       main_output N A pr h version E lab disk fuel (prog :: words l) = Ok (heading version p ++ result_lines A pr h J_ab e_a e_b S_ab, advice u) /\
       main_output N A pr h version E' lab disk' fuel (prog' :: words l') = Ok (heading version p' ++ result_lines A pr h J_ab' e_a' e_b' S_ab, advice u) /\
       main E N A lab disk fuel (prog :: words l) = Ok (J_eff A J_ab e_a e_b S_ab) /\
       main E' N A lab disk' fuel (prog' :: words l') = Ok (J_eff A J_ab' e_a' e_b' S_ab)) /\
       within A le c J_ab' J_ab /\ within A le c e_a' e_a /\ within A le c e_b' e_b /\ within A le c (J_eff A J_ab' e_a' e_b' S_ab) (J_eff A J_ab e_a e_b S_ab)).
Proof.
  intros E N A opp inv le pr h version lab disk prog l p d r1 r2 u HA HO Hj Hl Hc.
  destruct (relevelled_run N A lab E disk prog l p d r1 r2 u Hj Hl) as (gA & gB & Hsh & H). destruct (shape_in_dimer N A opp inv HA lab _ _ _ _ _ _ _ Hsh) as (w1 & w2 & Hw & G1 & G2).
  exists w1, w2. split; [exact Hw|]. intros N1 N2 Hs c E' disk' prog' l' p' d' r1' r2' Hj' Hcp Hr He.
  assert (V0 : relevelled N d d r1 r2 r1 r2) by (constructor; auto; split; auto).
  destruct (H _ (lines_of_run N A pr h version) E disk prog l p d r1 r2 (lines_same N A pr h version p) Hj eq_refl V0) as (b1 & R1).
  destruct (H _ (J_of_run A) E disk prog l p d r1 r2 (fun _ _ => eq_refl) Hj eq_refl V0) as (b2 & R2).
  destruct (H _ (lines_of_run N A pr h version) E' disk' prog' l' p' d' r1' r2' (lines_same N A pr h version p') Hj' Hcp Hr) as (b3 & R3).
  destruct (H _ (J_of_run A) E' disk' prog' l' p' d' r1' r2' (fun _ _ => eq_refl) Hj' Hcp Hr) as (b4 & R4). clear H.
  destruct (projections_of N A opp inv HA E disk l p d r1 r2 w1 w2 gA gB Hj Hc G1 G2) as (S1 & S2 & S3). pose proof (parallel_iff N A opp inv HA le HO E disk l p d r1 r2 w1 w2 gA gB Hj Hc G1 G2 N1 N2) as PI.
  rewrite N1 in S1. rewrite N2 in S2. set (K := length (coefP N d)) in *. set (s := element A (size N d) (symmetric N (over N d)) w1 w2) in *.
  assert (S3' : accum A K gB gA = s).
  { rewrite <- S3, (accum_sum A). apply sum_ext. intros k _. apply (Ring_theory.Rmul_comm (Field_theory.F_R (ea_field A opp inv HA))). }
  set (e := entry N (enP N d)) in *. set (e' := entry N (enP N d')) in *.
  assert (Hk : forall k, 1 <= k <= Z.of_nat K -> within A le c (e' k) (e k)) by (intros k Hk; exact (He k Hk)).
  assert (Hne : a_mul A s s <> a_one A) by (intros Q; exact (Hs (proj1 PI Q))).
  exists (accum A K gB (weighted A K e gA)), (accum A K gA (weighted A K e gA)), (accum A K gB (weighted A K e gB)),
    (accum A K gB (weighted A K e' gA)), (accum A K gA (weighted A K e' gA)), (accum A K gB (weighted A K e' gB)), s, (b1 + b2 + b3 + b4)%nat. split.
  { intros fuel Hf. split; [|split; [|split]].
    - refine (eq_trans (R1 fuel ltac:(lia)) (f_equal Ok _)). unfold numbers_of. rewrite S3'. apply lines_spec.
    - refine (eq_trans (R3 fuel ltac:(lia)) (f_equal Ok _)). unfold numbers_of. rewrite S3'. apply lines_spec.
    - refine (eq_trans (R2 fuel ltac:(lia)) (f_equal Ok _)). unfold numbers_of. rewrite S3'. reflexivity.
    - refine (eq_trans (R4 fuel ltac:(lia)) (f_equal Ok _)). unfold numbers_of. rewrite S3'. reflexivity. }
  clear R1 R2 R3 R4. rewrite !(quad_exact A opp inv HA). split; [|split; [|split]].
  - exact (transfer_stable A opp inv HA le HO K e e' gA gB s c S1 S2 S3 Hk).
  - exact (level_stable A opp inv HA le HO K e e' c Hk gA S1).
  - exact (level_stable A opp inv HA le HO K e e' c Hk gB S2).
  - exact (coupling_stable A opp inv HA le HO K e e' gA gB s c S1 S2 S3 Hk Hne).
Qed.
Print Assumptions C115_stable.

Lemma elt_relevelled e e' : drel D fractions ExchangeExample.reads (elt_data false Some_energies) e -> drel D fractions ExchangeExample.reads (elt_data false Affine) e' ->
  relevelled fractions e e' 1 2 1 2 /\ forall k, 1 <= k <= count (coefP fractions e) -> within q_arith Qcle (Q2Qc (19 # 10)) (entry fractions (enP fractions e') k) (entry fractions (enP fractions e) k).
Proof.
  intros R R'.
  pose proof (rows_frac _ _ (dr_c1 _ _ _ _ _ R) eq_refl) as C1. pose proof (rows_frac _ _ (dr_c2 _ _ _ _ _ R) eq_refl) as C2. pose proof (rows_frac _ _ (dr_cP _ _ _ _ _ R) eq_refl) as CP. pose proof (list_frac _ _ (dr_eP _ _ _ _ _ R) eq_refl) as EP.
  assert (C1' := rows_frac _ _ (dr_c1 _ _ _ _ _ R') eq_refl). assert (C2' := rows_frac _ _ (dr_c2 _ _ _ _ _ R') eq_refl). assert (CP' := rows_frac _ _ (dr_cP _ _ _ _ _ R') eq_refl).
  assert (EP' := list_frac _ _ (dr_eP _ _ _ _ _ R') eq_refl).
  pose proof (pts_frac _ _ (dr_a1 _ _ _ _ _ R) eq_refl) as A1. pose proof (pts_frac _ _ (dr_a2 _ _ _ _ _ R) eq_refl) as A2. pose proof (pts_frac _ _ (dr_aP _ _ _ _ _ R) eq_refl) as AP.
  pose proof (pts_frac _ _ (dr_a1 _ _ _ _ _ R') eq_refl) as A1'. pose proof (pts_frac _ _ (dr_a2 _ _ _ _ _ R') eq_refl) as A2'. pose proof (pts_frac _ _ (dr_aP _ _ _ _ _ R') eq_refl) as AP'.
  pose proof (dr_b1 _ _ _ _ _ R) as B1. pose proof (dr_b2 _ _ _ _ _ R) as B2. pose proof (dr_bP _ _ _ _ _ R) as BP. pose proof (dr_b1 _ _ _ _ _ R') as B1'. pose proof (dr_b2 _ _ _ _ _ R') as B2'. pose proof (dr_bP _ _ _ _ _ R') as BP'.
  pose proof (dr_n _ _ _ _ _ R) as Sn. pose proof (dr_n _ _ _ _ _ R') as Sn'. pose proof (dr_S _ _ _ _ _ R) as So. pose proof (dr_S _ _ _ _ _ R') as So'. split.
  2:{ rewrite ?CP, ?EP, ?EP'. intros k Hk. change (1 <= k <= 4) in Hk. assert (k = 1 \/ k = 2 \/ k = 3 \/ k = 4) as [->|[->|[->| ->]]] by lia; split; unfold Qcle, Qle; vm_compute; discriminate. }
  constructor; rewrite ?C1, ?C2, ?CP, ?C1', ?C2', ?CP', ?EP, ?EP', ?A1, ?A2, ?AP, ?A1', ?A2', ?AP', <- ?B1, <- ?B2, <- ?BP, <- ?B1', <- ?B2', <- ?BP', <- ?Sn, <- ?Sn'.
  - split; [reflexivity|]. intros. reflexivity.
  - split; [reflexivity|]. intros. reflexivity.
  - split; [reflexivity|]. intros. reflexivity.
  - split; [reflexivity|]. intros i j Hj Hi. rewrite (So i j Hj Hi), (So' i j Hj Hi); [reflexivity| |]; change (size D (elt_data false Some_energies)) with 4 in Hi; change (over D (elt_data false Some_energies)) with (tri4_value false); change (over D (elt_data false Affine)) with (tri4_value false); clear - Hj Hi; apply Z.leb_le;
      assert (i = 1 \/ i = 2 \/ i = 3 \/ i = 4) as [->|[->|[->| ->]]] by lia; (assert (j = 1 \/ j = 2 \/ j = 3 \/ j = 4) as [->|[->|[->| ->]]] by lia); vm_compute; reflexivity.
  - split; [reflexivity|split; reflexivity].
  - split; [reflexivity|split; reflexivity].
Qed.
(** The calculations of [C107_example] with energies -0.6, -0.5, 0.1, 0.2 and with 1.3, 1.1, -0.1, -0.3, which are at most 1.9 away:
    the value changes from -0.1908 to 0.3816, by 0.5724. *)
Example C115_example : exact_arith q_arith Qcopp Qcinv /\ ordered q_arith Qcle /\
  (exists e e', job fractions disk1 (elt_disk false Some_energies) the_line (the_params false) e 1 2 /\ job fractions disk1 (elt_disk false Affine) the_line (the_params false) e' 1 2 /\ lined_up fractions q_lab false e true /\
     let n := size fractions e in let S := symmetric fractions (over fractions e) in
     complete q_arith n (count (coefP fractions e)) S (table fractions (coefP fractions e)) /\ in_dimer fractions q_arith q_lab false e 1 2 (only 3) (only 2) true /\
     element q_arith n S (only 3) (only 3) = 1%Qc /\ element q_arith n S (only 2) (only 2) = 1%Qc /\ ~ same_up_to_sign q_arith n (only 3) (only 2) /\
     relevelled fractions e e' 1 2 1 2 /\ (forall k, 1 <= k <= count (coefP fractions e) -> within q_arith Qcle (Q2Qc (19 # 10)) (entry fractions (enP fractions e') k) (entry fractions (enP fractions e) k))) /\
  elt_run false Some_energies = Ok (Q2Qc (-477 # 2500)) /\ elt_run false Affine = Ok (Q2Qc (477 # 1250)).
Proof.
  split; [exact qc_exact|]. split; [exact qc_ordered|]. split.
  - destruct (elt_job false Some_energies) as (e & J & R). destruct (elt_job false Affine) as (e' & J' & R'). exists e, e'. destruct (elt_relevelled e e' R R') as (V & W).
    destruct (elt_fields false e R) as (F1 & F2 & F3 & F5 & F6 & F7). split; [exact J|]. split; [exact J'|]. split; [exact F7|]. cbv zeta. rewrite F1, F2. rewrite F2 in W.
    split; [apply (complete_same q_arith 4 4 _ (S4 false) _ (P4 false)); auto; try lia; apply complete_b; vm_compute; reflexivity|].
    split; [exact (elt_in_dimer false e R)|].
    split; [rewrite (element_same q_arith 4 _ (S4 false)) by (auto; lia); apply Qc_is_canon, Qeq_bool_eq; vm_compute; reflexivity|].
    split; [rewrite (element_same q_arith 4 _ (S4 false)) by (auto; lia); apply Qc_is_canon, Qeq_bool_eq; vm_compute; reflexivity|].
    split; [|split; [exact V|exact W]].
    intros [H|H]; specialize (H 3 ltac:(lia)); revert H; intros H; apply (f_equal this) in H; revert H; vm_compute; discriminate.
  - split; apply runs_are; vm_compute; reflexivity.
Qed.
