(** * Property C116: counterpoise calculations without weight on the ghosts *)
From Coq Require Import QArith Qcanon.
From Verif Require Import QcOrder QcFinal QcProps QcExact.
From Verif Require Import MixProps LevelsRun LevelsExample LevelsProps ElementRun ElementExample ElementProps GhostRun.
From Verif Require Import ParserWf ParserCheck CatnipProps ReaderProps ReaderPunProps.
From Verif Require Import MainExample MainProps OutputProps AccPara ExchangeExample ExchangeProps PhaseProps.
From Verif Require Export QcSpec.
From Verif Require Export ReaderModel MainSpec ContentSpec PhaseSpec LevelsSpec ElementSpec GhostSpec.
Import ReaderExample.
From Verif Require Export StrSpec StrModel.
Open Scope Z_scope.

(** For any arithmetic, hence also for doubles: a run without counterpoise correction on [d] and a run with it on [d'], of
    which the monomers' orbitals have no weight on the ghosts, print the same numbers and yield the same value. *)
Theorem C116_ghosts : forall E N A pr h version lab disk (prog : str) l p d r1 r2 u E' disk' (prog' : str) l' p' d' r1' r2',
  job N E disk l p d r1 r2 -> counterPoise p = false -> lined_up N lab false d u ->
  job N E' disk' l' p' d' r1' r2' -> counterPoise p' = true -> lined_up N lab true d' u -> ghosts N A d d' r1 r2 r1' r2' ->
  exists J_ab e_a e_b S_ab bound, forall fuel, (bound <= fuel)%nat ->
    main_output N A pr h version E lab disk fuel (prog :: words l) = Ok (heading version p ++ result_lines A pr h J_ab e_a e_b S_ab, advice u) /\
    main_output N A pr h version E' lab disk' fuel (prog' :: words l') = Ok (heading version p' ++ result_lines A pr h J_ab e_a e_b S_ab, advice u) /\
    main E N A lab disk fuel (prog :: words l) = Ok (J_eff A J_ab e_a e_b S_ab) /\
    main E' N A lab disk' fuel (prog' :: words l') = Ok (J_eff A J_ab e_a e_b S_ab).
Proof.
  intros E N A pr h version lab disk prog l p d r1 r2 u E' disk' prog' l' p' d' r1' r2' Hj Ecp Hl Hj' Ecp' Hl' Hg.
  destruct (ghost_run N A lab E disk prog l p d r1 r2 u E' disk' prog' l' p' d' r1' r2' Hj Ecp Hl Hj' Ecp' Hl' Hg) as (gA & gB & H).
  destruct (H _ (lines_of_run N A pr h version) (lines_same N A pr h version p) (lines_same N A pr h version p')) as (b1 & R1).
  destruct (H _ (J_of_run A) (fun _ _ => eq_refl) (fun _ _ => eq_refl)) as (b2 & R2). clear H. set (K := length (coefP N d)) in *. set (e := entry N (enP N d)) in *.
  exists (accum A K gB (weighted A K e gA)), (accum A K gA (weighted A K e gA)), (accum A K gB (weighted A K e gB)), (accum A K gB gA), (b1 + b2)%nat.
  intros fuel Hf. destruct (R1 fuel ltac:(lia)) as [R1a R1b]. destruct (R2 fuel ltac:(lia)) as [R2a R2b]. split; [|split; [|split]].
  - refine (eq_trans R1a (f_equal Ok _)). unfold numbers_of. apply lines_spec.
  - refine (eq_trans R1b (f_equal Ok _)). unfold numbers_of. apply lines_spec.
  - refine (eq_trans R2a (f_equal Ok _)). reflexivity.
  - refine (eq_trans R2b (f_equal Ok _)). reflexivity.
Qed.
Print Assumptions C116_ghosts.

(** ** A concrete pair of runs in fractions
    The calculations of [elt_disk false Some_energies] and calculations with counterpoise correction: four functions and
    two atoms each, HOMO of monomer 1 = orbital 2, LUMO of monomer 2 = orbital 3. *)
Definition gh_mono : list (ReaderSpec.item D) := elt_of false (occ_of Some_energies) (virt_of Some_energies) (eo_of Some_energies) (ev_of Some_energies) [carbon_1; carbon_2] [pt1; pt2].
Definition gh_rows1 : list (list str) := [[f0; f1; f0; f0]; [f1; f0; f0; f0]; [f0; f0; f1; f0]; [f0; f0; f0; f1]].
Definition gh_rows2 : list (list str) := [[f1; f0; f0; f0]; [f0; f0; f1; f0]; [f0; f0; f0; f1]; [f0; f1; f0; f0]].
Definition gh_disk : str -> option str :=
  six (file_of gh_mono) (file_of gh_mono) (file_of (elt_items false Some_energies)) (MainExample.the_pun gh_rows1) (MainExample.the_pun gh_rows2) (MainExample.the_pun (inverse_rows false)).
Definition gh_data : data D := mkData D (MainExample.vals gh_rows1) (MainExample.vals gh_rows2) (MainExample.vals (inverse_rows false)) (en_of Some_energies) (en_of Some_energies) (en_of Some_energies)
  2 2 2 [pt1; pt2] [pt1; pt2] [pt2; pt1] [2; 2] [2; 2] [2; 2] 4 (tri4_value false).
Ltac gh_says H R := apply elt_says; [apply begins_b; reflexivity|eline [$"-0.60000"; $"-0.50000"]|eline [$"0.10000"; $"0.20000"]|split; reflexivity|vm_compute; reflexivity|exact H|reflexivity|R].
Lemma gh_contain : contain D gh_disk (the_params true) gh_data.
Proof.
  exists SAlpha, SAlpha, SAlpha, gh_mono, gh_mono, (elt_items false Some_energies).
  split; [reflexivity|]. split; [reflexivity|]. split; [reflexivity|]. split; [disk_ok|]. split; [disk_ok|]. split; [disk_ok|].
  split; [gh_says (dot_log $"m1" eq_refl eq_refl) ltac:(constructor; [exact row1|constructor; [exact row2|constructor]])|].
  split; [gh_says (dot_log $"m2" eq_refl eq_refl) ltac:(constructor; [exact row1|constructor; [exact row2|constructor]])|]. split; [|apply elt_overlap]. gh_says (proj1 dot_dimer) ltac:(exact dimer_rows).
Qed.
Lemma gh_job : exists e, job fractions disk1 gh_disk cp_line (the_params true) e 2 3 /\ drel D fractions ExchangeExample.reads gh_data e.
Proof.
  destruct (request_params cp_line true cp_request) as [H1 H2].
  destruct (fractions_contain _ (the_params true) _ gh_contain) as (e & He & R). exists e. split; [|exact R]. constructor; [exact H1|exact H2|exact He| |].
  - apply (belong_para D fractions ExchangeExample.reads true _ e R). clear. belong_b; cbv; repeat split; discriminate.
  - apply (rows_para D fractions ExchangeExample.reads (the_params true) _ e 2 3 R). clear. split; reflexivity.
Qed.
Ltac four_of k H := change (1 <= k <= 4) in H; (assert (k = 1 \/ k = 2 \/ k = 3 \/ k = 4) as [->|[->|[->| ->]]] by (clear - H; lia)).
Lemma gh_related e e' : drel D fractions ExchangeExample.reads (elt_data false Some_energies) e -> drel D fractions ExchangeExample.reads gh_data e' ->
  lined_up fractions q_lab true e' true /\ ghosts fractions q_arith e e' 1 2 2 3.
Proof.
  intros R R'.
  pose proof (rows_frac _ _ (dr_c1 _ _ _ _ _ R) eq_refl) as C1. pose proof (rows_frac _ _ (dr_c2 _ _ _ _ _ R) eq_refl) as C2. pose proof (rows_frac _ _ (dr_cP _ _ _ _ _ R) eq_refl) as CP. pose proof (list_frac _ _ (dr_eP _ _ _ _ _ R) eq_refl) as EP.
  assert (C1' := rows_frac _ _ (dr_c1 _ _ _ _ _ R') eq_refl). assert (C2' := rows_frac _ _ (dr_c2 _ _ _ _ _ R') eq_refl). assert (CP' := rows_frac _ _ (dr_cP _ _ _ _ _ R') eq_refl).
  assert (EP' := list_frac _ _ (dr_eP _ _ _ _ _ R') eq_refl).
  pose proof (pts_frac _ _ (dr_a1 _ _ _ _ _ R) eq_refl) as A1. pose proof (pts_frac _ _ (dr_a2 _ _ _ _ _ R) eq_refl) as A2. pose proof (pts_frac _ _ (dr_aP _ _ _ _ _ R) eq_refl) as AP.
  pose proof (pts_frac _ _ (dr_a1 _ _ _ _ _ R') eq_refl) as A1'. pose proof (pts_frac _ _ (dr_a2 _ _ _ _ _ R') eq_refl) as A2'. pose proof (pts_frac _ _ (dr_aP _ _ _ _ _ R') eq_refl) as AP'.
  pose proof (dr_bP _ _ _ _ _ R) as BP. pose proof (dr_b1 _ _ _ _ _ R') as B1'. pose proof (dr_b2 _ _ _ _ _ R') as B2'. pose proof (dr_bP _ _ _ _ _ R') as BP'.
  pose proof (dr_n _ _ _ _ _ R) as Sn. pose proof (dr_n _ _ _ _ _ R') as Sn'. pose proof (dr_S _ _ _ _ _ R) as So. pose proof (dr_S _ _ _ _ _ R') as So'. split.
  - clear So So' CP CP' EP EP'. apply (lu_cp fractions q_lab true e' [1; 2] [2; 1]); rewrite <- ?B1', <- ?B2', <- ?BP', <- ?Sn', ?A1', ?A2', ?AP'; try reflexivity; try discriminate;
      [repeat constructor; lia|repeat constructor; lia|apply ffinds_b; vm_compute; reflexivity|apply ffinds_b; vm_compute; reflexivity|order_b|order_b].
  - constructor; rewrite ?C1, ?C2, ?CP, ?C1', ?C2', ?CP', ?EP, ?EP', ?A1, ?A2, ?AP, ?A1', ?A2', ?AP', <- ?BP, <- ?BP', <- ?Sn, <- ?Sn'.
    + split; [reflexivity|]. split; [reflexivity|]. split; reflexivity.
    + intros c Hc. four_of c Hc; apply Qc_is_canon, Qeq_bool_eq; vm_compute; reflexivity.
    + intros c Hc. four_of c Hc; apply Qc_is_canon, Qeq_bool_eq; vm_compute; reflexivity.
    + split; [reflexivity|]. split; [intros k Hk; reflexivity|intros k c Hk Hc; reflexivity].
    + split; [reflexivity|]. intros i j Hj Hi. rewrite (So i j Hj Hi), (So' i j Hj Hi); [reflexivity| |]; change (size D (elt_data false Some_energies)) with 4 in Hi; change (over D (elt_data false Some_energies)) with (tri4_value false); change (over D gh_data) with (tri4_value false); clear - Hj Hi; apply Z.leb_le;
      assert (i = 1 \/ i = 2 \/ i = 3 \/ i = 4) as [->|[->|[->| ->]]] by lia; (assert (j = 1 \/ j = 2 \/ j = 3 \/ j = 4) as [->|[->|[->| ->]]] by lia); vm_compute; reflexivity.
Qed.
Definition gh_run : outcome (num fractions) := main disk1 fractions q_arith q_lab gh_disk 3000 ($"calc_J" :: words cp_line).
Example C116_example :
  (exists e e', job fractions disk1 (elt_disk false Some_energies) the_line (the_params false) e 1 2 /\ lined_up fractions q_lab false e true /\
     job fractions disk1 gh_disk cp_line (the_params true) e' 2 3 /\ lined_up fractions q_lab true e' true /\ ghosts fractions q_arith e e' 1 2 2 3) /\
  elt_run false Some_energies = Ok (Q2Qc (-477 # 2500)) /\ gh_run = Ok (Q2Qc (-477 # 2500)).
Proof.
  split.
  - destruct (elt_job false Some_energies) as (e & J & R). destruct gh_job as (e' & J' & R'). exists e, e'. destruct (gh_related e e' R R') as (L & G).
    destruct (elt_fields false e R) as (F1 & F2 & F3 & F5 & F6 & F7). split; [exact J|]. split; [exact F7|]. split; [exact J'|]. split; [exact L|exact G].
  - split; apply runs_are; vm_compute; reflexivity.
Qed.
