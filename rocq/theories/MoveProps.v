(** * Property C112: the positions of the molecules *)
From Coq Require Import QArith Qcanon.
From Verif Require Import QcOrder QcFinal QcProps QcExact.
From Verif Require Import MixProps LevelsRun LevelsExample LevelsProps MoveRun MoveExample.
From Verif Require Import ParserWf ParserCheck CatnipProps ReaderProps ReaderPunProps.
From Verif Require Import MainExample MainProps OutputProps AccPara ExchangeExample ExchangeProps PhaseProps.
From Verif Require Export QcSpec Exact.
From Verif Require Export ReaderModel MainSpec ContentSpec PhaseSpec LevelsSpec MoveSpec.
Import ReaderExample.
From Verif Require Export StrSpec StrModel.
Open Scope Z_scope.

(** In any arithmetic: the positions of the atoms only serve to recognise the atoms of the monomers in the dimer.  If
    all atoms are found where they were, the value is the same, bit for bit, and so is the report after its heading. *)
Theorem C112_positions : forall E E' N A pr h version lab disk disk' (prog prog' : str) l l' p p' d d' r1 r2 r1' r2' u,
  job N E disk l p d r1 r2 -> lined_up N lab (counterPoise p) d u -> job N E' disk' l' p' d' r1' r2' -> counterPoise p' = counterPoise p ->
  atoms_moved N lab (counterPoise p) d d' r1 r2 r1' r2' ->
  exists bound J report, forall fuel, (bound <= fuel)%nat ->
    main E N A lab disk fuel (prog :: words l) = Ok J /\ main E' N A lab disk' fuel (prog' :: words l') = Ok J /\
    main_output N A pr h version E lab disk fuel (prog :: words l) = Ok (heading version p ++ report, advice u) /\
    main_output N A pr h version E' lab disk' fuel (prog' :: words l') = Ok (heading version p' ++ report, advice u).
Proof.
  intros E E' N A pr h version lab disk disk' prog prog' l l' p p' d d' r1 r2 r1' r2' u Hj Hl Hj' Hcp Hm.
  destruct (moved_run N A lab E disk prog l p d r1 r2 u Hj Hl) as (gA & gB & H).
  assert (V0 : atoms_moved N lab (counterPoise p) d d r1 r2 r1 r2).
  { constructor; auto; try (split; auto); try (destruct (counterPoise p); split; auto). }
  destruct (H _ (lines_of_run N A pr h version) E disk prog l p d r1 r2 (lines_same N A pr h version p) Hj eq_refl V0) as (b1 & X1). destruct (H _ (J_of_run A) E disk prog l p d r1 r2 (fun _ _ => eq_refl) Hj eq_refl V0) as (b2 & X2).
  destruct (H _ (lines_of_run N A pr h version) E' disk' prog' l' p' d' r1' r2' (lines_same N A pr h version p') Hj' Hcp Hm) as (b3 & X3). destruct (H _ (J_of_run A) E' disk' prog' l' p' d' r1' r2' (fun _ _ => eq_refl) Hj' Hcp Hm) as (b4 & X4). clear H.
  unfold numbers_of in X1, X2, X3, X4. exists (b1 + b2 + b3 + b4)%nat. do 2 eexists. intros fuel Hf.
  split; [exact (X2 fuel ltac:(lia))|]. split; [exact (X4 fuel ltac:(lia))|].
  split; [refine (eq_trans (X1 fuel ltac:(lia)) (f_equal Ok (lines_spec N A pr h version p u _ _ _ _)))|refine (eq_trans (X3 fuel ltac:(lia)) (f_equal Ok (lines_spec N A pr h version p' u _ _ _ _)))].
Qed.
Print Assumptions C112_positions.

(** ** Concrete runs in fractions *)
Lemma mov_job : exists e, job fractions disk1 mov_disk the_line (the_params false) e 1 2 /\ drel D fractions ExchangeExample.reads mov_data e.
Proof.
  destruct (request_params the_line false the_request) as [H1 H2].
  destruct (fractions_contain _ (the_params false) _ mov_contain) as (e & He & R). exists e. split; [|exact R]. constructor; [exact H1|exact H2|exact He| |].
  - apply (belong_para D fractions ExchangeExample.reads false _ e R). clear. belong_b; cbv; repeat split; discriminate.
  - apply (rows_para D fractions ExchangeExample.reads (the_params false) _ e 1 2 R). clear. split; reflexivity.
Qed.
Lemma found_once {T} (lab : T -> str) n q q' k ord : finds lab 3 n q q' [k] -> length ord = 1%nat -> finds lab 3 n q q' ord -> ord = [k].
Proof.
  intros H HL H'. destruct ord as [|k' [|]]; try discriminate HL. f_equal. destruct (H 1 k eq_refl ltac:(lia)) as (_ & Q). destruct (H' 1 k' eq_refl ltac:(lia)) as (K & Q'). apply Q; [exact K|]. apply Q'; [exact K|reflexivity].
Qed.
Example C112_example :
  (exists e e', job fractions disk1 (lev_disk Some_energies) the_line (the_params false) e 1 2 /\ lined_up fractions q_lab false e true /\ job fractions disk1 mov_disk the_line (the_params false) e' 1 2 /\
     atoms_moved fractions q_lab false e e' 1 2 1 2 /\ at1 fractions e' <> at1 fractions e) /\
  lev_run Some_energies = Ok (Q2Qc (-3 # 100)) /\ main disk1 fractions q_arith q_lab mov_disk 3000 ($"calc_J" :: words the_line) = Ok (Q2Qc (-3 # 100)).
Proof.
  split.
  - destruct (lev_job Some_energies) as (e & J & R). destruct mov_job as (e' & J' & R'). exists e, e'.
    pose proof (rows_frac _ _ (dr_c1 _ _ _ _ _ R) eq_refl) as C1. pose proof (rows_frac _ _ (dr_c2 _ _ _ _ _ R) eq_refl) as C2. pose proof (rows_frac _ _ (dr_cP _ _ _ _ _ R) eq_refl) as CP. pose proof (list_frac _ _ (dr_eP _ _ _ _ _ R) eq_refl) as EP.
    assert (C1' := rows_frac _ _ (dr_c1 _ _ _ _ _ R') eq_refl). assert (C2' := rows_frac _ _ (dr_c2 _ _ _ _ _ R') eq_refl). assert (CP' := rows_frac _ _ (dr_cP _ _ _ _ _ R') eq_refl). assert (EP' := list_frac _ _ (dr_eP _ _ _ _ _ R') eq_refl).
    pose proof (pts_frac _ _ (dr_a1 _ _ _ _ _ R) eq_refl) as A1. pose proof (pts_frac _ _ (dr_a2 _ _ _ _ _ R) eq_refl) as A2. pose proof (pts_frac _ _ (dr_aP _ _ _ _ _ R) eq_refl) as AP.
    pose proof (pts_frac _ _ (dr_a1 _ _ _ _ _ R') eq_refl) as A1'. pose proof (pts_frac _ _ (dr_a2 _ _ _ _ _ R') eq_refl) as A2'. pose proof (pts_frac _ _ (dr_aP _ _ _ _ _ R') eq_refl) as AP'.
    pose proof (dr_b1 _ _ _ _ _ R) as B1. pose proof (dr_b2 _ _ _ _ _ R) as B2. pose proof (dr_bP _ _ _ _ _ R) as BP. pose proof (dr_b1 _ _ _ _ _ R') as B1'. pose proof (dr_b2 _ _ _ _ _ R') as B2'. pose proof (dr_bP _ _ _ _ _ R') as BP'.
    pose proof (dr_n _ _ _ _ _ R) as Sn. pose proof (dr_n _ _ _ _ _ R') as Sn'. pose proof (dr_S _ _ _ _ _ R) as So. pose proof (dr_S _ _ _ _ _ R') as So'.
    split; [exact J|]. split; [|split; [exact J'|]]; clear J J' R R'.
    + apply (lu_plain fractions q_lab false e [2] [1]); rewrite <- ?B1, <- ?B2, <- ?BP, <- ?Sn, ?A1, ?A2, ?AP; try reflexivity; try discriminate; [repeat constructor; lia|apply ffinds_b; vm_compute; reflexivity|apply ffinds_b; vm_compute; reflexivity|order_b].
    + split; [|rewrite A1, A1'; intros Q; injection Q as Q; revert Q; discriminate].
      constructor; rewrite ?C1, ?C2, ?CP, ?C1', ?C2', ?CP', ?EP, ?EP', ?A1, ?A2, ?AP, ?A1', ?A2', ?AP', <- ?B1, <- ?B2, <- ?BP, <- ?B1', <- ?B2', <- ?BP', <- ?Sn, <- ?Sn'.
      * intros k Hk. reflexivity.
      * split; [reflexivity|]. intros. reflexivity.
      * split; [reflexivity|]. intros. reflexivity.
      * split; [reflexivity|]. intros. reflexivity.
      * split; [reflexivity|]. intros i j Hj Hi. rewrite (So i j Hj Hi), (So' i j Hj Hi); [reflexivity| |]; change (size D (lev_data Some_energies)) with 4 in Hi; change (over D (lev_data Some_energies)) with tri_value; change (over D mov_data) with tri_value; clear - Hj Hi; apply Z.leb_le;
          assert (i = 1 \/ i = 2 \/ i = 3 \/ i = 4) as [->|[->|[->| ->]]] by lia; (assert (j = 1 \/ j = 2 \/ j = 3 \/ j = 4) as [->|[->|[->| ->]]] by lia); vm_compute; reflexivity.
      * split; [reflexivity|split; reflexivity].
      * split; [reflexivity|]. split; [reflexivity|]. intros ord HL Ho. assert (E : ord = [2]) by (refine (found_once _ _ _ _ 2 ord _ _ Ho); [apply ffinds_b; vm_compute; reflexivity|change (count ord = 1) in HL; unfold count in HL; lia]). rewrite E. apply ffinds_b; vm_compute; reflexivity.
      * split; [reflexivity|]. split; [reflexivity|]. intros ord HL Ho. assert (E : ord = [1]) by (refine (found_once _ _ _ _ 1 ord _ _ Ho); [apply ffinds_b; vm_compute; reflexivity|change (count ord = 1) in HL; unfold count in HL; lia]). rewrite E. apply ffinds_b; vm_compute; reflexivity.
  - split; apply runs_are; vm_compute; reflexivity.
Qed.
