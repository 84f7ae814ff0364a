(** * A concrete run for C114: one calculation given for both monomers

    The files of LowdinExample.v's dimer for all three molecules (counterpoise correction); in the orbitals of monomer 1
    the second and the third are exchanged, so that its HOMO is the LUMO of monomer 2. *)
From Coq Require Import QArith Qcanon.
From Verif Require Import QcOrder QcFinal QcProps QcExact.
From Verif Require Import MixProps LevelsRun LevelsExample LevelsProps ElementRun ElementExample ElementProps LowdinRun LowdinExample LowdinProps RangeRun RangeProps.
From Verif Require Import ParserWf ParserCheck CatnipProps ReaderProps ReaderPunProps.
From Verif Require Import MainExample MainProps OutputProps AccPara ExchangeExample ExchangeProps PhaseProps RangeSame.
From Verif Require Export QcSpec Exact.
From Verif Require Export ReaderModel MainSpec ContentSpec PhaseSpec LevelsSpec ElementSpec RangeSpec.
Import ReaderExample.
From Verif Require Export StrSpec StrModel.
Open Scope Z_scope.

Definition twin_rows : list (list str) := [nth 0 low_rows []; nth 2 low_rows []; nth 1 low_rows []; nth 3 low_rows []].
Definition twin_disk : str -> option str :=
  six (file_of low_items) (file_of low_items) (file_of low_items) (MainExample.the_pun twin_rows) (MainExample.the_pun low_rows) (MainExample.the_pun low_rows).
Definition twin_data : data D := mkData D (MainExample.vals twin_rows) (MainExample.vals low_rows) (MainExample.vals low_rows) low_en low_en low_en 2 2 2 [pt2; pt1] [pt2; pt1] [pt2; pt1] [2; 2] [2; 2] [2; 2] 4 tri5_value.
Ltac twin_says H := apply low_says; [apply begins_b; reflexivity|eline [$"-0.60000"; $"-0.50000"]|eline [$"0.50000"; $"0.84100"]|split; reflexivity|vm_compute; reflexivity|exact H|reflexivity|exact dimer_rows].
Lemma twin_contain : contain D twin_disk (the_params true) twin_data.
Proof.
  exists SAlpha, SAlpha, SAlpha, low_items, low_items, low_items.
  split; [reflexivity|]. split; [reflexivity|]. split; [reflexivity|]. split; [disk_ok|]. split; [disk_ok|]. split; [disk_ok|].
  split; [twin_says (dot_log $"m1" eq_refl eq_refl)|]. split; [twin_says (dot_log $"m2" eq_refl eq_refl)|]. split; [|apply low_overlap]. twin_says (proj1 dot_dimer).
Qed.
Lemma twin_job : exists e, job fractions disk1 twin_disk cp_line (the_params true) e 2 3 /\ drel D fractions ExchangeExample.reads twin_data e.
Proof.
  destruct (request_params cp_line true cp_request) as [H1 H2].
  destruct (fractions_contain _ (the_params true) _ twin_contain) as (e & He & R). exists e. split; [|exact R]. constructor; [exact H1|exact H2|exact He| |].
  - apply (belong_para D fractions ExchangeExample.reads true _ e R). clear. belong_b; cbv; repeat split; discriminate.
  - apply (rows_para D fractions ExchangeExample.reads (the_params true) _ e 2 3 R). clear. split; reflexivity.
Qed.
Lemma moved_id (f : Z -> Z -> Qc) : blocks_moved [2; 2] [1; 2] f f.
Proof.
  intros y i k j Hi Hk Hj. destruct (Z.to_nat (i - 1)) as [|[|n]] eqn:Ei; cbn [nth_error] in Hk.
  - assert (i = 1) as -> by lia. inversion Hk; subst k. reflexivity.
  - assert (i = 2) as -> by lia. inversion Hk; subst k. reflexivity.
  - destruct n; discriminate Hk.
Qed.
Definition w5 : Z -> Qc := P5 3.
Lemma twin_fields e : drel D fractions ExchangeExample.reads twin_data e ->
  size fractions e = 4 /\ count (coefP fractions e) = 4 /\ (forall k c, table fractions (coefP fractions e) k c = P5 k c) /\
  (forall i j, 1 <= i <= 4 -> 1 <= j <= 4 -> symmetric fractions (over fractions e) i j = S5 i j) /\ lined_up fractions q_lab true e true /\
  in_dimer fractions q_arith q_lab true e 2 3 w5 w5 true.
Proof.
  intros R. assert (CP : coefP fractions e = map (map frac) (MainExample.vals low_rows)) by (apply (rows_frac _ _ (dr_cP _ _ _ _ _ R)); reflexivity).
  pose proof (rows_frac _ _ (dr_c1 _ _ _ _ _ R) eq_refl) as C1. pose proof (rows_frac _ _ (dr_c2 _ _ _ _ _ R) eq_refl) as C2.
  pose proof (pts_frac _ _ (dr_a1 _ _ _ _ _ R) eq_refl) as A1. pose proof (pts_frac _ _ (dr_a2 _ _ _ _ _ R) eq_refl) as A2. pose proof (pts_frac _ _ (dr_aP _ _ _ _ _ R) eq_refl) as AP.
  pose proof (dr_b1 _ _ _ _ _ R) as B1. pose proof (dr_b2 _ _ _ _ _ R) as B2. pose proof (dr_bP _ _ _ _ _ R) as BP.
  pose proof (dr_n _ _ _ _ _ R) as Sn. pose proof (dr_S _ _ _ _ _ R) as So.
  split; [rewrite <- Sn; reflexivity|]. split; [rewrite CP; reflexivity|]. split; [intros k c; rewrite CP; reflexivity|]. split; [|split].
  - intros i j Hi Hj. unfold S5, symmetric. assert (Hm : 1 <= Z.min i j <= Z.max i j /\ Z.max i j <= 4) by lia. revert Hm. generalize (Z.max i j) (Z.min i j). clear Hi Hj i j. intros i j [Hj Hi].
    rewrite (So i j Hj); [|exact Hi|].
    + reflexivity.
    + change (over D twin_data) with tri5_value. clear - Hj Hi. apply Z.leb_le.
      assert (i = 1 \/ i = 2 \/ i = 3 \/ i = 4) as [->|[->|[->| ->]]] by lia; (assert (j = 1 \/ j = 2 \/ j = 3 \/ j = 4) as [->|[->|[->| ->]]] by lia); vm_compute; reflexivity.
  - clear So CP. apply (lu_cp fractions q_lab true e [1; 2] [1; 2]); rewrite <- ?B1, <- ?B2, <- ?BP, <- ?Sn, ?A1, ?A2, ?AP; try reflexivity; try discriminate; [repeat constructor; lia|repeat constructor; lia|apply ffinds_b; vm_compute; reflexivity|apply ffinds_b; vm_compute; reflexivity|order_b|order_b].
  - clear So CP. apply (in_cp fractions q_arith q_lab true e 2 3 _ _ [1; 2] [1; 2] (table fractions (coef2 fractions e))); rewrite ?C1, ?C2, <- ?B1, <- ?B2, <- ?BP, ?A1, ?A2, ?AP; try reflexivity.
    + order_b.
    + order_b.
    + apply ffinds_b; vm_compute; reflexivity.
    + apply ffinds_b; vm_compute; reflexivity.
    + apply moved_id.
    + exact (moved_id (fun _ => w5)).
    + exact (moved_id (fun _ => w5)).
Qed.
Definition twin_run : outcome (num fractions) := main disk1 fractions q_arith q_lab twin_disk 3000 ($"calc_J" :: words cp_line).
Example C114_example : exact_arith q_arith Qcopp Qcinv /\ a_add q_arith (a_one q_arith) (a_one q_arith) <> a_zero q_arith /\
  (exists e, job fractions disk1 twin_disk cp_line (the_params true) e 2 3 /\ lined_up fractions q_lab true e true /\ let n := size fractions e in let S := symmetric fractions (over fractions e) in
     complete q_arith n (count (coefP fractions e)) S (table fractions (coefP fractions e)) /\
     in_dimer fractions q_arith q_lab true e 2 3 w5 w5 true /\ element q_arith n S w5 w5 = 1%Qc /\ same_up_to_sign q_arith n w5 w5) /\
  twin_run = Ok (a_div q_arith (a_zero q_arith) (a_zero q_arith)).
Proof.
  split; [exact qc_exact|]. split; [discriminate|]. split.
  - destruct twin_job as (e & J & R). exists e. destruct (twin_fields e R) as (F1 & F2 & F3 & F7 & F8 & F9). split; [exact J|]. split; [exact F8|]. cbv zeta. rewrite F1, F2.
    split; [apply (complete_same q_arith 4 4 _ S5 _ P5); auto; try lia; apply complete_b; vm_compute; reflexivity|].
    split; [exact F9|]. split; [rewrite (element_same q_arith 4 _ S5 w5 w5) by (auto; lia); apply qc_by; vm_compute; reflexivity|left; reflexivity].
  - apply runs_are. vm_compute. reflexivity.
Qed.
