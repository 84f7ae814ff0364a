(** * Property C105: combinations of the dimer's orbitals *)
From Coq Require Import QArith Qcanon.
From Verif Require Import QcOrder QcFinal QcProps QcExact.
From Verif Require Import MixRun MixExample.
From Verif Require Import ParserWf ParserCheck CatnipProps ReaderProps ReaderPunProps.
From Verif Require Import MainExample MainProps OutputProps AccPara ExchangeExample ExchangeProps PhaseProps.
From Verif Require Export QcSpec Exact.
From Verif Require Export ReaderModel MainSpec ContentSpec PhaseSpec MixSpec.
Import ReaderExample.
From Verif Require Export StrSpec StrModel.
Open Scope Z_scope.

(** Exact arithmetic.  The second run (other files, another command line) reads a calculation of the dimer
    whose orbitals are combinations of the first one's, among orbitals of equal energies: the same value. *)
Theorem C105_value : forall E E' N A opp inv lab disk disk' prog prog' l l' p p' d d' r1 r2 r1' r2' U u, exact_arith A opp inv ->
  clean_line E l -> asks E l p -> clean_line E' l' -> asks E' l' p' -> counterPoise p' = counterPoise p ->
  contain N disk p d -> contain N disk' p' d' -> belong N (counterPoise p) d -> belong N (counterPoise p) d' -> rows_asked N p d r1 r2 -> rows_asked N p' d' r1' r2' ->
  lined_up N lab (counterPoise p) d u -> combined N A U d d' r1 r2 r1' r2' ->
  exists bound, forall fuel, (bound <= fuel)%nat -> exists J,
    main E N A lab disk fuel (prog :: words l) = Ok J /\ main E' N A lab disk' fuel (prog' :: words l') = Ok J.
Proof.
  intros E E' N A opp inv lab disk disk' prog prog' l l' p p' d d' r1 r2 r1' r2' U u HA H1 H2 H3 H4 H5 H6 H7 H8 H9 H10 H11 H12 H13.
  destruct (mix_run N A opp inv HA lab (num N) (J_of_run A) (fun _ _ _ => eq_refl) E E' disk disk' prog prog' l l' p p' d d' r1 r2 r1' r2' U u H1 H2 H3 H4 H5 H6 H7 H8 H9 H10 H11 H12 H13) as (bound & H).
  exists bound. intros fuel Hf. destruct (H fuel Hf) as (j & a & b & t & Q1 & Q2). exists (J_eff A j a b t). split; [exact Q1|exact Q2].
Qed.
Print Assumptions C105_value.
(** All that follows the heading, which names the files, is the same, and so is the advice. *)
Theorem C105_report : forall E E' N A opp inv pr h version lab disk disk' prog prog' l l' p p' d d' r1 r2 r1' r2' U u, exact_arith A opp inv ->
  clean_line E l -> asks E l p -> clean_line E' l' -> asks E' l' p' -> counterPoise p' = counterPoise p ->
  contain N disk p d -> contain N disk' p' d' -> belong N (counterPoise p) d -> belong N (counterPoise p) d' -> rows_asked N p d r1 r2 -> rows_asked N p' d' r1' r2' ->
  lined_up N lab (counterPoise p) d u -> combined N A U d d' r1 r2 r1' r2' ->
  exists bound, forall fuel, (bound <= fuel)%nat -> exists results,
    main_output N A pr h version E lab disk fuel (prog :: words l) = Ok (heading version p ++ results, advice u) /\
    main_output N A pr h version E' lab disk' fuel (prog' :: words l') = Ok (heading version p' ++ results, advice u).
Proof.
  intros E E' N A opp inv pr h version lab disk disk' prog prog' l l' p p' d d' r1 r2 r1' r2' U u HA H1 H2 H3 H4 H5 H6 H7 H8 H9 H10 H11 H12 H13.
  destruct (mix_run N A opp inv HA lab _ (lines_of_run N A pr h version) (lines_same N A pr h version) E E' disk disk' prog prog' l l' p p' d d' r1 r2 r1' r2' U u H1 H2 H3 H4 H5 H6 H7 H8 H9 H10 H11 H12 H13) as (bound & H).
  exists bound. intros fuel Hf. destruct (H fuel Hf) as (j & a & b & t & Q1 & Q2). rewrite !lines_spec in Q1, Q2.
  exists (result_lines A pr h j a b t). split; [exact Q1|exact Q2].
Qed.
Print Assumptions C105_report.

Section Unit.
Context {T : Type} (A : arith T) (opp inv : T -> T) (HA : exact_arith A opp inv).
Let FT := ea_field A opp inv HA.
Add Field TFU : FT.
Lemma mul_one x : a_mul A (a_one A) x = x. Proof. ring. Qed.
Lemma mul_zero x : a_mul A (a_zero A) x = a_zero A. Proof. ring. Qed.
End Unit.
(** In particular the dimer's orbitals may be listed, with their energies, in any other order:
    number k of the second list is number [sg k] of the first. *)
Lemma relisted_combined N A opp inv (sg tau : Z -> Z) (d d' : data N) r1 r2 : exact_arith A opp inv -> count (coefP N d') = count (coefP N d) ->
  (forall k, 1 <= k <= count (coefP N d) -> 1 <= sg k <= count (coefP N d) /\ 1 <= tau k <= count (coefP N d) /\ sg (tau k) = k /\ tau (sg k) = k) ->
  (forall k c, 1 <= k <= count (coefP N d) -> 1 <= c <= size N d -> table N (coefP N d') k c = table N (coefP N d) (sg k) c) ->
  (forall k, 1 <= k <= count (coefP N d) -> entry N (enP N d') k = entry N (enP N d) (sg k)) ->
  coef1 N d' = coef1 N d -> coef2 N d' = coef2 N d -> size N d' = size N d -> over N d' = over N d ->
  at1 N d' = at1 N d -> at2 N d' = at2 N d -> atP N d' = atP N d -> ba1 N d' = ba1 N d -> ba2 N d' = ba2 N d -> baP N d' = baP N d ->
  combined N A (fun k m => if sg k =? m then a_one A else a_zero A) d d' r1 r2 r1 r2.
Proof.
  intros HA Hc Hs HP He E1 E2 ES EO X1 X2 XP Y1 Y2 YP.
  pose proof (mul_one A opp inv HA) as M1. pose proof (mul_zero A opp inv HA) as M0.
  assert (L : forall X (l : list X), Z.of_nat (length l) = count l) by reflexivity.
  constructor; rewrite ?Hc.
  - intros k c Hk Hcc. rewrite (HP k c Hk Hcc). destruct (Hs k Hk) as (S1 & _). symmetry. rewrite (sum_single A opp inv HA _ _ (sg k)).
    + rewrite Z.eqb_refl. apply M1.
    + rewrite L. exact S1.
    + intros m Hm Hne. destruct (Z.eqb_spec (sg k) m); [congruence|]. apply M0.
  - intros m n Hm Hn. destruct (Hs m Hm) as (_ & T1 & T2 & _). rewrite (sum_single A opp inv HA _ _ (tau m)).
    + rewrite T2, Z.eqb_refl. apply M1.
    + rewrite L, Hc. exact T1.
    + intros k Hk Hne. rewrite L, Hc in Hk. destruct (Z.eqb_spec (sg k) m) as [Q|Q]; [|apply M0]. destruct (Hs k Hk) as (_ & _ & _ & T4). congruence.
  - intros k m Hk Hm. destruct (Z.eqb_spec (sg k) m) as [<-|Q]; [rewrite (He k Hk); reflexivity|]. rewrite !M0. reflexivity.
  - rewrite E1. split; reflexivity.
  - rewrite E2. split; reflexivity.
  - rewrite ES, EO. split; [reflexivity|]. intros. reflexivity.
  - auto.
  - auto.
Qed.
Theorem C105_order : forall E E' N A opp inv lab disk disk' prog prog' l l' p p' d d' r1 r2 sg tau u, exact_arith A opp inv ->
  clean_line E l -> asks E l p -> clean_line E' l' -> asks E' l' p' -> counterPoise p' = counterPoise p ->
  contain N disk p d -> contain N disk' p' d' -> belong N (counterPoise p) d -> belong N (counterPoise p) d' -> rows_asked N p d r1 r2 -> rows_asked N p' d' r1 r2 ->
  lined_up N lab (counterPoise p) d u -> count (coefP N d') = count (coefP N d) ->
  (forall k, 1 <= k <= count (coefP N d) -> 1 <= sg k <= count (coefP N d) /\ 1 <= tau k <= count (coefP N d) /\ sg (tau k) = k /\ tau (sg k) = k) ->
  (forall k c, 1 <= k <= count (coefP N d) -> 1 <= c <= size N d -> table N (coefP N d') k c = table N (coefP N d) (sg k) c) ->
  (forall k, 1 <= k <= count (coefP N d) -> entry N (enP N d') k = entry N (enP N d) (sg k)) ->
  coef1 N d' = coef1 N d -> coef2 N d' = coef2 N d -> size N d' = size N d -> over N d' = over N d ->
  at1 N d' = at1 N d -> at2 N d' = at2 N d -> atP N d' = atP N d -> ba1 N d' = ba1 N d -> ba2 N d' = ba2 N d -> baP N d' = baP N d ->
  exists bound, forall fuel, (bound <= fuel)%nat -> exists J,
    main E N A lab disk fuel (prog :: words l) = Ok J /\ main E' N A lab disk' fuel (prog' :: words l') = Ok J.
Proof.
  intros E E' N A opp inv lab disk disk' prog prog' l l' p p' d d' r1 r2 sg tau u HA H1 H2 H3 H4 H5 H6 H7 H8 H9 H10 H11 H12. intros.
  eapply (C105_value E E' N A opp inv lab disk disk' prog prog' l l' p p' d d' r1 r2 r1 r2 _ u HA H1 H2 H3 H4 H5 H6 H7 H8 H9 H10 H11 H12).
  apply (relisted_combined N A opp inv sg tau d d' r1 r2 HA); assumption.
Qed.
Print Assumptions C105_order.

(** ** Concrete runs in fractions: orbitals 1 and 2 of the dimer, of equal energies, rotated; orbital 4 with the other sign *)
Definition rotation (k m : Z) : Qc :=
  if (k =? 1) && (m =? 1) then Q2Qc (3 # 5) else if (k =? 1) && (m =? 2) then Q2Qc (4 # 5)
  else if (k =? 2) && (m =? 1) then Q2Qc (-4 # 5) else if (k =? 2) && (m =? 2) then Q2Qc (3 # 5)
  else if (k =? 3) && (m =? 3) then 1%Qc else if (k =? 4) && (m =? 4) then Q2Qc (-1) else 0%Qc.
Definition the_pair (o o' : outcome (num fractions)) : bool :=
  match the_value o, the_value o' with Some q, Some q' => Qeq_bool q' q && negb (Qeq_bool q 0%Q) | _, _ => false end.
Lemma two_cells (f g : Z -> Z -> Qc) n m : forallb (fun k => forallb (fun c => Qeq_bool (this (f (Z.of_nat k) (Z.of_nat c))) (this (g (Z.of_nat k) (Z.of_nat c)))) (seq 1 m)) (seq 1 n) = true ->
  forall k c, 1 <= k <= Z.of_nat n -> 1 <= c <= Z.of_nat m -> f k c = g k c.
Proof.
  intros H k c Hk Hc. rewrite forallb_forall in H. specialize (H (Z.to_nat k) ltac:(apply in_seq; lia)). rewrite forallb_forall in H.
  specialize (H (Z.to_nat c) ltac:(apply in_seq; lia)). rewrite !Z2Nat.id in H by lia. apply Qc_is_canon, Qeq_bool_eq, H.
Qed.
Example C105_example : exact_arith q_arith Qcopp Qcinv /\ clean_line disk1 the_line /\ asks disk1 the_line (the_params false) /\
  (exists e e', contain fractions (deg_disk P_rows) (the_params false) e /\ contain fractions (deg_disk mix_rows) (the_params false) e' /\ belong fractions false e /\ belong fractions false e' /\
     rows_asked fractions (the_params false) e 1 2 /\ rows_asked fractions (the_params false) e' 1 2 /\ lined_up fractions q_lab false e true /\
     combined fractions q_arith rotation e e' 1 2 1 2) /\
  exists J, main disk1 fractions q_arith q_lab (deg_disk P_rows) 3000 ($"calc_J" :: words the_line) = Ok J /\ this J <> 0%Q /\
            main disk1 fractions q_arith q_lab (deg_disk mix_rows) 3000 ($"calc_J" :: words the_line) = Ok J.
Proof.
  destruct (request_params the_line false the_request) as [H1 H2]. split; [exact qc_exact|]. split; [exact H1|]. split; [exact H2|]. split.
  - destruct (fractions_contain _ (the_params false) _ (deg_contain P_rows (or_introl eq_refl))) as (e & He & R). destruct (fractions_contain _ (the_params false) _ (deg_contain mix_rows (or_intror eq_refl))) as (e' & He' & R'). exists e, e'.
    split; [exact He|]. split; [exact He'|].
    split; [apply (belong_para D fractions ExchangeExample.reads false _ e R); belong_b; cbv; repeat split; discriminate|].
    split; [apply (belong_para D fractions ExchangeExample.reads false _ e' R'); belong_b; cbv; repeat split; discriminate|].
    split; [apply (rows_para D fractions ExchangeExample.reads (the_params false) _ e 1 2 R); split; reflexivity|].
    split; [apply (rows_para D fractions ExchangeExample.reads (the_params false) _ e' 1 2 R'); split; reflexivity|].
    pose proof (rows_frac _ _ (dr_c1 _ _ _ _ _ R) eq_refl) as C1. pose proof (rows_frac _ _ (dr_c2 _ _ _ _ _ R) eq_refl) as C2. pose proof (rows_frac _ _ (dr_cP _ _ _ _ _ R) eq_refl) as CP. pose proof (list_frac _ _ (dr_eP _ _ _ _ _ R) eq_refl) as EP.
    pose proof (rows_frac _ _ (dr_c1 _ _ _ _ _ R') eq_refl) as C1'. pose proof (rows_frac _ _ (dr_c2 _ _ _ _ _ R') eq_refl) as C2'. pose proof (rows_frac _ _ (dr_cP _ _ _ _ _ R') eq_refl) as CP'. pose proof (list_frac _ _ (dr_eP _ _ _ _ _ R') eq_refl) as EP'.
    pose proof (pts_frac _ _ (dr_a1 _ _ _ _ _ R) eq_refl) as A1. pose proof (pts_frac _ _ (dr_a2 _ _ _ _ _ R) eq_refl) as A2. pose proof (pts_frac _ _ (dr_aP _ _ _ _ _ R) eq_refl) as AP.
    pose proof (pts_frac _ _ (dr_a1 _ _ _ _ _ R') eq_refl) as A1'. pose proof (pts_frac _ _ (dr_a2 _ _ _ _ _ R') eq_refl) as A2'. pose proof (pts_frac _ _ (dr_aP _ _ _ _ _ R') eq_refl) as AP'.
    pose proof (dr_b1 _ _ _ _ _ R) as B1. pose proof (dr_b2 _ _ _ _ _ R) as B2. pose proof (dr_bP _ _ _ _ _ R) as BP. pose proof (dr_b1 _ _ _ _ _ R') as B1'. pose proof (dr_b2 _ _ _ _ _ R') as B2'. pose proof (dr_bP _ _ _ _ _ R') as BP'.
    pose proof (dr_n _ _ _ _ _ R) as Sn. pose proof (dr_n _ _ _ _ _ R') as Sn'. pose proof (dr_S _ _ _ _ _ R) as So. pose proof (dr_S _ _ _ _ _ R') as So'.
    split.
    + apply (lu_plain fractions q_lab false e [2] [1]); rewrite <- ?B1, <- ?B2, <- ?BP, <- ?Sn, ?A1, ?A2, ?AP; try reflexivity; try discriminate; [repeat constructor; lia|apply ffinds_b; vm_compute; reflexivity|apply ffinds_b; vm_compute; reflexivity|order_b].
    + constructor; rewrite ?C1, ?C2, ?CP, ?C1', ?C2', ?CP', ?EP, ?EP', ?A1, ?A2, ?AP, ?A1', ?A2', ?AP', <- ?B1, <- ?B2, <- ?BP, <- ?B1', <- ?B2', <- ?BP', <- ?Sn, <- ?Sn'.
      * apply (two_cells _ _ 4 4). vm_compute. reflexivity.
      * apply (two_cells _ _ 4 4). vm_compute. reflexivity.
      * apply (two_cells _ _ 4 4). vm_compute. reflexivity.
      * split; [reflexivity|]. intros. reflexivity.
      * split; [reflexivity|]. intros. reflexivity.
      * split; [reflexivity|]. intros i j Hj Hi. rewrite (So i j Hj Hi), (So' i j Hj Hi); [reflexivity| |]; change (size D (deg_data P_rows)) with 4 in Hi; change (over D (deg_data P_rows)) with tri_value; change (over D (deg_data mix_rows)) with tri_value; clear - Hj Hi; apply Z.leb_le;
          assert (i = 1 \/ i = 2 \/ i = 3 \/ i = 4) as [->|[->|[->| ->]]] by lia; (assert (j = 1 \/ j = 2 \/ j = 3 \/ j = 4) as [->|[->|[->| ->]]] by lia); vm_compute; reflexivity.
      * split; [reflexivity|split; reflexivity].
      * split; [reflexivity|split; reflexivity].
  - assert (G : forall o o' : outcome (num fractions), the_pair o o' = true -> exists J, o = Ok J /\ this J <> 0%Q /\ o' = Ok J).
    { clear. intros o o' H. unfold the_pair in H. destruct o as [J| | | |]; try discriminate H. destruct o' as [J'| | | |]; try discriminate H. cbn [the_value] in H. apply andb_true_iff in H as [Ha Hb]. exists J. split; [reflexivity|]. split.
      - intros Z0. rewrite Z0 in Hb. discriminate Hb.
      - f_equal. apply Qc_is_canon. apply Qeq_bool_eq. exact Ha. }
    apply G. vm_compute. reflexivity.
Qed.
