(** * Properties C107 (matrix elements) and C108 (monomers that do not interact) *)
From Coq Require Import QArith Qcanon.
From Verif Require Import QcOrder QcFinal QcProps QcExact.
From Verif Require Import MixProps LevelsRun LevelsExample LevelsProps ElementRun ElementExample.
From Verif Require Import ParserWf ParserCheck CatnipProps ReaderProps ReaderPunProps.
From Verif Require Import MainExample MainProps OutputProps AccPara ExchangeExample ExchangeProps PhaseProps.
From Verif Require Export QcSpec Exact.
From Verif Require Export ReaderModel MainSpec ContentSpec PhaseSpec LevelsSpec ElementSpec.
Import ReaderExample.
From Verif Require Export StrSpec StrModel.
Open Scope Z_scope.

(** Exact arithmetic.  If the orbitals of the dimer's calculation are those of the operator F with the energies
    listed, and complete, then J_ab, e_a, e_b and S_ab are the matrix elements <1|F|2>, <1|F|1>, <2|F|2> and <1|S|2>
    of the two requested orbitals of the monomers. *)
Theorem C107_elements : forall E N A opp inv pr h version lab disk (prog : str) l p d r1 r2 u, exact_arith A opp inv ->
  job N E disk l p d r1 r2 -> lined_up N lab (counterPoise p) d u -> complete A (size N d) (count (coefP N d)) (symmetric N (over N d)) (table N (coefP N d)) ->
  exists w1 w2, in_dimer N A lab (counterPoise p) d r1 r2 w1 w2 u /\ forall F,
    orbitals_of A (size N d) (count (coefP N d)) F (symmetric N (over N d)) (table N (coefP N d)) (entry N (enP N d)) ->
    exists bound, forall fuel, (bound <= fuel)%nat ->
      main_output N A pr h version E lab disk fuel (prog :: words l) =
        Ok (heading version p ++ result_lines A pr h (element A (size N d) F w1 w2) (element A (size N d) F w1 w1) (element A (size N d) F w2 w2) (element A (size N d) (symmetric N (over N d)) w1 w2), advice u) /\
      main E N A lab disk fuel (prog :: words l) =
        Ok (J_eff A (element A (size N d) F w1 w2) (element A (size N d) F w1 w1) (element A (size N d) F w2 w2) (element A (size N d) (symmetric N (over N d)) w1 w2)).
Proof.
  intros E N A opp inv pr h version lab disk prog l p d r1 r2 u HA Hj Hl Hc. destruct (elements_run N A opp inv HA lab E disk prog l p d r1 r2 u Hj Hl Hc) as (w1 & w2 & Hw & H). exists w1, w2. split; [exact Hw|].
  intros F HF. assert (V0 : levels N (fun e => e) d d r1 r2 r1 r2) by (constructor; auto; split; auto).
  destruct (H _ (lines_of_run N A pr h version) F _ E disk prog l p d r1 r2 (lines_same N A pr h version p) Hj eq_refl V0 HF) as (b1 & R1).
  destruct (H _ (J_of_run A) F _ E disk prog l p d r1 r2 (fun _ _ => eq_refl) Hj eq_refl V0 HF) as (b2 & R2). clear H.
  exists (b1 + b2)%nat. intros fuel Hf. split; [refine (eq_trans (R1 fuel ltac:(lia)) (f_equal Ok (lines_spec N A pr h version p u _ _ _ _)))|exact (R2 fuel ltac:(lia))].
Qed.
Print Assumptions C107_elements.

Section Laws.
Context {T : Type} (A : arith T) (opp inv : T -> T) (HA : exact_arith A opp inv).
Let FT := ea_field A opp inv HA.
Add Field TFQ : FT.
Notation "x * y" := (a_mul A x y).
Lemma zero_l x : a_zero A * x = a_zero A. Proof. ring. Qed.
Lemma zero_r x : x * a_zero A = a_zero A. Proof. ring. Qed.
Lemma J_eff_none a b : J_eff A (a_zero A) a b (a_zero A) = a_zero A.
Proof. unfold J_eff. rewrite (Fdiv_def FT). ring. Qed.
Lemma apart_zero n K left S P w1 w2 : 0 <= n -> apart A n K left S P w1 w2 -> forall k, 1 <= k <= K ->
  overlap_with A (Z.to_nat n) S P w1 k * overlap_with A (Z.to_nat n) S P w2 k = a_zero A.
Proof.
  intros Hn [HS HP H1 H2] k Hk. destruct (HP k Hk) as (side & Hs).
  assert (Z0 : forall (w : Z -> T), (forall c, 1 <= c <= n -> left c = side -> w c = a_zero A) -> overlap_with A (Z.to_nat n) S P w k = a_zero A).
  { intros w Hw. unfold overlap_with. rewrite (sum_ext A (Z.to_nat n) _ (fun _ => a_zero A)), (sum_zero A opp inv HA); [reflexivity|]. intros l Hl0.
    rewrite (sum_ext A (Z.to_nat n) _ (fun _ => a_zero A)), (sum_zero A opp inv HA); [reflexivity|]. intros m Hm.
    destruct (Bool.bool_dec (left l) side) as [El|El]; [rewrite (Hw l) by (auto; lia); ring|].
    destruct (Bool.bool_dec (left m) side) as [Em|Em]; [rewrite (HS l m) by (try lia; congruence); ring|rewrite (Hs m) by (auto; lia); ring]. }
  destruct side.
  - rewrite (Z0 w2); [apply zero_r|]. intros c Hc E. exact (H2 c Hc E).
  - rewrite (Z0 w1); [apply zero_l|]. intros c Hc E. exact (H1 c Hc E).
Qed.
Lemma numbers_apart {R} (f : T -> T -> T -> T -> R) K e gA gB : (forall k, 1 <= k <= Z.of_nat K -> gA k * gB k = a_zero A) ->
  exists a b, forall R (f : T -> T -> T -> T -> R), numbers_of A f K e gA gB = f (a_zero A) a b (a_zero A).
Proof.
  intros H. eexists _, _. intros R' f'. unfold numbers_of.
  assert (E1 : accum A K gB (weighted A K e gA) = a_zero A).
  { rewrite (quad_exact A opp inv HA), (sum_ext A K _ (fun _ => a_zero A)), (sum_zero A opp inv HA); [reflexivity|]. intros k Hk. rewrite (H k Hk). ring. }
  assert (E2 : accum A K gB gA = a_zero A).
  { rewrite (accum_sum A), (sum_ext A K _ (fun _ => a_zero A)), (sum_zero A opp inv HA); [reflexivity|]. intros k Hk. rewrite <- (H k Hk). ring. }
  rewrite E1, E2. reflexivity.
Qed.
End Laws.

(** In particular, if the orbitals of the dimer are complete and the two orbitals of the monomers are normalised,
    the zero of the energies does not matter to the value. *)
Theorem C107_zero : forall E N A opp inv lab disk (prog : str) l p d r1 r2 u, exact_arith A opp inv -> a_add A (a_one A) (a_one A) <> a_zero A ->
  job N E disk l p d r1 r2 -> lined_up N lab (counterPoise p) d u -> complete A (size N d) (count (coefP N d)) (symmetric N (over N d)) (table N (coefP N d)) ->
  exists w1 w2, in_dimer N A lab (counterPoise p) d r1 r2 w1 w2 u /\
    (element A (size N d) (symmetric N (over N d)) w1 w1 = a_one A -> element A (size N d) (symmetric N (over N d)) w2 w2 = a_one A ->
     forall c E' disk' prog' l' p' d' r1' r2', job N E' disk' l' p' d' r1' r2' -> counterPoise p' = counterPoise p -> levels N (fun e => a_add A e c) d d' r1 r2 r1' r2' ->
     exists bound, forall fuel, (bound <= fuel)%nat -> exists J,
       main E N A lab disk fuel (prog :: words l) = Ok J /\ main E' N A lab disk' fuel (prog' :: words l') = Ok J).
Proof.
  intros E N A opp inv lab disk prog l p d r1 r2 u HA H2 Hj Hl Hc.
  destruct (levels_run N A lab E disk prog l p d r1 r2 u Hj Hl) as (gA & gB & Hsh & H). destruct (shape_in_dimer N A opp inv HA lab _ _ _ _ _ _ _ Hsh) as (w1 & w2 & Hw & G1 & G2).
  exists w1, w2. split; [exact Hw|]. intros N1 N2 c E' disk' prog' l' p' d' r1' r2' Hj' Hcp Hv.
  assert (V0 : levels N (fun e => e) d d r1 r2 r1 r2) by (constructor; auto; split; auto).
  destruct (H _ (J_of_run A) _ E disk prog l p d r1 r2 (fun _ _ => eq_refl) Hj eq_refl V0) as (b1 & R1). destruct (H _ (J_of_run A) _ E' disk' prog' l' p' d' r1' r2' (fun _ _ => eq_refl) Hj' Hcp Hv) as (b2 & R2). clear H.
  assert (Hn : 0 <= size N d). { pose proof (be_w _ _ _ (jb_fit _ _ _ _ _ _ _ _ Hj)) as Q. clear -Q. destruct (counterPoise p); unfold width in Q; lia. }
  assert (Hs : forall i j, 1 <= i <= size N d -> 1 <= j <= size N d -> symmetric N (over N d) i j = symmetric N (over N d) j i) by (intros i j _ _; unfold symmetric; rewrite Z.max_comm, Z.min_comm; reflexivity).
  assert (Hk : Z.to_nat (count (coefP N d)) = length (coefP N d)) by (unfold count; lia).
  assert (Na : sum A (length (coefP N d)) (fun k => a_mul A (gA k) (gA k)) = a_one A).
  { rewrite <- N1, <- (overlap_sum A opp inv HA (size N d) (count (coefP N d)) _ (table N (coefP N d)) w1 w1 Hn ltac:(unfold count; lia) Hs Hc), Hk. apply sum_ext. intros k _. rewrite !G1. reflexivity. }
  assert (Nb : sum A (length (coefP N d)) (fun k => a_mul A (gB k) (gB k)) = a_one A).
  { rewrite <- N2, <- (overlap_sum A opp inv HA (size N d) (count (coefP N d)) _ (table N (coefP N d)) w2 w2 Hn ltac:(unfold count; lia) Hs Hc), Hk. apply sum_ext. intros k _. rewrite !G2. reflexivity. }
  exists (b1 + b2)%nat. intros fuel Hf. exists (numbers_of A (J_eff A) (length (coefP N d)) (entry N (enP N d)) gA gB). split; [exact (R1 fuel ltac:(lia))|].
  refine (eq_trans (R2 fuel ltac:(lia)) (f_equal Ok _)). unfold J_of_run.
  rewrite (numbers_affine A opp inv HA (J_eff A) _ (entry N (enP N d)) (entry N (enP N d')) gA gB (a_one A) c).
  2:{ intros k Hk0. rewrite (lv_e _ _ _ _ _ _ _ _ Hv) by (unfold count; exact Hk0). apply (affine_p A opp inv HA). }
  rewrite (numbers_affine A opp inv HA (J_eff A) _ (entry N (enP N d)) (entry N (enP N d)) gA gB (a_one A) (a_zero A)).
  2:{ intros k Hk0. apply (affine_e A opp inv HA). }
  rewrite Na, Nb, !(affine_i A opp inv HA), !(affine_n A opp inv HA), !(affine_c A opp inv HA). apply (J_eff_shifted A opp inv HA). exact H2.
Qed.
Print Assumptions C107_zero.

(** Monomers that do not touch each other in the dimer have no coupling: J_ab, S_ab and the value are zero. *)
Theorem C108_apart : forall E N A opp inv pr h version lab disk (prog : str) l p d r1 r2 u, exact_arith A opp inv ->
  job N E disk l p d r1 r2 -> lined_up N lab (counterPoise p) d u ->
  exists w1 w2, in_dimer N A lab (counterPoise p) d r1 r2 w1 w2 u /\
    forall left, apart A (size N d) (count (coefP N d)) left (symmetric N (over N d)) (table N (coefP N d)) w1 w2 ->
    exists e_a e_b bound, forall fuel, (bound <= fuel)%nat ->
      main_output N A pr h version E lab disk fuel (prog :: words l) = Ok (heading version p ++ result_lines A pr h (a_zero A) e_a e_b (a_zero A), advice u) /\
      main E N A lab disk fuel (prog :: words l) = Ok (a_zero A).
Proof.
  intros E N A opp inv pr h version lab disk prog l p d r1 r2 u HA Hj Hl.
  destruct (levels_run N A lab E disk prog l p d r1 r2 u Hj Hl) as (gA & gB & Hsh & H). destruct (shape_in_dimer N A opp inv HA lab _ _ _ _ _ _ _ Hsh) as (w1 & w2 & Hw & G1 & G2).
  exists w1, w2. split; [exact Hw|]. intros left Ha.
  assert (V0 : levels N (fun e => e) d d r1 r2 r1 r2) by (constructor; auto; split; auto).
  destruct (H _ (lines_of_run N A pr h version) _ E disk prog l p d r1 r2 (lines_same N A pr h version p) Hj eq_refl V0) as (b1 & R1).
  destruct (H _ (J_of_run A) _ E disk prog l p d r1 r2 (fun _ _ => eq_refl) Hj eq_refl V0) as (b2 & R2). clear H.
  assert (Hn : 0 <= size N d). { pose proof (be_w _ _ _ (jb_fit _ _ _ _ _ _ _ _ Hj)) as Q. clear -Q. destruct (counterPoise p); unfold width in Q; lia. }
  destruct (numbers_apart A opp inv HA (@tuple_of (num N)) (length (coefP N d)) (entry N (enP N d)) gA gB) as (a & b & Q).
  { intros k Hk. rewrite G1, G2. apply (apart_zero A opp inv HA _ (count (coefP N d)) left); auto. }
  exists a, b, (b1 + b2)%nat. intros fuel Hf. split.
  - refine (eq_trans (R1 fuel ltac:(lia)) (f_equal Ok _)). rewrite Q. apply lines_spec.
  - refine (eq_trans (R2 fuel ltac:(lia)) (f_equal Ok _)). rewrite Q. apply (J_eff_none A opp inv HA).
Qed.
Print Assumptions C108_apart.

(** ** Concrete runs in fractions *)
Lemma elt_job far c : exists e, job fractions disk1 (elt_disk far c) the_line (the_params false) e 1 2 /\ drel D fractions ExchangeExample.reads (elt_data far c) e.
Proof.
  destruct (request_params the_line false the_request) as [H1 H2].
  destruct (fractions_contain _ (the_params false) _ (elt_contain far c)) as (e & He & R). exists e. split; [|exact R]. constructor; [exact H1|exact H2|exact He| |].
  - apply (belong_para D fractions ExchangeExample.reads false _ e R). clear. destruct far, c; belong_b; cbv; repeat split; discriminate.
  - apply (rows_para D fractions ExchangeExample.reads (the_params false) _ e 1 2 R). clear. destruct far, c; split; reflexivity.
Qed.
Definition lower (far : bool) (i j : Z) : Qc := frac (tri4_value far i j).
Definition S4 (far : bool) : Z -> Z -> Qc := symmetric fractions (lower far).
Definition P4 (far : bool) : Z -> Z -> Qc := table fractions (map (map frac) (MainExample.vals (inverse_rows far))).
Definition e4 : Z -> Qc := entry fractions (map frac (en_of Some_energies)).
(** the operator: sum_k e_k (S P_k) (S P_k)^T *)
Definition SP (k i : Z) : Qc := sum q_arith 4 (fun j => Qcmult (S4 false i j) (P4 false k j)).
Definition F4 (i j : Z) : Qc := sum q_arith 4 (fun k => Qcmult (e4 k) (Qcmult (SP k i) (SP k j))).
Lemma elt_fields far e : drel D fractions ExchangeExample.reads (elt_data far Some_energies) e ->
  size fractions e = 4 /\ count (coefP fractions e) = 4 /\ (forall k c, table fractions (coefP fractions e) k c = P4 far k c) /\ (forall k, entry fractions (enP fractions e) k = e4 k) /\
  (forall i j, 1 <= i <= 4 -> 1 <= j <= 4 -> symmetric fractions (over fractions e) i j = S4 far i j) /\ lined_up fractions q_lab false e true.
Proof.
  intros R. assert (CP : coefP fractions e = map (map frac) (MainExample.vals (inverse_rows far))) by (apply (rows_frac _ _ (dr_cP _ _ _ _ _ R)); destruct far; reflexivity).
  pose proof (list_frac _ _ (dr_eP _ _ _ _ _ R) eq_refl) as EP.
  pose proof (pts_frac _ _ (dr_a1 _ _ _ _ _ R) eq_refl) as A1. pose proof (pts_frac _ _ (dr_a2 _ _ _ _ _ R) eq_refl) as A2. pose proof (pts_frac _ _ (dr_aP _ _ _ _ _ R) eq_refl) as AP.
  pose proof (dr_b1 _ _ _ _ _ R) as B1. pose proof (dr_b2 _ _ _ _ _ R) as B2. pose proof (dr_bP _ _ _ _ _ R) as BP.
  pose proof (dr_n _ _ _ _ _ R) as Sn. pose proof (dr_S _ _ _ _ _ R) as So.
  split; [rewrite <- Sn; reflexivity|]. split; [rewrite CP; destruct far; reflexivity|]. split; [intros k c; rewrite CP; reflexivity|]. split; [intros k; rewrite EP; reflexivity|]. split.
  - intros i j Hi Hj. unfold S4, symmetric. assert (Hm : 1 <= Z.min i j <= Z.max i j /\ Z.max i j <= 4) by lia. revert Hm. generalize (Z.max i j) (Z.min i j). clear Hi Hj i j. intros i j [Hj Hi].
    rewrite (So i j Hj); [|exact Hi|].
    + reflexivity.
    + change (over D (elt_data far Some_energies)) with (tri4_value far). clear - Hj Hi. apply Z.leb_le.
      assert (i = 1 \/ i = 2 \/ i = 3 \/ i = 4) as [->|[->|[->| ->]]] by lia; (assert (j = 1 \/ j = 2 \/ j = 3 \/ j = 4) as [->|[->|[->| ->]]] by lia); destruct far; vm_compute; reflexivity.
  - clear So EP CP. apply (lu_plain fractions q_lab false e [2] [1]); rewrite <- ?B1, <- ?B2, <- ?BP, <- ?Sn, ?A1, ?A2, ?AP; try reflexivity; try discriminate; [repeat constructor; lia|apply ffinds_b; vm_compute; reflexivity|apply ffinds_b; vm_compute; reflexivity|order_b].
Qed.
(** basis function number [k] *)
Definition only (k : Z) (i : Z) : Qc := if i =? k then 1%Qc else 0%Qc.
Lemma moved_4 (w x : Z -> Qc) : (forall j, 1 <= j <= 2 -> x j = w (2 + j)) -> (forall j, 1 <= j <= 2 -> x (2 + j) = w j) -> blocks_moved [2; 2] [2; 1] (fun _ => w) (fun _ => x).
Proof.
  intros H1 H2 y i k j Hi Hk Hj. destruct (Z.to_nat (i - 1)) as [|[|n]] eqn:Ei; cbn [nth_error] in Hk.
  - assert (i = 1) as -> by lia. inversion Hk; subst k. change (size_of [2; 2] 2) with 2 in Hj. change (off (reordered [2; 2] [2; 1]) 1) with 0. change (off [2; 2] 2) with 2. apply H1, Hj.
  - assert (i = 2) as -> by lia. inversion Hk; subst k. change (size_of [2; 2] 1) with 2 in Hj. change (off (reordered [2; 2] [2; 1]) 2) with 2. change (off [2; 2] 1) with 0. apply H2, Hj.
  - destruct n; discriminate Hk.
Qed.
(** orbital 1 of monomer 1 is function 3 of the dimer, orbital 2 of monomer 2 is function 2 *)
Lemma elt_in_dimer far e : drel D fractions ExchangeExample.reads (elt_data far Some_energies) e -> in_dimer fractions q_arith q_lab false e 1 2 (only 3) (only 2) true.
Proof.
  intros R. pose proof (rows_frac _ _ (dr_c1 _ _ _ _ _ R) eq_refl) as C1. pose proof (rows_frac _ _ (dr_c2 _ _ _ _ _ R) eq_refl) as C2.
  pose proof (pts_frac _ _ (dr_a1 _ _ _ _ _ R) eq_refl) as A1. pose proof (pts_frac _ _ (dr_a2 _ _ _ _ _ R) eq_refl) as A2. pose proof (pts_frac _ _ (dr_aP _ _ _ _ _ R) eq_refl) as AP.
  pose proof (dr_b1 _ _ _ _ _ R) as B1. pose proof (dr_b2 _ _ _ _ _ R) as B2. pose proof (dr_bP _ _ _ _ _ R) as BP.
  apply (in_plain fractions q_arith q_lab false e 1 2 _ _ [2] [1]); unfold spread_1, spread_2; rewrite ?C1, ?C2, <- ?B1, <- ?B2, <- ?BP, ?A1, ?A2, ?AP; try reflexivity.
  - order_b.
  - apply ffinds_b; vm_compute; reflexivity.
  - apply ffinds_b; vm_compute; reflexivity.
  - apply moved_4; intros j Hj; (assert (j = 1 \/ j = 2) as [->| ->] by lia); apply Qc_is_canon, Qeq_bool_eq; vm_compute; reflexivity.
  - apply moved_4; intros j Hj; (assert (j = 1 \/ j = 2) as [->| ->] by lia); apply Qc_is_canon, Qeq_bool_eq; vm_compute; reflexivity.
Qed.
Lemma complete_b (Sx Px : Z -> Z -> Qc) :
  forallb (fun i => forallb (fun l => Qeq_bool (this (sum q_arith 4 (fun k => Qcmult (Px k (Z.of_nat i)) (sum q_arith 4 (fun j => Qcmult (Px k j) (Sx j (Z.of_nat l))))))) (if Nat.eqb i l then 1%Q else 0%Q)) (seq 1 4)) (seq 1 4) = true ->
  complete q_arith 4 4 Sx Px.
Proof.
  intros H i l Hi Hl. rewrite forallb_forall in H. specialize (H (Z.to_nat i) ltac:(apply in_seq; lia)). rewrite forallb_forall in H.
  specialize (H (Z.to_nat l) ltac:(apply in_seq; lia)). rewrite !Z2Nat.id in H by lia. apply Qeq_bool_eq in H.
  replace (Nat.eqb (Z.to_nat i) (Z.to_nat l)) with (i =? l) in H.
  2:{ destruct (Z.eqb_spec i l) as [->|Ne]; symmetry; [apply Nat.eqb_refl|apply Nat.eqb_neq; lia]. }
  apply Qc_is_canon. refine (Qeq_trans _ _ _ H _). destruct (i =? l); reflexivity.
Qed.
Definition elt_run (far : bool) (c : choice) : outcome (num fractions) := main disk1 fractions q_arith q_lab (elt_disk far c) 3000 ($"calc_J" :: words the_line).
Definition elt_four (far : bool) (c : choice) : outcome (num fractions * num fractions * num fractions * num fractions) := main_with disk1 fractions q_arith q_lab (elt_disk far c) (four fractions) 3000 ($"calc_J" :: words the_line).
Lemma elt_levels e e' : drel D fractions ExchangeExample.reads (elt_data false Some_energies) e -> drel D fractions ExchangeExample.reads (elt_data false Shifted) e' -> levels fractions (fun x => a_add q_arith x (Q2Qc (3 # 10))) e e' 1 2 1 2.
Proof.
  intros R R'.
  pose proof (rows_frac _ _ (dr_c1 _ _ _ _ _ R) eq_refl) as C1. pose proof (rows_frac _ _ (dr_c2 _ _ _ _ _ R) eq_refl) as C2. pose proof (rows_frac _ _ (dr_cP _ _ _ _ _ R) eq_refl) as CP. pose proof (list_frac _ _ (dr_eP _ _ _ _ _ R) eq_refl) as EP.
  assert (C1' := rows_frac _ _ (dr_c1 _ _ _ _ _ R') eq_refl). assert (C2' := rows_frac _ _ (dr_c2 _ _ _ _ _ R') eq_refl). assert (CP' := rows_frac _ _ (dr_cP _ _ _ _ _ R') eq_refl).
  assert (EP' := list_frac _ _ (dr_eP _ _ _ _ _ R') eq_refl).
  pose proof (pts_frac _ _ (dr_a1 _ _ _ _ _ R) eq_refl) as A1. pose proof (pts_frac _ _ (dr_a2 _ _ _ _ _ R) eq_refl) as A2. pose proof (pts_frac _ _ (dr_aP _ _ _ _ _ R) eq_refl) as AP.
  pose proof (pts_frac _ _ (dr_a1 _ _ _ _ _ R') eq_refl) as A1'. pose proof (pts_frac _ _ (dr_a2 _ _ _ _ _ R') eq_refl) as A2'. pose proof (pts_frac _ _ (dr_aP _ _ _ _ _ R') eq_refl) as AP'.
  pose proof (dr_b1 _ _ _ _ _ R) as B1. pose proof (dr_b2 _ _ _ _ _ R) as B2. pose proof (dr_bP _ _ _ _ _ R) as BP. pose proof (dr_b1 _ _ _ _ _ R') as B1'. pose proof (dr_b2 _ _ _ _ _ R') as B2'. pose proof (dr_bP _ _ _ _ _ R') as BP'.
  pose proof (dr_n _ _ _ _ _ R) as Sn. pose proof (dr_n _ _ _ _ _ R') as Sn'. pose proof (dr_S _ _ _ _ _ R) as So. pose proof (dr_S _ _ _ _ _ R') as So'.
  constructor; rewrite ?C1, ?C2, ?CP, ?C1', ?C2', ?CP', ?EP, ?EP', ?A1, ?A2, ?AP, ?A1', ?A2', ?AP', <- ?B1, <- ?B2, <- ?BP, <- ?B1', <- ?B2', <- ?BP', <- ?Sn, <- ?Sn'.
  - intros k Hk. change (1 <= k <= 4) in Hk. assert (k = 1 \/ k = 2 \/ k = 3 \/ k = 4) as [->|[->|[->| ->]]] by lia; apply Qc_is_canon, Qeq_bool_eq; vm_compute; reflexivity.
  - split; [reflexivity|]. intros. reflexivity.
  - split; [reflexivity|]. intros. reflexivity.
  - split; [reflexivity|]. intros. reflexivity.
  - split; [reflexivity|]. intros i j Hj Hi. rewrite (So i j Hj Hi), (So' i j Hj Hi); [reflexivity| |]; change (size D (elt_data false Some_energies)) with 4 in Hi; change (over D (elt_data false Some_energies)) with (tri4_value false); change (over D (elt_data false Shifted)) with (tri4_value false); clear - Hj Hi; apply Z.leb_le;
      assert (i = 1 \/ i = 2 \/ i = 3 \/ i = 4) as [->|[->|[->| ->]]] by lia; (assert (j = 1 \/ j = 2 \/ j = 3 \/ j = 4) as [->|[->|[->| ->]]] by lia); vm_compute; reflexivity.
  - split; [reflexivity|split; reflexivity].
  - split; [reflexivity|split; reflexivity].
Qed.
Section SameMatrices.
Context {T : Type} (A : arith T).
Lemma complete_same n K (S S' P P' : Z -> Z -> T) : 0 <= n -> 0 <= K -> (forall k c, P k c = P' k c) -> (forall i j, 1 <= i <= n -> 1 <= j <= n -> S i j = S' i j) -> complete A n K S' P' -> complete A n K S P.
Proof.
  intros Hn HK HP HS H i l Hi Hl. rewrite <- (H i l Hi Hl). apply sum_ext. intros k _. rewrite HP. f_equal. apply sum_ext. intros j Hj. rewrite HP, HS by lia. reflexivity.
Qed.
Lemma orbitals_same n K (F S S' P P' : Z -> Z -> T) e e' : 0 <= n -> 0 <= K -> (forall k c, P k c = P' k c) -> (forall i j, 1 <= i <= n -> 1 <= j <= n -> S i j = S' i j) -> (forall k, e k = e' k) -> orbitals_of A n K F S' P' e' -> orbitals_of A n K F S P e.
Proof.
  intros Hn HK HP HS He H k i Hk Hi. rewrite (sum_ext A _ _ (fun j => a_mul A (F i j) (P' k j))), (H k i Hk Hi), He; [|intros j _; rewrite HP; reflexivity]. f_equal. apply sum_ext. intros j Hj. rewrite HP, HS by lia. reflexivity.
Qed.
Lemma element_same n (S S' : Z -> Z -> T) w w' : 0 <= n -> (forall i j, 1 <= i <= n -> 1 <= j <= n -> S i j = S' i j) -> element A n S w w' = element A n S' w w'.
Proof. intros Hn HS. apply sum_ext. intros i Hi. f_equal. apply sum_ext. intros j Hj. rewrite HS by lia. reflexivity. Qed.
Lemma apart_same n K left (S S' P P' : Z -> Z -> T) w1 w2 : (forall k c, P k c = P' k c) -> (forall i j, 1 <= i <= n -> 1 <= j <= n -> S i j = S' i j) -> apart A n K left S' P' w1 w2 -> apart A n K left S P w1 w2.
Proof.
  intros HP HS [H1 H2 H3 H4]. constructor; auto.
  - intros i j Hi Hj Hd. rewrite HS by assumption. auto.
  - intros k Hk. destruct (H2 k Hk) as (side & H). exists side. intros c Hc Hd. rewrite HP. auto.
Qed.
End SameMatrices.
Lemma elt_orbitals : orbitals_of q_arith 4 4 F4 (S4 false) (P4 false) e4.
Proof.
  intros k i Hk Hi. refine (two_cells (fun k i => sum q_arith 4 (fun j => Qcmult (F4 i j) (P4 false k j))) (fun k i => Qcmult (e4 k) (sum q_arith 4 (fun j => Qcmult (S4 false i j) (P4 false k j)))) 4 4 _ k i Hk Hi).
  vm_compute. reflexivity.
Qed.
(** The dimer's orbitals solve F P = e S P with F = [F4] and are complete; e_a, e_b and S_ab of the run are elements of
    F and S.  With 0.3 added to the energies of the dimer the value is the same. *)
Example C107_example : exact_arith q_arith Qcopp Qcinv /\ a_add q_arith (a_one q_arith) (a_one q_arith) <> a_zero q_arith /\
  (exists e e', job fractions disk1 (elt_disk false Some_energies) the_line (the_params false) e 1 2 /\ job fractions disk1 (elt_disk false Shifted) the_line (the_params false) e' 1 2 /\ lined_up fractions q_lab false e true /\
     complete q_arith (size fractions e) (count (coefP fractions e)) (symmetric fractions (over fractions e)) (table fractions (coefP fractions e)) /\
     in_dimer fractions q_arith q_lab false e 1 2 (only 3) (only 2) true /\
     orbitals_of q_arith (size fractions e) (count (coefP fractions e)) F4 (symmetric fractions (over fractions e)) (table fractions (coefP fractions e)) (entry fractions (enP fractions e)) /\
     element q_arith (size fractions e) (symmetric fractions (over fractions e)) (only 3) (only 3) = 1%Qc /\ element q_arith (size fractions e) (symmetric fractions (over fractions e)) (only 2) (only 2) = 1%Qc /\
     levels fractions (fun x => a_add q_arith x (Q2Qc (3 # 10))) e e' 1 2 1 2) /\
  element q_arith 4 F4 (only 3) (only 2) = Q2Qc (-201 # 625) /\ element q_arith 4 F4 (only 3) (only 3) = Q2Qc (-403 # 3125) /\ element q_arith 4 F4 (only 2) (only 2) = Q2Qc (-67 # 125) /\
  elt_four false Some_energies = Ok (Q2Qc (-201 # 625), Q2Qc (-403 # 3125), Q2Qc (-67 # 125), Q2Qc (3 # 5)) /\
  elt_run false Some_energies = Ok (Q2Qc (-477 # 2500)) /\ elt_run false Shifted = Ok (Q2Qc (-477 # 2500)).
Proof.
  split; [exact qc_exact|]. split; [discriminate|]. split.
  - destruct (elt_job false Some_energies) as (e & J & R). destruct (elt_job false Shifted) as (e' & J' & R'). exists e, e'.
    destruct (elt_fields false e R) as (F1 & F2 & F3 & F5 & F6 & F7). split; [exact J|]. split; [exact J'|]. split; [exact F7|]. rewrite F1, F2.
    split; [apply (complete_same q_arith 4 4 _ (S4 false) _ (P4 false)); auto; try lia; apply complete_b; vm_compute; reflexivity|].
    split; [exact (elt_in_dimer false e R)|].
    split; [apply (orbitals_same q_arith 4 4 F4 _ (S4 false) _ (P4 false) _ e4); auto; try lia; exact elt_orbitals|].
    split; [rewrite (element_same q_arith 4 _ (S4 false)) by (auto; lia); apply Qc_is_canon, Qeq_bool_eq; vm_compute; reflexivity|].
    split; [rewrite (element_same q_arith 4 _ (S4 false)) by (auto; lia); apply Qc_is_canon, Qeq_bool_eq; vm_compute; reflexivity|].
    exact (elt_levels e e' R R').
  - split; [apply Qc_is_canon, Qeq_bool_eq; vm_compute; reflexivity|]. split; [apply Qc_is_canon, Qeq_bool_eq; vm_compute; reflexivity|]. split; [apply Qc_is_canon, Qeq_bool_eq; vm_compute; reflexivity|].
    split; [apply four_are_ok; vm_compute; reflexivity|]. split; apply runs_are; vm_compute; reflexivity.
Qed.
(** The same atoms too far from each other to overlap: functions 3 and 4 on the left, 1 and 2 on the right. *)
Example C108_example : exact_arith q_arith Qcopp Qcinv /\
  (exists e, job fractions disk1 (elt_disk true Some_energies) the_line (the_params false) e 1 2 /\ lined_up fractions q_lab false e true /\
     in_dimer fractions q_arith q_lab false e 1 2 (only 3) (only 2) true /\
     apart q_arith (size fractions e) (count (coefP fractions e)) (fun c => 3 <=? c) (symmetric fractions (over fractions e)) (table fractions (coefP fractions e)) (only 3) (only 2)) /\
  elt_four true Some_energies = Ok (Q2Qc 0, Q2Qc (632833 # 3906250), Q2Qc (-67 # 125), Q2Qc 0) /\ elt_run true Some_energies = Ok (Q2Qc 0).
Proof.
  split; [exact qc_exact|]. split.
  - destruct (elt_job true Some_energies) as (e & J & R). exists e. destruct (elt_fields true e R) as (F1 & F2 & F3 & F5 & F6 & F7).
    split; [exact J|]. split; [exact F7|]. split; [exact (elt_in_dimer true e R)|]. rewrite F1, F2. apply (apart_same q_arith 4 4 _ _ (S4 true) _ (P4 true)); auto. clear. constructor.
    + intros i j Hi Hj Hd. assert (i = 1 \/ i = 2 \/ i = 3 \/ i = 4) as [->|[->|[->| ->]]] by lia; (assert (j = 1 \/ j = 2 \/ j = 3 \/ j = 4) as [->|[->|[->| ->]]] by lia);
        try (exfalso; apply Hd; reflexivity); apply Qc_is_canon, Qeq_bool_eq; vm_compute; reflexivity.
    + intros k Hk. exists (3 <=? k). intros c Hc Hd. assert (k = 1 \/ k = 2 \/ k = 3 \/ k = 4) as [->|[->|[->| ->]]] by lia; (assert (c = 1 \/ c = 2 \/ c = 3 \/ c = 4) as [->|[->|[->| ->]]] by lia);
        try (exfalso; apply Hd; reflexivity); apply Qc_is_canon, Qeq_bool_eq; vm_compute; reflexivity.
    + intros c Hc Hd. assert (c = 1 \/ c = 2 \/ c = 3 \/ c = 4) as [->|[->|[->| ->]]] by lia; try discriminate Hd; reflexivity.
    + intros c Hc Hd. assert (c = 1 \/ c = 2 \/ c = 3 \/ c = 4) as [->|[->|[->| ->]]] by lia; try discriminate Hd; reflexivity.
  - split; [apply four_are_ok; vm_compute; reflexivity|apply runs_are; vm_compute; reflexivity].
Qed.
