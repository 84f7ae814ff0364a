(** * Property C117: J_ab and S_ab are linear in the orbitals of the monomers *)
From Coq Require Import QArith Qcanon.
From Verif Require Import QcOrder QcFinal QcProps QcExact.
From Verif Require Import MixProps LevelsRun LevelsExample LevelsProps ElementRun ElementExample ElementProps SuperRun.
From Verif Require Import ParserWf ParserCheck CatnipProps ReaderProps ReaderPunProps.
From Verif Require Import MainExample MainProps OutputProps AccPara ExchangeExample ExchangeProps PhaseProps.
From Verif Require Export QcSpec Exact.
From Verif Require Export ReaderModel MainSpec ContentSpec PhaseSpec LevelsSpec ElementSpec SuperSpec.
Import ReaderExample.
From Verif Require Export StrSpec StrModel.
Open Scope Z_scope.

Section Linear.
Context {T : Type} (A : arith T) (opp inv : T -> T) (HA : exact_arith A opp inv).
Let FT := ea_field A opp inv HA.
Add Field TFSu : FT.
Notation "x + y" := (a_add A x y). Notation "x * y" := (a_mul A x y).
Lemma projection_linear n fS fP (a b : T) z z' z'' k : (forall c, 1 <= c <= Z.of_nat n -> z'' c = a * z c + b * z' c) ->
  projection A n fS fP z'' k = a * projection A n fS fP z k + b * projection A n fS fP z' k.
Proof.
  intros H. rewrite !(projection_exact A opp inv HA). unfold overlap_with. rewrite <- !(sum_scale_l A opp inv HA), <- (sum_add A opp inv HA). apply sum_ext. intros l Hl.
  rewrite <- !(sum_scale_l A opp inv HA), <- (sum_add A opp inv HA). apply sum_ext. intros m _. rewrite (H l Hl). ring.
Qed.
Lemma quad_linear_l n e (a b : T) g g' g'' h : (forall k, 1 <= k <= Z.of_nat n -> g'' k = a * g k + b * g' k) ->
  accum A n h (weighted A n e g'') = a * accum A n h (weighted A n e g) + b * accum A n h (weighted A n e g').
Proof.
  intros H. rewrite !(quad_exact A opp inv HA), <- !(sum_scale_l A opp inv HA), <- (sum_add A opp inv HA). apply sum_ext. intros k Hk. rewrite (H k Hk). ring.
Qed.
Lemma quad_linear_r n e (a b : T) g h h' h'' : (forall k, 1 <= k <= Z.of_nat n -> h'' k = a * h k + b * h' k) ->
  accum A n h'' (weighted A n e g) = a * accum A n h (weighted A n e g) + b * accum A n h' (weighted A n e g).
Proof.
  intros H. rewrite !(quad_exact A opp inv HA), <- !(sum_scale_l A opp inv HA), <- (sum_add A opp inv HA). apply sum_ext. intros k Hk. rewrite (H k Hk). ring.
Qed.
Lemma accum_linear_l n (a b : T) g g' g'' h : (forall k, 1 <= k <= Z.of_nat n -> g'' k = a * g k + b * g' k) -> accum A n h g'' = a * accum A n h g + b * accum A n h g'.
Proof.
  intros H. rewrite !(accum_sum A), <- !(sum_scale_l A opp inv HA), <- (sum_add A opp inv HA). apply sum_ext. intros k Hk. rewrite (H k Hk). ring.
Qed.
Lemma accum_linear_r n (a b : T) g h h' h'' : (forall k, 1 <= k <= Z.of_nat n -> h'' k = a * h k + b * h' k) -> accum A n h'' g = a * accum A n h g + b * accum A n h' g.
Proof.
  intros H. rewrite !(accum_sum A), <- !(sum_scale_l A opp inv HA), <- (sum_add A opp inv HA). apply sum_ext. intros k Hk. rewrite (H k Hk). ring.
Qed.
Lemma two_zeros (a b : T) : a * a_zero A + b * a_zero A = a_zero A.
Proof. ring. Qed.
End Linear.
Lemma size_of_job N E disk l p d r1 r2 : job N E disk l p d r1 r2 -> 0 <= size N d.
Proof. intros Hj. pose proof (be_w _ _ _ (jb_fit _ _ _ _ _ _ _ _ Hj)) as Q. destruct (counterPoise p); unfold width in Q; lia. Qed.
(** what one run prints and yields *)
Definition run_gives N (A : arith (num N)) pr (h : num N) (version : str) E lab disk fuel (prog : str) l p u (J_ab e_a e_b S_ab : num N) : Prop :=
  main_output N A pr h version E lab disk fuel (prog :: words l) = Ok (heading version p ++ result_lines A pr h J_ab e_a e_b S_ab, advice u) /\
  main E N A lab disk fuel (prog :: words l) = Ok (J_eff A J_ab e_a e_b S_ab).

(** Exact arithmetic.  Three runs with the same dimer and the same orbital of monomer 2; the orbital of monomer 1 of the
    third is a times that of the first plus b times that of the second: so are J_ab and S_ab, and e_b is the same. *)
Theorem C117_first : forall N A opp inv pr h version lab, exact_arith A opp inv -> forall (a b : num N) u,
  forall E disk (prog : str) l p d r1 r2 E' disk' (prog' : str) l' p' d' r1' r2' E'' disk'' (prog'' : str) l'' p'' d'' r1'' r2'',
  job N E disk l p d r1 r2 -> lined_up N lab (counterPoise p) d u -> job N E' disk' l' p' d' r1' r2' -> job N E'' disk'' l'' p'' d'' r1'' r2'' ->
  counterPoise p' = counterPoise p -> counterPoise p'' = counterPoise p -> other_orbitals N d d' -> other_orbitals N d d'' ->
  same_orbital N (coef2 N d) (coef2 N d') r2 r2' -> same_orbital N (coef2 N d) (coef2 N d'') r2 r2'' -> combined N A a b (coef1 N d) (coef1 N d') (coef1 N d'') r1 r1' r1'' ->
  exists J_ab e_a S_ab J_ab' e_a' S_ab' e_a'' e_b bound, forall fuel, (bound <= fuel)%nat ->
    run_gives N A pr h version E lab disk fuel prog l p u J_ab e_a e_b S_ab /\ run_gives N A pr h version E' lab disk' fuel prog' l' p' u J_ab' e_a' e_b S_ab' /\
    run_gives N A pr h version E'' lab disk'' fuel prog'' l'' p'' u (a_add A (a_mul A a J_ab) (a_mul A b J_ab')) e_a'' e_b (a_add A (a_mul A a S_ab) (a_mul A b S_ab')).
Proof.
  intros N A opp inv pr h version lab HA a b u E disk prog l p d r1 r2 E' disk' prog' l' p' d' r1' r2' E'' disk'' prog'' l'' p'' d'' r1'' r2'' Hj Hl Hj' Hj'' Hcp Hcp' Ho Ho' S2 S2' Hc.
  assert (V0 : other_orbitals N d d) by (constructor; auto; split; auto).
  destruct (super_run N A lab E disk prog l p d r1 r2 u Hj Hl) as (fS & fP & pl1 & pl2 & L1 & L2 & H).
  destruct (H E disk prog l p d r1 r2 Hj eq_refl V0) as (z1 & z2 & P1 & P2 & R). destruct (H E' disk' prog' l' p' d' r1' r2' Hj' Hcp Ho) as (z1' & z2' & P1' & P2' & R').
  destruct (H E'' disk'' prog'' l'' p'' d'' r1'' r2'' Hj'' Hcp' Ho') as (z1'' & z2'' & P1'' & P2'' & R''). clear H.
  assert (F0 : a_add A (a_mul A a (a_zero A)) (a_mul A b (a_zero A)) = a_zero A) by exact (two_zeros A opp inv HA a b).
  assert (N0 : 0 <= size N d) by exact (size_of_job N E disk l p d r1 r2 Hj).
  destruct (R _ (lines_of_run N A pr h version) (lines_same N A pr h version p)) as (b1 & Q1). destruct (R _ (J_of_run A) (fun _ _ => eq_refl)) as (b2 & Q2).
  destruct (R' _ (lines_of_run N A pr h version) (lines_same N A pr h version p')) as (b3 & Q3). destruct (R' _ (J_of_run A) (fun _ _ => eq_refl)) as (b4 & Q4).
  destruct (R'' _ (lines_of_run N A pr h version) (lines_same N A pr h version p'')) as (b5 & Q5). destruct (R'' _ (J_of_run A) (fun _ _ => eq_refl)) as (b6 & Q6). clear R R' R''.
  set (K := length (coefP N d)) in *. set (e := entry N (enP N d)) in *. set (n := Z.to_nat (size N d)) in *.
  set (gA := projection A n fS fP z1) in *. set (gB := projection A n fS fP z2) in *. set (gA' := projection A n fS fP z1') in *. set (gB' := projection A n fS fP z2') in *.
  set (gA'' := projection A n fS fP z1'') in *. set (gB'' := projection A n fS fP z2'') in *.
  assert (X1 : forall k, gA'' k = a_add A (a_mul A a (gA k)) (a_mul A b (gA' k))).
  { intros k. apply (projection_linear A opp inv HA). intros c Hc0. apply (L1 (fun x y => a_add A (a_mul A a x) (a_mul A b y)) _ _ _ _ _ _ F0 P1 P1' P1''); [exact Hc|unfold n in Hc0; lia]. }
  assert (X2 : forall k, gB' k = gB k).
  { intros k. apply (projection_ext A); try reflexivity. intros c Hc0. apply (L2 (fun x _ => x) _ _ _ _ _ _ eq_refl P2 P2 P2'); [exact (proj2 S2)|unfold n in Hc0; lia]. }
  assert (X3 : forall k, gB'' k = gB k).
  { intros k. apply (projection_ext A); try reflexivity. intros c Hc0. apply (L2 (fun x _ => x) _ _ _ _ _ _ eq_refl P2 P2 P2''); [exact (proj2 S2')|unfold n in Hc0; lia]. }
  assert (Y' : forall X (f : num N -> num N -> num N -> num N -> X), numbers_of A f K e gA' gB' = numbers_of A f K e gA' gB) by (intros; apply numbers_ext; intros; [reflexivity|apply X2]).
  assert (Y'' : forall X (f : num N -> num N -> num N -> num N -> X), numbers_of A f K e gA'' gB'' = numbers_of A f K e gA'' gB) by (intros; apply numbers_ext; intros; [reflexivity|apply X3]).
  exists (accum A K gB (weighted A K e gA)), (accum A K gA (weighted A K e gA)), (accum A K gB gA), (accum A K gB (weighted A K e gA')), (accum A K gA' (weighted A K e gA')), (accum A K gB gA'),
    (accum A K gA'' (weighted A K e gA'')), (accum A K gB (weighted A K e gB)), (b1 + b2 + b3 + b4 + b5 + b6)%nat.
  rewrite <- (quad_linear_l A opp inv HA K e a b gA gA' gA'' gB (fun k _ => X1 k)), <- (accum_linear_l A opp inv HA K a b gA gA' gA'' gB (fun k _ => X1 k)).
  intros fuel Hf. split; [split|split; split].
  - refine (eq_trans (Q1 fuel ltac:(lia)) (f_equal Ok _)). unfold numbers_of. apply lines_spec.
  - refine (eq_trans (Q2 fuel ltac:(lia)) (f_equal Ok _)). reflexivity.
  - refine (eq_trans (Q3 fuel ltac:(lia)) (f_equal Ok _)). rewrite Y'. unfold numbers_of. apply lines_spec.
  - refine (eq_trans (Q4 fuel ltac:(lia)) (f_equal Ok _)). rewrite Y'. reflexivity.
  - refine (eq_trans (Q5 fuel ltac:(lia)) (f_equal Ok _)). rewrite Y''. unfold numbers_of. apply lines_spec.
  - refine (eq_trans (Q6 fuel ltac:(lia)) (f_equal Ok _)). rewrite Y''. reflexivity.
Qed.
Print Assumptions C117_first.

(** Exact arithmetic.  Three runs with the same dimer and the same orbital of monomer 1; the orbital of monomer 2 of the
    third is a times that of the first plus b times that of the second: so are J_ab and S_ab, and e_a is the same. *)
Theorem C117_second : forall N A opp inv pr h version lab, exact_arith A opp inv -> forall (a b : num N) u,
  forall E disk (prog : str) l p d r1 r2 E' disk' (prog' : str) l' p' d' r1' r2' E'' disk'' (prog'' : str) l'' p'' d'' r1'' r2'',
  job N E disk l p d r1 r2 -> lined_up N lab (counterPoise p) d u -> job N E' disk' l' p' d' r1' r2' -> job N E'' disk'' l'' p'' d'' r1'' r2'' ->
  counterPoise p' = counterPoise p -> counterPoise p'' = counterPoise p -> other_orbitals N d d' -> other_orbitals N d d'' ->
  same_orbital N (coef1 N d) (coef1 N d') r1 r1' -> same_orbital N (coef1 N d) (coef1 N d'') r1 r1'' -> combined N A a b (coef2 N d) (coef2 N d') (coef2 N d'') r2 r2' r2'' ->
  exists J_ab e_b S_ab J_ab' e_b' S_ab' e_b'' e_a bound, forall fuel, (bound <= fuel)%nat ->
    run_gives N A pr h version E lab disk fuel prog l p u J_ab e_a e_b S_ab /\ run_gives N A pr h version E' lab disk' fuel prog' l' p' u J_ab' e_a e_b' S_ab' /\
    run_gives N A pr h version E'' lab disk'' fuel prog'' l'' p'' u (a_add A (a_mul A a J_ab) (a_mul A b J_ab')) e_a e_b'' (a_add A (a_mul A a S_ab) (a_mul A b S_ab')).
Proof.
  intros N A opp inv pr h version lab HA a b u E disk prog l p d r1 r2 E' disk' prog' l' p' d' r1' r2' E'' disk'' prog'' l'' p'' d'' r1'' r2'' Hj Hl Hj' Hj'' Hcp Hcp' Ho Ho' S2 S2' Hc.
  assert (V0 : other_orbitals N d d) by (constructor; auto; split; auto).
  destruct (super_run N A lab E disk prog l p d r1 r2 u Hj Hl) as (fS & fP & pl1 & pl2 & L1 & L2 & H).
  destruct (H E disk prog l p d r1 r2 Hj eq_refl V0) as (z1 & z2 & P1 & P2 & R). destruct (H E' disk' prog' l' p' d' r1' r2' Hj' Hcp Ho) as (z1' & z2' & P1' & P2' & R').
  destruct (H E'' disk'' prog'' l'' p'' d'' r1'' r2'' Hj'' Hcp' Ho') as (z1'' & z2'' & P1'' & P2'' & R''). clear H.
  assert (F0 : a_add A (a_mul A a (a_zero A)) (a_mul A b (a_zero A)) = a_zero A) by exact (two_zeros A opp inv HA a b).
  assert (N0 : 0 <= size N d) by exact (size_of_job N E disk l p d r1 r2 Hj).
  destruct (R _ (lines_of_run N A pr h version) (lines_same N A pr h version p)) as (b1 & Q1). destruct (R _ (J_of_run A) (fun _ _ => eq_refl)) as (b2 & Q2).
  destruct (R' _ (lines_of_run N A pr h version) (lines_same N A pr h version p')) as (b3 & Q3). destruct (R' _ (J_of_run A) (fun _ _ => eq_refl)) as (b4 & Q4).
  destruct (R'' _ (lines_of_run N A pr h version) (lines_same N A pr h version p'')) as (b5 & Q5). destruct (R'' _ (J_of_run A) (fun _ _ => eq_refl)) as (b6 & Q6). clear R R' R''.
  set (K := length (coefP N d)) in *. set (e := entry N (enP N d)) in *. set (n := Z.to_nat (size N d)) in *.
  set (gA := projection A n fS fP z1) in *. set (gB := projection A n fS fP z2) in *. set (gA' := projection A n fS fP z1') in *. set (gB' := projection A n fS fP z2') in *.
  set (gA'' := projection A n fS fP z1'') in *. set (gB'' := projection A n fS fP z2'') in *.
  assert (X1 : forall k, gB'' k = a_add A (a_mul A a (gB k)) (a_mul A b (gB' k))).
  { intros k. apply (projection_linear A opp inv HA). intros c Hc0. apply (L2 (fun x y => a_add A (a_mul A a x) (a_mul A b y)) _ _ _ _ _ _ F0 P2 P2' P2''); [exact Hc|unfold n in Hc0; lia]. }
  assert (X2 : forall k, gA' k = gA k).
  { intros k. apply (projection_ext A); try reflexivity. intros c Hc0. apply (L1 (fun x _ => x) _ _ _ _ _ _ eq_refl P1 P1 P1'); [exact (proj2 S2)|unfold n in Hc0; lia]. }
  assert (X3 : forall k, gA'' k = gA k).
  { intros k. apply (projection_ext A); try reflexivity. intros c Hc0. apply (L1 (fun x _ => x) _ _ _ _ _ _ eq_refl P1 P1 P1''); [exact (proj2 S2')|unfold n in Hc0; lia]. }
  assert (Y' : forall X (f : num N -> num N -> num N -> num N -> X), numbers_of A f K e gA' gB' = numbers_of A f K e gA gB') by (intros; apply numbers_ext; intros; [apply X2|reflexivity]).
  assert (Y'' : forall X (f : num N -> num N -> num N -> num N -> X), numbers_of A f K e gA'' gB'' = numbers_of A f K e gA gB'') by (intros; apply numbers_ext; intros; [apply X3|reflexivity]).
  exists (accum A K gB (weighted A K e gA)), (accum A K gB (weighted A K e gB)), (accum A K gB gA), (accum A K gB' (weighted A K e gA)), (accum A K gB' (weighted A K e gB')), (accum A K gB' gA),
    (accum A K gB'' (weighted A K e gB'')), (accum A K gA (weighted A K e gA)), (b1 + b2 + b3 + b4 + b5 + b6)%nat.
  rewrite <- (quad_linear_r A opp inv HA K e a b gA gB gB' gB'' (fun k _ => X1 k)), <- (accum_linear_r A opp inv HA K a b gA gB gB' gB'' (fun k _ => X1 k)).
  intros fuel Hf. split; [split|split; split].
  - refine (eq_trans (Q1 fuel ltac:(lia)) (f_equal Ok _)). unfold numbers_of. apply lines_spec.
  - refine (eq_trans (Q2 fuel ltac:(lia)) (f_equal Ok _)). reflexivity.
  - refine (eq_trans (Q3 fuel ltac:(lia)) (f_equal Ok _)). rewrite Y'. unfold numbers_of. apply lines_spec.
  - refine (eq_trans (Q4 fuel ltac:(lia)) (f_equal Ok _)). rewrite Y'. reflexivity.
  - refine (eq_trans (Q5 fuel ltac:(lia)) (f_equal Ok _)). rewrite Y''. unfold numbers_of. apply lines_spec.
  - refine (eq_trans (Q6 fuel ltac:(lia)) (f_equal Ok _)). rewrite Y''. reflexivity.
Qed.
Print Assumptions C117_second.

(** ** Three runs in fractions: the calculations of [elt_disk false Some_energies] with orbital (1, 0), (0, 1) and (1/2, -1/2) = 1/2 (1, 0) - 1/2 (0, 1) of monomer 1 *)
Inductive sup := Sup_1 | Sup_2 | Sup_3.
Definition sup_rows (k : sup) : list (list str) := match k with Sup_1 => [[f1; f0]; [f0; f1]] | Sup_2 => [[f0; f1]; [f1; f0]] | Sup_3 => [[f2; f3]; [f1; f0]] end.
Definition sup_disk (k : sup) : str -> option str :=
  six (file_of (mono_items carbon_1 pt1)) (file_of (mono_items carbon_2 pt2)) (file_of (elt_items false Some_energies)) (MainExample.the_pun (sup_rows k)) (MainExample.the_pun unit_rows) (MainExample.the_pun (inverse_rows false)).
Definition sup_data (k : sup) : data D := mkData D (MainExample.vals (sup_rows k)) (MainExample.vals unit_rows) (MainExample.vals (inverse_rows false)) [(-50000, -5); (10000, -5)] [(-50000, -5); (10000, -5)]
  (en_of Some_energies) 1 1 2 [pt1] [pt2] [pt2; pt1] [2] [2] [2; 2] 4 (tri4_value false).
Lemma sup_contain k : contain D (sup_disk k) (the_params false) (sup_data k).
Proof.
  exists SAlpha, SAlpha, SAlpha, (mono_items carbon_1 pt1), (mono_items carbon_2 pt2), (elt_items false Some_energies).
  split; [reflexivity|]. split; [reflexivity|]. split; [reflexivity|]. split; [destruct k; disk_ok|]. split; [disk_ok|]. split; [disk_ok|].
  split; [apply mono_says; [exact (dot_log $"m1" eq_refl eq_refl)|reflexivity|exact row1]|]. split; [apply mono_says; [exact (dot_log $"m2" eq_refl eq_refl)|reflexivity|exact row2]|].
  split; [|apply elt_overlap]. apply elt_says; [apply begins_b; reflexivity|eline [$"-0.60000"; $"-0.50000"]|eline [$"0.10000"; $"0.20000"]|split; reflexivity|vm_compute; reflexivity|exact (proj1 dot_dimer)|reflexivity|exact dimer_rows].
Qed.
Lemma sup_job k : exists e, job fractions disk1 (sup_disk k) the_line (the_params false) e 1 2 /\ drel D fractions ExchangeExample.reads (sup_data k) e.
Proof.
  destruct (request_params the_line false the_request) as [H1 H2].
  destruct (fractions_contain _ (the_params false) _ (sup_contain k)) as (e & He & R). exists e. split; [|exact R]. constructor; [exact H1|exact H2|exact He| |].
  - apply (belong_para D fractions ExchangeExample.reads false _ e R). clear. destruct k; belong_b; cbv; repeat split; discriminate.
  - apply (rows_para D fractions ExchangeExample.reads (the_params false) _ e 1 2 R). clear. destruct k; split; reflexivity.
Qed.
Lemma sup_related k e e' : drel D fractions ExchangeExample.reads (sup_data Sup_1) e -> drel D fractions ExchangeExample.reads (sup_data k) e' ->
  lined_up fractions q_lab false e true /\ other_orbitals fractions e e' /\ same_orbital fractions (coef2 fractions e) (coef2 fractions e') 2 2.
Proof.
  intros R R'.
  pose proof (rows_frac _ _ (dr_c1 _ _ _ _ _ R) eq_refl) as C1. pose proof (rows_frac _ _ (dr_c2 _ _ _ _ _ R) eq_refl) as C2. pose proof (rows_frac _ _ (dr_cP _ _ _ _ _ R) eq_refl) as CP. pose proof (list_frac _ _ (dr_eP _ _ _ _ _ R) eq_refl) as EP.
  assert (C1' : coef1 fractions e' = map (map frac) (coef1 D (sup_data k))) by (apply (rows_frac _ _ (dr_c1 _ _ _ _ _ R')); destruct k; reflexivity). assert (C2' := rows_frac _ _ (dr_c2 _ _ _ _ _ R') eq_refl). assert (CP' := rows_frac _ _ (dr_cP _ _ _ _ _ R') eq_refl).
  assert (EP' := list_frac _ _ (dr_eP _ _ _ _ _ R') eq_refl).
  pose proof (pts_frac _ _ (dr_a1 _ _ _ _ _ R) eq_refl) as A1. pose proof (pts_frac _ _ (dr_a2 _ _ _ _ _ R) eq_refl) as A2. pose proof (pts_frac _ _ (dr_aP _ _ _ _ _ R) eq_refl) as AP.
  pose proof (pts_frac _ _ (dr_a1 _ _ _ _ _ R') eq_refl) as A1'. pose proof (pts_frac _ _ (dr_a2 _ _ _ _ _ R') eq_refl) as A2'. pose proof (pts_frac _ _ (dr_aP _ _ _ _ _ R') eq_refl) as AP'.
  pose proof (dr_b1 _ _ _ _ _ R) as B1. pose proof (dr_b2 _ _ _ _ _ R) as B2. pose proof (dr_bP _ _ _ _ _ R) as BP. pose proof (dr_b1 _ _ _ _ _ R') as B1'. pose proof (dr_b2 _ _ _ _ _ R') as B2'. pose proof (dr_bP _ _ _ _ _ R') as BP'.
  pose proof (dr_n _ _ _ _ _ R) as Sn. pose proof (dr_n _ _ _ _ _ R') as Sn'. pose proof (dr_S _ _ _ _ _ R) as So. pose proof (dr_S _ _ _ _ _ R') as So'. split; [|split].
  - clear So So' EP EP' CP CP'. apply (lu_plain fractions q_lab false e [2] [1]); rewrite <- ?B1, <- ?B2, <- ?BP, <- ?Sn, ?A1, ?A2, ?AP; try reflexivity; try discriminate; [repeat constructor; lia|apply ffinds_b; vm_compute; reflexivity|apply ffinds_b; vm_compute; reflexivity|order_b].
  - constructor; rewrite ?C1, ?C2, ?CP, ?C1', ?C2', ?CP', ?EP, ?EP', ?A1, ?A2, ?AP, ?A1', ?A2', ?AP', <- ?B1, <- ?B2, <- ?BP, <- ?B1', <- ?B2', <- ?BP', <- ?Sn, <- ?Sn'.
    + split; [reflexivity|]. split; [intros m Hm; reflexivity|intros m c Hm Hc; reflexivity].
    + split; [destruct k; reflexivity|reflexivity].
    + split; [reflexivity|]. intros i j Hj Hi. rewrite (So i j Hj Hi), (So' i j Hj Hi); [reflexivity| |]; change (size D (sup_data Sup_1)) with 4 in Hi; change (over D (sup_data Sup_1)) with (tri4_value false); change (over D (sup_data k)) with (tri4_value false); clear - Hj Hi; apply Z.leb_le;
      assert (i = 1 \/ i = 2 \/ i = 3 \/ i = 4) as [->|[->|[->| ->]]] by lia; (assert (j = 1 \/ j = 2 \/ j = 3 \/ j = 4) as [->|[->|[->| ->]]] by lia); vm_compute; reflexivity.
    + split; [reflexivity|split; reflexivity].
    + split; [reflexivity|split; reflexivity].
  - rewrite C2, C2'. split; [reflexivity|]. intros; reflexivity.
Qed.
Definition sup_four (k : sup) : outcome (num fractions * num fractions * num fractions * num fractions) := main_with disk1 fractions q_arith q_lab (sup_disk k) (four fractions) 3000 ($"calc_J" :: words the_line).
Example C117_example : exact_arith q_arith Qcopp Qcinv /\
  (exists e e' e'', job fractions disk1 (sup_disk Sup_1) the_line (the_params false) e 1 2 /\ lined_up fractions q_lab false e true /\
     job fractions disk1 (sup_disk Sup_2) the_line (the_params false) e' 1 2 /\ job fractions disk1 (sup_disk Sup_3) the_line (the_params false) e'' 1 2 /\
     other_orbitals fractions e e' /\ other_orbitals fractions e e'' /\ same_orbital fractions (coef2 fractions e) (coef2 fractions e') 2 2 /\ same_orbital fractions (coef2 fractions e) (coef2 fractions e'') 2 2 /\
     combined fractions q_arith (Q2Qc (1 # 2)) (Q2Qc (-1 # 2)) (coef1 fractions e) (coef1 fractions e') (coef1 fractions e'') 1 1 1) /\
  sup_four Sup_1 = Ok (Q2Qc (-201 # 625), Q2Qc (-403 # 3125), Q2Qc (-67 # 125), Q2Qc (3 # 5)) /\
  sup_four Sup_2 = Ok (Q2Qc (-18 # 125), Q2Qc (539 # 6250), Q2Qc (-67 # 125), Q2Qc (36 # 125)) /\
  sup_four Sup_3 = Ok (Q2Qc (-111 # 1250), Q2Qc (333 # 25000), Q2Qc (-67 # 125), Q2Qc (39 # 250)).
Proof.
  split; [exact qc_exact|]. split.
  - destruct (sup_job Sup_1) as (e & J & R). destruct (sup_job Sup_2) as (e' & J' & R'). destruct (sup_job Sup_3) as (e'' & J'' & R''). exists e, e', e''.
    destruct (sup_related Sup_2 e e' R R') as (L & O & S2). destruct (sup_related Sup_3 e e'' R R'') as (_ & O' & S2').
    split; [exact J|]. split; [exact L|]. split; [exact J'|]. split; [exact J''|]. split; [exact O|]. split; [exact O'|]. split; [exact S2|]. split; [exact S2'|].
    pose proof (rows_frac _ _ (dr_c1 _ _ _ _ _ R) eq_refl) as C1. pose proof (rows_frac _ _ (dr_c1 _ _ _ _ _ R') eq_refl) as C1'. pose proof (rows_frac _ _ (dr_c1 _ _ _ _ _ R'') eq_refl) as C1''.
    intros c. rewrite C1, C1', C1''. intros Hc. change (1 <= c <= 2) in Hc. assert (c = 1 \/ c = 2) as [->| ->] by lia; apply Qc_is_canon, Qeq_bool_eq; vm_compute; reflexivity.
  - split; [apply four_are_ok; vm_compute; reflexivity|]. split; apply four_are_ok; vm_compute; reflexivity.
Qed.
