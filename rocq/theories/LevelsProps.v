(** * Property C106: the unit and the zero of the energies *)
From Coq Require Import QArith Qcanon.
From Verif Require Import QcOrder QcFinal QcProps QcExact.
From Verif Require Import MixProps LevelsRun LevelsExample FuelProps.
From Verif Require Import ParserWf ParserCheck CatnipProps ReaderProps ReaderPunProps.
From Verif Require Import MainExample MainProps OutputProps AccPara ExchangeExample ExchangeProps PhaseProps.
From Verif Require Export QcSpec Exact.
From Verif Require Export ReaderModel MainSpec ContentSpec PhaseSpec LevelsSpec.
Import ReaderExample.
From Verif Require Export StrSpec StrModel.
Open Scope Z_scope.

Section Laws.
Context {T : Type} (A : arith T) (opp inv : T -> T) (HA : exact_arith A opp inv).
Let FT := ea_field A opp inv HA.
Add Field TFP : FT.
Notation "x + y" := (a_add A x y). Notation "x * y" := (a_mul A x y).
Lemma J_eff_scaled s j a b t : J_eff A (s * j) (s * a) (s * b) t = s * J_eff A j a b t.
Proof. unfold J_eff. rewrite (Fdiv_def FT). rewrite (Fdiv_def FT (a_sub A j _)). ring. Qed.
Lemma J_eff_shifted c j a b t : a_one A + a_one A <> a_zero A -> J_eff A (j + c * t) (a + c) (b + c) t = J_eff A j a b t.
Proof.
  intros H2. unfold J_eff. f_equal. rewrite (ea_two A opp inv HA). field. exact H2.
Qed.
Lemma affine_1 s x y : s * x + a_zero A * y = s * x. Proof. ring. Qed.
Lemma affine_0 x y : a_zero A * x + a_one A * y = y. Proof. ring. Qed.
Lemma affine_c c x y : a_one A * x + c * y = x + c * y. Proof. ring. Qed.
Lemma affine_i x y : a_one A * x + a_zero A * y = x. Proof. ring. Qed.
Lemma affine_z s x : s * x = s * x + a_zero A. Proof. ring. Qed.
Lemma affine_e x : x = a_one A * x + a_zero A. Proof. ring. Qed.
Lemma affine_o x : a_one A = a_zero A * x + a_one A. Proof. ring. Qed.
Lemma affine_p c x : x + c = a_one A * x + c. Proof. ring. Qed.
Lemma affine_n c x : a_one A * x + c * a_one A = x + c. Proof. ring. Qed.
End Laws.
Lemma ok_some {X} (x : X) : Ok x <> NoFuel. Proof. discriminate. Qed.

(** Exact arithmetic.  Once the orbitals, the overlaps and the atoms are given, the report is an affine function
    of the energies: with energies s e + c it is made of s J_ab + c S_ab, s e_a + c n_a, s e_b + c n_b and the same
    S_ab, for numbers J_ab, e_a, e_b, S_ab, n_a, n_b that do not depend on s and c, on the files or on the command
    lines (n_a and n_b are what e_a and e_b are if all energies are one: s = 0, c = 1). *)
Theorem C106_affine : forall E N A opp inv pr h version lab disk (prog : str) l p d r1 r2 u, exact_arith A opp inv ->
  job N E disk l p d r1 r2 -> lined_up N lab (counterPoise p) d u ->
  exists J_ab e_a e_b S_ab n_a n_b, forall s c E' disk' prog' l' p' d' r1' r2',
    job N E' disk' l' p' d' r1' r2' -> counterPoise p' = counterPoise p -> levels N (fun e => a_add A (a_mul A s e) c) d d' r1 r2 r1' r2' ->
    exists bound, forall fuel, (bound <= fuel)%nat ->
      main_output N A pr h version E' lab disk' fuel (prog' :: words l') =
        Ok (heading version p' ++ result_lines A pr h (a_add A (a_mul A s J_ab) (a_mul A c S_ab)) (a_add A (a_mul A s e_a) (a_mul A c n_a)) (a_add A (a_mul A s e_b) (a_mul A c n_b)) S_ab, advice u).
Proof.
  intros E N A opp inv pr h version lab disk prog l p d r1 r2 u HA Hj Hl. destruct (levels_run N A lab E disk prog l p d r1 r2 u Hj Hl) as (gA & gB & _ & H).
  do 6 eexists. intros s c E' disk' prog' l' p' d' r1' r2' Hj' Hcp Hv.
  destruct (H _ (lines_of_run N A pr h version) _ E' disk' prog' l' p' d' r1' r2' (lines_same N A pr h version p') Hj' Hcp Hv) as (bound & R).
  exists bound. intros fuel Hf. refine (eq_trans (R fuel Hf) (f_equal Ok (eq_trans _ (lines_spec N A pr h version p' u _ _ _ _)))). apply (numbers_affine A opp inv HA). intros k Hk. apply (lv_e _ _ _ _ _ _ _ _ Hv). unfold count. exact Hk.
Qed.
Print Assumptions C106_affine.
(** The unit: energies multiplied by s give s times the value. *)
Theorem C106_unit : forall E E' N A opp inv lab disk disk' prog prog' l l' p p' d d' r1 r2 r1' r2' u s, exact_arith A opp inv ->
  job N E disk l p d r1 r2 -> job N E' disk' l' p' d' r1' r2' -> counterPoise p' = counterPoise p -> lined_up N lab (counterPoise p) d u ->
  levels N (fun e => a_mul A s e) d d' r1 r2 r1' r2' ->
  exists bound, forall fuel, (bound <= fuel)%nat -> exists J,
    main E N A lab disk fuel (prog :: words l) = Ok J /\ main E' N A lab disk' fuel (prog' :: words l') = Ok (a_mul A s J).
Proof.
  intros E E' N A opp inv lab disk disk' prog prog' l l' p p' d d' r1 r2 r1' r2' u s HA Hj Hj' Hcp Hl Hv. destruct (levels_run N A lab E disk prog l p d r1 r2 u Hj Hl) as (gA & gB & _ & H).
  assert (V0 : levels N (fun e => e) d d r1 r2 r1 r2) by (constructor; auto; split; auto).
  destruct (H _ (J_of_run A) _ E disk prog l p d r1 r2 (fun _ _ => eq_refl) Hj eq_refl V0) as (b1 & R1). destruct (H _ (J_of_run A) _ E' disk' prog' l' p' d' r1' r2' (fun _ _ => eq_refl) Hj' Hcp Hv) as (b2 & R2). clear H.
  exists (b1 + b2)%nat. intros fuel Hf. exists (numbers_of A (J_eff A) (length (coefP N d)) (entry N (enP N d)) gA gB). split; [exact (R1 fuel ltac:(lia))|].
  refine (eq_trans (R2 fuel ltac:(lia)) (f_equal Ok _)). unfold J_of_run.
  rewrite (numbers_affine A opp inv HA (J_eff A) _ (entry N (enP N d)) (entry N (enP N d')) gA gB s (a_zero A)).
  2:{ intros k Hk. rewrite (lv_e _ _ _ _ _ _ _ _ Hv) by (unfold count; exact Hk). apply (affine_z A opp inv HA). }
  rewrite (numbers_affine A opp inv HA (J_eff A) _ (entry N (enP N d)) (entry N (enP N d)) gA gB (a_one A) (a_zero A)).
  2:{ intros k Hk. apply (affine_e A opp inv HA). }
  rewrite !(affine_i A opp inv HA), !(affine_1 A opp inv HA). apply (J_eff_scaled A opp inv HA).
Qed.
Print Assumptions C106_unit.
(** The zero: if the projections of the two orbitals on the orbitals of the dimer are normalised (with all energies
    of the dimer equal to one, e_a and e_b are one), the value is the same with the energies e + c. *)
Theorem C106_zero : forall E E' E1 N A opp inv lab disk disk' disk1 prog prog' prog1 l l' l1 p p' p1 d d' d1 r1 r2 r1' r2' r3 r4 u c, exact_arith A opp inv -> a_add A (a_one A) (a_one A) <> a_zero A ->
  job N E disk l p d r1 r2 -> job N E' disk' l' p' d' r1' r2' -> job N E1 disk1 l1 p1 d1 r3 r4 -> counterPoise p' = counterPoise p -> counterPoise p1 = counterPoise p -> lined_up N lab (counterPoise p) d u ->
  levels N (fun e => a_add A e c) d d' r1 r2 r1' r2' -> levels N (fun _ => a_one A) d d1 r1 r2 r3 r4 ->
  (exists fuel j t, main_with E1 N A lab disk1 (four N) fuel (prog1 :: words l1) = Ok (j, a_one A, a_one A, t)) ->
  exists bound, forall fuel, (bound <= fuel)%nat -> exists J,
    main E N A lab disk fuel (prog :: words l) = Ok J /\ main E' N A lab disk' fuel (prog' :: words l') = Ok J.
Proof.
  intros E E' E1 N A opp inv lab disk disk' disk1 prog prog' prog1 l l' l1 p p' p1 d d' d1 r1 r2 r1' r2' r3 r4 u c HA H2 Hj Hj' Hj1 Hcp Hcp1 Hl Hv Hv1 (fuel1 & Jn & tn & Hn). destruct (levels_run N A lab E disk prog l p d r1 r2 u Hj Hl) as (gA & gB & _ & H).
  assert (V0 : levels N (fun e => e) d d r1 r2 r1 r2) by (constructor; auto; split; auto).
  destruct (H _ (J_of_run A) _ E disk prog l p d r1 r2 (fun _ _ => eq_refl) Hj eq_refl V0) as (b1 & R1). destruct (H _ (J_of_run A) _ E' disk' prog' l' p' d' r1' r2' (fun _ _ => eq_refl) Hj' Hcp Hv) as (b2 & R2).
  destruct (H _ (four N) _ E1 disk1 prog1 l1 p1 d1 r3 r4 (fun _ _ => eq_refl) Hj1 Hcp1 Hv1) as (b3 & R3). clear H.
  assert (G : numbers_of A (four N p1 u) (length (coefP N d)) (entry N (enP N d1)) gA gB = (Jn, a_one A, a_one A, tn)).
  { pose proof (C97_one_answer _ _ _ _ _ _ _ _ _ _ _ _ Hn (R3 b3 (le_n b3)) (ok_some _) (ok_some _)) as Q. apply (f_equal (fun o => match o with Ok x => x | _ => (Jn, a_one A, a_one A, tn) end)) in Q. exact Q. }
  clear Hn R3. unfold four in G. rewrite (numbers_affine A opp inv HA _ _ (entry N (enP N d)) (entry N (enP N d1)) gA gB (a_zero A) (a_one A)) in G.
  2:{ intros k Hk. rewrite (lv_e _ _ _ _ _ _ _ _ Hv1) by (unfold count; exact Hk). apply (affine_o A opp inv HA). }
  rewrite !(affine_0 A opp inv HA) in G. injection G as _ Na Nb _.
  exists (b1 + b2)%nat. intros fuel Hf. exists (numbers_of A (J_eff A) (length (coefP N d)) (entry N (enP N d)) gA gB). split; [exact (R1 fuel ltac:(lia))|].
  refine (eq_trans (R2 fuel ltac:(lia)) (f_equal Ok _)). unfold J_of_run.
  rewrite (numbers_affine A opp inv HA (J_eff A) _ (entry N (enP N d)) (entry N (enP N d')) gA gB (a_one A) c).
  2:{ intros k Hk. rewrite (lv_e _ _ _ _ _ _ _ _ Hv) by (unfold count; exact Hk). apply (affine_p A opp inv HA). }
  rewrite (numbers_affine A opp inv HA (J_eff A) _ (entry N (enP N d)) (entry N (enP N d)) gA gB (a_one A) (a_zero A)).
  2:{ intros k Hk. apply (affine_e A opp inv HA). }
  rewrite Na, Nb, !(affine_i A opp inv HA), !(affine_n A opp inv HA), !(affine_c A opp inv HA). apply (J_eff_shifted A opp inv HA). exact H2.
Qed.
Print Assumptions C106_zero.

(** ** Concrete runs in fractions *)
Lemma lev_job c : exists e, job fractions disk1 (lev_disk c) the_line (the_params false) e 1 2 /\ drel D fractions ExchangeExample.reads (lev_data c) e.
Proof.
  destruct (request_params the_line false the_request) as [H1 H2].
  destruct (fractions_contain _ (the_params false) _ (lev_contain c)) as (e & He & R). exists e. split; [|exact R]. constructor; [exact H1|exact H2|exact He| |].
  - apply (belong_para D fractions ExchangeExample.reads false _ e R). clear. destruct c; belong_b; cbv; repeat split; discriminate.
  - apply (rows_para D fractions ExchangeExample.reads (the_params false) _ e 1 2 R). clear. destruct c; split; reflexivity.
Qed.
Definition some_level (f : Qc -> Qc) (c : choice) : bool :=
  forallb (fun k => Qeq_bool (this (entry fractions (map frac (en_of c)) (Z.of_nat k))) (this (f (entry fractions (map frac (en_of Some_energies)) (Z.of_nat k))))) (seq 1 4).
Lemma lev_levels f c e e' : some_level f c = true -> drel D fractions ExchangeExample.reads (lev_data Some_energies) e -> drel D fractions ExchangeExample.reads (lev_data c) e' -> levels fractions f e e' 1 2 1 2.
Proof.
  intros Hf R R'.
  pose proof (rows_frac _ _ (dr_c1 _ _ _ _ _ R) eq_refl) as C1. pose proof (rows_frac _ _ (dr_c2 _ _ _ _ _ R) eq_refl) as C2. pose proof (rows_frac _ _ (dr_cP _ _ _ _ _ R) eq_refl) as CP. pose proof (list_frac _ _ (dr_eP _ _ _ _ _ R) eq_refl) as EP.
  assert (C1' := rows_frac _ _ (dr_c1 _ _ _ _ _ R') eq_refl). assert (C2' := rows_frac _ _ (dr_c2 _ _ _ _ _ R') eq_refl). assert (CP' := rows_frac _ _ (dr_cP _ _ _ _ _ R') eq_refl).
  assert (EP' : enP fractions e' = map frac (en_of c)) by (apply (list_frac _ _ (dr_eP _ _ _ _ _ R')); destruct c; reflexivity).
  pose proof (pts_frac _ _ (dr_a1 _ _ _ _ _ R) eq_refl) as A1. pose proof (pts_frac _ _ (dr_a2 _ _ _ _ _ R) eq_refl) as A2. pose proof (pts_frac _ _ (dr_aP _ _ _ _ _ R) eq_refl) as AP.
  pose proof (pts_frac _ _ (dr_a1 _ _ _ _ _ R') eq_refl) as A1'. pose proof (pts_frac _ _ (dr_a2 _ _ _ _ _ R') eq_refl) as A2'. pose proof (pts_frac _ _ (dr_aP _ _ _ _ _ R') eq_refl) as AP'.
  pose proof (dr_b1 _ _ _ _ _ R) as B1. pose proof (dr_b2 _ _ _ _ _ R) as B2. pose proof (dr_bP _ _ _ _ _ R) as BP. pose proof (dr_b1 _ _ _ _ _ R') as B1'. pose proof (dr_b2 _ _ _ _ _ R') as B2'. pose proof (dr_bP _ _ _ _ _ R') as BP'.
  pose proof (dr_n _ _ _ _ _ R) as Sn. pose proof (dr_n _ _ _ _ _ R') as Sn'. pose proof (dr_S _ _ _ _ _ R) as So. pose proof (dr_S _ _ _ _ _ R') as So'.
  constructor; rewrite ?C1, ?C2, ?CP, ?C1', ?C2', ?CP', ?EP, ?EP', ?A1, ?A2, ?AP, ?A1', ?A2', ?AP', <- ?B1, <- ?B2, <- ?BP, <- ?B1', <- ?B2', <- ?BP', <- ?Sn, <- ?Sn'.
  - intros k Hk. change (1 <= k <= 4) in Hk. unfold some_level in Hf. rewrite forallb_forall in Hf. specialize (Hf (Z.to_nat k) ltac:(apply in_seq; lia)). rewrite Z2Nat.id in Hf by lia. apply Qc_is_canon, Qeq_bool_eq, Hf.
  - split; [reflexivity|]. intros. reflexivity.
  - split; [reflexivity|]. intros. reflexivity.
  - split; [reflexivity|]. intros. reflexivity.
  - split; [reflexivity|]. intros i j Hj Hi. rewrite (So i j Hj Hi), (So' i j Hj Hi); [reflexivity| |]; change (size D (lev_data Some_energies)) with 4 in Hi; change (over D (lev_data Some_energies)) with tri_value; change (over D (lev_data c)) with tri_value; clear - Hj Hi; apply Z.leb_le;
      assert (i = 1 \/ i = 2 \/ i = 3 \/ i = 4) as [->|[->|[->| ->]]] by lia; (assert (j = 1 \/ j = 2 \/ j = 3 \/ j = 4) as [->|[->|[->| ->]]] by lia); vm_compute; reflexivity.
  - split; [reflexivity|split; reflexivity].
  - split; [reflexivity|split; reflexivity].
Qed.
Definition lev_run (c : choice) : outcome (num fractions) := main disk1 fractions q_arith q_lab (lev_disk c) 3000 ($"calc_J" :: words the_line).
Definition lev_four (c : choice) : outcome (num fractions * num fractions * num fractions * num fractions) := main_with disk1 fractions q_arith q_lab (lev_disk c) (four fractions) 3000 ($"calc_J" :: words the_line).
Definition four_are (o : outcome (num fractions * num fractions * num fractions * num fractions)) (j a b t : Qc) : bool :=
  match o with Ok (j', a', b', t') => Qeq_bool (this j') (this j) && Qeq_bool (this a') (this a) && Qeq_bool (this b') (this b) && Qeq_bool (this t') (this t) | _ => false end.
Lemma four_are_ok o j a b t : four_are o j a b t = true -> o = Ok (j, a, b, t).
Proof.
  destruct o as [[[[j' a'] b'] t']| | | |]; cbn [four_are]; try discriminate. intros H. apply andb_true_iff in H as [H H4]. apply andb_true_iff in H as [H H3]. apply andb_true_iff in H as [H1 H2].
  repeat f_equal; apply Qc_is_canon, Qeq_bool_eq; assumption.
Qed.
Lemma runs_are (o : outcome (num fractions)) q : match the_value o with Some x => Qeq_bool x (this q) | None => false end = true -> o = Ok q.
Proof. destruct o as [J| | | |]; cbn [the_value]; try discriminate. intros H. f_equal. apply Qc_is_canon, Qeq_bool_eq, H. Qed.
(** energies e, e + 0.3, -2 e + 0.1 and ones: J_ab = -0.36, S_ab = 3/5, n_a = n_b = 1 *)
Example C106_example : exact_arith q_arith Qcopp Qcinv /\ a_add q_arith (a_one q_arith) (a_one q_arith) <> a_zero q_arith /\
  (exists e e' e2 e1, job fractions disk1 (lev_disk Some_energies) the_line (the_params false) e 1 2 /\ job fractions disk1 (lev_disk Shifted) the_line (the_params false) e' 1 2 /\
     job fractions disk1 (lev_disk Affine) the_line (the_params false) e2 1 2 /\ job fractions disk1 (lev_disk Ones) the_line (the_params false) e1 1 2 /\ lined_up fractions q_lab false e true /\
     levels fractions (fun x => a_add q_arith x (Q2Qc (3 # 10))) e e' 1 2 1 2 /\ levels fractions (fun x => a_add q_arith (a_mul q_arith (Q2Qc (-2)) x) (Q2Qc (1 # 10))) e e2 1 2 1 2 /\
     levels fractions (fun _ => a_one q_arith) e e1 1 2 1 2) /\
  lev_four Some_energies = Ok (Q2Qc (-36 # 100), Q2Qc (-6 # 10), Q2Qc (-536 # 1000), Q2Qc (3 # 5)) /\
  lev_four Affine = Ok (Q2Qc (78 # 100), Q2Qc (13 # 10), Q2Qc (1172 # 1000), Q2Qc (3 # 5)) /\
  lev_four Ones = Ok (Q2Qc (3 # 5), 1%Qc, 1%Qc, Q2Qc (3 # 5)) /\
  lev_run Some_energies = Ok (Q2Qc (-3 # 100)) /\ lev_run Shifted = Ok (Q2Qc (-3 # 100)).
Proof.
  split; [exact qc_exact|]. split; [discriminate|]. split.
  - destruct (lev_job Some_energies) as (e & J & R). destruct (lev_job Shifted) as (e' & J' & R'). destruct (lev_job Affine) as (e2 & J2 & R2). destruct (lev_job Ones) as (e1 & J1 & R1). exists e, e', e2, e1.
    split; [exact J|]. split; [exact J'|]. split; [exact J2|]. split; [exact J1|]. split.
    + pose proof (pts_frac _ _ (dr_a1 _ _ _ _ _ R) eq_refl) as A1. pose proof (pts_frac _ _ (dr_a2 _ _ _ _ _ R) eq_refl) as A2. pose proof (pts_frac _ _ (dr_aP _ _ _ _ _ R) eq_refl) as AP.
      pose proof (dr_b1 _ _ _ _ _ R) as B1. pose proof (dr_b2 _ _ _ _ _ R) as B2. pose proof (dr_bP _ _ _ _ _ R) as BP. pose proof (dr_n _ _ _ _ _ R) as Sn. clear R' R1 R2 J J' J1 J2.
      apply (lu_plain fractions q_lab false e [2] [1]); rewrite <- ?B1, <- ?B2, <- ?BP, <- ?Sn, ?A1, ?A2, ?AP; try reflexivity; try discriminate; [repeat constructor; lia|apply ffinds_b; vm_compute; reflexivity|apply ffinds_b; vm_compute; reflexivity|order_b].
    + clear J J' J1 J2. split; [|split]; eapply lev_levels; eauto; vm_compute; reflexivity.
  - split; [apply four_are_ok; vm_compute; reflexivity|]. split; [apply four_are_ok; vm_compute; reflexivity|]. split; [apply four_are_ok; vm_compute; reflexivity|].
    split; apply runs_are; vm_compute; reflexivity.
Qed.
