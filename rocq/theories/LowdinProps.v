(** * Properties C109 (orthogonalised orbitals) and C110 (splitting of the levels) *)
From Coq Require Import QArith Qcanon.
From Verif Require Import QcOrder QcFinal QcProps QcExact.
From Verif Require Import MixProps LevelsRun LevelsExample LevelsProps ElementRun ElementExample ElementProps LowdinRun LowdinExample.
From Verif Require Import ParserWf ParserCheck CatnipProps ReaderProps ReaderPunProps.
From Verif Require Import MainExample MainProps OutputProps AccPara ExchangeExample ExchangeProps PhaseProps.
From Verif Require Export QcSpec Exact.
From Verif Require Export ReaderModel MainSpec ContentSpec PhaseSpec LevelsSpec ElementSpec LowdinSpec.
Import ReaderExample.
From Verif Require Export StrSpec StrModel.
Open Scope Z_scope.

Section Facts.
Context (N : nums) (A : arith (num N)) (opp inv : num N -> num N) (HA : exact_arith A opp inv) (lab : num N -> str).
Notation Sd d := (symmetric N (over N d)).
Notation el d := (element A (size N d)).
Lemma size_nonneg E disk l p (d : data N) r1 r2 : job N E disk l p d r1 r2 -> 0 <= size N d.
Proof. intros Hj. pose proof (be_w _ _ _ (jb_fit _ _ _ _ _ _ _ _ Hj)) as Q. destruct (counterPoise p); unfold width in Q; lia. Qed.
Lemma S_sym (d : data N) w w' : 0 <= size N d -> el d (Sd d) w w' = el d (Sd d) w' w.
Proof. intros Hn. apply (element_sym A opp inv HA); [exact Hn|]. intros i j _ _. unfold symmetric. rewrite Z.max_comm, Z.min_comm. reflexivity. Qed.
Lemma F_sym (d : data N) F w w' : 0 <= size N d -> complete A (size N d) (count (coefP N d)) (Sd d) (table N (coefP N d)) ->
  orbitals_of A (size N d) (count (coefP N d)) F (Sd d) (table N (coefP N d)) (entry N (enP N d)) -> el d F w w' = el d F w' w.
Proof.
  intros Hn Hc Ho. assert (Hs : forall i j, 1 <= i <= size N d -> 1 <= j <= size N d -> Sd d i j = Sd d j i) by (intros i j _ _; unfold symmetric; rewrite Z.max_comm, Z.min_comm; reflexivity).
  rewrite <- (element_sum A opp inv HA (size N d) (count (coefP N d)) F (Sd d) (table N (coefP N d)) (entry N (enP N d)) w w' Hn ltac:(unfold count; lia) Hs Hc Ho).
  rewrite <- (element_sum A opp inv HA (size N d) (count (coefP N d)) F (Sd d) (table N (coefP N d)) (entry N (enP N d)) w' w Hn ltac:(unfold count; lia) Hs Hc Ho).
  apply sum_ext. intros k _. f_equal. apply (Ring_theory.Rmul_comm (Field_theory.F_R (ea_field A opp inv HA))).
Qed.
End Facts.

(** Exact arithmetic.  Complete orbitals of the dimer, solutions of F P = e S P; normalised orbitals of the monomers.
    The value is the coupling <v1|F|v2> of the symmetrically orthogonalised orbitals, and the energies of the two
    coupled orbitals are those of the two-level system with the levels <v1|F|v1>, <v2|F|v2> and this coupling. *)
Theorem C109_orthogonalised : forall E N A opp inv lab disk (prog : str) l p d r1 r2 u, exact_arith A opp inv -> a_add A (a_one A) (a_one A) <> a_zero A ->
  job N E disk l p d r1 r2 -> lined_up N lab (counterPoise p) d u -> complete A (size N d) (count (coefP N d)) (symmetric N (over N d)) (table N (coefP N d)) ->
  exists w1 w2, in_dimer N A lab (counterPoise p) d r1 r2 w1 w2 u /\ forall F,
    orbitals_of A (size N d) (count (coefP N d)) F (symmetric N (over N d)) (table N (coefP N d)) (entry N (enP N d)) ->
    element A (size N d) (symmetric N (over N d)) w1 w1 = a_one A -> element A (size N d) (symmetric N (over N d)) w2 w2 = a_one A ->
    forall v1 v2, symmetrically_orthogonalised A (size N d) (symmetric N (over N d)) w1 w2 v1 v2 ->
      (exists bound, forall fuel, (bound <= fuel)%nat -> main E N A lab disk fuel (prog :: words l) = Ok (element A (size N d) F v1 v2)) /\
      forall e, coupled_energy A (size N d) F (symmetric N (over N d)) w1 w2 e <->
        a_mul A (a_sub A (element A (size N d) F v1 v1) e) (a_sub A (element A (size N d) F v2 v2) e) = a_mul A (element A (size N d) F v1 v2) (element A (size N d) F v1 v2).
Proof.
  intros E N A opp inv lab disk prog l p d r1 r2 u HA H2 Hj Hl Hc. pose proof (size_nonneg N E disk l p d r1 r2 Hj) as Hn.
  destruct (elements_run N A opp inv HA lab E disk prog l p d r1 r2 u Hj Hl Hc) as (w1 & w2 & Hw & H). exists w1, w2. split; [exact Hw|].
  intros F HF N1 N2 v1 v2 (x & y & z & -> & -> & Ht & O1 & O2 & O3). assert (V0 : levels N (fun e => e) d d r1 r2 r1 r2) by (constructor; auto; split; auto).
  destruct (H _ (J_of_run A) F _ E disk prog l p d r1 r2 (fun _ _ => eq_refl) Hj eq_refl V0 HF) as (b1 & R1). clear H.
  pose proof (S_sym N A opp inv HA d w2 w1 Hn) as SS. pose proof (F_sym N A opp inv HA d F w2 w1 Hn Hc HF) as SF.
  pose proof (energy_det A opp inv HA (size N d) F (symmetric N (over N d)) w1 w2) as ED. rewrite N1, N2 in ED.
  rewrite (element_left A opp inv HA), !(element_right A opp inv HA), ?N1, ?N2, ?SS in O1, O2, O3.
  rewrite !(element_left A opp inv HA), !(element_right A opp inv HA), ?SF.
  destruct (lowdin_numbers A opp inv HA (element A (size N d) F w1 w1) (element A (size N d) F w2 w2) (element A (size N d) F w1 w2) _ x y z H2 Ht O1 O2 O3) as [V W].
  split.
  - exists b1. intros fuel Hf. refine (eq_trans (R1 fuel Hf) (f_equal Ok _)). exact V.
  - intros e. refine (iff_trans (ED e SF SS) (W e)).
Qed.
Print Assumptions C109_orthogonalised.
(** Exact arithmetic, complete orbitals of the dimer, normalised orbitals of the monomers.  If the two orbitals have
    the same energy (the monomers are equivalent), the value is half the splitting of their energies in the dimer, up
    to its sign. *)
Theorem C110_splitting : forall E N A opp inv lab disk (prog : str) l p d r1 r2 u, exact_arith A opp inv -> a_add A (a_one A) (a_one A) <> a_zero A ->
  job N E disk l p d r1 r2 -> lined_up N lab (counterPoise p) d u -> complete A (size N d) (count (coefP N d)) (symmetric N (over N d)) (table N (coefP N d)) ->
  exists w1 w2, in_dimer N A lab (counterPoise p) d r1 r2 w1 w2 u /\ forall F,
    orbitals_of A (size N d) (count (coefP N d)) F (symmetric N (over N d)) (table N (coefP N d)) (entry N (enP N d)) ->
    element A (size N d) (symmetric N (over N d)) w1 w1 = a_one A -> element A (size N d) (symmetric N (over N d)) w2 w2 = a_one A ->
    element A (size N d) F w1 w1 = element A (size N d) F w2 w2 ->
    let s := element A (size N d) (symmetric N (over N d)) w1 w2 in a_mul A s s <> a_one A ->
    forall e e', e <> e' -> coupled_energy A (size N d) F (symmetric N (over N d)) w1 w2 e -> coupled_energy A (size N d) F (symmetric N (over N d)) w1 w2 e' ->
    exists bound, forall fuel, (bound <= fuel)%nat -> exists J, main E N A lab disk fuel (prog :: words l) = Ok J /\
      (a_sub A e e' = a_add A J J \/ a_sub A e' e = a_add A J J).
Proof.
  intros E N A opp inv lab disk prog l p d r1 r2 u HA H2 Hj Hl Hc. pose proof (size_nonneg N E disk l p d r1 r2 Hj) as Hn.
  destruct (elements_run N A opp inv HA lab E disk prog l p d r1 r2 u Hj Hl Hc) as (w1 & w2 & Hw & H). exists w1, w2. split; [exact Hw|].
  intros F HF N1 N2 NF s Hs e e' Hne D D'. assert (V0 : levels N (fun e => e) d d r1 r2 r1 r2) by (constructor; auto; split; auto).
  destruct (H _ (J_of_run A) F _ E disk prog l p d r1 r2 (fun _ _ => eq_refl) Hj eq_refl V0 HF) as (b1 & R1). clear H.
  pose proof (S_sym N A opp inv HA d w2 w1 Hn) as SS. pose proof (F_sym N A opp inv HA d F w2 w1 Hn Hc HF) as SF.
  pose proof (energy_det A opp inv HA (size N d) F (symmetric N (over N d)) w1 w2) as ED. rewrite N1, N2, NF in ED. apply ED in D; [|exact SF|exact SS]. apply ED in D'; [|exact SF|exact SS]. clear ED.
  exists b1. intros fuel Hf. eexists. split; [exact (R1 fuel Hf)|]. rewrite NF. unfold J_of_run. fold s in D, D'. fold s.
  apply (splitting_value A opp inv HA); [exact H2| |exact Hne| |].
  - intros Z0. apply Hs. symmetry. exact (equal_of_difference A opp inv HA _ _ Z0).
  - rewrite !(mul_one_r A opp inv HA) in D. exact D.
  - rewrite !(mul_one_r A opp inv HA) in D'. exact D'.
Qed.
Print Assumptions C110_splitting.
(** ** A concrete run in fractions *)
Lemma low_job : exists e, job fractions disk1 low_disk the_line (the_params false) e 1 2 /\ drel D fractions ExchangeExample.reads low_data e.
Proof.
  destruct (request_params the_line false the_request) as [H1 H2].
  destruct (fractions_contain _ (the_params false) _ low_contain) as (e & He & R). exists e. split; [|exact R]. constructor; [exact H1|exact H2|exact He| |].
  - apply (belong_para D fractions ExchangeExample.reads false _ e R). clear. belong_b; cbv; repeat split; discriminate.
  - apply (rows_para D fractions ExchangeExample.reads (the_params false) _ e 1 2 R). clear. split; reflexivity.
Qed.
Definition S5 : Z -> Z -> Qc := symmetric fractions (fun i j => frac (tri5_value i j)).
Definition P5 : Z -> Z -> Qc := table fractions (map (map frac) (MainExample.vals low_rows)).
Definition e5 : Z -> Qc := entry fractions (map frac low_en).
Definition SP5 (k i : Z) : Qc := sum q_arith 4 (fun j => Qcmult (S5 i j) (P5 k j)).
Definition F5 (i j : Z) : Qc := sum q_arith 4 (fun k => Qcmult (e5 k) (Qcmult (SP5 k i) (SP5 k j))).
Lemma low_fields e : drel D fractions ExchangeExample.reads low_data e ->
  size fractions e = 4 /\ count (coefP fractions e) = 4 /\ (forall k c, table fractions (coefP fractions e) k c = P5 k c) /\ (forall k, entry fractions (enP fractions e) k = e5 k) /\
  (forall i j, 1 <= i <= 4 -> 1 <= j <= 4 -> symmetric fractions (over fractions e) i j = S5 i j) /\ lined_up fractions q_lab false e true /\
  in_dimer fractions q_arith q_lab false e 1 2 (only 3) (only 2) true.
Proof.
  intros R. assert (CP : coefP fractions e = map (map frac) (MainExample.vals low_rows)) by (apply (rows_frac _ _ (dr_cP _ _ _ _ _ R)); reflexivity).
  pose proof (rows_frac _ _ (dr_c1 _ _ _ _ _ R) eq_refl) as C1. pose proof (rows_frac _ _ (dr_c2 _ _ _ _ _ R) eq_refl) as C2.
  pose proof (list_frac _ _ (dr_eP _ _ _ _ _ R) eq_refl) as EP.
  pose proof (pts_frac _ _ (dr_a1 _ _ _ _ _ R) eq_refl) as A1. pose proof (pts_frac _ _ (dr_a2 _ _ _ _ _ R) eq_refl) as A2. pose proof (pts_frac _ _ (dr_aP _ _ _ _ _ R) eq_refl) as AP.
  pose proof (dr_b1 _ _ _ _ _ R) as B1. pose proof (dr_b2 _ _ _ _ _ R) as B2. pose proof (dr_bP _ _ _ _ _ R) as BP.
  pose proof (dr_n _ _ _ _ _ R) as Sn. pose proof (dr_S _ _ _ _ _ R) as So.
  split; [rewrite <- Sn; reflexivity|]. split; [rewrite CP; reflexivity|]. split; [intros k c; rewrite CP; reflexivity|]. split; [intros k; rewrite EP; reflexivity|]. split; [|split].
  - intros i j Hi Hj. unfold S5, symmetric. assert (Hm : 1 <= Z.min i j <= Z.max i j /\ Z.max i j <= 4) by lia. revert Hm. generalize (Z.max i j) (Z.min i j). clear Hi Hj i j. intros i j [Hj Hi].
    rewrite (So i j Hj); [|exact Hi|].
    + reflexivity.
    + change (over D low_data) with tri5_value. clear - Hj Hi. apply Z.leb_le.
      assert (i = 1 \/ i = 2 \/ i = 3 \/ i = 4) as [->|[->|[->| ->]]] by lia; (assert (j = 1 \/ j = 2 \/ j = 3 \/ j = 4) as [->|[->|[->| ->]]] by lia); vm_compute; reflexivity.
  - clear So EP CP. apply (lu_plain fractions q_lab false e [2] [1]); rewrite <- ?B1, <- ?B2, <- ?BP, <- ?Sn, ?A1, ?A2, ?AP; try reflexivity; try discriminate; [repeat constructor; lia|apply ffinds_b; vm_compute; reflexivity|apply ffinds_b; vm_compute; reflexivity|order_b].
  - clear So EP CP. apply (in_plain fractions q_arith q_lab false e 1 2 _ _ [2] [1]); unfold spread_1, spread_2; rewrite ?C1, ?C2, <- ?B1, <- ?B2, <- ?BP, ?A1, ?A2, ?AP; try reflexivity.
    + order_b.
    + apply ffinds_b; vm_compute; reflexivity.
    + apply ffinds_b; vm_compute; reflexivity.
    + apply moved_4; intros j Hj; (assert (j = 1 \/ j = 2) as [->| ->] by lia); apply Qc_is_canon, Qeq_bool_eq; vm_compute; reflexivity.
    + apply moved_4; intros j Hj; (assert (j = 1 \/ j = 2) as [->| ->] by lia); apply Qc_is_canon, Qeq_bool_eq; vm_compute; reflexivity.
Qed.
Lemma low_orbitals : orbitals_of q_arith 4 4 F5 S5 P5 e5.
Proof.
  intros k i Hk Hi. refine (two_cells (fun k i => sum q_arith 4 (fun j => Qcmult (F5 i j) (P5 k j))) (fun k i => Qcmult (e5 k) (sum q_arith 4 (fun j => Qcmult (S5 i j) (P5 k j)))) 4 4 _ k i Hk Hi).
  vm_compute. reflexivity.
Qed.
Lemma qc_by (a b : Qc) : Qeq_bool (this a) (this b) = true -> a = b.
Proof. intros H. apply Qc_is_canon, Qeq_bool_eq, H. Qed.
Lemma coupled_same {T} (A : arith T) n (F S S' : Z -> Z -> T) w1 w2 e : (forall w w', element A n S w w' = element A n S' w w') -> coupled_energy A n F S' w1 w2 e -> coupled_energy A n F S w1 w2 e.
Proof. intros H (x & y & Hn & H1 & H2). exists x, y. rewrite !H. auto. Qed.
Lemma orthogonalised_same {T} (A : arith T) n (S S' : Z -> Z -> T) w1 w2 v1 v2 : (forall w w', element A n S w w' = element A n S' w w') -> symmetrically_orthogonalised A n S' w1 w2 v1 v2 -> symmetrically_orthogonalised A n S w1 w2 v1 v2.
Proof. intros H (x & y & z & E1 & E2 & E3 & O1 & O2 & O3). exists x, y, z. unfold orthonormal. rewrite !H. auto 8. Qed.
Definition v5 : Z -> Qc := blend q_arith (Q2Qc (20 # 7)) (Q2Qc (-15 # 7)) (only 3) (only 2).
Definition v5' : Z -> Qc := blend q_arith (Q2Qc (-15 # 7)) (Q2Qc (20 # 7)) (only 3) (only 2).
Definition low_run : outcome (num fractions) := main disk1 fractions q_arith q_lab low_disk 3000 ($"calc_J" :: words the_line).
(** the value -36/245 is half the difference of the energies -0.248 and -13276/24500 of w1 - w2 and w1 + w2 *)
Example C109_C110_example : exact_arith q_arith Qcopp Qcinv /\ a_add q_arith (a_one q_arith) (a_one q_arith) <> a_zero q_arith /\
  (exists e, job fractions disk1 low_disk the_line (the_params false) e 1 2 /\ lined_up fractions q_lab false e true /\ let n := size fractions e in let S := symmetric fractions (over fractions e) in
     complete q_arith n (count (coefP fractions e)) S (table fractions (coefP fractions e)) /\
     in_dimer fractions q_arith q_lab false e 1 2 (only 3) (only 2) true /\
     orbitals_of q_arith n (count (coefP fractions e)) F5 S (table fractions (coefP fractions e)) (entry fractions (enP fractions e)) /\
     element q_arith n S (only 3) (only 3) = 1%Qc /\ element q_arith n S (only 2) (only 2) = 1%Qc /\ element q_arith n S (only 3) (only 2) = Q2Qc (24 # 25) /\
     element q_arith n F5 (only 3) (only 3) = element q_arith n F5 (only 2) (only 2) /\
     symmetrically_orthogonalised q_arith n S (only 3) (only 2) v5 v5' /\
     coupled_energy q_arith n F5 S (only 3) (only 2) (Q2Qc (-248 # 1000)) /\ coupled_energy q_arith n F5 S (only 3) (only 2) (Q2Qc (-106208 # 196000))) /\
  element q_arith 4 F5 v5 v5' = Q2Qc (-36 # 245) /\ low_run = Ok (Q2Qc (-36 # 245)).
Proof.
  split; [exact qc_exact|]. split; [discriminate|]. split.
  - destruct low_job as (e & J & R). exists e. destruct (low_fields e R) as (F1 & F2 & F3 & F6 & F7 & F8 & F9). split; [exact J|]. split; [exact F8|]. cbv zeta. rewrite F1, F2.
    assert (ES : forall w w', element q_arith 4 (symmetric fractions (over fractions e)) w w' = element q_arith 4 S5 w w') by (intros w w'; apply element_same; auto; lia).
    split; [apply (complete_same q_arith 4 4 _ S5 _ P5); auto; try lia; apply complete_b; vm_compute; reflexivity|].
    split; [exact F9|]. split; [apply (orbitals_same q_arith 4 4 F5 _ S5 _ P5 _ e5); auto; try lia; exact low_orbitals|]. rewrite !ES.
    split; [apply qc_by; vm_compute; reflexivity|]. split; [apply qc_by; vm_compute; reflexivity|]. split; [apply qc_by; vm_compute; reflexivity|]. split; [apply qc_by; vm_compute; reflexivity|].
    split.
    + apply (orthogonalised_same q_arith 4 _ S5 _ _ _ _ ES). exists (Q2Qc (20 # 7)), (Q2Qc (-15 # 7)), (Q2Qc (20 # 7)). split; [reflexivity|]. split; [reflexivity|]. split; [discriminate|].
      split; [|split]; apply qc_by; vm_compute; reflexivity.
    + split; apply (coupled_same q_arith 4 F5 _ S5 _ _ _ ES); [exists 1%Qc, (Q2Qc (-1))|exists 1%Qc, 1%Qc]; (split; [intros [E _]; discriminate E|split; apply qc_by; vm_compute; reflexivity]).
  - split; [apply qc_by; vm_compute; reflexivity|]. apply runs_are. vm_compute. reflexivity.
Qed.
