(** * A whole calculation: from the data in the files to the bound *)
From Coq Require Import Reals Psatz.
From Flocq Require Import Core IEEE754.BinarySingleNaN.
From Verif Require Import MainProps QcOrder.
From Verif Require Export AccCoupling.
From Verif Require Export StrSpec StrModel.
Local Open Scope R_scope.

(** ** The program's value *)
(** [c] is the true value within the stated bound, for coefficients [f2] of monomer 2, [fP] of the dimer and overlap [fS] *)
Definition accurate (p : params) (d : data written) (f2 fP fS : Z -> Z -> written_number) (r1 r2 : Z) (c : double) : Prop :=
  let n1 := width written (coef1 written d) in let N := size written d in let K := count (coefP written d) in
  let f1 := table written (coef1 written d) in let e := entry written (enP written d) in let cp := counterPoise p in
  is_finite c = true /\
  Rabs (B2R c - true_J cp n1 N K f1 f2 fP fS e r1 r2) <=
    quotient_bound (true_J cp n1 N K f1 f2 fP fS e r1 r2) (true_den cp n1 N K f1 f2 fP fS r1 r2) (true_num_error cp n1 N K f1 f2 fP fS e r1 r2) (true_den_error cp n1 N K f1 f2 fP fS r1 r2).
(** the denominator 1 - S_ab^2 is not lost in its own error *)
Definition regular (p : params) (d : data written) (f2 fP fS : Z -> Z -> written_number) (r1 r2 : Z) : Prop :=
  let n1 := width written (coef1 written d) in let N := size written d in let K := count (coefP written d) in let f1 := table written (coef1 written d) in
  true_den_error (counterPoise p) n1 N K f1 f2 fP fS r1 r2 < Rabs (true_den (counterPoise p) n1 N K f1 f2 fP fS r1 r2).


(** ** sizes *)
Lemma log_item_ok {N} tail items lines it : log_lines N tail items lines -> In it items -> exists rest, item_ok N it rest tail.
Proof. induction 1 as [|it' items lines H _ IH]; intros I; [destruct I|]. destruct I as [<-|I]; [exists lines; exact H|exact (IH I)]. Qed.
Lemma contain_size N disk p d : contain N disk p d -> (1 <= size N d)%Z /\ (size N d * size N d <= INT_MAX)%Z.
Proof.
  intros (k1 & k2 & kP & i1 & i2 & iP & _ & _ & _ & _ & _ & _ & _ & _ & LP & O). destruct LP as [_ (content & _ & lines & tail & _ & _ & _ & L) _ _ _].
  destruct O as (h & ls & after & a & b & -> & _ & _). destruct (log_item_ok _ _ _ (Overlaps N h ls after (size N d) (over N d)) L) as (rest & Ok); [apply in_elt|].
  cbn [item_ok] in Ok. destruct Ok as (_ & _ & H1 & H2 & _). split; assumption.
Qed.
Lemma square_max n : (n * n <= INT_MAX -> n <= 2 ^ 31)%Z.
Proof. unfold INT_MAX. intros H. nia. Qed.
Lemma job_accurate pow10 pow2 disk p d e f2 fP fS g2 gP gS r1 r2 : squares pow2 -> contain written disk p d -> belong written (counterPoise p) d -> readable d ->
  drel written (machine pow10) close d e ->
  (forall i j, (1 <= j <= size written d)%Z -> matched (f2 i j) (g2 i j)) -> (forall i j, (1 <= j <= size written d)%Z -> matched (fP i j) (gP i j)) ->
  (forall i j, (1 <= i <= size written d)%Z -> (1 <= j <= size written d)%Z -> matched (fS i j) (gS i j)) -> regular p d f2 fP fS r1 r2 ->
  accurate p d f2 fP fS r1 r2 (J_of_job (machine pow10) (binary64 pow2) p e g2 gP gS r1 r2).
Proof.
  intros Sq C B Re R H2 HP HS Rg. unfold accurate, J_of_job, regular in *. cbv zeta in *.
  rewrite <- (width_rel _ _ _ _ _ (dr_c1 _ _ _ _ _ R)), <- (dr_n _ _ _ _ _ R), <- (count_rel _ _ _ (dr_cP _ _ _ _ _ R)).
  destruct (contain_size _ _ _ _ C) as [S1 S2]. apply square_max in S2. pose proof (square_max _ (proj1 (be_max _ _ _ B))) as K2. pose proof (be_w _ _ _ B) as W.
  apply coupling; auto.
  - assert (0 <= width written (coef2 written d))%Z by (unfold width; lia). assert (0 <= width written (coef1 written d))%Z by (unfold width; lia).
    destruct (counterPoise p); [destruct W|]; lia.
  - intros i j _. apply table_matched; [apply (re_1 d Re)|apply (dr_c1 _ _ _ _ _ R)].
  - intros i. apply entry_matched; [apply (re_e d Re)|apply (dr_eP _ _ _ _ _ R)].
Qed.
(** ** elements *)
Lemma symmetric_matched pow10 n v w i j : (forall i j, (1 <= j <= i)%Z -> (i <= n)%Z -> moderate_number (v i j)) -> orel written (machine pow10) close n v w ->
  (1 <= i <= n)%Z -> (1 <= j <= n)%Z -> matched (symmetric written v i j) (symmetric (machine pow10) w i j).
Proof. intros M C Hi Hj. unfold symmetric. split; [apply M; lia|apply C; lia]. Qed.
Lemma block_range b k j : Forall (fun n => 1 <= n)%Z b -> (1 <= k <= Z.of_nat (length b))%Z -> (1 <= j <= size_of b k)%Z -> (1 <= off b k + j <= total b)%Z.
Proof.
  intros Hb Hk Hj. assert (Hn : nth_error b (Z.to_nat (k - 1)) = Some (size_of b k)) by (apply nth_error_nth'; lia).
  apply nth_error_split in Hn. destruct Hn as (l1 & l2 & E1 & E2).
  unfold off. rewrite <- E2. rewrite E1 at 1 2. rewrite firstn_app, firstn_all, Nat.sub_diag. cbn [firstn]. rewrite app_nil_r.
  assert (Htot : (total b = total l1 + size_of b k + total l2)%Z).
  { rewrite E1 at 1. clear. unfold total. rewrite fold_right_app. cbn [fold_right].
    generalize (fold_right Z.add 0%Z l2) as z. generalize (size_of b k). induction l1; intros; cbn [fold_right]; [lia|]. rewrite IHl1. lia. }
  assert (0 <= total l1 /\ 0 <= total l2)%Z.
  { rewrite E1 in Hb. apply Forall_app in Hb. destruct Hb as [H1 H2]. inversion H2; subst. split; apply total_nonneg; auto. }
  lia.
Qed.
Lemma moved_matched b ord (f f' : Z -> Z -> written_number) (g g' : Z -> Z -> double) i c : Forall (fun n => 1 <= n)%Z b -> is_order (Z.of_nat (length b)) ord ->
  blocks_moved b ord f f' -> blocks_moved b ord g g' -> (forall i j, (1 <= j <= total b)%Z -> matched (f i j) (g i j)) -> (1 <= c <= total b)%Z -> matched (f' i c) (g' i c).
Proof.
  intros Hb Ho Hf Hg M Hc. destruct (cover_order b ord c Hb Ho Hc) as (x & k & j & Hk & Hx & Hj & ->). replace x with (Z.to_nat (Z.of_nat x + 1 - 1)) in Hx by lia.
  rewrite (Hf i _ k j), (Hg i _ k j) by (auto; lia). apply M, block_range; auto.
Qed.
Lemma moved2_matched b ord (f f' : Z -> Z -> written_number) (g g' : Z -> Z -> double) r c : Forall (fun n => 1 <= n)%Z b -> is_order (Z.of_nat (length b)) ord ->
  blocks_moved2 b ord f f' -> blocks_moved2 b ord g g' -> (forall i j, (1 <= i <= total b)%Z -> (1 <= j <= total b)%Z -> matched (f i j) (g i j)) ->
  (1 <= r <= total b)%Z -> (1 <= c <= total b)%Z -> matched (f' r c) (g' r c).
Proof.
  intros Hb Ho Hf Hg M Hr Hc. destruct (cover_order b ord r Hb Ho Hr) as (x & k & j & Hk & Hx & Hj & ->). destruct (cover_order b ord c Hb Ho Hc) as (x' & k' & j' & Hk' & Hx' & Hj' & ->).
  replace x with (Z.to_nat (Z.of_nat x + 1 - 1)) in Hx by lia. replace x' with (Z.to_nat (Z.of_nat x' + 1 - 1)) in Hx' by lia.
  rewrite (Hf _ k j _ k' j'), (Hg _ k j _ k' j') by (auto; lia). apply M; apply block_range; auto.
Qed.
