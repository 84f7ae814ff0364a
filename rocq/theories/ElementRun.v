(** * Matrix elements between the orbitals of the monomers *)
From Verif Require Import MatrixFacts QcUnscramble QcTransfer QcOrder QcFinal QcExact.
From Verif Require Export LevelsRun.
From Verif Require Import ExchangeFacts.
From Verif Require Export ReaderModel MainSpec LevelsSpec ElementSpec.
From Verif Require Export StrSpec StrModel.
Open Scope Z_scope.

(** ** Vectors moved back *)
Lemma nth_ext_list {X} (l l' : list X) : (forall i, 1 <= i -> nth_error l (Z.to_nat (i - 1)) = nth_error l' (Z.to_nat (i - 1))) -> l = l'.
Proof.
  intros H. assert (H' : forall i : nat, nth_error l i = nth_error l' i).
  { intros i. specialize (H (Z.of_nat i + 1) ltac:(lia)). replace (Z.to_nat (Z.of_nat i + 1 - 1)) with i in H by lia. exact H. }
  clear H. revert l' H'. induction l as [|x l IH]; intros [|y l'] H; [reflexivity|discriminate (H O)|discriminate (H O)|].
  pose proof (H O) as H0. injection H0 as ->. f_equal. apply IH. intros i. exact (H (S i)).
Qed.
Lemma inverse_twice n o : is_order n o -> inverse (inverse o) = o.
Proof.
  intros Ho. pose proof (inverse_order _ _ Ho) as Hi. apply nth_ext_list. intros i Hi1.
  assert (R : forall k, nth_error (inverse (inverse o)) (Z.to_nat (i - 1)) = Some k <-> nth_error o (Z.to_nat (i - 1)) = Some k).
  { intros k. rewrite (inverse_nth n _ i k Hi Hi1). split.
    - intros (L & K1 & E). apply (inverse_nth n o k i Ho K1) in E as (_ & _ & E). exact E.
    - intros E. pose proof Ho as (HL & _ & HF). assert (Hk : 1 <= k <= n) by (rewrite Forall_forall in HF; apply HF; eapply nth_error_In; eauto).
      assert (L : (Z.to_nat (i - 1) < length o)%nat) by (apply nth_error_Some; congruence).
      split; [lia|]. split; [lia|]. apply (inverse_nth n o k i Ho (proj1 Hk)). split; [lia|]. split; [exact Hi1|exact E]. }
  destruct (nth_error (inverse (inverse o)) (Z.to_nat (i - 1))) as [k|] eqn:E1.
  - symmetry. apply R. reflexivity.
  - destruct (nth_error o (Z.to_nat (i - 1))) as [k|] eqn:E2; [|reflexivity]. pose proof (proj2 (R k) eq_refl) as Q. discriminate Q.
Qed.
Lemma moved_from {X} (zero : X) b o (z : Z -> X) : Forall (fun n => 1 <= n) b -> is_order (count b) o -> exists w, blocks_moved b o (fun _ => w) (fun _ => z).
Proof.
  intros Hb Ho. pose proof (inverse_order _ _ Ho) as Hi.
  assert (Hb' : Forall (fun n => 1 <= n) (reordered b o)) by (apply reordered_pos; auto).
  assert (Hi' : is_order (Z.of_nat (length (reordered b o))) (inverse o)). { rewrite reordered_length. pose proof Ho as (HL & _). rewrite HL. exact Hi. }
  pose proof (perm_moved zero (reordered b o) (inverse o) (fun _ => z) Hb' Hi') as M. apply (moved_back _ _ _ _ Hi') in M.
  rewrite (reordered_inverse b o Ho), (inverse_twice _ _ Ho) in M. exists (perm_fun zero (reordered b o) (inverse o) (fun _ => z) 0).
  intros x i k j H1 H2 H3. exact (M 0 i k j H1 H2 H3).
Qed.

Section Algebra.
Context {T : Type} (A : arith T) (opp inv : T -> T) (HA : exact_arith A opp inv).
Let FT := ea_field A opp inv HA.
Add Field TFE : FT.
Notation "x * y" := (a_mul A x y).
Notation Sum := (sum A).
Lemma overlap_nested n S P z k : overlap_with A n S P z k = Sum n (fun l => z l * Sum n (fun m => S l m * P k m)).
Proof. unfold overlap_with. apply sum_ext. intros l _. rewrite <- (sum_scale_l A opp inv HA). apply sum_ext. intros m _. ring. Qed.
(** the sum over the orbitals is a matrix element *)
Lemma element_sum n K (F S P : Z -> Z -> T) (e : Z -> T) (w1 w2 : Z -> T) : 0 <= n -> 0 <= K ->
  (forall i j, 1 <= i <= n -> 1 <= j <= n -> S i j = S j i) -> complete A n K S P -> orbitals_of A n K F S P e ->
  Sum (Z.to_nat K) (fun k => e k * (overlap_with A (Z.to_nat n) S P w1 k * overlap_with A (Z.to_nat n) S P w2 k)) = element A n F w1 w2.
Proof.
  intros Hn HK Hs Hc Ho. set (m := Z.to_nat n). assert (Em : Z.of_nat m = n) by (unfold m; lia). unfold element. fold m.
  set (h := fun k l => Sum m (fun j => P k j * S j l)).
  transitivity (Sum (Z.to_nat K) (fun k => Sum m (fun l => w1 l * Sum m (fun j => F l j * P k j)) * Sum m (fun c => w2 c * h k c))).
  - apply sum_ext. intros k Hk. rewrite !overlap_nested. fold m.
    replace (Sum m (fun l => w2 l * Sum m (fun m0 => S l m0 * P k m0))) with (Sum m (fun c => w2 c * h k c)).
    + rewrite (sum_ext A m (fun l => w1 l * Sum m (fun j => F l j * P k j)) (fun l => e k * (w1 l * Sum m (fun j => S l j * P k j)))).
      * rewrite (sum_scale_l A opp inv HA). ring.
      * intros l Hl. pose proof (Ho k l ltac:(lia) ltac:(lia)) as Q. fold m in Q. rewrite Q. ring.
    + apply sum_ext. intros c Hc0. unfold h. f_equal. apply sum_ext. intros j Hj. rewrite (Hs c j) by lia. ring.
  - rewrite (sum_ext A (Z.to_nat K) _ (fun k => Sum m (fun l => Sum m (fun j => Sum m (fun c => (w1 l * (F l j * w2 c)) * (P k j * h k c)))))).
    2:{ intros k _. rewrite <- (sum_scale_r A opp inv HA). apply sum_ext. intros l _.
        transitivity (w1 l * (Sum m (fun j => F l j * P k j) * Sum m (fun c => w2 c * h k c))); [ring|].
        rewrite <- (sum_scale_r A opp inv HA), <- (sum_scale_l A opp inv HA). apply sum_ext. intros j _.
        transitivity ((w1 l * (F l j * P k j)) * Sum m (fun c => w2 c * h k c)); [ring|]. rewrite <- (sum_scale_l A opp inv HA). apply sum_ext. intros c _. ring. }
    rewrite (sum_swap A opp inv HA). apply sum_ext. intros l Hl. rewrite (sum_swap A opp inv HA), <- (sum_scale_l A opp inv HA). apply sum_ext. intros j Hj.
    rewrite (sum_swap A opp inv HA). rewrite (sum_single A opp inv HA m _ j Hj).
    + rewrite (sum_scale_l A opp inv HA). pose proof (Hc j j ltac:(lia) ltac:(lia)) as Q. rewrite Z.eqb_refl in Q. unfold h. fold m in Q. rewrite Q. ring.
    + intros c Hc0 Hne. rewrite (sum_scale_l A opp inv HA). pose proof (Hc j c ltac:(lia) ltac:(lia)) as Q. destruct (Z.eqb_spec j c) as [->|_]; [congruence|]. unfold h. fold m in Q. rewrite Q. ring.
Qed.
Lemma overlap_sum n K (S P : Z -> Z -> T) (w1 w2 : Z -> T) : 0 <= n -> 0 <= K ->
  (forall i j, 1 <= i <= n -> 1 <= j <= n -> S i j = S j i) -> complete A n K S P ->
  Sum (Z.to_nat K) (fun k => overlap_with A (Z.to_nat n) S P w2 k * overlap_with A (Z.to_nat n) S P w1 k) = element A n S w1 w2.
Proof.
  intros Hn HK Hs Hc. rewrite <- (element_sum n K S S P (fun _ => a_one A) w1 w2 Hn HK Hs Hc).
  - apply sum_ext. intros. ring.
  - intros k i _ _. ring.
Qed.
Lemma numbers_elements {R} (f : T -> T -> T -> T -> R) n K (F S P : Z -> Z -> T) (e : Z -> T) (w1 w2 gA gB : Z -> T) : 0 <= n ->
  (forall i j, 1 <= i <= n -> 1 <= j <= n -> S i j = S j i) -> complete A n (Z.of_nat K) S P -> orbitals_of A n (Z.of_nat K) F S P e ->
  (forall k, 1 <= k <= Z.of_nat K -> gA k = overlap_with A (Z.to_nat n) S P w1 k) -> (forall k, 1 <= k <= Z.of_nat K -> gB k = overlap_with A (Z.to_nat n) S P w2 k) ->
  numbers_of A f K e gA gB = f (element A n F w1 w2) (element A n F w1 w1) (element A n F w2 w2) (element A n S w1 w2).
Proof.
  intros Hn Hs Hc Ho HgA HgB. unfold numbers_of. rewrite !(quad_exact A opp inv HA), !accum_sum.
  assert (Q : forall x y g h, (forall k, 1 <= k <= Z.of_nat K -> g k = overlap_with A (Z.to_nat n) S P x k) -> (forall k, 1 <= k <= Z.of_nat K -> h k = overlap_with A (Z.to_nat n) S P y k) ->
    Sum K (fun k => e k * (g k * h k)) = element A n F x y).
  { intros x y g h Hg Hh. rewrite <- (element_sum n (Z.of_nat K) F S P e x y) by (auto; lia). rewrite Nat2Z.id. apply sum_ext. intros k Hk. rewrite Hg, Hh by auto. reflexivity. }
  rewrite (Q w1 w2 gA gB HgA HgB), (Q w1 w1 gA gA HgA HgA), (Q w2 w2 gB gB HgB HgB). f_equal.
  rewrite <- (overlap_sum n (Z.of_nat K) S P w1 w2) by (auto; lia). rewrite Nat2Z.id. apply sum_ext. intros k Hk. rewrite HgA, HgB by auto. reflexivity.
Qed.
End Algebra.

Section Placed.
Context (N : nums) (A : arith (num N)) (opp inv : num N -> num N) (HA : exact_arith A opp inv) (lab : num N -> str).
(** the projections in the order of the dimer's files *)
Lemma shape_in_dimer cp (d : data N) r1 r2 gA gB u : projections_are N A lab cp d r1 r2 gA gB u -> exists w1 w2, in_dimer N A lab cp d r1 r2 w1 w2 u /\
  (forall k, gA k = overlap_with A (Z.to_nat (size N d)) (symmetric N (over N d)) (table N (coefP N d)) w1 k) /\
  (forall k, gB k = overlap_with A (Z.to_nat (size N d)) (symmetric N (over N d)) (table N (coefP N d)) w2 k).
Proof.
  intros [Hn -> ->|oA oB gP gS Ecp Tb Fb Ho FA FB M1 M2 -> ->|o2 oP g2 gP gS Ecp Tb Fb Ho2 HoP F2 FP M0 M1 M2 -> ->].
  - eexists _, _. split; [apply in_not; [exact Hn|reflexivity|reflexivity]|]. split; intros k; apply (projection_exact A opp inv HA).
  - destruct (moved_from (a_zero A) _ _ (spread_1 N A cp d (table N (coef1 N d) r1)) Fb Ho) as (w1 & W1). destruct (moved_from (a_zero A) _ _ (spread_2 N A cp d (table N (coef2 N d) r2)) Fb Ho) as (w2 & W2).
    exists w1, w2. split; [apply (in_plain N A lab cp d r1 r2 w1 w2 oA oB); assumption|]. rewrite <- Tb.
    split; intros k; rewrite (projection_exact A opp inv HA); [exact (overlap_moved A opp inv HA _ _ _ _ _ _ _ _ k Fb Ho W1 M1 M2 0)|exact (overlap_moved A opp inv HA _ _ _ _ _ _ _ _ k Fb Ho W2 M1 M2 0)].
  - destruct (moved_from (a_zero A) _ _ (table N (coef1 N d) r1) Fb HoP) as (w1 & W1). destruct (moved_from (a_zero A) _ _ (g2 r2) Fb HoP) as (w2 & W2).
    exists w1, w2. split; [apply (in_cp N A lab cp d r1 r2 w1 w2 o2 oP g2); assumption|]. rewrite <- Tb.
    split; intros k; rewrite (projection_exact A opp inv HA); [exact (overlap_moved A opp inv HA _ _ _ _ _ _ _ _ k Fb HoP W1 M1 M2 0)|exact (overlap_moved A opp inv HA _ _ _ _ _ _ _ _ k Fb HoP W2 M1 M2 0)].
Qed.
(** one pair of vectors for all energies *)
Lemma elements_run E disk (prog : str) l p d r1 r2 u : job N E disk l p d r1 r2 -> lined_up N lab (counterPoise p) d u -> complete A (size N d) (count (coefP N d)) (symmetric N (over N d)) (table N (coefP N d)) ->
  exists w1 w2, in_dimer N A lab (counterPoise p) d r1 r2 w1 w2 u /\ forall X (finish : params -> bool -> num N -> num N -> num N -> num N -> X) F f E' disk' prog' l' p' d' r1' r2', (forall q, same_request q p' -> finish q = finish p') ->
    job N E' disk' l' p' d' r1' r2' -> counterPoise p' = counterPoise p -> levels N f d d' r1 r2 r1' r2' ->
    orbitals_of A (size N d) (count (coefP N d)) F (symmetric N (over N d)) (table N (coefP N d)) (entry N (enP N d')) ->
    exists bound, forall fuel, (bound <= fuel)%nat ->
      main_with E' N A lab disk' finish fuel (prog' :: words l') =
        Ok (finish p' u (element A (size N d) F w1 w2) (element A (size N d) F w1 w1) (element A (size N d) F w2 w2) (element A (size N d) (symmetric N (over N d)) w1 w2)).
Proof.
  intros Hj Hl Hc. destruct (levels_run N A lab E disk prog l p d r1 r2 u Hj Hl) as (gA & gB & Hsh & H). destruct (shape_in_dimer _ _ _ _ _ _ _ Hsh) as (w1 & w2 & Hw & G1 & G2).
  exists w1, w2. split; [exact Hw|]. intros X finish F f E' disk' prog' l' p' d' r1' r2' Hsame Hj' Hcp Hv Ho. destruct (H X finish f E' disk' prog' l' p' d' r1' r2' Hsame Hj' Hcp Hv) as (bound & R).
  exists bound. intros fuel Hf. rewrite (R fuel Hf). f_equal. apply (numbers_elements A opp inv HA (finish p' u) (size N d) (length (coefP N d)) F (symmetric N (over N d)) (table N (coefP N d)) (entry N (enP N d')) w1 w2 gA gB).
  - pose proof (be_w _ _ _ (jb_fit _ _ _ _ _ _ _ _ Hj)) as Q. clear -Q. destruct (counterPoise p); unfold width in Q; lia.
  - intros i j _ _. unfold symmetric. rewrite Z.max_comm, Z.min_comm. reflexivity.
  - exact Hc.
  - exact Ho.
  - intros k _. apply G1.
  - intros k _. apply G2.
Qed.
End Placed.
