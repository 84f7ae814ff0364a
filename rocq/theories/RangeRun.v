(** * Bounds for the numbers of a run in an ordered field *)
From Verif Require Import MatrixFacts QcUnscramble QcTransfer QcOrder QcFinal QcExact.
From Verif Require Export ElementRun LowdinRun.
From Verif Require Export ReaderModel MainSpec LevelsSpec ElementSpec RangeSpec.
From Verif Require Export StrSpec StrModel.
Open Scope Z_scope.

Section Ordered.
Context {T : Type} (A : arith T) (opp inv : T -> T) (HA : exact_arith A opp inv) (le : T -> T -> Prop) (HO : ordered A le).
Let FT := ea_field A opp inv HA.
Add Field TFR : FT.
Notation "x + y" := (a_add A x y). Notation "x * y" := (a_mul A x y). Notation "x - y" := (a_sub A x y). Notation "x / y" := (a_div A x y).
Notation "0" := (a_zero A). Notation "1" := (a_one A). Notation "x <= y" := (le x y).
Notation Sum := (sum A).
Lemma le_refl x : x <= x. Proof. destruct (or_total A le HO x x); auto. Qed.
Lemma le_diff x y : x <= y -> 0 <= y - x.
Proof. intros H. apply (or_add A le HO _ _ (0 - x)) in H. replace (x + (0 - x)) with 0 in H by ring. replace (y + (0 - x)) with (y - x) in H by ring. exact H. Qed.
Lemma diff_le x y : 0 <= y - x -> x <= y.
Proof. intros H. apply (or_add A le HO _ _ x) in H. replace (0 + x) with x in H by ring. replace (y - x + x) with y in H by ring. exact H. Qed.
Lemma plus_nonneg x y : 0 <= x -> 0 <= y -> 0 <= x + y.
Proof. intros H1 H2. apply (or_trans A le HO 0 y); [exact H2|]. apply (or_add A le HO _ _ y) in H1. replace (0 + y) with y in H1 by ring. exact H1. Qed.
Lemma square_nonneg x : 0 <= x * x.
Proof.
  destruct (or_total A le HO 0 x) as [H|H]; [apply (or_mul A le HO); auto|].
  apply le_diff in H. replace (x * x) with ((0 - x) * (0 - x)) by ring. apply (or_mul A le HO); auto.
Qed.
Lemma cancel_le d x y : 0 <= d -> d <> 0 -> d * x <= d * y -> x <= y.
Proof.
  intros H0 Hd H. destruct (or_total A le HO x y) as [E|E]; [exact E|]. apply diff_le.
  assert (H' : d * y <= d * x). { apply diff_le. replace (d * x - d * y) with (d * (x - y)) by ring. apply (or_mul A le HO); [exact H0|]. apply le_diff, E. }
  pose proof (or_antisym A le HO _ _ H H') as Q. assert (E1 : x = y) by (transitivity ((d * x) / d); [field; exact Hd|rewrite Q; field; exact Hd]).
  rewrite E1. replace (y - y) with 0 by ring. apply le_refl.
Qed.
Lemma double_zero x : x + x = 0 -> x = 0.
Proof.
  intros H. assert (H0 : x = 0 - x) by (transitivity ((x + x) - x); [ring|rewrite H; ring]).
  destruct (or_total A le HO 0 x) as [P|P]; apply (or_antisym A le HO); auto; rewrite H0; [|].
  - apply diff_le. replace (0 - (0 - x)) with x by ring. exact P.
  - apply le_diff, P.
Qed.
Lemma two_not_zero : 1 + 1 <> 0.
Proof. intros H. apply double_zero in H. exact (F_1_neq_0 FT H). Qed.
Lemma square_zero x : x * x = 0 -> x = 0.
Proof. intros H. destruct (zero_product A opp inv HA _ _ H); auto. Qed.
Lemma Sum_nonneg n f : (forall k, (1 <= k <= Z.of_nat n)%Z -> 0 <= f k) -> 0 <= Sum n f.
Proof.
  induction n as [|n IH]; intros H; cbn [sum]; [apply le_refl|]. apply plus_nonneg; [|apply H; lia]. apply IH. intros k Hk. apply H. lia.
Qed.
Lemma Sum_nonneg_zero n f : (forall k, (1 <= k <= Z.of_nat n)%Z -> 0 <= f k) -> Sum n f = 0 -> forall k, (1 <= k <= Z.of_nat n)%Z -> f k = 0.
Proof.
  induction n as [|n IH]; intros H E k Hk; [lia|]. cbn [sum] in E. pose proof (Sum_nonneg n f ltac:(intros; apply H; lia)) as P. pose proof (H (Z.of_nat (S n)) ltac:(lia)) as Q.
  assert (Z1 : f (Z.of_nat (S n)) = 0).
  { apply (or_antisym A le HO); [|exact Q]. rewrite <- E. apply diff_le. replace (Sum n f + f (Z.of_nat (S n)) - f (Z.of_nat (S n))) with (Sum n f) by ring. exact P. }
  destruct (Z.eq_dec k (Z.of_nat (S n))) as [->|Hne]; [exact Z1|]. apply IH; [intros; apply H; lia| |lia]. rewrite Z1 in E. rewrite <- E. ring.
Qed.
Lemma Sum_sub n f g : Sum n (fun k => f k - g k) = Sum n f - Sum n g.
Proof. induction n as [|n IH]; cbn [sum]; [ring|]. rewrite IH. ring. Qed.
(** a weighted sum of squares *)
Lemma weighted_range n e g lo hi : (forall k, (1 <= k <= Z.of_nat n)%Z -> lo <= e k /\ e k <= hi) ->
  lo * Sum n (fun k => g k * g k) <= Sum n (fun k => e k * (g k * g k)) /\ Sum n (fun k => e k * (g k * g k)) <= hi * Sum n (fun k => g k * g k).
Proof.
  intros H. rewrite <- !(sum_scale_l A opp inv HA). split; apply diff_le; rewrite <- Sum_sub; apply Sum_nonneg; intros k Hk; destruct (H k Hk) as [H1 H2].
  - replace (e k * (g k * g k) - lo * (g k * g k)) with ((e k - lo) * (g k * g k)) by ring. apply (or_mul A le HO); [apply le_diff, H1|apply square_nonneg].
  - replace (hi * (g k * g k) - e k * (g k * g k)) with ((hi - e k) * (g k * g k)) by ring. apply (or_mul A le HO); [apply le_diff, H2|apply square_nonneg].
Qed.
Lemma Sum_square_plus n e g h : Sum n (fun k => e k * ((g k + h k) * (g k + h k))) = Sum n (fun k => e k * (g k * g k)) + Sum n (fun k => e k * (h k * h k)) + (Sum n (fun k => e k * (g k * h k)) + Sum n (fun k => e k * (g k * h k))).
Proof. rewrite <- !(sum_add A opp inv HA). apply sum_ext. intros k _. ring. Qed.
Lemma Sum_square_minus n e g h : Sum n (fun k => e k * ((g k - h k) * (g k - h k))) = Sum n (fun k => e k * (g k * g k)) + Sum n (fun k => e k * (h k * h k)) - (Sum n (fun k => e k * (g k * h k)) + Sum n (fun k => e k * (g k * h k))).
Proof. rewrite <- !(sum_add A opp inv HA), <- Sum_sub. apply sum_ext. intros k _. ring. Qed.
Lemma Sum_one n (f : Z -> T) : Sum n (fun k => 1 * f k) = Sum n f.
Proof. apply sum_ext. intros k _. ring. Qed.
Section Pair.
Context (n : nat) (e g h : Z -> T) (s : T).
Hypothesis Hg : Sum n (fun k => g k * g k) = 1.
Hypothesis Hh : Sum n (fun k => h k * h k) = 1.
Hypothesis Hs : Sum n (fun k => g k * h k) = s.
Lemma norm_plus : Sum n (fun k => (g k + h k) * (g k + h k)) = (1 + 1) * (1 + s).
Proof. rewrite <- Sum_one. rewrite (Sum_square_plus n (fun _ => 1) g h), !Sum_one, Hg, Hh, Hs. ring. Qed.
Lemma norm_minus : Sum n (fun k => (g k - h k) * (g k - h k)) = (1 + 1) * (1 - s).
Proof. rewrite <- Sum_one. rewrite (Sum_square_minus n (fun _ => 1) g h), !Sum_one, Hg, Hh, Hs. ring. Qed.
Lemma product_nonneg : 0 <= ((1 + 1) * (1 + s)) * ((1 + 1) * (1 - s)).
Proof. rewrite <- norm_plus, <- norm_minus. apply (or_mul A le HO); apply Sum_nonneg; intros; apply square_nonneg. Qed.
Lemma four_nonneg : 0 <= (1 + 1) * (1 + 1). Proof. apply square_nonneg. Qed.
Lemma four_not_zero : (1 + 1) * (1 + 1) <> 0.
Proof. intros H. destruct (zero_product A opp inv HA _ _ H) as [E|E]; exact (two_not_zero E). Qed.
Lemma overlap_at_most_one : s * s <= 1.
Proof.
  apply (cancel_le ((1 + 1) * (1 + 1))); [exact four_nonneg|exact four_not_zero|]. apply diff_le.
  replace ((1 + 1) * (1 + 1) * 1 - (1 + 1) * (1 + 1) * (s * s)) with (((1 + 1) * (1 + s)) * ((1 + 1) * (1 - s))) by ring. exact product_nonneg.
Qed.
(** if s s = 1 then h = s g, s is 1 or -1 *)
Lemma parallel_sum : s * s = 1 -> Sum n (fun k => (h k - s * g k) * (h k - s * g k)) = 0.
Proof.
  intros H. transitivity (Sum n (fun k => h k * h k) - (s + s) * Sum n (fun k => g k * h k) + (s * s) * Sum n (fun k => g k * g k)).
  - rewrite <- !(sum_scale_l A opp inv HA), <- Sum_sub, <- (sum_add A opp inv HA). apply sum_ext. intros k _. ring.
  - rewrite Hg, Hh, Hs, H. transitivity (1 + 1 - (1 + 1) * (s * s)); [ring|]. rewrite H. ring.
Qed.
Lemma parallel : s * s = 1 -> forall k, (1 <= k <= Z.of_nat n)%Z -> h k = s * g k.
Proof.
  intros H k Hk. apply (equal_of_difference A opp inv HA). apply square_zero. refine (Sum_nonneg_zero n (fun k => (h k - s * g k) * (h k - s * g k)) _ (parallel_sum H) k Hk). intros i _. apply square_nonneg.
Qed.
Lemma unit_sign : s * s = 1 -> s = 1 \/ s = 0 - 1.
Proof.
  intros H. assert (Q : (1 - s) * (1 + s) = 0) by (transitivity (1 - s * s); [ring|rewrite H; ring]).
  destruct (zero_product A opp inv HA _ _ Q) as [E|E]; [left|right].
  - transitivity (1 - (1 - s)); [ring|]. rewrite E. ring.
  - transitivity ((1 + s) - 1); [ring|]. rewrite E. ring.
Qed.
Lemma coupling_bound j a b lo hi : (forall k, (1 <= k <= Z.of_nat n)%Z -> lo <= e k /\ e k <= hi) ->
  Sum n (fun k => e k * (g k * h k)) = j -> Sum n (fun k => e k * (g k * g k)) = a -> Sum n (fun k => e k * (h k * h k)) = b -> s * s <> 1 ->
  J_eff A j a b s + J_eff A j a b s <= hi - lo /\ lo - hi <= J_eff A j a b s + J_eff A j a b s.
Proof.
  intros Hk Hj Ha Hb Hne. set (d := ((1 + 1) * (1 + s)) * ((1 + 1) * (1 - s))).
  assert (D0 : 0 <= d) by exact product_nonneg.
  assert (D1 : 1 - s * s <> 0). { intros E. apply Hne. transitivity (1 - (1 - s * s)); [ring|]. rewrite E. ring. }
  assert (Dn : d <> 0).
  { intros E. apply D1. assert (Q : (1 + 1) * (1 + 1) * (1 - s * s) = 0) by (rewrite <- E; unfold d; ring).
    destruct (zero_product A opp inv HA _ _ Q) as [E'|E']; [contradiction (four_not_zero E')|exact E']. }
  destruct (weighted_range n e (fun k => g k + h k) lo hi Hk) as [P1 P2]. destruct (weighted_range n e (fun k => g k - h k) lo hi Hk) as [M1 M2]. cbv beta in P1, P2, M1, M2.
  rewrite norm_plus in P1, P2. rewrite norm_minus in M1, M2. rewrite Sum_square_plus, Ha, Hb, Hj in P1, P2. rewrite Sum_square_minus, Ha, Hb, Hj in M1, M2.
  assert (Np : 0 <= (1 + 1) * (1 + s)) by (rewrite <- norm_plus; apply Sum_nonneg; intros; apply square_nonneg).
  assert (Nm : 0 <= (1 + 1) * (1 - s)) by (rewrite <- norm_minus; apply Sum_nonneg; intros; apply square_nonneg).
  apply le_diff in P1. apply le_diff in P2. apply le_diff in M1. apply le_diff in M2.
  pose proof (or_mul A le HO _ _ P1 Nm) as Q1. pose proof (or_mul A le HO _ _ P2 Nm) as Q2. pose proof (or_mul A le HO _ _ M1 Np) as Q3. pose proof (or_mul A le HO _ _ M2 Np) as Q4.
  assert (EJ : J_eff A j a b s = (j - 1 / (1 + 1) * (b + a) * s) / (1 - s * s)) by (unfold J_eff; rewrite (ea_two A opp inv HA), (ea_pow2 A opp inv HA); reflexivity).
  assert (DJ : d * (J_eff A j a b s + J_eff A j a b s) = (1 + 1) * (1 + 1) * ((1 + 1) * j - (a + b) * s)) by (rewrite EJ; unfold d; field; split; [exact two_not_zero|exact D1]).
  split; apply (cancel_le d _ _ D0 Dn); rewrite DJ; apply diff_le.
  - refine (eq_ind _ (fun x => 0 <= x) (plus_nonneg _ _ Q2 Q3) _ _). unfold d. ring.
  - refine (eq_ind _ (fun x => 0 <= x) (plus_nonneg _ _ Q1 Q4) _ _). unfold d. ring.
Qed.
End Pair.
(** the coefficients of an orbital from its projections *)
Lemma from_projections n K (S P : Z -> Z -> T) w c : (0 <= n)%Z -> (forall i j, 1 <= i <= n -> 1 <= j <= n -> S i j = S j i)%Z -> complete A n K S P -> (1 <= c <= n)%Z ->
  w c = Sum (Z.to_nat K) (fun k => P k c * overlap_with A (Z.to_nat n) S P w k).
Proof.
  intros Hn Hs Hc Hi. set (m := Z.to_nat n).
  transitivity (Sum m (fun l => w l * (if (c =? l)%Z then 1 else 0))).
  - rewrite (sum_single A opp inv HA m _ c); [rewrite Z.eqb_refl; ring|lia|]. intros l _ Hne. destruct (Z.eqb_spec c l); [congruence|ring].
  - rewrite (sum_ext A m _ (fun l => Sum (Z.to_nat K) (fun k => w l * (P k c * Sum m (fun j => P k j * S j l))))).
    2:{ intros l Hl. rewrite <- (Hc c l); [|lia|lia]. fold m. rewrite <- (sum_scale_l A opp inv HA). reflexivity. }
    rewrite (sum_swap A opp inv HA). apply sum_ext. intros k _. rewrite (overlap_nested A opp inv HA), <- (sum_scale_l A opp inv HA). apply sum_ext. intros l Hl.
    transitivity (P k c * (w l * Sum m (fun j => P k j * S j l))); [ring|]. f_equal. f_equal. apply sum_ext. intros j Hj. rewrite (Hs l j) by lia. ring.
Qed.
Lemma projections_scale n (S P : Z -> Z -> T) w w' t k : (0 <= n)%Z -> (forall c, (1 <= c <= n)%Z -> w' c = t * w c) -> overlap_with A (Z.to_nat n) S P w' k = t * overlap_with A (Z.to_nat n) S P w k.
Proof.
  intros Hn H. rewrite !(overlap_nested A opp inv HA), <- (sum_scale_l A opp inv HA). apply sum_ext. intros l Hl. rewrite (H l) by lia. ring.
Qed.
Lemma element_scale n (S : Z -> Z -> T) w w' t : (0 <= n)%Z -> (forall c, (1 <= c <= n)%Z -> w' c = t * w c) -> element A n S w w' = t * element A n S w w.
Proof.
  intros Hn H. unfold element. rewrite <- (sum_scale_l A opp inv HA). apply sum_ext. intros i _.
  rewrite (sum_ext A (Z.to_nat n) (fun j => S i j * w' j) (fun j => t * (S i j * w j))) by (intros j Hj; rewrite (H j) by lia; ring). rewrite (sum_scale_l A opp inv HA). ring.
Qed.
Lemma zero_minus x : 0 - x = (0 - 1) * x. Proof. ring. Qed.
Lemma one_times x : x = 1 * x. Proof. ring. Qed.
Lemma sign_square : (0 - 1) * 1 * ((0 - 1) * 1) = 1. Proof. ring. Qed.
Lemma one_square : 1 * 1 * (1 * 1) = 1. Proof. ring. Qed.
End Ordered.
