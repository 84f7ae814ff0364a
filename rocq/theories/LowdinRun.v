(** * The transfer integral and the orthogonalised orbitals *)
From Coq Require Import Classical.
From Verif Require Import MatrixFacts QcUnscramble QcTransfer QcOrder QcFinal QcExact.
From Verif Require Export ElementRun.
From Verif Require Export ReaderModel MainSpec LevelsSpec ElementSpec LowdinSpec.
From Verif Require Export StrSpec StrModel.
Open Scope Z_scope.

Section Algebra.
Context {T : Type} (A : arith T) (opp inv : T -> T) (HA : exact_arith A opp inv).
Let FT := ea_field A opp inv HA.
Add Field TFLo : FT.
Notation "x + y" := (a_add A x y). Notation "x * y" := (a_mul A x y). Notation "x - y" := (a_sub A x y). Notation "x / y" := (a_div A x y).
Notation "0" := (a_zero A). Notation "1" := (a_one A).
Notation el := (element A).
Lemma element_right n M w a b x y : el n M w (blend A x y a b) = x * el n M w a + y * el n M w b.
Proof.
  unfold element. set (m := Z.to_nat n). rewrite <- !(sum_scale_l A opp inv HA), <- (sum_add A opp inv HA). apply sum_ext. intros i _.
  transitivity (w i * (x * sum A m (fun j => M i j * a j) + y * sum A m (fun j => M i j * b j))); [|ring]. f_equal.
  rewrite <- !(sum_scale_l A opp inv HA), <- (sum_add A opp inv HA). apply sum_ext. intros j _. unfold blend. ring.
Qed.
Lemma element_left n M w a b x y : el n M (blend A x y a b) w = x * el n M a w + y * el n M b w.
Proof.
  unfold element. set (m := Z.to_nat n). rewrite <- !(sum_scale_l A opp inv HA), <- (sum_add A opp inv HA). apply sum_ext. intros i _. unfold blend. ring.
Qed.
Lemma element_sym n M a b : 0 <= n -> (forall i j, 1 <= i <= n -> 1 <= j <= n -> M i j = M j i)%Z -> el n M a b = el n M b a.
Proof.
  intros Hn Hs. unfold element. set (m := Z.to_nat n).
  rewrite (sum_ext A m _ (fun i => sum A m (fun j => a i * (M i j * b j)))) by (intros i _; rewrite <- (sum_scale_l A opp inv HA); reflexivity).
  rewrite (sum_swap A opp inv HA). apply sum_ext. intros j Hj. rewrite <- (sum_scale_l A opp inv HA). apply sum_ext. intros i Hi. rewrite (Hs i j) by lia. ring.
Qed.
Lemma zero_product a b : a * b = 0 -> a = 0 \/ b = 0.
Proof.
  intros H. destruct (classic (a = 0)) as [E|E]; [auto|right]. transitivity ((a * b) / a); [field; exact E|]. rewrite H. field. exact E.
Qed.
Lemma mul_one_r x : x * 1 = x. Proof. ring. Qed.
Lemma one_not_zero : 1 <> 0. Proof. exact (F_1_neq_0 FT). Qed.
Lemma equal_of_difference a b : a - b = 0 -> a = b.
Proof. intros H. transitivity ((a - b) + b); [ring|]. rewrite H. ring. Qed.
Lemma difference_of_equal a b : a = b -> a - b = 0.
Proof. intros ->. ring. Qed.
(** the matrix (x y; y z) makes two normalised orbitals of overlap s orthonormal *)
Lemma lowdin_shape s x y z : x * (x + y * s) + y * (x * s + y) = 1 -> y * (y + z * s) + z * (y * s + z) = 1 -> x * (y + z * s) + y * (y * s + z) = 0 -> x + z <> 0 ->
  x = z /\ 1 - s * s <> 0.
Proof.
  intros H1 H2 H3 Ht.
  assert (Hd : (x * z - y * y) * (x * z - y * y) * (1 - s * s) = 1).
  { transitivity ((x * (x + y * s) + y * (x * s + y)) * (y * (y + z * s) + z * (y * s + z)) - (x * (y + z * s) + y * (y * s + z)) * (x * (y + z * s) + y * (y * s + z))); [ring|].
    rewrite H1, H2, H3. ring. }
  assert (Hs : 1 - s * s <> 0). { intros E. rewrite E in Hd. apply one_not_zero. rewrite <- Hd. ring. }
  assert (Hdet : x * z - y * y <> 0). { intros E. rewrite E in Hd. apply one_not_zero. rewrite <- Hd. ring. }
  split; [|exact Hs]. assert (Hp : (x - z) * (x + z + (y * s + y * s)) = 0).
  { transitivity ((x * (x + y * s) + y * (x * s + y)) - (y * (y + z * s) + z * (y * s + z))); [ring|]. rewrite H1, H2. ring. }
  destruct (zero_product _ _ Hp) as [E|E]; [exact (equal_of_difference _ _ E)|exfalso].
  assert (Hsd : s * (x * z - y * y) = 0).
  { transitivity ((x * (y + z * s) + y * (y * s + z)) - y * (x + z + (y * s + y * s))); [ring|]. rewrite H3, E. ring. }
  destruct (zero_product _ _ Hsd) as [Es|Ed]; [|exact (Hdet Ed)]. apply Ht. transitivity (x + z + (y * s + y * s)); [rewrite Es; ring|exact E].
Qed.
Lemma lowdin_value j a b s x y : 1 + 1 <> 0 -> x * (x + y * s) + y * (x * s + y) = 1 -> x * (y + x * s) + y * (y * s + x) = 0 -> 1 - s * s <> 0 ->
  J_eff A j a b s = y * (x * a + y * j) + x * (x * j + y * b).
Proof.
  intros H2 H1 H3 Hs. unfold J_eff. rewrite (ea_two A opp inv HA), (ea_pow2 A opp inv HA).
  assert (Hp : (x * x + y * y) * (1 - s * s) = 1).
  { transitivity ((x * (x + y * s) + y * (x * s + y)) - s * (x * (y + x * s) + y * (y * s + x))); [ring|]. rewrite H1, H3. ring. }
  assert (Hq : x * y = (0 - s) / ((1 + 1) * (1 - s * s))).
  { transitivity ((((x * (y + x * s) + y * (y * s + x)) - s * (x * (x + y * s) + y * (x * s + y)))) / ((1 + 1) * (1 - s * s))); [field; auto|]. rewrite H1, H3. field; auto. }
  transitivity ((x * x + y * y) * j + (x * y) * (a + b)); [|ring]. rewrite Hq.
  assert (Hp' : x * x + y * y = 1 / (1 - s * s)). { transitivity (((x * x + y * y) * (1 - s * s)) / (1 - s * s)); [field; auto|]. rewrite Hp. reflexivity. }
  rewrite Hp'. field. auto.
Qed.
(** a matrix has a vector that it sends to zero if and only if its determinant is zero *)
Lemma kernel_det (a b c d : T) : (exists x y, ~ (x = 0 /\ y = 0) /\ a * x + b * y = 0 /\ c * x + d * y = 0) <-> a * d - b * c = 0.
Proof.
  split.
  - intros (x & y & Hn & H1 & H2). assert (Hx : (a * d - b * c) * x = 0) by (transitivity (d * (a * x + b * y) - b * (c * x + d * y)); [ring|rewrite H1, H2; ring]).
    assert (Hy : (a * d - b * c) * y = 0) by (transitivity (a * (c * x + d * y) - c * (a * x + b * y)); [ring|rewrite H1, H2; ring]).
    destruct (zero_product _ _ Hx) as [E|E]; [exact E|]. destruct (zero_product _ _ Hy) as [E'|E']; [exact E'|]. destruct (Hn (conj E E')).
  - intros H. destruct (classic (a = 0 /\ b = 0)) as [[-> ->]|Hab].
    + destruct (classic (c = 0 /\ d = 0)) as [[-> ->]|Hcd].
      * exists 1, 0. split; [intros [E _]; exact (one_not_zero E)|]. split; ring.
      * exists d, (0 - c). split; [intros [E1 E2]; apply Hcd; split; [transitivity (0 - (0 - c)); [ring|rewrite E2; ring]|exact E1]|]. split; ring.
    + exists b, (0 - a). split; [intros [E1 E2]; apply Hab; split; [transitivity (0 - (0 - a)); [ring|rewrite E2; ring]|exact E1]|].
      split; [ring|]. transitivity (0 - (a * d - b * c)); [ring|]. rewrite H. ring.
Qed.
Lemma energy_det n F S w1 w2 e : element A n F w2 w1 = element A n F w1 w2 -> element A n S w2 w1 = element A n S w1 w2 ->
  (coupled_energy A n F S w1 w2 e <->
   (el n F w1 w1 - e * el n S w1 w1) * (el n F w2 w2 - e * el n S w2 w2) - (el n F w1 w2 - e * el n S w1 w2) * (el n F w1 w2 - e * el n S w1 w2) = 0).
Proof.
  intros EF ES. rewrite <- (kernel_det (el n F w1 w1 - e * el n S w1 w1) (el n F w1 w2 - e * el n S w1 w2) (el n F w1 w2 - e * el n S w1 w2) (el n F w2 w2 - e * el n S w2 w2)).
  unfold coupled_energy. split; intros (x & y & Hn & H1 & H2); exists x, y; (split; [exact Hn|]).
  - rewrite !element_right in H1, H2. rewrite EF, ES in H2. split.
    + transitivity ((x * el n F w1 w1 + y * el n F w1 w2) - e * (x * el n S w1 w1 + y * el n S w1 w2)); [ring|]. rewrite H1. ring.
    + transitivity ((x * el n F w1 w2 + y * el n F w2 w2) - e * (x * el n S w1 w2 + y * el n S w2 w2)); [ring|]. rewrite H2. ring.
  - rewrite !element_right, EF, ES. split; apply equal_of_difference.
    + rewrite <- H1. ring.
    + rewrite <- H2. ring.
Qed.
Lemma splitting_value a j s e1 e2 : 1 + 1 <> 0 -> 1 - s * s <> 0 -> e1 <> e2 ->
  (a - e1) * (a - e1) - (j - e1 * s) * (j - e1 * s) = 0 -> (a - e2) * (a - e2) - (j - e2 * s) * (j - e2 * s) = 0 ->
  e1 - e2 = J_eff A j a a s + J_eff A j a a s \/ e2 - e1 = J_eff A j a a s + J_eff A j a a s.
Proof.
  intros H2 Hs Hne D1 D2.
  assert (Hm : 1 - s <> 0). { intros E. apply Hs. transitivity ((1 - s) * (1 + s)); [ring|]. rewrite E. ring. }
  assert (Hp : 1 + s <> 0). { intros E. apply Hs. transitivity ((1 - s) * (1 + s)); [ring|]. rewrite E. ring. }
  assert (R : forall e, (a - e) * (a - e) - (j - e * s) * (j - e * s) = 0 -> e = (a - j) / (1 - s) \/ e = (a + j) / (1 + s)).
  { intros e D. assert (P : (a - j - e * (1 - s)) * (a + j - e * (1 + s)) = 0) by (rewrite <- D; ring).
    destruct (zero_product _ _ P) as [E|E]; apply equal_of_difference in E; [left|right].
    - rewrite E. field. exact Hm.
    - rewrite E. field. exact Hp. }
  unfold J_eff. rewrite (ea_two A opp inv HA), (ea_pow2 A opp inv HA).
  assert (Q : (a + j) / (1 + s) - (a - j) / (1 - s) = (j - 1 / (1 + 1) * (a + a) * s) / (1 - s * s) + (j - 1 / (1 + 1) * (a + a) * s) / (1 - s * s)) by (field; auto).
  destruct (R e1 D1) as [E1|E1], (R e2 D2) as [E2|E2]; subst.
  - contradiction.
  - right. exact Q.
  - left. exact Q.
  - contradiction.
Qed.
(** the energies of two coupled orbitals in terms of orthonormal ones made of them *)
Lemma orthonormal_energies a b j s x y e : 1 + 1 <> 0 -> 1 - s * s <> 0 ->
  x * (x + y * s) + y * (x * s + y) = 1 -> x * (y + x * s) + y * (y * s + x) = 0 ->
  ((a - e * 1) * (b - e * 1) - (j - e * s) * (j - e * s) = 0 <->
   ((x * (x * a + y * j) + y * (x * j + y * b)) - e) * ((y * (y * a + x * j) + x * (y * j + x * b)) - e) = (y * (x * a + y * j) + x * (x * j + y * b)) * (y * (x * a + y * j) + x * (x * j + y * b))).
Proof.
  intros H2 Hs H1 H3. set (d := x * x - y * y).
  assert (Hd : d * d * (1 - s * s) = 1).
  { transitivity ((x * (x + y * s) + y * (x * s + y)) * (x * (x + y * s) + y * (x * s + y)) - (x * (y + x * s) + y * (y * s + x)) * (x * (y + x * s) + y * (y * s + x))); [unfold d; ring|]. rewrite H1, H3. ring. }
  assert (Hdn : d * d <> 0). { intros E. rewrite E in Hd. apply one_not_zero. rewrite <- Hd. ring. }
  set (p := x * (x + y * s) + y * (x * s + y)) in *. set (q := x * (y + x * s) + y * (y * s + x)) in *.
  assert (G : ((x * (x * a + y * j) + y * (x * j + y * b)) - e * p) * ((y * (y * a + x * j) + x * (y * j + x * b)) - e * p) - ((y * (x * a + y * j) + x * (x * j + y * b)) - e * q) * ((y * (x * a + y * j) + x * (x * j + y * b)) - e * q)
    = d * d * ((a - e * 1) * (b - e * 1) - (j - e * s) * (j - e * s))) by (unfold d, p, q; ring).
  rewrite H1, H3 in G. split.
  - intros E. rewrite E in G. transitivity (d * d * 0 + (y * (x * a + y * j) + x * (x * j + y * b)) * (y * (x * a + y * j) + x * (x * j + y * b))); [|ring]. rewrite <- G. ring.
  - intros E. apply difference_of_equal in E. assert (Z0 : d * d * ((a - e * 1) * (b - e * 1) - (j - e * s) * (j - e * s)) = 0) by (rewrite <- G; refine (eq_trans _ E); ring).
    destruct (zero_product _ _ Z0) as [Z1|Z1]; [contradiction|exact Z1].
Qed.
(** the same with the norms of the two orbitals written out *)
Lemma lowdin_numbers a b j s x y z : 1 + 1 <> 0 -> x + z <> 0 ->
  x * (x * 1 + y * s) + y * (x * s + y * 1) = 1 -> y * (y * 1 + z * s) + z * (y * s + z * 1) = 1 -> x * (y * 1 + z * s) + y * (y * s + z * 1) = 0 ->
  J_eff A j a b s = x * (y * a + z * j) + y * (y * j + z * b) /\
  forall e, (a - e * 1) * (b - e * 1) - (j - e * s) * (j - e * s) = 0 <->
    ((x * (x * a + y * j) + y * (x * j + y * b)) - e) * ((y * (y * a + z * j) + z * (y * j + z * b)) - e) = (x * (y * a + z * j) + y * (y * j + z * b)) * (x * (y * a + z * j) + y * (y * j + z * b)).
Proof.
  intros H2 Ht O1 O2 O3.
  assert (P1 : x * (x + y * s) + y * (x * s + y) = 1) by (rewrite <- O1; ring).
  assert (P2 : y * (y + z * s) + z * (y * s + z) = 1) by (rewrite <- O2; ring).
  assert (P3 : x * (y + z * s) + y * (y * s + z) = 0) by (rewrite <- O3; ring). clear O1 O2 O3.
  destruct (lowdin_shape s x y z P1 P2 P3 Ht) as [Exz Hs]. subst z. split.
  - rewrite (lowdin_value j a b s x y H2 P1 P3 Hs). ring.
  - intros e. rewrite (orthonormal_energies a b j s x y e H2 Hs P1 P3).
    replace (x * (y * a + x * j) + y * (y * j + x * b)) with (y * (x * a + y * j) + x * (x * j + y * b)) by ring. reflexivity.
Qed.
End Algebra.
