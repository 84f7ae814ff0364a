(** * The transfer integral in exact arithmetic *)
From Verif Require Export QcTransfer QcExactSpec.
Open Scope Z_scope.

Section ExactJ.
Context {T : Type}.
Variable A : arith T.
Variables opp inv : T -> T.
Hypothesis HA : exact_arith A opp inv.

Let FT := ea_field A opp inv HA.
Add Field TFJ : FT.

Notation "0" := (a_zero A).
Notation "1" := (a_one A).
Infix "+" := (a_add A).
Infix "*" := (a_mul A).
Infix "-" := (a_sub A).
Infix "/" := (a_div A).
Notation Sum := (sum A).
Implicit Types (gA gB e : Z -> T).



Lemma projection_exact N S P z k : projection A N S P z k = overlap_with A N S P z k.
Proof.
  unfold projection, overlap_with. rewrite accum_sum. apply sum_ext. intros l _.
  rewrite accum_sum, <- (sum_scale_l A opp inv HA). apply sum_ext. intros; ring.
Qed.

Lemma weighted_exact K e g i : (1 <= i <= Z.of_nat K)%Z -> weighted A K e g i = e i * g i.
Proof.
  intros Hi. unfold weighted. rewrite accum_sum.
  rewrite (sum_single A opp inv HA K _ i Hi).
  - cbn beta. rewrite Z.eqb_refl. reflexivity.
  - intros k _ Hk. cbn beta. destruct (Z.eqb_spec i k); [congruence|]. ring.
Qed.

Lemma quad_exact K e g h : accum A K h (weighted A K e g) = Sum K (fun k => e k * (g k * h k)).
Proof. rewrite accum_sum. apply sum_ext. intros k Hk. rewrite weighted_exact by auto. ring. Qed.

Lemma F_div x y : x / y = x * inv y.
Proof. apply (Fdiv_def FT). Qed.

Lemma J_exact K e gA gB : J_of A K e gA gB = J_formula A K e gA gB.
Proof.
  unfold J_of, J_formula, dot. cbn zeta. rewrite !quad_exact, (ea_pow2 _ _ _ HA), (ea_two _ _ _ HA).
  rewrite !F_div. rewrite (accum_sum A K gB gA).
  rewrite (sum_ext A K (fun k => gB k * gA k) (fun k => gA k * gB k)) by (intros; ring).
  f_equal. ring.
Qed.

Lemma J_symmetric K e gA gB : J_formula A K e gA gB = J_formula A K e gB gA.
Proof.
  unfold J_formula, dot. rewrite (sum_ext A K (fun k => gB k * gA k) (fun k => gA k * gB k)) by (intros; ring).
  rewrite (sum_ext A K (fun k => e k * (gB k * gA k)) (fun k => e k * (gA k * gB k))) by (intros; ring).
  rewrite !F_div. f_equal. ring.
Qed.

Lemma J_formula_ext K e gA gB e' gA' gB' :
  (forall k, (1 <= k <= Z.of_nat K)%Z -> e k = e' k /\ gA k = gA' k /\ gB k = gB' k) ->
  J_formula A K e gA gB = J_formula A K e' gA' gB'.
Proof. intros H. rewrite <- !J_exact. apply J_of_ext; auto. Qed.

Lemma scaled_sum K c u v : (forall k, (1 <= k <= Z.of_nat K)%Z -> v k = c * u k) -> Sum K v = c * Sum K u.
Proof. intros H. rewrite (sum_ext A K v (fun k => c * u k)) by auto. apply (sum_scale_l A opp inv HA). Qed.

(** phases: each projection multiplied by its own sign, each dimer orbital by its own *)
Lemma J_phase K e gA gB (sP : Z -> T) sa sb :
  (forall k, (1 <= k <= Z.of_nat K)%Z -> sP k * sP k = 1) -> sa * sa = 1 -> sb * sb = 1 ->
  J_formula A K e (fun k => sP k * (sa * gA k)) (fun k => sP k * (sb * gB k)) = sa * sb * J_formula A K e gA gB.
Proof.
  intros HP Ha Hb. unfold J_formula, dot.
  rewrite (scaled_sum K (sa * sb) (fun k => gA k * gB k) (fun k => sP k * (sa * gA k) * (sP k * (sb * gB k)))).
  2:{ intros k Hk. transitivity ((sP k * sP k) * (sa * sb * (gA k * gB k))); [ring|]. rewrite HP by auto. ring. }
  rewrite (scaled_sum K (sa * sb) (fun k => e k * (gA k * gB k)) (fun k => e k * (sP k * (sa * gA k) * (sP k * (sb * gB k))))).
  2:{ intros k Hk. transitivity ((sP k * sP k) * (sa * sb * (e k * (gA k * gB k)))); [ring|]. rewrite HP by auto. ring. }
  rewrite (sum_ext A K (fun k => e k * (sP k * (sa * gA k) * (sP k * (sa * gA k)))) (fun k => e k * (gA k * gA k))).
  2:{ intros k Hk. transitivity ((sP k * sP k) * (sa * sa) * (e k * (gA k * gA k))); [ring|]. rewrite HP, Ha by auto. ring. }
  rewrite (sum_ext A K (fun k => e k * (sP k * (sb * gB k) * (sP k * (sb * gB k)))) (fun k => e k * (gB k * gB k))).
  2:{ intros k Hk. transitivity ((sP k * sP k) * (sb * sb) * (e k * (gB k * gB k))); [ring|]. rewrite HP, Hb by auto. ring. }
  set (s := Sum K (fun k => gA k * gB k)).
  replace (sa * sb * s * (sa * sb * s)) with (s * s).
  2:{ transitivity ((sa * sa) * (sb * sb) * (s * s)); [rewrite Ha, Hb; ring|ring]. }
  rewrite !F_div. ring.
Qed.

Lemma J_scale K c e gA gB : J_formula A K (fun k => c * e k) gA gB = c * J_formula A K e gA gB.
Proof.
  unfold J_formula.
  rewrite (scaled_sum K c (fun k => e k * (gA k * gB k)) (fun k => c * e k * (gA k * gB k))) by (intros; ring).
  rewrite (scaled_sum K c (fun k => e k * (gA k * gA k)) (fun k => c * e k * (gA k * gA k))) by (intros; ring).
  rewrite (scaled_sum K c (fun k => e k * (gB k * gB k)) (fun k => c * e k * (gB k * gB k))) by (intros; ring).
  rewrite !F_div. ring.
Qed.

Lemma shifted_sum K d e g h : Sum K (fun k => (e k + d) * (g k * h k)) = Sum K (fun k => e k * (g k * h k)) + d * dot A K g h.
Proof.
  unfold dot. rewrite <- (sum_scale_l A opp inv HA), <- (sum_add A opp inv HA). apply sum_ext. intros; ring.
Qed.

Lemma J_shift K d e gA gB : 1 + 1 <> 0 -> dot A K gA gA = 1 -> dot A K gB gB = 1 ->
  J_formula A K (fun k => e k + d) gA gB = J_formula A K e gA gB.
Proof.
  intros H2 Na Nb. unfold J_formula. rewrite !shifted_sum, Na, Nb.
  rewrite !F_div. f_equal.
  assert (E : (1 + 1) * inv (1 + 1) = 1) by (transitivity (inv (1 + 1) * (1 + 1)); [ring|apply (Finv_l FT); auto]).
  transitivity (Sum K (fun k => e k * (gA k * gB k)) + d * dot A K gA gB
     - ((Sum K (fun k => e k * (gA k * gA k)) + Sum K (fun k => e k * (gB k * gB k))) * inv (1 + 1) * dot A K gA gB
         + d * ((1 + 1) * inv (1 + 1)) * dot A K gA gB)); [ring|]. rewrite E. ring.
Qed.

(** ** Projections under a rotation of the basis (monomer 2 first) *)

Lemma sum_rot n1 n2 u : (0 <= n1)%Z -> (0 <= n2)%Z ->
  Sum (Z.to_nat (n1 + n2)) (fun c => u (rot n1 n2 c)) = Sum (Z.to_nat (n1 + n2)) u.
Proof.
  intros H1 H2. replace (Z.to_nat (n1 + n2)) with (Z.to_nat n2 + Z.to_nat n1)%nat at 1 by lia.
  replace (Z.to_nat (n1 + n2)) with (Z.to_nat n1 + Z.to_nat n2)%nat by lia.
  rewrite !(sum_app A opp inv HA).
  rewrite (sum_ext A (Z.to_nat n2) (fun c => u (rot n1 n2 c)) (fun k => u (Z.of_nat (Z.to_nat n1) + k)%Z)).
  2:{ intros k Hk. unfold rot. destruct (Z.leb_spec k n2); [|lia]. f_equal. lia. }
  rewrite (sum_ext A (Z.to_nat n1) (fun k => u (rot n1 n2 (Z.of_nat (Z.to_nat n2) + k)%Z)) u).
  2:{ intros k Hk. unfold rot. destruct (Z.leb_spec (Z.of_nat (Z.to_nat n2) + k) n2); [lia|]. f_equal. lia. }
  ring.
Qed.

Lemma overlap_ext N S P z S' P' z' k :
  (forall l, (1 <= l <= Z.of_nat N)%Z -> z l = z' l) ->
  (forall l x, (1 <= l <= Z.of_nat N)%Z -> (1 <= x <= Z.of_nat N)%Z -> S l x = S' l x) ->
  (forall l, (1 <= l <= Z.of_nat N)%Z -> P k l = P' k l) ->
  overlap_with A N S P z k = overlap_with A N S' P' z' k.
Proof.
  intros H1 H2 H3. unfold overlap_with. apply sum_ext. intros l Hl. apply sum_ext. intros x Hx.
  rewrite H1, H2, H3 by auto. reflexivity.
Qed.

Lemma overlap_rot n1 n2 S P z k : (0 <= n1)%Z -> (0 <= n2)%Z ->
  overlap_with A (Z.to_nat (n1 + n2)) (fun l m => S (rot n1 n2 l) (rot n1 n2 m)) (fun k c => P k (rot n1 n2 c)) (fun l => z (rot n1 n2 l)) k =
  overlap_with A (Z.to_nat (n1 + n2)) S P z k.
Proof.
  intros H1 H2. unfold overlap_with.
  rewrite <- (sum_rot n1 n2 (fun l => Sum (Z.to_nat (n1 + n2)) (fun m => z l * S l m * P k m))) by auto.
  apply sum_ext. intros l _. apply (sum_rot n1 n2 (fun m => z (rot n1 n2 l) * S (rot n1 n2 l) m * P k m)); auto.
Qed.

Lemma overlap_scale N S P z k c d :
  overlap_with A N S (fun k m => d k * P k m) (fun l => c * z l) k = d k * (c * overlap_with A N S P z k).
Proof.
  unfold overlap_with. rewrite <- !(sum_scale_l A opp inv HA). apply sum_ext. intros l _.
  rewrite <- !(sum_scale_l A opp inv HA). apply sum_ext. intros; ring.
Qed.

(** ** On calcJ *)

Lemma J_value_exact cp n1 N K a b fP fS e r1 r2 :
  J_value A cp n1 N K a b fP fS e r1 r2 = J_exact_value A cp n1 N K a b fP fS e r1 r2.
Proof.
  unfold J_value, J_exact_value. rewrite J_exact. apply J_formula_ext. intros k Hk.
  rewrite !projection_exact. auto.
Qed.

Lemma J_value_swap (cp : bool) n1 n2 N K a b fP fS e fP' fS' r1 r2 : (0 <= n1)%Z -> (0 <= n2)%Z ->
  (if cp then n1 = N /\ n2 = N else (n1 + n2)%Z = N) ->
  (forall k c, (1 <= k <= K)%Z -> (1 <= c <= N)%Z -> fP' k c = fP k (if cp then c else rot n1 n2 c)) ->
  (forall l m, (1 <= l <= N)%Z -> (1 <= m <= N)%Z -> fS' l m = fS (if cp then l else rot n1 n2 l) (if cp then m else rot n1 n2 m)) ->
  J_value A cp n1 N K a b fP fS e r1 r2 = J_value A cp n2 N K b a fP' fS' e r2 r1.
Proof.
  intros H1 H2 HN HP HS. rewrite !J_value_exact. unfold J_exact_value. rewrite J_symmetric.
  apply J_formula_ext. intros k Hk. split; auto. destruct cp.
  - split; apply overlap_ext; auto; intros; symmetry; [apply HS|apply HP|apply HS|apply HP]; lia.
  - subst N. split.
    + rewrite <- (overlap_rot n1 n2 fS fP) by auto. apply overlap_ext; intros; [|symmetry; apply HS; lia|symmetry; apply HP; lia].
      unfold pad_before, pad_after, rot. destruct (Z.leb_spec l n2).
      * destruct (Z.leb_spec (n1 + l) n1); [lia|]. f_equal; lia.
      * destruct (Z.leb_spec (l - n2) n1); [auto|lia].
    + rewrite <- (overlap_rot n1 n2 fS fP) by auto. apply overlap_ext; intros; [|symmetry; apply HS; lia|symmetry; apply HP; lia].
      unfold pad_before, pad_after, rot. destruct (Z.leb_spec l n2).
      * destruct (Z.leb_spec (n1 + l) n1); [lia|]. auto.
      * destruct (Z.leb_spec (l - n2) n1); [auto|lia].
Qed.

Lemma J_value_phase (cp : bool) n1 N K a b fP fS e (sa sb sP : Z -> T) a' b' fP' r1 r2 :
  sa r1 * sa r1 = 1 -> sb r2 * sb r2 = 1 -> (forall k, (1 <= k <= K)%Z -> sP k * sP k = 1) ->
  (forall c, (1 <= c <= N)%Z -> a' r1 c = sa r1 * a r1 c) ->
  (forall c, (1 <= c <= N)%Z -> b' r2 c = sb r2 * b r2 c) ->
  (forall k c, (1 <= k <= K)%Z -> (1 <= c <= N)%Z -> fP' k c = sP k * fP k c) -> (1 <= n1)%Z -> 
  J_value A cp n1 N K a' b' fP' fS e r1 r2 = sa r1 * sb r2 * J_value A cp n1 N K a b fP fS e r1 r2.
Proof.
  intros Ha Hb HP Ea Eb EP Hn. rewrite !J_value_exact. unfold J_exact_value.
  rewrite <- (J_phase _ e _ _ sP) by (auto; intros; apply HP; lia).
  apply J_formula_ext. intros k Hk. split; auto.
  split; rewrite <- overlap_scale; apply overlap_ext; auto; intros; try (apply EP; lia).
  - destruct cp; [apply Ea; lia|]. unfold pad_after. destruct (Z.leb_spec l n1); [apply Ea; lia|ring].
  - destruct cp; [apply Eb; lia|]. unfold pad_before. destruct (Z.leb_spec l n1); [ring|]. apply Eb; lia.
Qed.

Lemma J_value_scale cp n1 N K a b fP fS e c e' r1 r2 :
  (forall k, (1 <= k <= K)%Z -> e' k = c * e k) ->
  J_value A cp n1 N K a b fP fS e' r1 r2 = c * J_value A cp n1 N K a b fP fS e r1 r2.
Proof.
  intros He. rewrite !J_value_exact. unfold J_exact_value. rewrite <- J_scale.
  apply J_formula_ext. intros k Hk. split; auto. apply He; lia.
Qed.


Lemma J_value_shift (cp : bool) n1 N K a b fP fS e d e' r1 r2 : 1 + 1 <> 0 ->
  complete A N K fS fP (if cp then a r1 else pad_after A n1 (a r1)) ->
  complete A N K fS fP (if cp then b r2 else pad_before A n1 (b r2)) ->
  (forall k, (1 <= k <= K)%Z -> e' k = e k + d) ->
  J_value A cp n1 N K a b fP fS e' r1 r2 = J_value A cp n1 N K a b fP fS e r1 r2.
Proof.
  intros H2 Ca Cb He. rewrite !J_value_exact. unfold J_exact_value.
  rewrite <- (J_shift _ d e) by (auto; intros; apply He; lia).
  apply J_formula_ext. intros k Hk. split; auto. apply He; lia.
Qed.
End ExactJ.
