(** * More fuel does not change the outcome of a read *)
From Verif Require Export ReaderModel.
From Verif Require Export StrSpec StrModel.
Open Scope Z_scope.

Definition more {A} (x y : outcome A) : Prop := x = NoFuel \/ x = y.
Lemma more_refl {A} (x : outcome A) : more x x. Proof. right; auto. Qed.
Lemma more_no {A} (y : outcome A) : more NoFuel y. Proof. left; auto. Qed.
Lemma more_bind {A B} (x y : outcome A) (g h : A -> outcome B) : more x y -> (forall a, more (g a) (h a)) -> more (bind x g) (bind y h).
Proof. intros [->| ->] H; [left; reflexivity|]. destruct y; cbn [bind]; try (right; reflexivity). apply H. Qed.
#[local] Hint Resolve more_refl more_no : core.
Ltac step_more := repeat match goal with
  | |- more (bind _ _) (bind _ _) => apply more_bind; [|intros]
  | |- more (let '(_, _) := ?p in _) _ => destruct p
  | |- more (match ?x with _ => _ end) _ => destruct x
  end; auto.

Section Fuel.
Context (N : nums).
Lemma more_ao_inner : forall n m line e2 ot k elem f orb, (n <= m)%nat -> more (ao_inner N n line e2 ot k elem f orb) (ao_inner N m line e2 ot k elem f orb).
Proof.
  induction n as [|n IH]; intros m line e2 ot k elem f orb H; [left; reflexivity|]. destruct m as [|m]; [lia|]. cbn [ao_inner]. destruct (isAlphabetical e2); [auto|].
  destruct (next (iss line) []) as [w1 i1]. destruct (next i1 ot) as [w2 i2]. apply more_bind; [auto|intros vs]. destruct (getl f line) as [l2 f2].
  destruct (next (iss l2) e2) as [e3 j1]. destruct (next j1 e3) as [e4 j2]. destruct (next j2 e4) as [e5 j3]. destruct (foundSubStrInStr l2 ao_end); [auto|]. apply IH. lia.
Qed.
Lemma more_ao_outer : forall n m line k f orb, (n <= m)%nat -> more (ao_outer N n line k f orb) (ao_outer N m line k f orb).
Proof.
  induction n as [|n IH]; intros m line k f orb H; [left; reflexivity|]. destruct m as [|m]; [lia|]. cbn [ao_outer].
  destruct (next (iss line) []) as [w1 i1]. destruct (next i1 []) as [w2 i2]. destruct (next i2 w2) as [w3 i3]. destruct (next i3 []) as [w4 i4].
  apply more_bind; [auto|intros vs]. destruct (getl f line) as [l2 f2]. apply more_bind; [auto|intros c9]. apply more_bind; [auto|intros c10].
  apply more_bind; [apply more_ao_inner; lia|]. intros [[[l3 b] f3] o3]. destruct (b || foundSubStrInStr l3 ao_end); [auto|]. apply IH. lia.
Qed.
Lemma more_ov_first : forall n m f line cc k fc, (n <= m)%nat -> more (ov_first N n f line cc k fc) (ov_first N m f line cc k fc).
Proof.
  induction n as [|n IH]; intros m f line cc k fc H; [left; reflexivity|]. destruct m as [|m]; [lia|]. cbn [ov_first].
  destruct (getl f line) as [l2 f2]. destruct (next (iss l2) cc) as [w i]. apply more_bind; [auto|intros z]. destruct (negb (z =? k + 1)); [auto|]. apply more_bind; [auto|intros row]. apply IH. lia.
Qed.
Lemma more_oe_loop : forall n m ot f line oe homo, (n <= m)%nat -> more (oe_loop N n ot f line oe homo) (oe_loop N m ot f line oe homo).
Proof.
  induction n as [|n IH]; intros m ot f line oe homo H; [left; reflexivity|]. destruct m as [|m]; [lia|]. cbn [oe_loop]. destruct (getl f line) as [l2 f2]. destruct (s_fail (fid f2)); [auto|]. cbv zeta.
  match goal with |- more (if ?b then _ else _) _ => destruct b end; [|auto]. apply more_bind; [auto|intros v]. apply IH. lia.
Qed.
Lemma more_coord_loop : forall n m f line X Y Z, (n <= m)%nat -> more (coord_loop N n f line X Y Z) (coord_loop N m f line X Y Z).
Proof.
  induction n as [|n IH]; intros m f line X Y Z H; [left; reflexivity|]. destruct m as [|m]; [lia|]. cbn [coord_loop]. destruct (foundSubStrInStr line coord_end); [auto|]. cbv zeta.
  do 6 (apply more_bind; [auto|intros ?]). destruct (getl f line) as [l2 f2]. apply IH. lia.
Qed.
Lemma more_coef_inner : forall n m f line row b c, (n <= m)%nat -> more (coef_inner N n f line row b c) (coef_inner N m f line row b c).
Proof.
  induction n as [|n IH]; intros m f line row b c H; [left; reflexivity|]. destruct m as [|m]; [lia|]. cbn [coef_inner]. destruct (foundSubStrInStr line $" MO OE"); [auto|].
  destruct (b && (c <=? Z.of_nat (length row))); [auto|]. apply more_bind; [auto|intros v]. destruct (getl f line) as [l2 f2]. apply IH. lia.
Qed.
Lemma more_coef_outer : forall n m ot f b c v, (n <= m)%nat -> more (coef_outer N n ot f b c v) (coef_outer N m ot f b c v).
Proof.
  induction n as [|n IH]; intros m ot f b c v H; [left; reflexivity|]. destruct m as [|m]; [lia|]. cbn [coef_outer]. destruct (getl f []) as [l2 f2].
  apply more_bind; [apply more_coef_inner; lia|]. intros [[l3 f3] row]. cbv zeta. destruct (foundSubStrInStr l3 ot); [|auto]. apply IH. lia.
Qed.
Lemma more_log_section n m tag f d : (n <= m)%nat -> more (log_section N n tag f d) (log_section N m tag f d).
Proof.
  intros H. unfold log_section.
  assert (R : forall ot, more (ReadOrbEnergies N n ot f d) (ReadOrbEnergies N m ot f d)).
  { intros ot. unfold ReadOrbEnergies. apply more_bind; [apply more_oe_loop; auto|intros; auto]. }
  destruct (str_eqb tag $"AOFunction").
  { unfold AOFunctionSectionReader. destruct (getl f []) as [l1 f1]. destruct (getl f1 l1) as [l2 f2]. apply more_bind; [apply more_ao_outer; auto|intros; auto]. }
  destruct (str_eqb tag $"Overlap").
  { unfold OverlapSectionReader. destruct (getl f []) as [l1 f1]. apply more_bind; [apply more_ov_first; auto|intros; auto]. }
  destruct (str_eqb tag $"OEAlpha"); [auto|]. destruct (str_eqb tag $"OEBeta"); [auto|].
  unfold CoordSectionReader. destruct (getl f []) as [l1 f1]. destruct (getl f1 l1) as [l2 f2]. destruct (getl f2 l2) as [l3 f3]. apply more_bind; [apply more_coord_loop; auto|intros; auto].
Qed.
Lemma more_pun_section n m tag f c : (n <= m)%nat -> more (pun_section N n tag f c) (pun_section N m tag f c).
Proof. intros H. unfold pun_section, ReadCoef. destruct (str_eqb tag $"CoefAlpha"); (apply more_bind; [apply more_coef_outer; auto|intros; auto]). Qed.
Lemma more_read_loop {M} headers (rd : nat -> str -> fstate -> M -> outcome (fstate * M)) : (forall n m tag f d, (n <= m)%nat -> more (rd n tag f d) (rd m tag f d)) ->
  forall n m f line d, (n <= m)%nat -> more (read_loop headers rd n f line d) (read_loop headers rd m f line d).
Proof.
  intros Hr. induction n as [|n IH]; intros m f line d H; [left; reflexivity|]. destruct m as [|m]; [lia|]. cbn [read_loop]. destruct (getl f line) as [l2 f2]. destruct (s_fail (fid f2)); [auto|].
  apply more_bind; [destruct (startSection_ headers l2); [apply Hr; lia|auto]|]. intros [f3 d3]. apply IH. lia.
Qed.
Lemma more_log_read files n m r : (n <= m)%nat -> more (log_read N files n r) (log_read N files m r).
Proof.
  intros H. unfold log_read, read. apply more_bind; [|auto]. destruct (files (lr_name N r)); [|auto]. apply more_bind; [|auto].
  apply more_read_loop; [intros; apply more_log_section; auto|auto].
Qed.
Lemma more_pun_read files n m r : (n <= m)%nat -> more (pun_read N files n r) (pun_read N files m r).
Proof.
  intros H. unfold pun_read, read. apply more_bind; [|auto]. destruct (files (pr_name N r)); [|auto]. apply more_bind; [|auto].
  apply more_read_loop; [intros; apply more_pun_section; auto|auto].
Qed.
End Fuel.
Lemma more_all {A} (g : nat -> outcome A) bound : (forall n m, (n <= m)%nat -> more (g n) (g m)) -> (forall n, (bound <= n)%nat -> g n = NoFuel) -> forall n, g n = NoFuel.
Proof. intros H1 H2 n. destruct (H1 n (max bound n)) as [E|E]; [lia|auto|]. rewrite E. apply H2. lia. Qed.
Lemma more_never {A} (g : nat -> outcome A) bound : (forall n m, (n <= m)%nat -> more (g n) (g m)) -> (forall n, (bound <= n)%nat -> forall a, g n <> Ok a) -> forall n a, g n <> Ok a.
Proof. intros H1 H2 n a E. destruct (H1 n (max bound n)) as [E2|E2]; [lia|congruence|]. rewrite E2 in E. eapply H2; [|exact E]. lia. Qed.
