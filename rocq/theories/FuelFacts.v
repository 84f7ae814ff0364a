(** * The number of rounds allowed does not matter once it suffices

    [later o o']: [o'] is the outcome with more rounds allowed. *)
From Verif Require Export MainModel.
From Verif Require Export StrSpec StrModel.
Open Scope Z_scope.

Definition later {X} (o o' : outcome X) : Prop := o = NoFuel \/ o' = o.
Lemma later_refl {X} (o : outcome X) : later o o. Proof. right. reflexivity. Qed.
Lemma later_bind {X Y} (o o' : outcome X) (f f' : X -> outcome Y) : later o o' -> (forall x, later (f x) (f' x)) -> later (bind o f) (bind o' f').
Proof. intros [->| ->] H; [left; reflexivity|]. destruct o; cbn [bind]; try apply later_refl. apply H. Qed.
Lemma later_no {X} (o : outcome X) : later NoFuel o. Proof. left. reflexivity. Qed.
Lemma later_for {S} n : forall i (b b' : Z -> S -> outcome S) s, (forall i s, later (b i s) (b' i s)) -> later (for_n n i b s) (for_n n i b' s).
Proof. induction n as [|n IH]; intros i b b' s H; cbn [for_n]; [apply later_refl|]. apply later_bind; auto. Qed.
Lemma later_for_up {S} lo hi (b b' : Z -> S -> outcome S) s : (forall i s, later (b i s) (b' i s)) -> later (for_up lo hi b s) (for_up lo hi b' s).
Proof. apply later_for. Qed.
Ltac later_step := first
  [ apply later_refl | assumption | apply later_no | apply later_bind; [|intros ?] | apply later_for_up; intros ? ?
  | match goal with |- later (match ?x with _ => _ end) _ => destruct x eqn:? end
  | match goal with |- later (let '(_, _) := ?x in _) _ => destruct x eqn:? end ].
Ltac laters := repeat (later_step; cbv beta iota zeta).
Ltac fuel_start n IH f' := let L := fresh "L" in intros L; destruct f' as [|f']; [exfalso; lia|]; specialize (IH f' ltac:(lia)).

Lemma retarget_later w s : forall f f' l pos, (f <= f')%nat -> later (retarget f w s l pos) (retarget f' w s l pos).
Proof.
  induction f as [|f IH]; intros f' l pos L; [apply later_no|]. destruct f' as [|f']; [lia|]. cbn [retarget].
  destruct (pos =? length l)%nat; [apply later_refl|]. destruct (nth_error l (find_second w l pos)); apply IH; lia.
Qed.
Lemma refresh1_later f f' l : (f <= f')%nat -> later (refreshSwapOrder1 f l) (refreshSwapOrder1 f' l).
Proof. intros L. unfold refreshSwapOrder1. apply later_for_up. intros i s. apply later_bind; [apply later_refl|]. intros pr. apply retarget_later, L. Qed.
Lemma refresh2_later f f' l l' : (f <= f')%nat -> later (refreshSwapOrder2 f l l') (refreshSwapOrder2 f' l l').
Proof.
  intros L. unfold refreshSwapOrder2. apply later_bind.
  - apply later_for_up. intros i s. apply later_bind; [apply later_refl|]. intros pr. apply later_bind; [apply retarget_later, L|]. intros B'. apply later_bind; [apply retarget_later, L|]. intros A'. apply later_refl.
  - intros BA. apply later_bind; [|intros; apply later_refl]. apply later_for_up. intros i s. apply later_bind; [apply later_refl|]. intros pr. destruct (fst pr =? snd pr); [apply later_refl|apply retarget_later, L].
Qed.
Section Qc.
Context {T : Type} (A : arith T).
Lemma unscramble1_later z f f' mA basis (m : mat T) tag : (f <= f')%nat -> later (unscramble1 z f mA basis m tag) (unscramble1 z f' mA basis m tag).
Proof. intros L. unfold unscramble1. apply later_bind; [apply later_refl|]. intros b. apply later_bind; [apply refresh1_later, L|]. intros; apply later_refl. Qed.
Lemma unscramble2_later z f f' mA mB basis (m : mat T) tag : (f <= f')%nat -> later (unscramble2 z f mA mB basis m tag) (unscramble2 z f' mA mB basis m tag).
Proof. intros L. unfold unscramble2. apply later_bind; [apply later_refl|]. intros b. apply later_bind; [apply refresh2_later, L|]. intros; apply later_refl. Qed.
Lemma tc_unscramble_later lab f f' tc c1 c2 cP bP b2 : (f <= f')%nat -> later (tc_unscramble A lab f tc c1 c2 cP bP b2) (tc_unscramble A lab f' tc c1 c2 cP bP b2).
Proof.
  intros L. unfold tc_unscramble, unscramble_Coef1, unscramble_Coef2, unscramble_S1, unscramble_S2. destruct (tc_cp tc);
    repeat first [apply later_refl | apply unscramble1_later, L | apply unscramble2_later, L | apply later_bind; [|intros ?]].
Qed.
End Qc.
Section Readers.
Context (N : nums).
Lemma ao_inner_later : forall f f' line e o n el fs orb, (f <= f')%nat -> later (ao_inner N f line e o n el fs orb) (ao_inner N f' line e o n el fs orb).
Proof.
  induction f as [|f IH]; intros f' line e o n el fs orb L; [apply later_no|]. destruct f' as [|f']; [lia|]. cbn [ao_inner].
  destruct (isAlphabetical e); [apply later_refl|]. destruct (next (iss line) []) as [w i]. destruct (next i o) as [w2 i2]. apply later_bind; [apply later_refl|]. intros vs. cbv zeta.
  destruct (getl fs line) as [line' fs']. destruct (next (iss line') e) as [e1 j1]. destruct (next j1 e1) as [e2 j2]. destruct (next j2 e2) as [e3 j3].
  destruct (foundSubStrInStr line' ao_end); [apply later_refl|]. apply IH. lia.
Qed.
Lemma ao_outer_later : forall f f' line n fs orb, (f <= f')%nat -> later (ao_outer N f line n fs orb) (ao_outer N f' line n fs orb).
Proof.
  induction f as [|f IH]; intros f' line n fs orb L; [apply later_no|]. destruct f' as [|f']; [lia|]. cbn [ao_outer].
  destruct (next (iss line) []) as [w i]. destruct (next i []) as [w2 i2]. destruct (next i2 w2) as [w3 i3]. destruct (next i3 []) as [w4 i4].
  apply later_bind; [apply later_refl|]. intros vs. cbv zeta. destruct (getl fs line) as [line' fs']. apply later_bind; [apply later_refl|]. intros c9. apply later_bind; [apply later_refl|]. intros c10.
  apply later_bind; [apply ao_inner_later; lia|]. intros [[[line2 se] fs2] orb2]. destruct (se || foundSubStrInStr line2 ao_end); [apply later_refl|]. apply IH. lia.
Qed.
Lemma ov_first_later : forall f f' fs line cc c fc, (f <= f')%nat -> later (ov_first N f fs line cc c fc) (ov_first N f' fs line cc c fc).
Proof.
  induction f as [|f IH]; intros f' fs line cc c fc L; [apply later_no|]. destruct f' as [|f']; [lia|]. cbn [ov_first].
  destruct (getl fs line) as [line' fs']. destruct (next (iss line') cc) as [w i]. apply later_bind; [apply later_refl|]. intros k.
  destruct (negb (k =? c + 1)); [apply later_refl|]. apply later_bind; [apply later_refl|]. intros row. apply IH. lia.
Qed.
Lemma oe_loop_later : forall f f' ty fs line oe h, (f <= f')%nat -> later (oe_loop N f ty fs line oe h) (oe_loop N f' ty fs line oe h).
Proof.
  induction f as [|f IH]; intros f' ty fs line oe h L; [apply later_no|]. destruct f' as [|f']; [lia|]. cbn [oe_loop].
  destruct (getl fs line) as [line' fs']. destruct (s_fail (fid fs')); [apply later_refl|]. cbv zeta. destruct (_ || _); [|apply later_refl]. apply later_bind; [apply later_refl|]. intros v. apply IH. lia.
Qed.
Lemma coord_loop_later : forall f f' fs line x y z, (f <= f')%nat -> later (coord_loop N f fs line x y z) (coord_loop N f' fs line x y z).
Proof.
  induction f as [|f IH]; intros f' fs line x y z L; [apply later_no|]. destruct f' as [|f']; [lia|]. cbn [coord_loop].
  destruct (foundSubStrInStr line coord_end); [apply later_refl|]. cbv zeta. do 6 (apply later_bind; [apply later_refl|]; intros ?). destruct (getl fs line) as [line' fs']. apply IH. lia.
Qed.
Lemma log_section_later f f' tag fs d : (f <= f')%nat -> later (log_section N f tag fs d) (log_section N f' tag fs d).
Proof.
  intros L. unfold log_section. repeat match goal with |- later (if ?b then _ else _) _ => destruct b end.
  - unfold AOFunctionSectionReader. destruct (getl fs []) as [l1 f1]. destruct (getl f1 l1) as [l2 f2]. apply later_bind; [apply ao_outer_later, L|]. intros; apply later_refl.
  - unfold OverlapSectionReader. destruct (getl fs []) as [l1 f1]. apply later_bind; [apply ov_first_later, L|]. intros; apply later_refl.
  - unfold ReadOrbEnergies. apply later_bind; [apply oe_loop_later, L|]. intros; apply later_refl.
  - unfold ReadOrbEnergies. apply later_bind; [apply oe_loop_later, L|]. intros; apply later_refl.
  - unfold CoordSectionReader. destruct (getl fs []) as [l1 f1]. destruct (getl f1 l1) as [l2 f2]. destruct (getl f2 l2) as [l3 f3]. apply later_bind; [apply coord_loop_later, L|]. intros; apply later_refl.
Qed.
Lemma coef_inner_later : forall f f' fs line row b c, (f <= f')%nat -> later (coef_inner N f fs line row b c) (coef_inner N f' fs line row b c).
Proof.
  induction f as [|f IH]; intros f' fs line row b c L; [apply later_no|]. destruct f' as [|f']; [lia|]. cbn [coef_inner].
  destruct (foundSubStrInStr line _); [apply later_refl|]. destruct (b && _); [apply later_refl|]. apply later_bind; [apply later_refl|]. intros v. destruct (getl fs line) as [line' fs']. apply IH. lia.
Qed.
Lemma coef_outer_later : forall f f' ty fs b c v, (f <= f')%nat -> later (coef_outer N f ty fs b c v) (coef_outer N f' ty fs b c v).
Proof.
  induction f as [|f IH]; intros f' ty fs b c v L; [apply later_no|]. destruct f' as [|f']; [lia|]. cbn [coef_outer].
  destruct (getl fs []) as [l1 f1]. apply later_bind; [apply coef_inner_later; lia|]. intros [[l2 f2] row]. cbv zeta. destruct (foundSubStrInStr l2 ty); [apply IH; lia|apply later_refl].
Qed.
Lemma pun_section_later f f' tag fs d : (f <= f')%nat -> later (pun_section N f tag fs d) (pun_section N f' tag fs d).
Proof. intros L. unfold pun_section, ReadCoef. destruct (str_eqb tag _); (apply later_bind; [apply coef_outer_later, L|]; intros; apply later_refl). Qed.
End Readers.
Lemma read_loop_later {M} headers (rd : nat -> str -> fstate -> M -> outcome (fstate * M)) : (forall f f' tag fs m, (f <= f')%nat -> later (rd f tag fs m) (rd f' tag fs m)) ->
  forall f f' fs line m, (f <= f')%nat -> later (read_loop headers rd f fs line m) (read_loop headers rd f' fs line m).
Proof.
  intros H. induction f as [|f IH]; intros f' fs line m L; [apply later_no|]. destruct f' as [|f']; [lia|]. cbn [read_loop].
  destruct (getl fs line) as [line' fs']. destruct (s_fail (fid fs')); [apply later_refl|]. apply later_bind.
  - destruct (startSection_ headers line'); [apply H; lia|apply later_refl].
  - intros [f2 m2]. apply IH. lia.
Qed.
Section Main.
Context (E : env) (N : nums) (A : arith (num N)) (lab : num N -> str) (disk : str -> option str).
Lemma open_pun_later f f' name : (f <= f')%nat -> later (open_pun N disk f name) (open_pun N disk f' name).
Proof.
  intros L. unfold open_pun. apply later_bind; [apply later_refl|]. intros r. unfold pun_read, read. apply later_bind; [|intros; apply later_refl].
  destruct (disk (pr_name N r)); [|apply later_refl]. apply later_bind; [|intros; apply later_refl]. apply read_loop_later; [|exact L]. intros. apply pun_section_later. assumption.
Qed.
Lemma open_log_later f f' name : (f <= f')%nat -> later (open_log N disk f name) (open_log N disk f' name).
Proof.
  intros L. unfold open_log. apply later_bind; [apply later_refl|]. intros r. unfold log_read, read. apply later_bind; [|intros; apply later_refl].
  destruct (disk (lr_name N r)); [|apply later_refl]. apply later_bind; [|intros; apply later_refl]. apply read_loop_later; [|exact L]. intros. apply log_section_later. assumption.
Qed.
Lemma main_with_later {R} (finish : params -> bool -> num N -> num N -> num N -> num N -> R) f f' argv : (f <= f')%nat -> later (main_with E N A lab disk finish f argv) (main_with E N A lab disk finish f' argv).
Proof.
  intros L. unfold main_with. do 3 (apply later_bind; [apply later_refl|]; intros ?). unfold run_job_with.
  do 3 (apply later_bind; [apply open_pun_later, L|]; intros ?). do 3 (apply later_bind; [apply open_log_later, L|]; intros ?).
  unfold compute_with. do 15 (apply later_bind; [apply later_refl|]; intros ?). cbv zeta. apply later_bind; [apply later_refl|]. intros tc. apply later_bind; [|intros; apply later_refl].
  destruct (_ && _); [apply tc_unscramble_later, L|apply later_refl].
Qed.
End Main.
