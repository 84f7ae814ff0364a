(** * Binary64 arithmetic with other signs *)
From Coq Require Import Reals Lra.
From Flocq Require Import Core IEEE754.BinarySingleNaN.
From Verif Require Export RoundSpec PhaseSpec PhaseRun PhaseFloatSpec.
From Verif Require Export StrSpec StrModel.
Local Open Scope R_scope.

Definition flip (s : bool) (r : R) : R := if s then - r else r.
Lemma flip_abs s r : Rabs (flip s r) = Rabs r.
Proof. destruct s; [apply Rabs_Ropp|reflexivity]. Qed.
Lemma flip_zero s r : flip s r = 0 -> r = 0.
Proof. destruct s; cbn; lra. Qed.
Definition related (s : bool) (x y : double) : Prop :=
  (is_finite x = true /\ is_finite y = true /\ B2R y = flip s (B2R x)) \/ (exists b, x = B754_infinity b /\ y = B754_infinity (xorb s b)) \/ (x = B754_nan /\ y = B754_nan).
Lemma fin_eq (x y : double) : is_finite x = true -> is_finite y = true -> B2R x = B2R y -> B2R x <> 0 -> x = y.
Proof.
  intros Fx Fy E H. apply B2R_inj; [destruct x; try discriminate; try reflexivity; exfalso; apply H; reflexivity| |exact E].
  rewrite E in H. destruct y; try discriminate; try reflexivity; exfalso; apply H; reflexivity.
Qed.
Lemma fin_sg s (x y : double) : is_finite x = true -> is_finite y = true -> B2R y = flip s (B2R x) -> same_up_to_sign s x y.
Proof.
  intros Fx Fy E. destruct (Req_dec (B2R x) 0) as [Z|Z].
  - right. unfold is_zero. rewrite E, Z. repeat split; auto. destruct s; cbn; lra.
  - left. destruct s; cbn [flip] in E.
    + apply fin_eq; [exact Fy|rewrite is_finite_Bopp; exact Fx|rewrite B2R_Bopp; exact E|lra].
    + apply fin_eq; auto. lra.
Qed.
Lemma related_sg s x y : related s x y <-> same_up_to_sign s x y.
Proof.
  split.
  - intros [(Fx & Fy & E)|[(b & -> & ->)|[-> ->]]]; [apply fin_sg; auto|left; destruct s, b; reflexivity|left; destruct s; reflexivity].
  - intros [->|[[Fx Zx] [Fy Zy]]].
    + destruct x as [b|b| |b m e H]; [left|right; left; exists b|right; right|left].
      * destruct s; cbn; repeat split; ring.
      * destruct s, b; split; reflexivity.
      * destruct s; split; reflexivity.
      * destruct s; (split; [reflexivity|]); (split; [reflexivity|]); cbn [flip]; [apply B2R_Bopp|reflexivity].
    + left. split; [exact Fx|]. split; [exact Fy|]. rewrite Zx, Zy. destruct s; cbn; ring.
Qed.
Lemma sign_le (x : double) : is_finite x = true -> if Bsign x then B2R x <= 0 else 0 <= B2R x.
Proof.
  destruct x as [b|b| |b m e H]; try discriminate; intros _; cbn [Bsign B2R]; [destruct b; lra|]. destruct b; unfold F2R; cbn [cond_Zopp Fnum Fexp].
  - pose proof (bpow_gt_0 radix2 e). pose proof (IZR_lt 0 (Z.pos m) ltac:(reflexivity)). change (Z.neg m) with (- Z.pos m)%Z. rewrite opp_IZR. nra.
  - pose proof (bpow_gt_0 radix2 e). pose proof (IZR_lt 0 (Z.pos m) ltac:(reflexivity)). nra.
Qed.
Lemma sign_flip s (x y : double) : is_finite x = true -> is_finite y = true -> B2R y = flip s (B2R x) -> B2R x <> 0 -> Bsign y = xorb s (Bsign x).
Proof.
  intros Fx Fy E H. apply sign_le in Fx, Fy. destruct (Bsign x), (Bsign y), s; cbn [xorb flip] in *; try reflexivity; exfalso; lra.
Qed.
Lemma nz b m e H : @B2R 53 1024 (B754_finite b m e H) <> 0.
Proof.
  cbn [B2R]. unfold F2R. cbn [Fnum Fexp]. intros Z. apply Rmult_integral in Z as [Z|Z]; [|pose proof (bpow_gt_0 radix2 e); lra].
  apply eq_IZR in Z. destruct b; discriminate Z.
Qed.
Definition rnd (r : R) : R := round radix2 (SpecFloat.fexp 53 1024) (round_mode mode_NE) r.
Lemma rnd_flip s r : rnd (flip s r) = flip s (rnd r).
Proof. destruct s; [apply round_NE_opp|reflexivity]. Qed.
Lemma big_not_zero r : ~ Rabs (rnd r) < bpow radix2 1024 -> r <> 0.
Proof. intros H ->. apply H. unfold rnd. rewrite round_0 by apply valid_rnd_round_mode. rewrite Rabs_R0. apply bpow_gt_0. Qed.
Lemma overflow_inf (z : double) s : B2SF z = binary_overflow 53 1024 mode_NE s -> z = B754_infinity s.
Proof. intros H. apply B2SF_inj. rewrite H. reflexivity. Qed.

Lemma add_related s x x' y y' : related s x x' -> related s y y' -> related s (dadd x y) (dadd x' y').
Proof.
  intros [(Fx & Fx' & Ex)|[(b & -> & ->)|[-> ->]]] [(Fy & Fy' & Ey)|[(c & -> & ->)|[-> ->]]].
  - assert (Es : B2R x' + B2R y' = flip s (B2R x + B2R y)) by (rewrite Ex, Ey; destruct s; cbn [flip]; ring).
    pose proof (Bplus_correct 53 1024 p53 p53e mode_NE x y Fx Fy) as C. pose proof (Bplus_correct 53 1024 p53 p53e mode_NE x' y' Fx' Fy') as C'.
    fold (rnd (B2R x + B2R y)) in C. fold (rnd (B2R x' + B2R y')) in C'. rewrite Es, rnd_flip, flip_abs in C'. unfold dadd.
    destruct (Rlt_bool_spec (Rabs (rnd (B2R x + B2R y))) (bpow radix2 1024)) as [B|B].
    + destruct C as (C1 & C2 & _), C' as (C1' & C2' & _). left. split; [exact C2|]. split; [exact C2'|]. rewrite C1, C1'. reflexivity.
    + destruct C as (C1 & C2), C' as (C1' & C2'). apply overflow_inf in C1, C1'. right; left. exists (Bsign x). split; [exact C1|]. rewrite C1'. f_equal.
      assert (Hn : B2R x + B2R y <> 0) by (apply big_not_zero; lra). apply sign_le in Fx, Fy, Fx', Fy'. rewrite <- C2 in Fy. rewrite <- C2' in Fy'.
      destruct (Bsign x), (Bsign x'), s; cbn [xorb flip] in *; try reflexivity; exfalso; lra.
  - right; left. exists c. destruct x, x'; try discriminate Fx; try discriminate Fx'; split; reflexivity.
  - right; right. destruct x, x'; try discriminate Fx; try discriminate Fx'; split; reflexivity.
  - right; left. exists b. destruct y, y'; try discriminate Fy; try discriminate Fy'; split; reflexivity.
  - destruct s, b, c; cbn; (right; left; eexists; split; reflexivity) || (right; right; split; reflexivity).
  - right; right; split; reflexivity.
  - right; right. destruct y, y'; try discriminate Fy; try discriminate Fy'; split; reflexivity.
  - right; right; split; reflexivity.
  - right; right; split; reflexivity.
Qed.
Lemma sub_add (x y : double) : dsub x y = dadd x (Bopp y).
Proof. destruct x as [[]| | |], y as [[]|[]| |]; reflexivity. Qed.
Lemma opp_related s x x' : related s x x' -> related s (Bopp x) (Bopp x').
Proof.
  intros [(Fx & Fx' & Ex)|[(b & -> & ->)|[-> ->]]]; [left|right; left|right; right].
  - rewrite !is_finite_Bopp, !B2R_Bopp, Ex. repeat split; auto. destruct s; cbn; ring.
  - exists (negb b). split; [reflexivity|]. destruct s, b; reflexivity.
  - split; reflexivity.
Qed.
Lemma sub_related s x x' y y' : related s x x' -> related s y y' -> related s (dsub x y) (dsub x' y').
Proof. intros H1 H2. rewrite !sub_add. apply add_related; [exact H1|apply opp_related, H2]. Qed.
Lemma mul_related s t x x' y y' : related s x x' -> related t y y' -> related (xorb s t) (dmul x y) (dmul x' y').
Proof.
  intros [(Fx & Fx' & Ex)|[(b & -> & ->)|[-> ->]]] [(Fy & Fy' & Ey)|[(c & -> & ->)|[-> ->]]].
  - assert (Es : B2R x' * B2R y' = flip (xorb s t) (B2R x * B2R y)) by (rewrite Ex, Ey; destruct s, t; cbn [flip xorb]; ring).
    pose proof (Bmult_correct 53 1024 p53 p53e mode_NE x y) as C. pose proof (Bmult_correct 53 1024 p53 p53e mode_NE x' y') as C'.
    fold (rnd (B2R x * B2R y)) in C. fold (rnd (B2R x' * B2R y')) in C'. rewrite Es, rnd_flip, flip_abs in C'. unfold dmul.
    destruct (Rlt_bool_spec (Rabs (rnd (B2R x * B2R y))) (bpow radix2 1024)) as [B|B].
    + destruct C as (C1 & C2 & _), C' as (C1' & C2' & _). rewrite Fx, Fy in C2. rewrite Fx', Fy' in C2'. left. split; [exact C2|]. split; [exact C2'|]. rewrite C1, C1'. reflexivity.
    + apply overflow_inf in C, C'. right; left. exists (xorb (Bsign x) (Bsign y)). split; [exact C|]. rewrite C'. f_equal.
      assert (Hn : B2R x * B2R y <> 0) by (apply big_not_zero; lra).
      assert (Hx : B2R x <> 0) by (intros Q; apply Hn; rewrite Q; ring). assert (Hy : B2R y <> 0) by (intros Q; apply Hn; rewrite Q; ring).
      rewrite (sign_flip s x x'), (sign_flip t y y') by auto. destruct s, t, (Bsign x), (Bsign y); reflexivity.
  - destruct (Req_dec (B2R x) 0) as [Z|Z].
    + right; right. assert (Z' : B2R x' = 0) by (rewrite Ex, Z; destruct s; cbn; ring). destruct x; try discriminate Fx; [|exfalso; revert Z; apply nz]. destruct x'; try discriminate Fx'; [|exfalso; revert Z'; apply nz]. split; reflexivity.
    + right; left. exists (xorb (Bsign x) c). pose proof (sign_flip s x x' Fx Fx' Ex Z) as Q. assert (Z' : B2R x' <> 0) by (rewrite Ex; intros W; apply flip_zero in W; auto).
      destruct x; try discriminate Fx; [exfalso; apply Z; reflexivity|]. destruct x'; try discriminate Fx'; [exfalso; apply Z'; reflexivity|]. cbn [Bsign] in Q. rewrite Q. split; [reflexivity|]. cbn. f_equal. destruct s, t, c, s0; reflexivity.
  - right; right. destruct x, x'; try discriminate Fx; try discriminate Fx'; split; reflexivity.
  - destruct (Req_dec (B2R y) 0) as [Z|Z].
    + right; right. assert (Z' : B2R y' = 0) by (rewrite Ey, Z; destruct t; cbn; ring). destruct y; try discriminate Fy; [|exfalso; revert Z; apply nz]. destruct y'; try discriminate Fy'; [|exfalso; revert Z'; apply nz]. split; reflexivity.
    + right; left. exists (xorb b (Bsign y)). pose proof (sign_flip t y y' Fy Fy' Ey Z) as Q. assert (Z' : B2R y' <> 0) by (rewrite Ey; intros W; apply flip_zero in W; auto).
      destruct y; try discriminate Fy; [exfalso; apply Z; reflexivity|]. destruct y'; try discriminate Fy'; [exfalso; apply Z'; reflexivity|]. cbn [Bsign] in Q. rewrite Q. split; [reflexivity|]. cbn. f_equal. destruct s, t, b, s0; reflexivity.
  - right; left. exists (xorb b c). split; [reflexivity|]. destruct s, t, b, c; reflexivity.
  - right; right; split; reflexivity.
  - right; right. destruct y, y'; try discriminate Fy; try discriminate Fy'; split; reflexivity.
  - right; right; split; reflexivity.
  - right; right; split; reflexivity.
Qed.
Lemma div_related s x x' z : related s x x' -> related s (ddiv x z) (ddiv x' z).
Proof.
  intros [(Fx & Fx' & Ex)|[(b & -> & ->)|[-> ->]]].
  - destruct (is_finite z) eqn:Fz; [|destruct z as [c|c| |]; try discriminate Fz; [left|right; right]; destruct x as [d|d| |], x' as [d'|d'| |]; try discriminate Fx; try discriminate Fx'; (split; [reflexivity|]); try (split; [reflexivity|]); cbn; try (destruct s; cbn; ring); reflexivity].
    destruct (Req_dec (B2R z) 0) as [Z|Z].
    + destruct z as [c|c| |]; try discriminate Fz; [|exfalso; revert Z; apply nz]. destruct (Req_dec (B2R x) 0) as [W|W].
      * right; right. assert (W' : B2R x' = 0) by (rewrite Ex, W; destruct s; cbn; ring). destruct x; try discriminate Fx; [|exfalso; revert W; apply nz]. destruct x'; try discriminate Fx'; [|exfalso; revert W'; apply nz]. split; reflexivity.
      * right; left. exists (xorb (Bsign x) c). pose proof (sign_flip s x x' Fx Fx' Ex W) as Q. assert (W' : B2R x' <> 0) by (rewrite Ex; intros V; apply flip_zero in V; auto).
        destruct x; try discriminate Fx; [exfalso; apply W; reflexivity|]. destruct x'; try discriminate Fx'; [exfalso; apply W'; reflexivity|]. cbn [Bsign] in Q. rewrite Q. split; [reflexivity|]. cbn. f_equal. destruct s, c, s0; reflexivity.
    + assert (Es : B2R x' / B2R z = flip s (B2R x / B2R z)) by (rewrite Ex; destruct s; cbn [flip]; field; exact Z).
      pose proof (Bdiv_correct 53 1024 p53 p53e mode_NE x z Z) as C. pose proof (Bdiv_correct 53 1024 p53 p53e mode_NE x' z Z) as C'.
      fold (rnd (B2R x / B2R z)) in C. fold (rnd (B2R x' / B2R z)) in C'. rewrite Es, rnd_flip, flip_abs in C'. unfold ddiv.
      destruct (Rlt_bool_spec (Rabs (rnd (B2R x / B2R z))) (bpow radix2 1024)) as [B|B].
      * destruct C as (C1 & C2 & _), C' as (C1' & C2' & _). left. split; [congruence|]. split; [congruence|]. rewrite C1, C1'. reflexivity.
      * apply overflow_inf in C, C'. right; left. exists (xorb (Bsign x) (Bsign z)). split; [exact C|]. rewrite C'. f_equal.
        assert (Hn : B2R x / B2R z <> 0) by (apply big_not_zero; lra). assert (Hx : B2R x <> 0) by (intros Q; apply Hn; rewrite Q; unfold Rdiv; ring).
        rewrite (sign_flip s x x') by auto. destruct s, (Bsign x), (Bsign z); reflexivity.
  - destruct z as [c|c| |]; [right; left|right; right|right; right|right; left]; try (split; reflexivity); eexists; (split; [reflexivity|]); cbn; f_equal; destruct s, b; try (destruct c; reflexivity); match goal with |- context [xorb _ ?q] => destruct q end; reflexivity.
  - right; right; split; reflexivity.
Qed.
Lemma mul0_related s t x x' : related t x x' -> related s (dmul (B754_zero false) x) (dmul (B754_zero false) x').
Proof.
  intros [(Fx & Fx' & Ex)|[(b & -> & ->)|[-> ->]]]; [left|right; right; split; reflexivity|right; right; split; reflexivity].
  destruct x, x'; try discriminate Fx; try discriminate Fx'; (split; [reflexivity|]); (split; [reflexivity|]); cbn; destruct s; cbn; ring.
Qed.
Lemma binary64_laws pow2 : even pow2 -> sign_laws (binary64 pow2) same_up_to_sign.
Proof.
  intros Hp. constructor; intros *; cbn [binary64 a_zero a_one a_add a_sub a_mul a_div a_pow2].
  - right. split; split; reflexivity.
  - left. reflexivity.
  - rewrite <- !related_sg. apply add_related.
  - rewrite <- !related_sg. apply sub_related.
  - rewrite <- !related_sg. apply mul_related.
  - rewrite <- !related_sg. apply mul0_related.
  - intros [->|[[Fx Zx] [Fy Zy]]]; [destruct s; [rewrite Hp|]; reflexivity|]. f_equal.
    destruct x as [b| | |]; try discriminate Fx; [|exfalso; revert Zx; apply nz]. destruct x' as [b'| | |]; try discriminate Fy; [|exfalso; revert Zy; apply nz].
    destruct b, b'; try reflexivity; [exact (Hp (B754_zero true))|exact (Hp (B754_zero false))].
  - rewrite <- !related_sg. apply div_related.
Qed.
