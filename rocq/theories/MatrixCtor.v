(** * Constructors and shape changes of the matrix model *)
From Verif Require Export MatrixFacts.

Lemma dec_bex (P : Z -> Prop) lo hi :
  (forall i, lo <= i <= hi -> P i \/ ~ P i) ->
  (exists i, lo <= i <= hi /\ P i) \/ ~ (exists i, lo <= i <= hi /\ P i).
Proof.
  intros H. destruct (Z_le_gt_dec lo hi) as [Hle|Hgt].
  2:{ right; intros (i & Hi & _); lia. }
  assert (G : forall n, (forall i, lo <= i < lo + Z.of_nat n -> P i \/ ~ P i) ->
     (exists i, lo <= i < lo + Z.of_nat n /\ P i) \/ ~ (exists i, lo <= i < lo + Z.of_nat n /\ P i)).
  { clear; induction n as [|n IH]; intros H.
    - right; intros (i & Hi & _); lia.
    - destruct IH as [(i & Hi & Pi)|N].
      + intros i Hi; apply H; lia.
      + left; exists i; split; auto; lia.
      + destruct (H (lo + Z.of_nat n)) as [Y|Y]; [lia| |].
        * left; exists (lo + Z.of_nat n); split; auto; lia.
        * right; intros (i & Hi & Pi). destruct (Z.eq_dec i (lo + Z.of_nat n)); [subst; auto|].
          apply N; exists i; split; auto; lia. }
  destruct (G (Z.to_nat (hi - lo + 1))) as [(i & Hi & Pi)|N].
  - intros i Hi; apply H; lia.
  - left; exists i; split; auto; lia.
  - right; intros (i & Hi & Pi); apply N; exists i; split; auto; lia.
Qed.

Ltac bassoc := repeat (rewrite bind_assoc; match goal with |- bind ?x _ = bind ?x _ =>
  destruct x; cbn [bind]; auto end).
Ltac bdec := intros; repeat (apply dec_bex; intros); lia.

Section Ctor.
Context {T : Type}.
Variable zero : T.
Implicit Types (m : mat T).

Lemma mul3_bounds R C S : 1 <= R -> 1 <= C -> 1 <= S ->
  R <= R * C * S /\ C <= R * C * S /\ S <= R * C * S /\ R * C <= R * C * S /\ R <= R * C /\ C <= R * C.
Proof.
  intros. assert (R <= R * C) by nia. assert (C <= R * C) by nia.
  assert (R * C <= R * C * S) by nia. assert (S <= R * C * S) by nia. lia.
Qed.

Lemma imul_ok a b : is_int (a * b) -> imul a b = Ok (a * b).
Proof. apply ichk_ok. Qed.

Lemma prod3_ok R C S : fits R C S -> 1 <= S \/ R * C <= INT_MAX -> prod3 R C S = Ok (R * C * S).
Proof.
  intros (H1 & H2 & H3 & H4) H. unfold prod3.
  assert (0 <= R * C) by nia. assert (R * C <= INT_MAX).
  { destruct H as [H|H]; auto. assert (R * C * 1 <= R * C * S) by (apply Z.mul_le_mono_nonneg_l; lia). lia. }
  assert (INT_MIN <= 0) by (unfold INT_MIN; lia).
  rewrite imul_ok by (unfold is_int; lia). cbn [bind].
  assert (0 <= R * C * S) by (apply Z.mul_nonneg_nonneg; lia).
  apply imul_ok. unfold is_int; lia.
Qed.

Lemma Matrix_new3_ok R C S : 1 <= R -> 1 <= C -> 1 <= S -> R * C * S <= INT_MAX ->
  exists m, Matrix_new3 zero R C S = Ok m /\ denotes m R C S (fun _ _ _ => zero).
Proof.
  intros HR HC HS HM.
  assert (HF : fits R C S).
  { pose proof (mul3_bounds R C S HR HC HS). unfold fits; lia. }
  unfold Matrix_new3.
  destruct (Z.ltb_spec R 1); [lia|]. destruct (Z.ltb_spec C 1); [lia|].
  destruct (Z.ltb_spec S 1); [lia|].
  rewrite prod3_ok by auto. cbn [bind].
  destruct (@new_cells_are T (R * C * S)) as (l & El & Hl); [nia|].
  rewrite El; cbn [bind].
  assert (HW : cwrites (R * C * S)
    (fun e => exists i, 1 <= i <= R /\ exists j, 1 <= j <= C /\ exists k, 1 <= k <= S /\
       e = pos3 C S i j k) (fun _ => zero)
    (for_up 1 R (fun i l => for_up 1 C (fun j l => for_up 1 S (fun k l =>
                e <- flat C S i j k ;; wr l e zero) l) l))).
  { apply cwrites_for; [bdec|]. intros i Hi.
    apply cwrites_for; [bdec|]. intros j Hj.
    apply cwrites_for; [bdec|]. intros k Hk.
    intros l0 h0 Hl0. assert (Hin : inside R C S i j k) by (unfold inside; lia).
    rewrite (flat_ok R) by auto. cbn [bind].
    apply (cwrites_wr (R * C * S) _ (fun _ => zero)); auto. apply pos3_range; auto. }
  destruct (HW l _ Hl) as (l' & h' & E & Hl' & HH).
  rewrite E; cbn [bind]. eexists; split; [reflexivity|].
  apply denotes_cells with (h := h'); auto.
  intros r c s Hin. apply HH. { apply pos3_range; auto. }
  destruct Hin as (?&?&?). exists r; split; auto. exists c; split; auto. exists s; split; auto.
Qed.

Lemma Matrix_new2_ok R C : 1 <= R -> 1 <= C -> R * C <= INT_MAX ->
  exists m, Matrix_new2 zero R C = Ok m /\ denotes m R C 1 (fun _ _ _ => zero).
Proof.
  intros HR HC HM.
  assert (HM1 : R * C * 1 <= INT_MAX) by lia.
  assert (HF : fits R C 1).
  { assert (R <= R * C) by nia. assert (C <= R * C) by nia. unfold fits; change INT_MAX with 2147483647 in *; lia. }
  unfold Matrix_new2.
  destruct (Z.ltb_spec R 1); [lia|]. destruct (Z.ltb_spec C 1); [lia|].
  rewrite imul_ok by (unfold is_int, INT_MIN; nia). cbn [bind].
  destruct (@new_cells_are T (R * C * 1)) as (l & El & Hl); [nia|].
  replace (R * C * 1) with (R * C) in El by lia.
  rewrite El; cbn [bind].
  assert (HW : cwrites (R * C * 1)
    (fun e => exists i, 1 <= i <= R /\ exists j, 1 <= j <= C /\ 
       e = pos3 C 1 i j 1) (fun _ => zero)
    (for_up 1 R (fun i l => for_up 1 C (fun j l => 
                 a <- isub i 1 ;; b <- imul a C ;; d <- iadd b j ;; e <- isub d 1 ;;
                 wr l e zero) l))).
  { apply cwrites_for; [bdec|]. intros i Hi.
    apply cwrites_for; [bdec|]. intros j Hj.
    intros l0 h0 Hl0. assert (Hin : inside R C 1 i j 1) by (unfold inside; lia).
    pose proof (pos3_range _ _ _ _ _ _ Hin) as HP. unfold pos3 in HP.
    destruct HF as (?&?&_).
    assert (0 <= (i - 1) * C <= (R - 1) * C) by nia.
    change INT_MAX with 2147483647 in *.
    unfold isub, iadd, imul.
    repeat (rewrite ichk_ok by (unfold is_int, INT_MIN; change INT_MAX with 2147483647; lia); cbn [bind]).
    replace ((i - 1) * C + j - 1) with (pos3 C 1 i j 1) by (unfold pos3; lia).
    apply (cwrites_wr (R * C * 1) _ (fun _ => zero)); auto; apply pos3_range; auto. }
  destruct (HW l _ Hl) as (l' & h' & E & Hl' & HH).
  rewrite E; cbn [bind]. eexists; split; [reflexivity|].
  apply denotes_cells with (h := h'); auto.
  intros r c s Hin. apply HH. { apply pos3_range; auto. }
  destruct Hin as (?&?&?). exists r; split; auto. exists c; split; auto.
  replace s with 1 by lia. auto.
Qed.

Lemma Matrix_new1_ok R : 1 <= R <= INT_MAX ->
  exists m, Matrix_new1 zero R = Ok m /\ denotes m R 1 1 (fun _ _ _ => zero).
Proof.
  intros HR.
  assert (HF : fits R 1 1).
  { unfold fits; change INT_MAX with 2147483647 in *; lia. }
  unfold Matrix_new1.
  destruct (Z.ltb_spec R 0); [lia|]. destruct (Z.eqb_spec R 0); [lia|].
  destruct (@new_cells_are T (R * 1 * 1)) as (l & El & Hl); [lia|].
  replace (R * 1 * 1) with R in El by lia.
  rewrite El; cbn [bind].
  assert (HW : cwrites (R * 1 * 1)
    (fun e => exists i, 1 <= i <= R /\ e = pos3 1 1 i 1 1) (fun _ => zero)
    (for_up 1 R (fun i l => k <- isub i 1 ;; wr l k zero))).
  { apply cwrites_for; [bdec|]. intros i Hi.
    intros l0 h0 Hl0. unfold isub. rewrite ichk_ok by (unfold is_int, INT_MIN; lia). cbn [bind].
    replace (i - 1) with (pos3 1 1 i 1 1) by (unfold pos3; lia).
    apply (cwrites_wr (R * 1 * 1) _ (fun _ => zero)); auto;
    apply pos3_range; unfold inside; lia. }
  destruct (HW l _ Hl) as (l' & h' & E & Hl' & HH).
  rewrite E; cbn [bind]. eexists; split; [reflexivity|].
  apply denotes_cells with (h := h'); auto.
  intros r c s Hin. apply HH. { apply pos3_range; auto. }
  destruct Hin as (?&?&?). exists r; split; auto.
  replace s with 1 by lia. replace c with 1 by lia. auto.
Qed.

Lemma Matrix_new0_ok : exists m, Matrix_new0 zero = Ok m /\ denotes m 1 1 1 (fun _ _ _ => zero).
Proof.
  unfold Matrix_new0. cbn. eexists; split; [reflexivity|].
  assert (HF : fits 1 1 1) by (unfold fits; change INT_MAX with 2147483647; lia).
  apply denotes_cells with (h := fun _ => Some zero); auto.
  split; [reflexivity|]. intros k Hk. replace k with 0 by lia. reflexivity.
Qed.

Lemma Matrix_new3_bad R C S : R < 1 \/ C < 1 \/ S < 1 -> Matrix_new3 zero R C S = Exit 1.
Proof.
  intros H; unfold Matrix_new3.
  destruct (Z.ltb_spec R 1); auto. destruct (Z.ltb_spec C 1); auto.
  destruct (Z.ltb_spec S 1); auto. lia.
Qed.
Lemma Matrix_new2_bad R C : R < 1 \/ C < 1 -> Matrix_new2 zero R C = Exit 1.
Proof.
  intros H; unfold Matrix_new2.
  destruct (Z.ltb_spec R 1); auto. destruct (Z.ltb_spec C 1); auto. lia.
Qed.

(** Vector constructors. *)
Lemma for_each_app {A S} (l1 l2 : list A) (b : A -> S -> outcome S) s :
  for_each (l1 ++ l2) b s = (s' <- for_each l1 b s ;; for_each l2 b s').
Proof.
  revert s; induction l1 as [|a l1 IH]; intros s; simpl; auto.
  destruct (b a s); simpl; auto.
Qed.

(** writing a list of values from position [k0] on. *)
Lemma write_run (N : Z) (wrk : Z -> T -> list (option T) -> outcome (list (option T))) off v :
  forall l h c,
  cells_are l N h ->
  (forall j x l, c <= j < c + Z.of_nat (length v) -> wrk j x l = wr l (off + j) x) ->
  0 <= off + c -> off + c + Z.of_nat (length v) <= N ->
  exists l' h', for_each v (fun val (q : Z * list (option T)) =>
      let '(cc, l) := q in l' <- wrk cc val l ;; Ok (cc + 1, l')) (c, l)
      = Ok (c + Z.of_nat (length v), l') /\ cells_are l' N h' /\
    (forall k, 0 <= k < N -> k < off + c \/ off + c + Z.of_nat (length v) <= k -> h' k = h k) /\
    (forall j, c <= j < c + Z.of_nat (length v) -> h' (off + j) = nth_error v (Z.to_nat (j - c))).
Proof.
  induction v as [|x v IH]; intros l h c Hl Hw H0 H1.
  - exists l, h. cbn [for_each]. simpl length. split; [f_equal; f_equal; lia|].
    split; auto. split; auto. intros j Hj; simpl in Hj; lia.
  - cbn [for_each]. simpl length in *. rewrite Hw by lia.
    destruct (cells_wr l N h (off + c) x Hl) as (l1 & E1 & Hl1); [lia|].
    rewrite E1. cbn [bind].
    destruct (IH l1 _ (c + 1) Hl1) as (l' & h' & E & Hl' & F1 & F2); try lia.
    { intros j y l2 Hj. apply Hw; lia. }
    exists l', h'. rewrite E. split; [f_equal; f_equal; lia|]. split; auto. split.
    + intros k Hk Hd. rewrite F1 by lia. destruct (Z.eqb_spec k (off + c)); auto; lia.
    + intros j Hj. destruct (Z.eq_dec j c) as [->|Hne].
      * rewrite F1 by lia. rewrite Z.eqb_refl. replace (c - c) with 0 by lia. reflexivity.
      * rewrite F2 by lia. replace (Z.to_nat (j - c)) with (S (Z.to_nat (j - (c + 1)))) by lia. reflexivity.
Qed.

Lemma Matrix_of_vec_ok v : Z.of_nat (length v) <= INT_MAX ->
  exists m, Matrix_of_vec v = Ok m /\
    denotes m (Z.of_nat (length v)) 1 1 (fun r _ _ => nth (Z.to_nat (r - 1)) v zero).
Proof.
  intros HM. unfold Matrix_of_vec. set (n := Z.of_nat (length v)) in *.
  rewrite imul_ok by (unfold is_int, INT_MIN; lia). cbn [bind].
  destruct (@new_cells_are T (n * 1 * 1)) as (l & El & Hl); [lia|].
  replace (n * 1 * 1) with (n * 1) in El by lia.
  rewrite El; cbn [bind].
  destruct (write_run (n * 1 * 1) (fun r val l => a <- isub r 1 ;; b <- imul a 1 ;; d <- iadd b 1 ;;
         e <- isub d 1 ;; wr l e val) (-1) v l _ 1 Hl) as (l' & h' & E & Hl' & F1 & F2); try lia.
  { intros j x l0 Hj. unfold isub, iadd, imul.
    change INT_MAX with 2147483647 in *.
    repeat (rewrite ichk_ok by (unfold is_int, INT_MIN; change INT_MAX with 2147483647; lia); cbn [bind]).
    f_equal; lia. }
  assert (E' : for_each v (fun val (p : Z * list (option T)) =>
         let '(r, l) := p in
         a <- isub r 1 ;; b <- imul a 1 ;; d <- iadd b 1 ;; e <- isub d 1 ;;
         l' <- wr l e val ;; Ok (r + 1, l')) (1, l) = Ok (1 + Z.of_nat (length v), l')).
  { rewrite <- E. apply for_each_ext. intros x [r l0]. bassoc. }
  rewrite E'; cbn [bind snd]. eexists; split; [reflexivity|].
  apply denotes_cells with (h := h'); auto.
  { unfold fits; change INT_MAX with 2147483647 in *; lia. }
  intros r c s (Hr & Hc & Hs).
  replace (pos3 1 1 r c s) with (-1 + r) by (unfold pos3; lia).
  rewrite F2 by lia. apply nth_error_nth'. lia.
Qed.

Definition vv_row (c : Z) (v : list T) (p : Z * list (option T)) : outcome (Z * list (option T)) :=
  let '(r, l) := p in
  if negb (Z.of_nat (length v) =? c) then Throw InvalidArgument else
  q <- for_each v (fun val (q : Z * list (option T)) =>
         let '(cc, l) := q in
         a <- isub r 1 ;; b <- imul a c ;; d <- iadd b cc ;; e <- isub d 1 ;;
         l' <- wr l e val ;; Ok (cc + 1, l')) (1, l) ;;
  Ok (r + 1, snd q).

Lemma vv_run (N c : Z) vv : forall l h r,
  0 <= c <= INT_MAX -> N <= INT_MAX -> 
  cells_are l N h -> Forall (fun v => Z.of_nat (length v) = c) vv -> 1 <= r ->
  r - 1 + Z.of_nat (length vv) <= INT_MAX ->
  (r - 1 + Z.of_nat (length vv)) * c <= N ->
  exists l' h', for_each vv (vv_row c) (r, l) = Ok (r + Z.of_nat (length vv), l') /\
    cells_are l' N h' /\
    (forall k, 0 <= k < (r - 1) * c -> h' k = h k) /\
    (forall i j, r <= i < r + Z.of_nat (length vv) -> 0 <= j < c ->
       h' ((i - 1) * c + j) = nth_error (nth (Z.to_nat (i - r)) vv []) (Z.to_nat j)).
Proof.
  induction vv as [|v vv IH]; intros l h r Hc HN Hl HA Hr Hi Hle.
  - exists l, h. cbn [for_each]. simpl length. split; [f_equal; f_equal; lia|].
    split; auto. split; auto. intros i j Hij; simpl in Hij; lia.
  - inversion HA as [|? ? Hv HA']; subst. simpl length in *. cbn [for_each]. unfold vv_row at 1.
    rewrite Z.eqb_refl. cbn [negb].
    set (c := Z.of_nat (length v)) in *.
    assert (HB : (r - 1) * c + c <= N) by nia.
    assert (HB0 : 0 <= (r - 1) * c) by nia.
    destruct (write_run N (fun cc val l => a <- isub r 1 ;; b <- imul a c ;; d <- iadd b cc ;;
         e <- isub d 1 ;; wr l e val) ((r - 1) * c - 1) v l _ 1 Hl) as (l1 & h1 & E1 & Hl1 & F1 & F2); try lia.
    { intros j x l0 Hj. unfold isub, iadd, imul. fold c in Hj.
      change INT_MAX with 2147483647 in *.
      repeat (rewrite ichk_ok by (unfold is_int, INT_MIN; change INT_MAX with 2147483647; lia); cbn [bind]).
      f_equal; lia. }
    assert (E' : for_each v (fun val (q : Z * list (option T)) =>
         let '(cc, l) := q in
         a <- isub r 1 ;; b <- imul a c ;; d <- iadd b cc ;; e <- isub d 1 ;;
         l' <- wr l e val ;; Ok (cc + 1, l')) (1, l) = Ok (1 + c, l1)).
    { transitivity (Ok (1 + Z.of_nat (length v), l1)); [|reflexivity]. rewrite <- E1.
      apply for_each_ext. intros x [cc l0]. bassoc. }
    rewrite E'. cbn [bind snd].
    destruct (IH l1 h1 (r + 1)) as (l' & h' & E & Hl' & G1 & G2); auto; try lia.
    exists l', h'. rewrite E. split; [f_equal; f_equal; lia|]. split; auto. split.
    + intros k Hk. rewrite G1 by lia. apply F1; lia.
    + intros i j Hij Hj. destruct (Z.eq_dec i r) as [->|Hne].
      * replace (Z.to_nat (r - r)) with O by lia. simpl nth.
        rewrite G1 by lia. replace ((r - 1) * c + j) with ((r - 1) * c - 1 + (j + 1)) by lia.
        rewrite F2 by lia. f_equal; lia.
      * rewrite G2 by lia. replace (Z.to_nat (i - r)) with (S (Z.to_nat (i - (r + 1)))) by lia. reflexivity.
Qed.

Lemma Matrix_of_vecs_ok v0 vv c :
  let n := Z.of_nat (length (v0 :: vv)) in
  n <= INT_MAX -> c <= INT_MAX -> n * c <= INT_MAX ->
  Forall (fun v => Z.of_nat (length v) = c) (v0 :: vv) ->
  exists m, Matrix_of_vecs (v0 :: vv) = Ok m /\
    denotes m n c 1 (fun r j _ => nth (Z.to_nat (j - 1)) (nth (Z.to_nat (r - 1)) (v0 :: vv) []) zero).
Proof.
  intros n HnM HcM HM HA. unfold Matrix_of_vecs. fold n.
  unfold vat; cbn [nth_error Z.ltb Z.compare Z.to_nat bind].
  inversion HA as [|? ? Hv HA']; subst. set (c := Z.of_nat (length v0)) in *.
  assert (Hn : 0 <= n) by lia. assert (Hc : 0 <= c) by lia.
  rewrite imul_ok by (unfold is_int, INT_MIN; nia). cbn [bind].
  destruct (@new_cells_are T (n * c * 1)) as (l & El & Hl); [nia|].
  replace (n * c * 1) with (n * c) in El by lia. rewrite El. cbn [bind].
  destruct (vv_run (n * c * 1) c (v0 :: vv) l (fun _ => None) 1) as (l' & h' & E & Hl' & _ & F2); auto; try lia.
  assert (E0 : for_each (v0 :: vv) (fun v (p : Z * list (option T)) =>
         let '(r, l) := p in
         if negb (Z.of_nat (length v) =? c) then Throw InvalidArgument else
         q <- for_each v (fun val (q : Z * list (option T)) =>
                let '(cc, l) := q in
                a <- isub r 1 ;; b <- imul a c ;; d <- iadd b cc ;; e <- isub d 1 ;;
                l' <- wr l e val ;; Ok (cc + 1, l')) (1, l) ;;
         Ok (r + 1, snd q)) (1, l) = Ok (1 + Z.of_nat (length (v0 :: vv)), l')) by exact E.
  rewrite E0. cbn [bind snd]. eexists; split; [reflexivity|].
  apply denotes_cells with (h := h'); auto.
  { unfold fits; change INT_MAX with 2147483647 in *; lia. }
  intros r j s (Hr & Hj & Hs).
  replace (pos3 c 1 r j s) with ((r - 1) * c + (j - 1)) by (unfold pos3; lia).
  rewrite F2 by lia. apply nth_error_nth'.
  rewrite Forall_forall in HA.
  assert (Z.of_nat (length (nth (Z.to_nat (r - 1)) (v0 :: vv) [])) = c).
  { apply HA. apply nth_In. lia. }
  lia.
Qed.

Lemma Matrix_of_vecs_ragged (v0 : list T) vv :
  let n := Z.of_nat (length (v0 :: vv)) in
  let c := Z.of_nat (length v0) in
  n <= INT_MAX -> c <= INT_MAX -> n * c <= INT_MAX ->
  ~ Forall (fun v => Z.of_nat (length v) = c) (v0 :: vv) ->
  Matrix_of_vecs (v0 :: vv) = Throw InvalidArgument.
Proof.
  intros n c HnM HcM HM HA. unfold Matrix_of_vecs. fold n.
  unfold vat; cbn [nth_error Z.ltb Z.compare Z.to_nat bind]. fold c.
  assert (Hn : 0 <= n) by lia. assert (Hc : 0 <= c) by lia.
  rewrite imul_ok by (unfold is_int, INT_MIN; nia). cbn [bind].
  destruct (@new_cells_are T (n * c)) as (l & El & Hl); [nia|].
  rewrite El. cbn [bind].
  assert (SPL : exists p b q, v0 :: vv = p ++ b :: q /\
     Forall (fun v => Z.of_nat (length v) = c) p /\ Z.of_nat (length b) <> c).
  { clear -HA. revert HA. generalize (v0 :: vv). intros L; induction L as [|a L IH]; intros HA.
    - exfalso; apply HA; constructor.
    - destruct (Z.eq_dec (Z.of_nat (length a)) c) as [Ha|Ha].
      + destruct IH as (p & b & q & E & HP & Hb).
        { intros HF; apply HA; constructor; auto. }
        exists (a :: p), b, q; rewrite E; repeat split; auto.
      + exists [], a, L; repeat split; auto. }
  destruct SPL as (p & b & q & ES & HP & Hb).
  assert (HL : n = Z.of_nat (length p) + 1 + Z.of_nat (length q)).
  { unfold n. rewrite ES, app_length; simpl length; lia. }
  rewrite ES.
  destruct (vv_run (n * c) c p l (fun _ => None) 1) as (l' & h' & E & _); auto; try lia.
  assert (E0 : for_each (p ++ b :: q) (vv_row c) (1, l) = Throw InvalidArgument).
  { rewrite for_each_app, E. cbn [bind for_each]. unfold vv_row at 1.
    destruct (Z.eqb_spec (Z.of_nat (length b)) c); [contradiction|]. reflexivity. }
  unfold vv_row in E0. rewrite E0. reflexivity.
Qed.

(** ** resize *)
Lemma resize_ok R C S f r c m : denotes m R C S f -> 1 <= S ->
  1 <= r -> 1 <= c -> r * c <= INT_MAX ->
  exists m', resize zero r c m = Ok m' /\
    denotes m' r c 1 (fun i j _ => if (i <=? R) && (j <=? C) then f i j 1 else zero).
Proof.
  intros Hm HS Hr Hc HM. unfold resize.
  destruct (Z.ltb_spec r 1); [lia|]. destruct (Z.ltb_spec c 1); [lia|].
  rewrite imul_ok by (unfold is_int, INT_MIN; nia). cbn [bind].
  destruct (@new_cells_are T (r * c * 1)) as (l & El & Hl); [nia|].
  replace (r * c * 1) with (r * c) in El by lia. rewrite El. cbn [bind].
  assert (HM1 : r * c * 1 <= INT_MAX) by lia.
  set (val := fun i j => if (i <=? R) && (j <=? C) then f i j 1 else zero).
  set (g := fun k => val (k / c + 1) (k mod c + 1)).
  assert (Hg : forall i j, 1 <= j <= c -> g (pos3 c 1 i j 1) = val i j).
  { intros i j Hj. unfold g, pos3.
    replace ((i - 1) * c * 1 + (j - 1) * 1 + 1 - 1) with ((j - 1) + (i - 1) * c) by lia.
    rewrite Z.div_add, Z.mod_add, Z.div_small, Z.mod_small by lia. f_equal; lia. }
  assert (HPUT : forall i j, 1 <= i <= r -> 1 <= j <= c ->
    cwrites (r * c * 1) (fun e => e = pos3 c 1 i j 1) g
      (fun l => e <- flat c 1 i j 1 ;; wr l e (val i j))).
  { intros i j Hi Hj. assert (Hin : inside r c 1 i j 1) by (unfold inside; lia).
    rewrite (flat_ok r) by auto. cbn [bind]. rewrite <- Hg by lia.
    apply cwrites_wr. apply pos3_range; auto. }
  assert (HOLD : forall i j, 1 <= i <= R -> 1 <= j <= C -> load m i j 1 = Ok (val i j)).
  { intros i j Hi Hj. rewrite (denotes_load _ _ _ _ _ _ _ _ Hm) by (unfold inside; lia).
    unfold val. destruct (Z.leb_spec i R); [|lia]. destruct (Z.leb_spec j C); [|lia]. reflexivity. }
  assert (HZ : forall i j, (i <=? R) && (j <=? C) = false -> val i j = zero).
  { intros i j E; unfold val; rewrite E; auto. }
  pose proof Hm as (Hwf & ER & EC & ES & _).
  match goal with |- context [bind ?x (fun t => Ok (mkMat r c 1 t))] => set (act := x) end.
  assert (HACT : exists l' h', act = Ok l' /\ cells_are l' (r * c * 1) h' /\
     forall i j, 1 <= i <= r -> 1 <= j <= c -> h' (pos3 c 1 i j 1) = Some (val i j)).
  { assert (HW : exists body, act = for_up 1 r body l /\ forall i, 1 <= i <= r ->
       cwrites (r * c * 1) (fun e => exists j, 1 <= j <= c /\ e = pos3 c 1 i j 1) g (body i)).
    { unfold act. rewrite ER, EC. destruct (Z.leb_spec r R) as [Hle|Hlt].
      - eexists; split; [reflexivity|]. intros i Hi. cbn beta. destruct (Z.leb_spec c C) as [Hcc|Hcc].
        + apply cwrites_for; [bdec|]. intros j Hj l0 h0 Hl0.
          rewrite HOLD by lia. cbn [bind]. apply (HPUT i j Hi Hj l0 h0 Hl0).
        + apply cwrites_for; [bdec|]. intros j Hj l0 h0 Hl0.
          destruct (Z.leb_spec j C).
          * rewrite HOLD by lia. cbn [bind]. apply (HPUT i j Hi Hj l0 h0 Hl0).
          * rewrite <- (HZ i j). { apply (HPUT i j Hi Hj l0 h0 Hl0). }
            destruct (Z.leb_spec j C); [lia|]. apply andb_false_r.
      - eexists; split; [reflexivity|]. intros i Hi. cbn beta. destruct (Z.leb_spec c C) as [Hcc|Hcc].
        + apply cwrites_for; [bdec|]. intros j Hj l0 h0 Hl0.
          destruct (Z.leb_spec i R).
          * rewrite HOLD by lia. cbn [bind]. apply (HPUT i j Hi Hj l0 h0 Hl0).
          * rewrite <- (HZ i j). { apply (HPUT i j Hi Hj l0 h0 Hl0). }
            destruct (Z.leb_spec i R); [lia|]. reflexivity.
        + apply cwrites_for; [bdec|]. intros j Hj l0 h0 Hl0.
          destruct ((i <=? R) && (j <=? C)) eqn:EB.
          * apply andb_prop in EB as [B1 B2]. apply Z.leb_le in B1. apply Z.leb_le in B2.
            rewrite HOLD by lia. cbn [bind]. apply (HPUT i j Hi Hj l0 h0 Hl0).
          * rewrite <- (HZ i j EB). apply (HPUT i j Hi Hj l0 h0 Hl0). }
    destruct HW as (body & -> & HW).
    destruct (cwrites_for (r * c * 1) (fun i e => exists j, 1 <= j <= c /\ e = pos3 c 1 i j 1) g 1 r body)
      with (l := l) (h := fun _ : Z => @None T) as (l' & h' & E & Hl' & HH); auto.
    { bdec. }
    exists l', h'; split; auto; split; auto. intros i j Hi Hj. rewrite <- Hg by auto.
    apply HH. { apply pos3_range; unfold inside; lia. }
    exists i; split; auto. exists j; split; auto. }
  destruct HACT as (l' & h' & EA & Hl' & HH). rewrite EA. cbn [bind].
  eexists; split; [reflexivity|].
  apply denotes_cells with (h := h'); auto.
  { pose proof (mul3_bounds r c 1 Hr Hc ltac:(lia)). unfold fits; change INT_MAX with 2147483647 in *; lia. }
  intros i j s (Hi & Hj & Hs). replace s with 1 by lia. apply HH; auto.
Qed.

Lemma resize_bad r c m : r < 1 \/ c < 1 -> resize zero r c m = Exit 1.
Proof.
  intros H; unfold resize. destruct (Z.ltb_spec r 1); auto. destruct (Z.ltb_spec c 1); auto. lia.
Qed.

End Ctor.
