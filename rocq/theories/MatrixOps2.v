(** * Lemmas: copies, transposition, products, concatenation, matching *)
From Verif Require Export MatrixOps.
From Coq Require Import ZifyBool.

Ltac inr := unfold inside in *; lia.
Ltac shapes H := let a := fresh "Hwf" in let b := fresh "ER" in let c := fresh "EC" in
  let d := fresh "ES" in pose proof H as (a & b & c & d & _).

Section Ops2.
Context {T : Type}.
Variable zero : T.
Implicit Types (m : mat T) (f g h : Z -> Z -> Z -> T).

Lemma denotes_dims m R C S f : denotes m R C S f -> fits R C S.
Proof. intros ((HF & _) & <- & <- & <- & _); auto. Qed.

Lemma assign_ok this R0 C0 S0 f0 m R C S f :
  denotes this R0 C0 S0 f0 -> 1 <= S0 -> denotes m R C S f -> 1 <= R -> 1 <= C -> 1 <= S ->
  exists m', assign zero this m = Ok m' /\ denotes m' R C 1 (fun r c _ => f r c 1).
Proof.
  intros Ht HS0 Hm HR HC HS. unfold assign. shapes Hm. rewrite ER, EC.
  assert (HM : R * C <= INT_MAX).
  { destruct (denotes_dims _ _ _ _ _ Hm) as (_&_&_&HM). pose proof (mul3_bounds R C S); lia. }
  destruct (resize_ok zero R0 C0 S0 f0 R C this) as (t & Et & Dt); auto.
  rewrite Et. cbn [bind].
  eapply writes_denotes with (P := fun i j s => exists i', 1 <= i' <= R /\ exists j', 1 <= j' <= C /\
     i = i' /\ j = j' /\ s = 1) (g := fun r c _ => f r c 1); [|exact Dt|].
  - apply writes_for; [bdec|]. intros i Hi. apply writes_for; [bdec|]. intros j Hj.
    rewrite (denotes_get2 _ _ _ _ _ _ _ Hm) by inr. cbn [bind].
    apply writes_set2; auto. inr.
  - intros r c s Hin. left; split; auto. exists r; split; [inr|]. exists c; inr.
Qed.

Lemma invert_ok m R C f : denotes m R C 1 f -> 1 <= R -> 1 <= C ->
  exists m', invert zero m = Ok m' /\ denotes m' C R 1 (fun i j _ => f j i 1).
Proof.
  intros Hm HR HC. unfold invert. shapes Hm. rewrite ES, ER, EC. cbn [Z.eqb Pos.eqb negb].
  assert (HM : R * C <= INT_MAX).
  { destruct (denotes_dims _ _ _ _ _ Hm) as (_&_&_&HM). lia. }
  destruct (Matrix_new2_ok zero C R) as (t & Et & Dt); auto; [lia|].
  rewrite Et. cbn [bind].
  eapply writes_denotes with (P := fun i j s => exists i', 1 <= i' <= R /\ exists j', 1 <= j' <= C /\
     i = j' /\ j = i' /\ s = 1) (g := fun r c _ => f c r 1); [|exact Dt|].
  - apply writes_for; [bdec|]. intros i Hi. apply writes_for; [bdec|]. intros j Hj.
    rewrite (denotes_get2 _ _ _ _ _ _ _ Hm) by inr. cbn [bind].
    apply writes_set2 with (g := fun r c _ => f c r 1); auto. inr.
  - intros r c s Hin. left; split; auto. exists c; split; [inr|]. exists r; inr.
Qed.

Lemma getRow_ok m R C S f r : denotes m R C S f -> 1 <= r <= R -> 1 <= C -> 1 <= S ->
  exists m', getRow zero m r = Ok m' /\ denotes m' 1 C S (fun _ j s => f r j s).
Proof.
  intros Hm Hr HC HS. unfold getRow. shapes Hm. rewrite ES, ER, EC.
  destruct (Z.ltb_spec R r); [lia|].
  assert (HM : 1 * C * S <= INT_MAX).
  { destruct (denotes_dims _ _ _ _ _ Hm) as (_&_&_&HM). nia. }
  destruct (Matrix_new3_ok zero 1 C S) as (t & Et & Dt); auto; [lia|].
  rewrite Et. cbn [bind].
  eapply writes_denotes with (P := fun i j s => exists j', 1 <= j' <= C /\ exists k', 1 <= k' <= S /\
     i = 1 /\ j = j' /\ s = k') (g := fun _ c s => f r c s); [|exact Dt|].
  - apply writes_for; [bdec|]. intros j Hj. apply writes_for; [bdec|]. intros k Hk.
    rewrite (denotes_get3 _ _ _ _ _ _ _ _ Hm) by inr. cbn [bind].
    apply writes_set3 with (g := fun _ c s => f r c s); auto. inr.
  - intros i c s Hin. left; split; auto. exists c; split; [inr|]. exists s; inr.
Qed.

(** getCol allocates cols x 1: it works only when rows <= cols and then has
    cols rows, the surplus ones being zero. *)
Lemma getCol_ok m R C S f c : denotes m R C S f -> 1 <= c <= C -> R <= C -> 1 <= S ->
  C * 1 * S <= INT_MAX ->
  exists m', getCol zero m c = Ok m' /\
    denotes m' C 1 S (fun i _ s => if i <=? R then f i c s else zero).
Proof.
  intros Hm Hr HC HS HM. unfold getCol. shapes Hm. rewrite ES, ER, EC.
  destruct (Z.ltb_spec C c); [lia|].
  destruct (Matrix_new3_ok zero C 1 S) as (t & Et & Dt); auto; try lia.
  rewrite Et. cbn [bind].
  eapply writes_denotes with (P := fun i j s => exists i', 1 <= i' <= R /\ exists k', 1 <= k' <= S /\
     i = i' /\ j = 1 /\ s = k') (g := fun i _ s => f i c s); [|exact Dt|].
  - apply writes_for; [bdec|]. intros i Hi. apply writes_for; [bdec|]. intros k Hk.
    rewrite (denotes_get3 _ _ _ _ _ _ _ _ Hm) by inr. cbn [bind].
    apply writes_set3 with (g := fun i _ s => f i c s); auto. inr.
  - intros i j s Hin. destruct (Z.leb_spec i R).
    + left; split; auto. exists i; split; [inr|]. exists s; inr.
    + right; split; auto. intros (i' & Hi & K). destruct K as (k' & K); lia.
Qed.

(** With more rows than columns it stops the process. *)
Lemma getCol_tall m R C S f c : denotes m R C S f -> 1 <= c <= C -> C < R -> 1 <= S ->
  getCol zero m c = Exit 1.
Proof.
  intros Hm Hr HC HS. unfold getCol. shapes Hm. rewrite ES, ER, EC.
  destruct (Z.ltb_spec C c); [lia|].
  assert (HM : C * 1 * S <= INT_MAX).
  { destruct (denotes_dims _ _ _ _ _ Hm) as (_&_&_&HM). pose proof (mul3_bounds R C S).
    assert (C * S <= R * (C * S)) by nia. lia. }
  destruct (Matrix_new3_ok zero C 1 S) as (t & Et & Dt); auto; try lia.
  rewrite Et. cbn [bind].
  rewrite (for_up_split _ 1 C R) by lia.
  assert (W : writes C 1 S (fun i j s => exists i', 1 <= i' <= C /\ exists k', 1 <= k' <= S /\
     i = i' /\ j = 1 /\ s = k') (fun i _ s => f i c s)
    (for_up 1 C (fun i m2 => for_up 1 S (fun k m2 =>
      v <- get_elem3 m i c k;; set_elem3 v i 1 k m2) m2))).
  { apply writes_for; [bdec|]. intros i Hi. apply writes_for; [bdec|]. intros k Hk.
    rewrite (denotes_get3 _ _ _ _ _ _ _ _ Hm) by inr. cbn [bind].
    apply writes_set3 with (g := fun i _ s => f i c s); auto. inr. }
  destruct (W t _ Dt) as (t' & f' & Et' & Dt' & _). rewrite Et'. cbn [bind].
  rewrite for_up_step by lia. rewrite (for_up_step _ 1 S) by lia.
  rewrite (denotes_get3 _ _ _ _ _ _ _ _ Hm) by inr. cbn [bind].
  rewrite set_elem3_out. { reflexivity. }
  destruct Dt' as (_ & -> & -> & -> & _). inr.
Qed.

Lemma Matrix_copy_ok m R C S f : denotes m R C S f -> 1 <= R -> 1 <= C -> 1 <= S ->
  exists m', Matrix_copy zero m = Ok m' /\ denotes m' R C S f.
Proof.
  intros Hm HR HC HS. unfold Matrix_copy. shapes Hm. rewrite ES, ER, EC.
  destruct (denotes_dims _ _ _ _ _ Hm) as (_&_&_&HM).
  destruct (Matrix_new3_ok zero R C S) as (t & Et & Dt); auto.
  rewrite Et. cbn [bind].
  eapply writes_denotes with (P := fun i j s => exists i', 1 <= i' <= R /\ exists j', 1 <= j' <= C /\
     exists k', 1 <= k' <= S /\ i = i' /\ j = j' /\ s = k') (g := f); [|exact Dt|].
  - apply writes_for; [bdec|]. intros i Hi. apply writes_for; [bdec|]. intros j Hj.
    apply writes_for; [bdec|]. intros k Hk.
    rewrite (denotes_get3 _ _ _ _ _ _ _ _ Hm) by inr. cbn [bind].
    apply writes_set3; auto. inr.
  - intros r c s Hin. left; split; auto. exists r; split; [inr|]. exists c; split; [inr|]. exists s; inr.
Qed.

Lemma Matrix_diag_row m n f : denotes m 1 n 1 f -> 1 <= n -> n * n <= INT_MAX ->
  exists m', Matrix_diag zero m = Ok m' /\
    denotes m' n n 1 (fun i j _ => if i =? j then f 1 i 1 else zero).
Proof.
  intros Hm Hn HM. unfold Matrix_diag. shapes Hm. rewrite ES, ER, EC.
  cbn [Z.ltb Z.compare Pos.compare Pos.compare_cont]. rewrite andb_false_r.
  destruct (Z.ltb_spec 1 n) as [H1|H1].
  - destruct (Matrix_new2_ok zero n n) as (t & Et & Dt); auto. rewrite Et. cbn [bind].
    eapply writes_denotes with (P := fun i j s => exists i', 1 <= i' <= n /\ i = i' /\ j = i' /\ s = 1)
      (g := fun i j _ => f 1 i 1); [|exact Dt|].
    + apply writes_for; [bdec|]. intros i Hi.
      rewrite (denotes_get2 _ _ _ _ _ _ _ Hm) by inr. cbn [bind].
      apply writes_set2 with (g := fun i j _ => f 1 i 1); auto. inr.
    + intros r c s Hin. destruct (Z.eqb_spec r c).
      * left; split; auto. exists r; inr.
      * right; split; auto. intros (i & K); lia.
  - clear EC. assert (n = 1) by lia. subst n.
    destruct (Matrix_new2_ok zero 1 1) as (t & Et & Dt); auto; try lia. rewrite Et. cbn [bind].
    eapply writes_denotes with (P := fun i j s => exists i', 1 <= i' <= 1 /\ i = i' /\ j = i' /\ s = 1)
      (g := fun i j _ => f 1 i 1); [|exact Dt|].
    + apply writes_for; [bdec|]. intros i Hi.
      rewrite (denotes_get2 _ _ _ _ _ _ _ Hm) by inr. cbn [bind].
      apply writes_set2 with (g := fun i j _ => f 1 i 1); auto. inr.
      replace i with 1 by lia; auto.
    + intros r c s Hin. destruct (Z.eqb_spec r c).
      * left; split; auto. exists r; inr.
      * inr.
Qed.

Lemma Matrix_diag_col m n f : denotes m n 1 1 f -> 1 <= n -> n * n <= INT_MAX ->
  exists m', Matrix_diag zero m = Ok m' /\
    denotes m' n n 1 (fun i j _ => if i =? j then f i 1 1 else zero).
Proof.
  intros Hm Hn HM. unfold Matrix_diag. shapes Hm. rewrite ES, ER, EC.
  cbn [Z.ltb Z.compare Pos.compare Pos.compare_cont andb].
  destruct (Z.ltb_spec n 1) as [H1|H1]; [lia|].
  destruct (Matrix_new2_ok zero n n) as (t & Et & Dt); auto. rewrite Et. cbn [bind].
  eapply writes_denotes with (P := fun i j s => exists i', 1 <= i' <= n /\ i = i' /\ j = i' /\ s = 1)
      (g := fun i j _ => f i 1 1); [|exact Dt|].
  + apply writes_for; [bdec|]. intros i Hi.
    rewrite (denotes_get2 _ _ _ _ _ _ _ Hm) by inr. cbn [bind].
    apply writes_set2 with (g := fun i j _ => f i 1 1); auto. inr.
  + intros r c s Hin. destruct (Z.eqb_spec r c).
    * left; split; auto. exists r; inr.
    * right; split; auto. intros (i & K); lia.
Qed.

Lemma concat_rows_ok m1 m2 R1 R2 C S f1 f2 :
  denotes m1 R1 C S f1 -> denotes m2 R2 C S f2 -> 1 <= R1 -> 1 <= R2 -> 1 <= C -> 1 <= S ->
  (R1 + R2) * C * S <= INT_MAX ->
  exists m', Matrix_concatenate_rows zero m1 m2 = Ok m' /\
    denotes m' (R1 + R2) C S (fun i j s => if i <=? R1 then f1 i j s else f2 (i - R1) j s).
Proof.
  intros H1 H2 HR1 HR2 HC HS HM. unfold Matrix_concatenate_rows. shapes H1. shapes H2.
  rewrite ES, ER, EC, ES0, ER0, EC0, !Z.eqb_refl. cbn [negb].
  assert (R1 + R2 <= INT_MAX) by (pose proof (mul3_bounds (R1 + R2) C S); lia).
  unfold iadd. rewrite ichk_ok by (unfold is_int, INT_MIN; lia). cbn [bind].
  destruct (Matrix_new3_ok zero (R1 + R2) C S) as (t & Et & Dt); auto; [lia|].
  rewrite Et. cbn [bind].
  match goal with |- exists m', bind (for_up 1 R1 ?b t) ?k = _ /\ _ =>
    destruct (writes_denotes (R1 + R2) C S (fun i j s => exists i', 1 <= i' <= R1 /\ exists j', 1 <= j' <= C /\
     exists k', 1 <= k' <= S /\ i = i' /\ j = j' /\ s = k') f1 (for_up 1 R1 b) t (fun _ _ _ => zero)
     (fun i j s => if i <=? R1 then f1 i j s else zero)) with (2 := Dt) as (t1 & Et1 & Dt1) end.
  - apply writes_for; [bdec|]. intros i Hi. apply writes_for; [bdec|]. intros j Hj.
    apply writes_for; [bdec|]. intros k Hk.
    rewrite (denotes_get3 _ _ _ _ _ _ _ _ H1) by inr. cbn [bind].
    apply writes_set3; auto. inr.
  - intros r c s Hin; cbn beta. destruct (Z.leb_spec r R1).
    + left; split; auto. exists r; split; [inr|]. exists c; split; [inr|]. exists s; inr.
    + right; split; auto. intros (i & Hi & j & Hj & k & Hk & K); lia.
  - rewrite Et1. cbn [bind].
    eapply writes_denotes with (P := fun i j s => exists i', 1 <= i' <= R2 /\ exists j', 1 <= j' <= C /\
     exists k', 1 <= k' <= S /\ i = i' + R1 /\ j = j' /\ s = k') (g := fun i j s => f2 (i - R1) j s); [|exact Dt1|].
    + apply writes_for; [bdec|]. intros i Hi. apply writes_for; [bdec|]. intros j Hj.
      apply writes_for; [bdec|]. intros k Hk.
      rewrite (denotes_get3 _ _ _ _ _ _ _ _ H2) by inr. cbn [bind].
      apply writes_set3 with (g := fun i j s => f2 (i - R1) j s). { inr. } f_equal; lia.
    + intros r c s Hin; cbn beta. destruct (Z.leb_spec r R1).
      * right; split; auto. intros (i & Hi & j & Hj & k & Hk & K); lia.
      * left; split; auto. exists (r - R1); split; [inr|]. exists c; split; [inr|]. exists s; inr.
Qed.

Lemma concat_cols_ok m1 m2 R C1 C2 S f1 f2 :
  denotes m1 R C1 S f1 -> denotes m2 R C2 S f2 -> 1 <= R -> 1 <= C1 -> 1 <= C2 -> 1 <= S ->
  R * (C1 + C2) * S <= INT_MAX ->
  exists m', Matrix_concatenate_cols zero m1 m2 = Ok m' /\
    denotes m' R (C1 + C2) S (fun i j s => if j <=? C1 then f1 i j s else f2 i (j - C1) s).
Proof.
  intros H1 H2 HR HC1 HC2 HS HM. unfold Matrix_concatenate_cols. shapes H1. shapes H2.
  rewrite ES, ER, EC, ES0, ER0, EC0, !Z.eqb_refl. cbn [negb].
  assert (C1 + C2 <= INT_MAX) by (pose proof (mul3_bounds R (C1 + C2) S); lia).
  unfold iadd. rewrite ichk_ok by (unfold is_int, INT_MIN; lia). cbn [bind].
  destruct (Matrix_new3_ok zero R (C1 + C2) S) as (t & Et & Dt); auto; [lia|].
  rewrite Et. cbn [bind].
  match goal with |- exists m', bind (for_up 1 R ?b t) ?k = _ /\ _ =>
    destruct (writes_denotes R (C1 + C2) S (fun i j s => exists i', 1 <= i' <= R /\ exists j', 1 <= j' <= C1 /\
     exists k', 1 <= k' <= S /\ i = i' /\ j = j' /\ s = k') f1 (for_up 1 R b) t (fun _ _ _ => zero)
     (fun i j s => if j <=? C1 then f1 i j s else zero)) with (2 := Dt) as (t1 & Et1 & Dt1) end.
  - apply writes_for; [bdec|]. intros i Hi. apply writes_for; [bdec|]. intros j Hj.
    apply writes_for; [bdec|]. intros k Hk.
    rewrite (denotes_get3 _ _ _ _ _ _ _ _ H1) by inr. cbn [bind].
    apply writes_set3; auto. inr.
  - intros r c s Hin; cbn beta. destruct (Z.leb_spec c C1).
    + left; split; auto. exists r; split; [inr|]. exists c; split; [inr|]. exists s; inr.
    + right; split; auto. intros (i & Hi & j & Hj & k & Hk & K); lia.
  - rewrite Et1. cbn [bind].
    eapply writes_denotes with (P := fun i j s => exists i', 1 <= i' <= R /\ exists j', 1 <= j' <= C2 /\
     exists k', 1 <= k' <= S /\ i = i' /\ j = j' + C1 /\ s = k') (g := fun i j s => f2 i (j - C1) s); [|exact Dt1|].
    + apply writes_for; [bdec|]. intros i Hi. apply writes_for; [bdec|]. intros j Hj.
      apply writes_for; [bdec|]. intros k Hk.
      rewrite (denotes_get3 _ _ _ _ _ _ _ _ H2) by inr. cbn [bind].
      apply writes_set3 with (g := fun i j s => f2 i (j - C1) s). { inr. } f_equal; lia.
    + intros r c s Hin; cbn beta. destruct (Z.leb_spec c C1).
      * right; split; auto. intros (i & Hi & j & Hj & k & Hk & K); lia.
      * left; split; auto. exists r; split; [inr|]. exists (c - C1); split; [inr|]. exists s; inr.
Qed.

(** ** set_rows *)
Lemma set_rows_shrink m R C S f r : denotes m R C S f -> 0 <= r < R -> 1 <= C -> 1 <= S ->
  exists m', set_rows zero r m = Ok m' /\ denotes m' r C S f.
Proof.
  intros Hm Hr HC HS. unfold set_rows. shapes Hm. rewrite ES, ER, EC.
  destruct (Z.ltb_spec r 0); [lia|]. destruct (Z.ltb_spec R r); [lia|]. destruct (Z.ltb_spec r R); [|lia].
  destruct (denotes_dims _ _ _ _ _ Hm) as (?&?&?&HM).
  assert (HF : fits r C S).
  { unfold fits. assert (r * C <= R * C) by nia. assert (r * C * S <= R * C * S) by nia. lia. }
  rewrite prod3_ok by auto. cbn [bind].
  destruct (@new_cells_are T (r * C * S)) as (l & El & Hl).
  { apply Z.mul_nonneg_nonneg; nia. }
  rewrite El. cbn [bind].
  set (gi := fun k => f (k / S / C + 1) ((k / S) mod C + 1) (k mod S + 1)).
  assert (Hgi : forall i j k, 1 <= i -> 1 <= j <= C -> 1 <= k <= S -> gi (pos3 C S i j k) = f i j k).
  { intros i j k Hi Hj Hk. unfold gi.
    replace (pos3 C S i j k) with ((k - 1) + ((i - 1) * C + (j - 1)) * S) by (unfold pos3; lia).
    rewrite Z.div_add, Z.mod_add by lia. rewrite (Z.div_small (k - 1)), (Z.mod_small (k - 1)) by lia.
    replace (0 + ((i - 1) * C + (j - 1))) with ((j - 1) + (i - 1) * C) by lia.
    rewrite Z.div_add, Z.mod_add by lia. rewrite (Z.div_small (j - 1)), (Z.mod_small (j - 1)) by lia.
    f_equal; lia. }
  match goal with |- context [for_up 1 r ?b l] =>
    destruct (cwrites_for (r * C * S) (fun i e => exists j, 1 <= j <= C /\ exists k, 1 <= k <= S /\ e = pos3 C S i j k)
      gi 1 r b) with (l := l) (h := fun _ : Z => @None T) as (l' & h' & E & Hl' & HH) end; auto.
  - bdec.
  - intros i Hi. apply cwrites_for; [bdec|]. intros j Hj. apply cwrites_for; [bdec|]. intros k Hk.
    assert (Hin : inside R C S i j k) by inr.
    assert (Hin' : inside r C S i j k) by inr.
    intros l0 h0 Hl0.
    destruct (index_ok m i j k Hwf) as [EI _]. { rewrite ER, EC, ES; auto. }
    rewrite EI, EC, ES. cbn [bind]. rewrite (denotes_load _ _ _ _ _ _ _ _ Hm Hin). cbn [bind].
    rewrite <- Hgi by lia. apply (cwrites_wr (r * C * S)); auto. apply pos3_range; auto.
  - rewrite E. cbn [bind]. eexists; split; [reflexivity|].
    apply denotes_cells with (h := h'); auto. intros i j k Hin.
    rewrite <- Hgi by inr. apply HH. { apply pos3_range; auto. }
    exists i; split; [inr|]. exists j; split; [inr|]. exists k; inr.
Qed.

(** Growing forgets everything: the copied-data branch is never taken. *)
Lemma set_rows_grow m R C S f r : denotes m R C S f -> R < r -> 1 <= C -> 1 <= S ->
  r * C * S <= INT_MAX ->
  exists m', set_rows zero r m = Ok m' /\ denotes m' r C S (fun _ _ _ => zero).
Proof.
  intros Hm Hr HC HS HM. unfold set_rows. shapes Hm. rewrite ES, ER, EC.
  destruct (denotes_dims _ _ _ _ _ Hm) as (?&?&?&HM0).
  destruct (Z.ltb_spec r 0); [lia|]. destruct (Z.ltb_spec R r); [|lia].
  assert (HF : fits r C S).
  { pose proof (mul3_bounds r C S). unfold fits; lia. }
  rewrite prod3_ok by auto. cbn [bind].
  destruct (@new_cells_are T (r * C * S)) as (l & El & Hl).
  { apply Z.mul_nonneg_nonneg; nia. }
  rewrite El. cbn [bind].
  match goal with |- context [for_up 1 r ?b l] =>
    destruct (cwrites_for (r * C * S) (fun i e => exists j, 1 <= j <= C /\ exists k, 1 <= k <= S /\ e = pos3 C S i j k)
      (fun _ => zero) 1 r b) with (l := l) (h := fun _ : Z => @None T) as (l' & h' & E & Hl' & HH) end; auto.
  - bdec.
  - intros i Hi. apply cwrites_for; [bdec|]. intros j Hj. apply cwrites_for; [bdec|]. intros k Hk.
    assert (Hin' : inside r C S i j k) by inr.
    intros l0 h0 Hl0. destruct (Z.leb_spec r R); [lia|]. unfold index. rewrite EC, ES.
    rewrite (flat_ok r) by auto. cbn [bind].
    apply (cwrites_wr (r * C * S) _ (fun _ => zero)); auto. apply pos3_range; auto.
  - rewrite E. cbn [bind]. eexists; split; [reflexivity|].
    apply denotes_cells with (h := h'); auto. intros i j k Hin.
    apply HH. { apply pos3_range; auto. }
    exists i; split; [inr|]. exists j; split; [inr|]. exists k; inr.
Qed.

(** ** Matching *)
Section Match.
Context {L : Type}.
Variable lab : T -> L.
Variable leqb : L -> L -> bool.

Lemma same_label_ok (x y : Z -> outcome T) (u v : Z -> T) n : forall j,
  (forall k, j <= k < j + Z.of_nat n -> x k = Ok (u k) /\ y k = Ok (v k)) ->
  exists b, same_label lab leqb n j x y = Ok b /\
    (b = true <-> forall k, j <= k < j + Z.of_nat n -> leqb (lab (u k)) (lab (v k)) = true).
Proof.
  induction n as [|n IH]; intros j H.
  - exists true; split; auto. split; auto. intros _ k Hk; lia.
  - cbn [same_label]. destruct (H j ltac:(lia)) as [-> ->]. cbn [bind].
    destruct (leqb (lab (u j)) (lab (v j))) eqn:E.
    + destruct (IH (j + 1)) as (b & Eb & Hb). { intros k Hk; apply H; lia. }
      exists b; split; auto. rewrite Hb. split; intros K k Hk.
      * destruct (Z.eq_dec k j); [subst; auto|apply K; lia].
      * apply K; lia.
    + exists false; split; auto. split; [discriminate|]. intros K. rewrite <- E. apply K; lia.
Qed.

Lemma match_inner (n i len : Z) (test : Z -> outcome bool) (P : Z -> Prop) (w : list Z) :
  0 <= n -> 1 <= i <= len -> Z.of_nat (length w) = len ->
  nth_error w (Z.to_nat (i - 1)) = Some (-1) ->
  (forall k, 1 <= k <= n -> exists b, test k = Ok b /\ (b = true <-> P k)) ->
  exists w', for_up 1 n (fun ii v => ok <- test ii ;; if ok : bool then vat_set v (i - 1) ii else Ok v) w = Ok w' /\
    Z.of_nat (length w') = len /\
    (forall k, k <> Z.to_nat (i - 1) -> nth_error w' k = nth_error w k) /\
    exists e, nth_error w' (Z.to_nat (i - 1)) = Some e /\ last_match n P e.
Proof.
  intros Hn Hi HL HN HT.
  destruct (for_up_inv (fun ii w' => Z.of_nat (length w') = len /\
    (forall k, k <> Z.to_nat (i - 1) -> nth_error w' k = nth_error w k) /\
    exists e, nth_error w' (Z.to_nat (i - 1)) = Some e /\ last_match (ii - 1) P e)
    (fun ii v => ok <- test ii ;; if ok : bool then vat_set v (i - 1) ii else Ok v) 1 n w)
    as (w' & E & H1 & H2 & e & H3 & H4).
  - lia.
  - split; auto. split; auto. exists (-1); split; auto. left; split; auto. intros k Hk; lia.
  - intros ii v Hii (K1 & K2 & e & K3 & K4). destruct (HT ii Hii) as (b & Eb & Hb). rewrite Eb. cbn [bind].
    destruct b.
    + unfold vat_set. destruct (Z.leb_spec 0 (i - 1)); [|lia].
      destruct (Z.ltb_spec (i - 1) (Z.of_nat (length v))); [|lia]. cbn [andb].
      eexists; split; [reflexivity|]. rewrite length_upd. split; auto. split.
      * intros k Hk. rewrite nth_error_upd_ne by auto. auto.
      * exists ii; split. { apply nth_error_upd_eq; lia. }
        right. split; [lia|]. split; [apply Hb; auto|]. intros k Hk; lia.
    + exists v; split; auto. split; auto. split; auto. exists e; split; auto.
      assert (NP : ~ P ii) by (intros HP; apply Hb in HP; discriminate).
      destruct K4 as [[-> K4]|(A & B & D)]; [left|right].
      * split; auto. intros k Hk. destruct (Z.eq_dec k ii); [subst; auto|apply K4; lia].
      * split; [lia|]. split; auto. intros k Hk. destruct (Z.eq_dec k ii); [subst; auto|apply D; lia].
  - exists w'; split; auto. split; auto. split; auto. exists e; split; auto.
    replace (n + 1 - 1) with n in H4 by lia. auto.
Qed.

Lemma match_outer (len n : Z) (test : Z -> Z -> outcome bool) (P : Z -> Z -> Prop) :
  0 <= n -> 0 <= len ->
  (forall i k, 1 <= i <= len -> 1 <= k <= n -> exists b, test i k = Ok b /\ (b = true <-> P i k)) ->
  exists w, for_up 1 len (fun i v => for_up 1 n (fun ii v =>
      ok <- test i ii ;; if ok : bool then vat_set v (i - 1) ii else Ok v) v)
      (repeat (-1) (Z.to_nat len)) = Ok w /\
    Z.of_nat (length w) = len /\
    forall i, 1 <= i <= len -> exists e, nth_error w (Z.to_nat (i - 1)) = Some e /\ last_match n (P i) e.
Proof.
  intros Hn Hlen HT.
  destruct (for_up_inv (fun i w => Z.of_nat (length w) = len /\
    (forall k, 1 <= k < i -> exists e, nth_error w (Z.to_nat (k - 1)) = Some e /\ last_match n (P k) e) /\
    (forall k, i <= k <= len -> nth_error w (Z.to_nat (k - 1)) = Some (-1)))
    (fun i v => for_up 1 n (fun ii v =>
      ok <- test i ii ;; if ok : bool then vat_set v (i - 1) ii else Ok v) v) 1 len
      (repeat (-1) (Z.to_nat len))) as (w & E & H1 & H2 & _).
  - lia.
  - split; [rewrite repeat_length; lia|]. split.
    + intros k Hk; lia.
    + intros k Hk. apply nth_error_repeat. lia.
  - intros i v Hi (K1 & K2 & K3).
    destruct (match_inner n i len (test i) (P i) v) as (v' & E & M1 & M2 & M3); auto.
    { apply K3; lia. }
    exists v'; split; auto. split; auto. split.
    + intros k Hk. destruct (Z.eq_dec k i) as [->|Hne]; auto.
      destruct (K2 k) as (e & Ee & He); [lia|]. exists e; split; auto. rewrite M2; auto. lia.
    + intros k Hk. rewrite M2 by lia. apply K3; lia.
  - exists w; split; auto. split; auto. intros i Hi; apply H2; lia.
Qed.

Lemma matchCol_ok m1 m2 R C1 C2 f1 f2 :
  denotes m1 R C1 1 f1 -> denotes m2 R C2 1 f2 ->
  exists w, matchCol lab leqb m1 m2 = Ok w /\ Z.of_nat (length w) = C1 /\
    forall i, 1 <= i <= C1 -> exists e, nth_error w (Z.to_nat (i - 1)) = Some e /\
      last_match C2 (fun ii => forall j, 1 <= j <= R ->
         leqb (lab (f1 j i 1)) (lab (f2 j ii 1)) = true) e.
Proof.
  intros H1 H2. unfold matchCol. shapes H1. shapes H2.
  rewrite ES, ES0, ER, ER0, EC, EC0, !Z.eqb_refl. cbn [Z.eqb Pos.eqb negb orb].
  destruct (denotes_dims _ _ _ _ _ H1) as (?&?&_). destruct (denotes_dims _ _ _ _ _ H2) as (?&?&_).
  apply (match_outer C1 C2 (fun i ii => same_label lab leqb (Z.to_nat R) 1
     (fun j => get_elem2 m1 j i) (fun j => get_elem2 m2 j ii))); try lia.
  intros i k Hi Hk.
  destruct (same_label_ok (fun j => get_elem2 m1 j i) (fun j => get_elem2 m2 j k)
    (fun j => f1 j i 1) (fun j => f2 j k 1) (Z.to_nat R) 1) as (b & E & Hb).
  { intros j Hj. split; [apply (denotes_get2 _ _ _ _ _ _ _ H1)|apply (denotes_get2 _ _ _ _ _ _ _ H2)]; inr. }
  exists b; split; auto. rewrite Hb. split; intros K j Hj; apply K; lia.
Qed.

Lemma matchRow_ok m1 m2 C R1 R2 f1 f2 :
  denotes m1 R1 C 1 f1 -> denotes m2 R2 C 1 f2 ->
  exists w, matchRow lab leqb m1 m2 = Ok w /\ Z.of_nat (length w) = R1 /\
    forall i, 1 <= i <= R1 -> exists e, nth_error w (Z.to_nat (i - 1)) = Some e /\
      last_match R2 (fun ii => forall j, 1 <= j <= C ->
         leqb (lab (f1 i j 1)) (lab (f2 ii j 1)) = true) e.
Proof.
  intros H1 H2. unfold matchRow. shapes H1. shapes H2.
  rewrite ES, ES0, ER, ER0, EC, EC0, !Z.eqb_refl. cbn [Z.eqb Pos.eqb negb orb].
  destruct (denotes_dims _ _ _ _ _ H1) as (?&?&_). destruct (denotes_dims _ _ _ _ _ H2) as (?&?&_).
  apply (match_outer R1 R2 (fun i ii => same_label lab leqb (Z.to_nat C) 1
     (fun j => get_elem2 m1 i j) (fun j => get_elem2 m2 ii j))); try lia.
  intros i k Hi Hk.
  destruct (same_label_ok (fun j => get_elem2 m1 i j) (fun j => get_elem2 m2 k j)
    (fun j => f1 i j 1) (fun j => f2 k j 1) (Z.to_nat C) 1) as (b & E & Hb).
  { intros j Hj. split; [apply (denotes_get2 _ _ _ _ _ _ _ H1)|apply (denotes_get2 _ _ _ _ _ _ _ H2)]; inr. }
  exists b; split; auto. rewrite Hb. split; intros K j Hj; apply K; lia.
Qed.
End Match.
End Ops2.

(** ** Product *)
Section Product.
Context {T : Type}.
Variable A : arith T.

Lemma accum_ext n u v u' v' :
  (forall k, 1 <= k <= Z.of_nat n -> u k = u' k /\ v k = v' k) -> accum A n u v = accum A n u' v'.
Proof.
  induction n as [|n IH]; intros H; cbn [accum]; auto.
  destruct (H (Z.of_nat (S n)) ltac:(lia)) as [-> ->]. rewrite IH; auto.
  intros k Hk; apply H; lia.
Qed.

Lemma accum_ok (x y : Z -> outcome T) u v n : 0 <= n ->
  (forall k, 1 <= k <= n -> x k = Ok (u k) /\ y k = Ok (v k)) ->
  for_up 1 n (fun k sum => a <- x k ;; b <- y k ;; Ok (a_add A sum (a_mul A a b))) (a_zero A)
  = Ok (accum A (Z.to_nat n) u v).
Proof.
  intros Hn H.
  destruct (for_up_inv (fun k s => s = accum A (Z.to_nat (k - 1)) u v)
    (fun k sum => a <- x k ;; b <- y k ;; Ok (a_add A sum (a_mul A a b))) 1 n (a_zero A)) as (s & E & Hs).
  - lia.
  - reflexivity.
  - intros k s Hk ->. destruct (H k Hk) as [-> ->]. cbn [bind]. eexists; split; [reflexivity|].
    replace (Z.to_nat (k + 1 - 1)) with (S (Z.to_nat (k - 1))) by lia. cbn [accum].
    replace (Z.of_nat (S (Z.to_nat (k - 1)))) with k by lia. reflexivity.
  - rewrite E. subst s. f_equal. f_equal. lia.
Qed.

Lemma mat_mul_ok m1 m2 R N C f1 f2 :
  denotes m1 R N 1 f1 -> denotes m2 N C 1 f2 -> 1 <= R -> 1 <= C -> R * C <= INT_MAX ->
  exists m', mat_mul A m1 m2 = Ok m' /\
    denotes m' R C 1 (fun i j _ => accum A (Z.to_nat N) (fun k => f1 i k 1) (fun k => f2 k j 1)).
Proof.
  intros H1 H2 HR HC HM. unfold mat_mul. shapes H1. shapes H2.
  rewrite ES, ES0, ER, ER0, EC, EC0, !Z.eqb_refl. cbn [Z.eqb Pos.eqb negb orb].
  destruct (denotes_dims _ _ _ _ _ H1) as (?&?&_).
  destruct (Matrix_new2_ok (a_zero A) R C) as (t & Et & Dt); auto. rewrite Et. cbn [bind].
  eapply writes_denotes with (P := fun i j s => exists i', 1 <= i' <= R /\ exists j', 1 <= j' <= C /\
     i = i' /\ j = j' /\ s = 1)
     (g := fun i j _ => accum A (Z.to_nat N) (fun k => f1 i k 1) (fun k => f2 k j 1)); [|exact Dt|].
  - apply writes_for; [bdec|]. intros i Hi. apply writes_for; [bdec|]. intros j Hj.
    rewrite (accum_ok (fun k => get_elem2 m1 i k) (fun k => get_elem2 m2 k j)
       (fun k => f1 i k 1) (fun k => f2 k j 1)); [|lia|].
    2:{ intros k Hk. split; [apply (denotes_get2 _ _ _ _ _ _ _ H1)|apply (denotes_get2 _ _ _ _ _ _ _ H2)]; inr. }
    cbn [bind]. 
    apply writes_set2 with (g := fun i j _ => accum A (Z.to_nat N) (fun k => f1 i k 1) (fun k => f2 k j 1)); auto. inr.
  - intros r c s Hin. left; split; auto. exists r; split; [inr|]. exists c; inr.
Qed.
End Product.
