(** * Every matrix the API can build is well formed

    [built m]: [m] is obtained from a constructor by any sequence of member
    and free functions (arguments of type int are ints). *)
From Verif Require Export MatrixOps2.

Section Reach.
Context {T : Type}.
Variable zero : T.
Variable A : arith T.

Inductive built : mat T -> Prop :=
| b_new0 m : Matrix_new0 zero = Ok m -> built m
| b_vec v m : Matrix_of_vec v = Ok m -> built m
| b_vecs vv m : Z.of_nat (length vv) <= INT_MAX ->
    Forall (fun v => Z.of_nat (length v) <= INT_MAX) vv -> Matrix_of_vecs vv = Ok m -> built m
| b_new1 r m : is_int r -> Matrix_new1 zero r = Ok m -> built m
| b_new2 r c m : is_int r -> is_int c -> Matrix_new2 zero r c = Ok m -> built m
| b_new3 r c s m : is_int r -> is_int c -> is_int s -> Matrix_new3 zero r c s = Ok m -> built m
| b_set0 v m m' : built m -> set_elem0 v m = Ok m' -> built m'
| b_set1 v r m m' : built m -> set_elem1 v r m = Ok m' -> built m'
| b_set2 v r c m m' : built m -> set_elem2 v r c m = Ok m' -> built m'
| b_set3 v r c s m m' : built m -> set_elem3 v r c s m = Ok m' -> built m'
| b_resize r c m m' : is_int r -> is_int c -> built m -> resize zero r c m = Ok m' -> built m'
| b_assign t m m' : built t -> built m -> assign zero t m = Ok m' -> built m'
| b_set_row v r m m' : built m -> set_row zero v r m = Ok m' -> built m'
| b_set_col v c m m' : built m -> set_col zero v c m = Ok m' -> built m'
| b_set_rows r m m' : is_int r -> built m -> set_rows zero r m = Ok m' -> built m'
| b_set_cols c m m' : is_int c -> built m -> set_cols zero c m = Ok m' -> built m'
| b_set_shel s m m' : is_int s -> built m -> set_shel zero s m = Ok m' -> built m'
| b_swap_row a b m m' : built m -> swap_row zero a b m = Ok m' -> built m'
| b_swap_col a b m m' : built m -> swap_col zero a b m = Ok m' -> built m'
| b_move_row a b m m' : built m -> move_row zero a b m = Ok m' -> built m'
| b_move_col a b m m' : built m -> move_col zero a b m = Ok m' -> built m'
| b_invert m m' : built m -> invert zero m = Ok m' -> built m'
| b_getRow r m m' : built m -> getRow zero m r = Ok m' -> built m'
| b_getCol c m m' : built m -> getCol zero m c = Ok m' -> built m'
| b_diag m m' : built m -> Matrix_diag zero m = Ok m' -> built m'
| b_copy m m' : built m -> Matrix_copy zero m = Ok m' -> built m'
| b_cat_rows m1 m2 m' : built m1 -> built m2 -> Matrix_concatenate_rows zero m1 m2 = Ok m' -> built m'
| b_cat_cols m1 m2 m' : built m1 -> built m2 -> Matrix_concatenate_cols zero m1 m2 = Ok m' -> built m'
| b_mul m1 m2 m' : a_zero A = zero -> built m1 -> built m2 -> mat_mul A m1 m2 = Ok m' -> built m'.

Lemma for_n_ok {S} (I : S -> Prop) body n : forall lo s s',
  I s -> (forall i s s', I s -> body i s = Ok s' -> I s') -> for_n n lo body s = Ok s' -> I s'.
Proof.
  induction n as [|n IH]; intros lo s s' HI Hb E; simpl in E.
  - inversion E; subst; auto.
  - apply bind_ok in E as (s1 & E1 & E2). eauto.
Qed.
Lemma for_up_ok {S} (I : S -> Prop) body lo hi s s' :
  I s -> (forall i s s', I s -> body i s = Ok s' -> I s') -> for_up lo hi body s = Ok s' -> I s'.
Proof. intros; unfold for_up in *; eapply for_n_ok; eauto. Qed.
Lemma for_down_ok {S} (I : S -> Prop) body lo hi s s' :
  I s -> (forall i s s', I s -> body i s = Ok s' -> I s') -> for_down hi lo body s = Ok s' -> I s'.
Proof.
  unfold for_down. intros HI Hb. generalize (Z.to_nat (hi - lo + 1)) as n. intros n. revert hi s HI.
  induction n as [|n IH]; intros hi s HI E; simpl in E.
  - inversion E; subst; auto.
  - apply bind_ok in E as (s1 & E1 & E2). eauto.
Qed.
Lemma for_each_ok {B S} (I : S -> Prop) (body : B -> S -> outcome S) l : forall s s',
  I s -> (forall i s s', I s -> body i s = Ok s' -> I s') -> for_each l body s = Ok s' -> I s'.
Proof.
  induction l as [|a l IH]; intros s s' HI Hb E; simpl in E.
  - inversion E; subst; auto.
  - apply bind_ok in E as (s1 & E1 & E2). eauto.
Qed.

Lemma wr_len (l : list (option T)) k v l' : wr l k v = Ok l' -> length l' = length l.
Proof.
  unfold wr. destruct ((0 <=? k) && (k <? Z.of_nat (length l))); intros E; inversion E.
  apply length_upd.
Qed.
Lemma new_cells_len n (l : list (option T)) : new_cells n = Ok l -> Z.of_nat (length l) = n /\ 0 <= n.
Proof.
  unfold new_cells. destruct (Z.ltb_spec n 0); intros E; inversion E.
  rewrite repeat_length. lia.
Qed.

(** [same_shape m m']: same dimensions, same block size. *)
Definition same_shape (m m' : mat T) : Prop :=
  rows m' = rows m /\ cols m' = cols m /\ shel m' = shel m /\ length (elem m') = length (elem m).
Lemma same_shape_wf m m' : same_shape m m' -> wf m -> wf m'.
Proof. intros (E1 & E2 & E3 & E4) [H1 H2]. unfold wf. rewrite E1, E2, E3, E4. auto. Qed.
Lemma same_shape_refl m : same_shape m m.
Proof. repeat split. Qed.
Lemma same_shape_trans m1 m2 m3 : same_shape m1 m2 -> same_shape m2 m3 -> same_shape m1 m3.
Proof. intros (A1&A2&A3&A4) (B1&B2&B3&B4). repeat split; congruence. Qed.

Lemma store_shape v r c s m m' : store v r c s m = Ok m' -> same_shape m m'.
Proof.
  unfold store. intros E. apply bind_ok in E as (k & _ & E). apply bind_ok in E as (l & E1 & E).
  inversion E; subst. repeat split; simpl. eapply wr_len; eauto.
Qed.
Lemma set3_shape v r c s m m' : set_elem3 v r c s m = Ok m' -> same_shape m m'.
Proof.
  unfold set_elem3. repeat match goal with |- context [if ?b then _ else _] => destruct b end;
    try discriminate. apply store_shape.
Qed.
Lemma set2_shape v r c m m' : set_elem2 v r c m = Ok m' -> same_shape m m'.
Proof.
  unfold set_elem2. repeat match goal with |- context [if ?b then _ else _] => destruct b end;
    try discriminate. apply store_shape.
Qed.
Lemma set1_shape v r m m' : set_elem1 v r m = Ok m' -> same_shape m m'.
Proof.
  unfold set_elem1. repeat match goal with |- context [if ?b then _ else _] => destruct b end;
    try discriminate. apply store_shape.
Qed.

Ltac binv E := repeat (apply bind_ok in E as (? & ? & E)).

Lemma shape_for lo hi body m m' :
  (forall i m m', body i m = Ok m' -> same_shape m m') ->
  for_up lo hi body m = Ok m' -> same_shape m m'.
Proof.
  intros Hb. apply for_up_ok with (I := same_shape m).
  - apply same_shape_refl.
  - intros i s s' HI E. eapply same_shape_trans; eauto.
Qed.
Lemma shape_for_down lo hi body m m' :
  (forall i m m', body i m = Ok m' -> same_shape m m') ->
  for_down hi lo body m = Ok m' -> same_shape m m'.
Proof.
  intros Hb. apply for_down_ok with (I := same_shape m).
  - apply same_shape_refl.
  - intros i s s' HI E. eapply same_shape_trans; eauto.
Qed.

Lemma set_row_shape v r m m' : set_row zero v r m = Ok m' -> same_shape m m'.
Proof.
  unfold set_row. destruct (negb _); [discriminate|]. apply shape_for. intros j m0 m1 E.
  destruct (r <=? rows m0); [apply bind_ok in E as (? & _ & E)|]; eapply store_shape; eauto.
Qed.
Lemma set_col_shape v r m m' : set_col zero v r m = Ok m' -> same_shape m m'.
Proof.
  unfold set_col. destruct (negb _); [discriminate|]. apply shape_for. intros j m0 m1 E.
  destruct (r <=? cols m0); [apply bind_ok in E as (? & _ & E)|]; eapply store_shape; eauto.
Qed.

Lemma ichk_int z y : ichk z = Ok y -> y = z /\ is_int z.
Proof. apply ichk_inv. Qed.

Lemma prod3_inv r c s n : prod3 r c s = Ok n -> n = r * c * s /\ is_int n.
Proof.
  unfold prod3, imul. intros E. apply bind_ok in E as (a & E1 & E2).
  apply ichk_int in E1 as [-> _]. apply ichk_int in E2 as [-> H]. auto.
Qed.

Lemma fits_of r c s : 0 <= r -> 0 <= c -> 0 <= s -> is_int r -> is_int c -> is_int s ->
  is_int (r * c * s) -> fits r c s.
Proof. unfold is_int, fits. lia. Qed.

Lemma new3_wf r c s m : is_int r -> is_int c -> is_int s -> Matrix_new3 zero r c s = Ok m -> wf m.
Proof.
  intros I1 I2 I3. unfold Matrix_new3.
  destruct (Z.ltb_spec r 1); [discriminate|]. destruct (Z.ltb_spec c 1); [discriminate|].
  destruct (Z.ltb_spec s 1); [discriminate|]. intros E.
  apply bind_ok in E as (n & En & E). apply bind_ok in E as (l & El & E).
  apply bind_ok in E as (l' & El' & E). inversion E; subst. clear E.
  apply prod3_inv in En as [-> Hn]. apply new_cells_len in El as [El _].
  split; simpl; [apply fits_of; auto; lia|]. rewrite <- El.
  f_equal. revert El'. apply for_up_ok with (I := fun l' => length l' = length l); auto.
  intros i l1 l2 HI. apply for_up_ok with (I := fun l' => length l' = length l); auto.
  intros j l3 l4 HI2. apply for_up_ok with (I := fun l' => length l' = length l); auto.
  intros k l5 l6 HI3 E. apply bind_ok in E as (e & _ & E). apply wr_len in E. congruence.
Qed.

Lemma new2_wf r c m : is_int r -> is_int c -> Matrix_new2 zero r c = Ok m -> wf m.
Proof.
  intros I1 I2. unfold Matrix_new2.
  destruct (Z.ltb_spec r 1); [discriminate|]. destruct (Z.ltb_spec c 1); [discriminate|]. intros E.
  apply bind_ok in E as (n & En & E). apply bind_ok in E as (l & El & E).
  apply bind_ok in E as (l' & El' & E). inversion E; subst. clear E.
  apply ichk_int in En as [-> Hn]. apply new_cells_len in El as [El _].
  split; simpl.
  { apply fits_of; auto; try lia. unfold is_int, INT_MIN, INT_MAX; lia. unfold is_int in *; lia. }
  rewrite Z.mul_1_r, <- El.
  f_equal. revert El'. apply for_up_ok with (I := fun l' => length l' = length l); auto.
  intros i l1 l2 HI. apply for_up_ok with (I := fun l' => length l' = length l); auto.
  intros j l3 l4 HI2 E. binv E. apply wr_len in E. congruence.
Qed.

Lemma new1_wf r m : is_int r -> Matrix_new1 zero r = Ok m -> wf m.
Proof.
  intros I1. unfold Matrix_new1.
  destruct (Z.ltb_spec r 0); [discriminate|]. destruct (Z.eqb_spec r 0).
  { intros E; inversion E; subst; split; simpl; auto. unfold fits, INT_MAX; lia. }
  intros E. apply bind_ok in E as (l & El & E).
  apply bind_ok in E as (l' & El' & E). inversion E; subst. clear E.
  apply new_cells_len in El as [El _].
  split; simpl. { unfold fits, is_int in *; change INT_MAX with 2147483647 in *; lia. }
  rewrite !Z.mul_1_r. transitivity (Z.of_nat (length l)); [|exact El].
  f_equal. revert El'. apply for_up_ok with (I := fun l' => length l' = length l); auto.
  intros i l1 l2 HI E. binv E. apply wr_len in E. congruence.
Qed.

Lemma vec_wf (v : list T) m : Matrix_of_vec v = Ok m -> wf m.
Proof.
  unfold Matrix_of_vec. intros E. apply bind_ok in E as (n & En & E).
  apply bind_ok in E as (l & El & E). apply bind_ok in E as (p & Ep & E). inversion E; subst; clear E.
  apply ichk_int in En as [-> Hn]. apply new_cells_len in El as [El _].
  split; simpl. { unfold fits, is_int in *; change INT_MAX with 2147483647 in *; lia. }
  assert (length (snd p) = length l); [|lia].
  revert Ep. apply for_each_ok with (I := fun p => length (snd p) = length l); auto.
  intros x [r l0] [r' l1] HI E. binv E. inversion E; subst. simpl in *.
  match goal with H : wr _ _ _ = Ok _ |- _ => apply wr_len in H end. congruence.
Qed.

Lemma vecs_wf (vv : list (list T)) m : Z.of_nat (length vv) <= INT_MAX ->
  Forall (fun v => Z.of_nat (length v) <= INT_MAX) vv -> Matrix_of_vecs vv = Ok m -> wf m.
Proof.
  intros HL HF. unfold Matrix_of_vecs. intros E. apply bind_ok in E as (v0 & E0 & E).
  apply bind_ok in E as (n & En & E).
  apply bind_ok in E as (l & El & E). apply bind_ok in E as (p & Ep & E). inversion E; subst; clear E.
  apply ichk_int in En as [-> Hn]. apply new_cells_len in El as [El _].
  assert (H0 : Z.of_nat (length v0) <= INT_MAX).
  { rewrite Forall_forall in HF. apply HF. unfold vat in E0. simpl in E0.
    destruct vv; [discriminate|]. inversion E0; subst. left; auto. }
  split; simpl. { unfold fits, is_int in *; change INT_MAX with 2147483647 in *; lia. }
  assert (length (snd p) = length l); [|lia].
  revert Ep. apply for_each_ok with (I := fun p => length (snd p) = length l); auto.
  intros x [r l0] [r' l1] HI E. destruct (negb _); [discriminate|].
  apply bind_ok in E as (q & Eq & E). inversion E; subst. simpl in HI |- *.
  assert (length (snd q) = length l0); [|congruence].
  revert Eq. apply for_each_ok with (I := fun p => length (snd p) = length l0); auto.
  intros y [r1 l1] [r2 l2] HI2 E2. binv E2. inversion E2; subst. simpl in *.
  match goal with H : wr _ _ _ = Ok _ |- _ => apply wr_len in H end. congruence.
Qed.

Lemma resize_wf r c m m' : is_int r -> is_int c -> resize zero r c m = Ok m' -> wf m'.
Proof.
  intros I1 I2. unfold resize.
  destruct (Z.ltb_spec r 1); [discriminate|]. destruct (Z.ltb_spec c 1); [discriminate|]. intros E.
  apply bind_ok in E as (n & En & E). apply bind_ok in E as (l & El & E).
  apply bind_ok in E as (l' & El' & E). inversion E; subst. clear E.
  apply ichk_int in En as [-> Hn]. apply new_cells_len in El as [El _].
  split; simpl. { unfold fits, is_int in *; change INT_MAX with 2147483647 in *; lia. }
  rewrite Z.mul_1_r, <- El. f_equal. revert El'.
  destruct (r <=? rows m); apply for_up_ok with (I := fun l' => length l' = length l); auto;
    intros i l1 l2 HI; destruct (c <=? cols m);
    apply for_up_ok with (I := fun l' => length l' = length l); auto;
    intros j l3 l4 HI2 E;
    repeat match type of E with context [if ?b then _ else _] => destruct b end;
    binv E; apply wr_len in E; congruence.
Qed.

Lemma set_rows_wf r m m' : is_int r -> wf m -> set_rows zero r m = Ok m' -> wf m'.
Proof.
  intros I1 [HF HL]. unfold set_rows.
  destruct (Z.ltb_spec r 0); [discriminate|].
  destruct (Z.ltb_spec (rows m) r); [|destruct (Z.ltb_spec r (rows m))]; intros E;
    [| |inversion E; subst; split; auto].
  all: apply bind_ok in E as (n & En & E); apply bind_ok in E as (l & El & E);
    apply bind_ok in E as (l' & El' & E); inversion E; subst; clear E;
    apply prod3_inv in En as [-> Hn]; apply new_cells_len in El as [El _].
  all: split; simpl; [unfold fits, is_int in *; lia|].
  all: rewrite <- El; f_equal; revert El'; apply for_up_ok with (I := fun l' => length l' = length l); auto;
    intros i l1 l2 HI; apply for_up_ok with (I := fun l' => length l' = length l); auto;
    intros j l3 l4 HI2; apply for_up_ok with (I := fun l' => length l' = length l); auto;
    intros k l5 l6 HI3 E; try destruct (r <=? rows m); binv E; apply wr_len in E; congruence.
Qed.
Lemma set_cols_wf r m m' : is_int r -> wf m -> set_cols zero r m = Ok m' -> wf m'.
Proof.
  intros I1 [HF HL]. unfold set_cols.
  destruct (Z.ltb_spec r 0); [discriminate|].
  destruct (Z.ltb_spec (cols m) r); [|destruct (Z.ltb_spec r (cols m))]; intros E;
    [| |inversion E; subst; split; auto].
  all: apply bind_ok in E as (n & En & E); apply bind_ok in E as (l & El & E);
    apply bind_ok in E as (l' & El' & E); inversion E; subst; clear E;
    apply prod3_inv in En as [-> Hn]; apply new_cells_len in El as [El _].
  all: split; simpl; [unfold fits, is_int in *; lia|].
  all: rewrite <- El; f_equal; revert El'; apply for_up_ok with (I := fun l' => length l' = length l); auto;
    intros i l1 l2 HI; apply for_up_ok with (I := fun l' => length l' = length l); auto;
    intros j l3 l4 HI2; apply for_up_ok with (I := fun l' => length l' = length l); auto;
    intros k l5 l6 HI3 E; try destruct (r <=? cols m); binv E; apply wr_len in E; congruence.
Qed.
Lemma set_shel_wf r m m' : is_int r -> wf m -> set_shel zero r m = Ok m' -> wf m'.
Proof.
  intros I1 [HF HL]. unfold set_shel.
  destruct (Z.ltb_spec r 0); [discriminate|].
  destruct (Z.ltb_spec (shel m) r); [|destruct (Z.ltb_spec r (shel m))]; intros E;
    [| |inversion E; subst; split; auto].
  all: apply bind_ok in E as (n & En & E); apply bind_ok in E as (l & El & E);
    apply bind_ok in E as (l' & El' & E); inversion E; subst; clear E;
    apply prod3_inv in En as [-> Hn]; apply new_cells_len in El as [El _].
  all: split; simpl; [unfold fits, is_int in *; lia|].
  all: rewrite <- El; f_equal; revert El'; apply for_up_ok with (I := fun l' => length l' = length l); auto;
    intros i l1 l2 HI; apply for_up_ok with (I := fun l' => length l' = length l); auto;
    intros j l3 l4 HI2; apply for_up_ok with (I := fun l' => length l' = length l); auto;
    intros k l5 l6 HI3 E; try destruct (r <=? shel m); binv E; apply wr_len in E; congruence.
Qed.

Lemma wf_int (m : mat T) : wf m -> is_int (rows m) /\ is_int (cols m) /\ is_int (shel m).
Proof. intros [(?&?&?&?) _]. unfold is_int, INT_MIN. lia. Qed.

Lemma new0_wf m : Matrix_new0 zero = Ok m -> wf m.
Proof. intros E. destruct (Matrix_new0_ok zero) as (m' & E' & H'). rewrite E in E'. inversion E'; subst. apply H'. Qed.

Lemma is_int_1 : is_int 1.
Proof. unfold is_int, INT_MIN, INT_MAX; lia. Qed.

(** A loop nest of set_elem calls on a fresh well-formed matrix. *)
Lemma nest_wf (x : outcome (mat T)) (k : mat T -> outcome (mat T)) m' :
  (forall m, x = Ok m -> wf m) -> (forall m m', k m = Ok m' -> same_shape m m') ->
  bind x k = Ok m' -> wf m'.
Proof.
  intros Hx Hk E. apply bind_ok in E as (m & E1 & E2). eapply same_shape_wf; eauto.
Qed.

Ltac nest := repeat (apply shape_for; intros ? ? ?);
  let E := fresh in intros E; binv E; first [eapply set3_shape; eassumption | eapply set2_shape; eassumption].

Theorem built_wf m : built m -> wf m.
Proof.
  induction 1; repeat match goal with H : wf _ |- _ => pose proof (wf_int _ H) as (?&?&?); revert H end; intros.
  - eapply new0_wf; eauto.
  - eapply vec_wf; eauto.
  - eapply vecs_wf; eauto.
  - eapply new1_wf; [|eauto]; auto.
  - eapply new2_wf; [| |eauto]; auto.
  - eapply new3_wf; [| | |eauto]; auto.
  - revert H0. unfold set_elem0. intros E. binv E. inversion E; subst.
    eapply same_shape_wf; [|eauto]. repeat split; simpl. eapply wr_len; eauto.
  - eapply same_shape_wf; [eapply set1_shape|]; eauto.
  - eapply same_shape_wf; [eapply set2_shape|]; eauto.
  - eapply same_shape_wf; [eapply set3_shape|]; eauto.
  - eapply resize_wf; [| |eauto]; auto.
  - revert H1. unfold assign. apply nest_wf.
    + intros m0; apply resize_wf; auto.
    + intros m0 m1. nest.
  - eapply same_shape_wf; [eapply set_row_shape|]; eauto.
  - eapply same_shape_wf; [eapply set_col_shape|]; eauto.
  - eapply set_rows_wf; [| |eauto]; auto.
  - eapply set_cols_wf; [| |eauto]; auto.
  - eapply set_shel_wf; [| |eauto]; auto.
  - match goal with E : swap_row _ _ _ _ = _ |- _ => revert E end. unfold swap_row.
    destruct (a =? b). { intros E; inversion E; subst; auto. }
    intros E. binv E. eapply same_shape_wf; [eapply set_row_shape; eauto|].
    eapply same_shape_wf; [eapply set_row_shape; eauto|]; auto.
  - match goal with E : swap_col _ _ _ _ = _ |- _ => revert E end. unfold swap_col.
    destruct (a =? b). { intros E; inversion E; subst; auto. }
    intros E. binv E. eapply same_shape_wf; [eapply set_col_shape; eauto|].
    eapply same_shape_wf; [eapply set_col_shape; eauto|]; auto.
  - match goal with E : move_row _ _ _ _ = _ |- _ => revert E end. unfold move_row.
    destruct (a =? b). { intros E; inversion E; subst; auto. }
    intros E. apply bind_ok in E as (row & _ & E). apply bind_ok in E as (m1 & E1 & E).
    eapply same_shape_wf; [eapply set_row_shape; eauto|].
    eapply same_shape_wf; [|eauto]. revert E1. destruct (a <? b); [apply shape_for|apply shape_for_down]; intros r m2 m3; nest.
  - match goal with E : move_col _ _ _ _ = _ |- _ => revert E end. unfold move_col.
    destruct (a =? b). { intros E; inversion E; subst; auto. }
    intros E. apply bind_ok in E as (row & _ & E). apply bind_ok in E as (m1 & E1 & E).
    eapply same_shape_wf; [eapply set_col_shape; eauto|].
    eapply same_shape_wf; [|eauto]. revert E1. destruct (a <? b); [apply shape_for|apply shape_for_down]; intros r m2 m3; nest.
  - match goal with E : invert _ _ = _ |- _ => revert E end. unfold invert.
    destruct (negb _); [discriminate|]. apply nest_wf; [intros ? ; apply new2_wf; auto|]. intros m0 m1. nest.
  - match goal with E : getRow _ _ _ = _ |- _ => revert E end. unfold getRow.
    destruct (_ <? _); [discriminate|]. apply nest_wf; [intros ?; apply new3_wf; auto using is_int_1|]. intros m0 m1. nest.
  - match goal with E : getCol _ _ _ = _ |- _ => revert E end. unfold getCol.
    destruct (_ <? _); [discriminate|]. apply nest_wf; [intros ?; apply new3_wf; auto using is_int_1|]. intros m0 m1. nest.
  - match goal with E : Matrix_diag _ _ = _ |- _ => revert E end. unfold Matrix_diag.
    destruct (_ && _); [discriminate|]. destruct (1 <? shel m); [discriminate|].
    destruct (rows m <? cols m); (apply nest_wf; [intros ?; apply new2_wf; auto|]; intros m0 m1; nest).
  - match goal with E : Matrix_copy _ _ = _ |- _ => revert E end. unfold Matrix_copy.
    apply nest_wf; [intros ?; apply new3_wf; auto|]. intros m0 m1. nest.
  - match goal with E : Matrix_concatenate_rows _ _ _ = _ |- _ => revert E end. unfold Matrix_concatenate_rows.
    destruct (negb _); [apply new0_wf|]. destruct (negb _); [apply new0_wf|].
    intros E. apply bind_ok in E as (n & En & E). apply ichk_int in En as [-> Hn].
    revert E. apply nest_wf; [intros ?; apply new3_wf; auto|]. intros m0 m3 E.
    apply bind_ok in E as (m4 & E4 & E). apply same_shape_trans with m4.
    + revert E4. nest.
    + revert E. nest.
  - match goal with E : Matrix_concatenate_cols _ _ _ = _ |- _ => revert E end. unfold Matrix_concatenate_cols.
    destruct (negb _); [apply new0_wf|]. destruct (negb _); [apply new0_wf|].
    intros E. apply bind_ok in E as (n & En & E). apply ichk_int in En as [-> Hn].
    revert E. apply nest_wf; [intros ?; apply new3_wf; auto|]. intros m0 m3 E.
    apply bind_ok in E as (m4 & E4 & E). apply same_shape_trans with m4.
    + revert E4. nest.
    + revert E. nest.
  - match goal with E : mat_mul _ _ _ = _ |- _ => revert E end. unfold mat_mul. rewrite H.
    destruct (_ || _); [discriminate|]. destruct (negb _); [discriminate|].
    apply nest_wf; [intros ?; apply new2_wf; auto|]. intros m0 m3. nest.
Qed.
End Reach.
