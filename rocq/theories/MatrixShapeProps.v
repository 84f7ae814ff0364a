(** * C03, C15, C17, C18: the remaining shapes, exactly *)
From Verif Require Import MatrixProps.
From Verif Require Import MatrixShape.
Open Scope Z_scope.

(** ** C03 *)
(** Matrix(0) is the empty matrix *)
Theorem C03_empty_matrix : forall T (zero : T), exists m, Matrix_new1 zero 0 = Ok m /\ denotes m 0 0 0 (fun _ _ _ => zero).
Proof.
  intros T zero. eexists. split; [reflexivity|]. split; [split; [unfold fits, INT_MAX; cbn; lia|reflexivity]|].
  split; [reflexivity|]. split; [reflexivity|]. split; [reflexivity|]. intros r c s (H & _). lia.
Qed.
Print Assumptions C03_empty_matrix.

(** ** C15 *)
(** no column of a non-square matrix can be moved *)
Theorem C15_move_col_all_refuted : forall T (zero : T) m R C S f a b, denotes m R C S f -> 1 <= a <= C -> 1 <= b <= C -> 1 <= S ->
  R <> C -> a <> b -> move_col zero a b m = Throw InvalidArgument.
Proof.
  intros T zero m R C S f a b Hm Ha Hb HS Hsq Hab. unfold move_col. destruct (Z.eqb_spec a b) as [|_]; [contradiction|].
  destruct (get_col_ok m R C S f a) as (va & Ea & La); auto. rewrite Ea. cbn [bind]. destruct (Z.ltb_spec a b) as [Hlt|Hge].
  - destruct (shift_cols_up m R C S f a b) as (m1 & E1 & H1); auto; try lia. rewrite E1. cbn [bind].
    exact (C13_set_col_refuted _ _ _ _ _ _ _ _ _ _ H1 La Hsq).
  - destruct (shift_cols_down m R C S f a b) as (m1 & E1 & H1); auto; try lia. rewrite E1. cbn [bind].
    exact (C13_set_col_refuted _ _ _ _ _ _ _ _ _ _ H1 La Hsq).
Qed.
Print Assumptions C15_move_col_all_refuted.
Example C15_all_example : exists m, denotes m 2 3 1 (ex_f ex23) /\ 1 <= 3 <= 3 /\ 1 <= 2 <= 3 /\ 2 <> 3.
Proof. destruct ex23_denotes as (m & _ & H). exists m. split; [exact H|lia]. Qed.

(** ** C17 *)
(** a size below zero stops the process, the present size changes nothing *)
Theorem C17_trivial : forall T (zero : T) m n,
  (n < 0 -> set_rows zero n m = Exit 1 /\ set_cols zero n m = Exit 1 /\ set_shel zero n m = Exit 1) /\
  (0 <= rows m -> set_rows zero (rows m) m = Ok m) /\ (0 <= cols m -> set_cols zero (cols m) m = Ok m) /\ (0 <= shel m -> set_shel zero (shel m) m = Ok m).
Proof.
  intros T zero m n. unfold set_rows, set_cols, set_shel. split; [|split; [|split]].
  - intros H. destruct (Z.ltb_spec n 0); [auto|lia].
  - intros H. destruct (Z.ltb_spec (rows m) 0); [lia|]. rewrite Z.ltb_irrefl. reflexivity.
  - intros H. destruct (Z.ltb_spec (cols m) 0); [lia|]. rewrite Z.ltb_irrefl. reflexivity.
  - intros H. destruct (Z.ltb_spec (shel m) 0); [lia|]. rewrite Z.ltb_irrefl. reflexivity.
Qed.
Print Assumptions C17_trivial.
(** growing the columns of any matrix: nothing is kept, and the end of the block is left uninitialised *)
Theorem C17_set_cols_grow_all_refuted : forall T (zero : T) m R C S f c, denotes m R C S f -> 1 <= R -> 1 <= C -> 1 <= S -> C < c -> R * c * S <= INT_MAX ->
  exists m', set_cols zero c m = Ok m' /\ rows m' = R /\ cols m' = c /\ shel m' = S /\
    forall i j k, inside R c S i j k ->
      get_elem3 m' i j k = if (i - 1) * c + j <=? (R - 1) * C + c then Ok zero else Undef Uninitialised.
Proof.
  intros T zero m R C S f c Hm HR HC HS Hc HM. destruct (cols_grow zero m R C S f c Hm HR HC HS Hc HM) as (m' & E & _ & H1 & H2 & H3 & G).
  exists m'. split; [auto|]. split; [auto|]. split; [auto|]. split; [auto|]. intros i j k Hin. rewrite G by auto. unfold MatrixFacts.pos3. destruct Hin as (Hi & Hj & Hk).
  set (q := (i - 1) * c + (j - 1)). replace ((i - 1) * c * S + (j - 1) * S + k - 1) with (q * S + k - 1) by (unfold q; ring).
  replace ((i - 1) * c + j) with (q + 1) by (unfold q; lia). set (B := (R - 1) * C + c). clearbody q B.
  destruct (Z.leb_spec (q + 1) B) as [L|L].
  - assert (q * S + S <= B * S) by nia. destruct (Z.ltb_spec (q * S + k - 1) (B * S)); [reflexivity|lia].
  - assert (B * S <= q * S) by nia. destruct (Z.ltb_spec (q * S + k - 1) (B * S)); [lia|reflexivity].
Qed.
Print Assumptions C17_set_cols_grow_all_refuted.
(** in particular some element of every matrix with at least two rows is left uninitialised *)
Theorem C17_set_cols_grow_hole_refuted : forall T (zero : T) m R C S f c, denotes m R C S f -> 2 <= R -> 1 <= C -> 1 <= S -> C < c -> R * c * S <= INT_MAX ->
  exists m', set_cols zero c m = Ok m' /\ get_elem3 m' R c S = Undef Uninitialised /\ get_elem3 m' 1 1 1 = Ok zero.
Proof.
  intros T zero m R C S f c Hm HR HC HS Hc HM. destruct (C17_set_cols_grow_all_refuted T zero m R C S f c Hm ltac:(lia) HC HS Hc HM) as (m' & E & _ & _ & _ & G).
  exists m'. split; [auto|]. split.
  - rewrite G by (unfold inside; lia). destruct (Z.leb_spec ((R - 1) * c + c) ((R - 1) * C + c)); [nia|reflexivity].
  - rewrite G by (unfold inside; lia). assert (0 <= (R - 1) * C) by nia. destruct (Z.leb_spec ((1 - 1) * c + 1) ((R - 1) * C + c)); [reflexivity|lia].
Qed.
Print Assumptions C17_set_cols_grow_hole_refuted.
(** shrinking the columns of a matrix with at least two rows always writes outside the new block *)
Theorem C17_set_cols_shrink_all_refuted : forall T (zero : T) m R C S f c, denotes m R C S f -> 2 <= R -> 1 <= S -> 1 <= c < C ->
  set_cols zero c m = Undef OutOfBounds.
Proof. intros T zero m R C S f c. exact (cols_shrink_out zero m R C S f c). Qed.
Print Assumptions C17_set_cols_shrink_all_refuted.
(** with one row, or down to no columns, the surviving elements are kept *)
Theorem C17_set_cols_shrink_partial : forall T (zero : T) m R C S f c, denotes m R C S f -> 1 <= R -> 1 <= S -> 0 <= c < C -> R = 1 \/ c = 0 ->
  exists m', set_cols zero c m = Ok m' /\ denotes m' R c S f.
Proof. intros T zero m R C S f c H HR. apply (cols_shrink zero m R C S f c H). lia. Qed.
Print Assumptions C17_set_cols_shrink_partial.
(** shelves *)
Theorem C17_set_shel_grow_all_refuted : forall T (zero : T) m R C S f s, denotes m R C S f -> 1 <= R -> 1 <= C -> 1 <= S -> S < s -> R * C * s <= INT_MAX ->
  exists m', set_shel zero s m = Ok m' /\ rows m' = R /\ cols m' = C /\ shel m' = s /\
    forall i j k, inside R C s i j k ->
      get_elem3 m' i j k = if ((i - 1) * C + (j - 1)) * s + k <=? (R * C - 1) * S + s then Ok zero else Undef Uninitialised.
Proof.
  intros T zero m R C S f s Hm HR HC HS Hs HM. destruct (shel_grow zero m R C S f s Hm HR HC HS Hs HM) as (m' & E & _ & H1 & H2 & H3 & G).
  exists m'. split; [auto|]. split; [auto|]. split; [auto|]. split; [auto|]. intros i j k Hin. rewrite G by auto. unfold MatrixFacts.pos3.
  replace (((i - 1) * C + (j - 1)) * s + k) with ((i - 1) * C * s + (j - 1) * s + k) by ring.
  destruct (Z.leb_spec ((i - 1) * C * s + (j - 1) * s + k) ((R * C - 1) * S + s)), (Z.ltb_spec ((i - 1) * C * s + (j - 1) * s + k - 1) ((R * C - 1) * S + s)); auto; lia.
Qed.
Print Assumptions C17_set_shel_grow_all_refuted.
Theorem C17_set_shel_shrink_all_refuted : forall T (zero : T) m R C S f s, denotes m R C S f -> 1 <= R -> 1 <= C -> (R, C) <> (1, 1) -> 1 <= s < S ->
  set_shel zero s m = Undef OutOfBounds.
Proof.
  intros T zero m R C S f s Hm HR HC Hn Hs. apply (shel_shrink_out zero m R C S f s Hm HR HC); auto.
  destruct (Z.eq_dec R 1) as [->|]; [|nia]. destruct (Z.eq_dec C 1) as [->|]; [contradiction Hn; reflexivity|nia].
Qed.
Print Assumptions C17_set_shel_shrink_all_refuted.
Theorem C17_set_shel_shrink_partial : forall T (zero : T) m R C S f s, denotes m R C S f -> 1 <= R -> 1 <= C -> 0 <= s < S -> (R = 1 /\ C = 1) \/ s = 0 ->
  exists m', set_shel zero s m = Ok m' /\ denotes m' R C s f.
Proof. intros T zero m R C S f s H HR HC. apply (shel_shrink zero m R C S f s H); lia. Qed.
Print Assumptions C17_set_shel_shrink_partial.
Example C17_all_example : denotes ex222 2 2 2 ex222_f /\ set_shel 0 1 ex222 = Undef OutOfBounds /\ set_cols 0 1 ex222 = Undef OutOfBounds /\
  exists m', set_shel 0 3 ex222 = Ok m' /\ get_elem3 m' 2 1 2 = Ok 0 /\ get_elem3 m' 2 2 2 = Undef Uninitialised.
Proof. split; [exact ex222_denotes|]. split; [reflexivity|]. split; [reflexivity|]. eexists. split; [vm_compute; reflexivity|]. split; vm_compute; reflexivity. Qed.

(** ** C18 *)
(** matrices with several shelves, or none, stop the process *)
Theorem C18_shelves_exit : forall T (lab : T -> str) (m1 m2 : mat T), shel m1 <> 1 \/ shel m2 <> 1 ->
  matchCol lab str_eqb m1 m2 = Exit 1 /\ matchRow lab str_eqb m1 m2 = Exit 1.
Proof.
  intros T lab m1 m2 H. unfold matchCol, matchRow.
  destruct (Z.eqb_spec (shel m2) 1), (Z.eqb_spec (shel m1) 1); cbn [negb orb]; auto. lia.
Qed.
Print Assumptions C18_shelves_exit.
Example C18_shelves_example : shel ex222 <> 1.
Proof. discriminate. Qed.

(** ** C03: the number of elements *)
Theorem C03_total_elem : forall T m R C S (f : Z -> Z -> Z -> T), denotes m R C S f -> 1 <= S ->
  total_elem m = Ok (R * C * S) /\ Z.of_nat (length (elem m)) = R * C * S.
Proof.
  intros T m R C S f Hm HS. destruct (denotes_dims _ _ _ _ _ Hm) as (HR & HC & HSS & HM). destruct Hm as (W & ER & EC & ES & H).
  split.
  - unfold total_elem. rewrite ER, EC, ES. apply prod3_ok; auto. unfold fits. auto.
  - rewrite <- ER, <- EC, <- ES. apply W.
Qed.
Print Assumptions C03_total_elem.
Example C03_total_example : (m <- Matrix_of_vecs [[1; 2; 3]; [4; 5; 6]] ;; total_elem m) = Ok 6.
Proof. vm_compute. reflexivity. Qed.
