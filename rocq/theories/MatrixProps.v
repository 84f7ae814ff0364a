(** * Properties C01 - C19 and C21: matrices

    Vocabulary: MatrixSpec.v ([denotes], [inside], [wf], [lists], [moved],
    [last_match], [accum], [matrix_text]).  [built] (MatrixReach.v) = obtainable
    through the API.  The hypothesis "... <= INT_MAX" says that the number of
    elements is representable as an int. *)
From Verif Require Import MatrixFinal.
From Coq Require Import Qcanon.
Open Scope Z_scope.

(** A concrete matrix used to show that hypotheses are satisfiable. *)
Definition ex23 : list (list Z) := [[1; 2; 3]; [4; 5; 6]].
Definition ex22 : list (list Z) := [[1; 2]; [3; 4]].
Definition ex_f (vv : list (list Z)) (r c s : Z) : Z :=
  nth (Z.to_nat (c - 1)) (nth (Z.to_nat (r - 1)) vv []) 0.
Example ex23_denotes : exists m, Matrix_of_vecs ex23 = Ok m /\ denotes m 2 3 1 (ex_f ex23).
Proof. apply (Matrix_of_vecs_ok 0 [1; 2; 3] [[4; 5; 6]] 3); repeat constructor; vm_compute; congruence. Qed.
Example ex22_denotes : exists m, Matrix_of_vecs ex22 = Ok m /\ denotes m 2 2 1 (ex_f ex22).
Proof. apply (Matrix_of_vecs_ok 0 [1; 2] [[3; 4]] 2); repeat constructor; vm_compute; congruence. Qed.
(** a 2 x 2 x 2 matrix with eight different elements, built through the API *)
Definition ex222 : mat Z := mkMat 2 2 2 (map Some [1; 2; 3; 4; 5; 6; 7; 8]).
Definition ex222_f (r c s : Z) : Z := (r - 1) * 4 + (c - 1) * 2 + s.
Example ex222_denotes : denotes ex222 2 2 2 ex222_f.
Proof.
  split; [|repeat split].
  - split; simpl; [unfold fits, INT_MAX; lia|reflexivity].
  - intros r c s (Hr & Hc & Hs). assert (Er : r = 1 \/ r = 2) by lia. assert (Ec : c = 1 \/ c = 2) by lia.
    assert (Es : s = 1 \/ s = 2) by lia. destruct Er, Ec, Es; subst; reflexivity.
Qed.
Example ex222_built : exists m, built 0 (mkArith Z 0 1 2 Z.add Z.sub Z.mul Z.div (fun x => x * x)) m
  /\ denotes m 2 2 2 (fun r c s => if (r =? 2) && (c =? 1) && (s =? 2) then 9 else 0).
Proof.
  destruct (Matrix_new3_ok 0 2 2 2) as (m & E & D); try (unfold INT_MAX; lia).
  destruct (denotes_set3 m 2 2 2 _ 9 2 1 2 D) as (m' & E' & D'); [unfold inside; lia|].
  exists m'; split; auto. eapply b_set3; [|exact E']. eapply b_new3; [| | |exact E]; unfold is_int, INT_MIN, INT_MAX; lia.
Qed.

(** ** C01 *)
Theorem C01_store_load :
  forall T (m : mat T) v r c s, wf m -> inside (rows m) (cols m) (shel m) r c s ->
  exists m', set_elem3 v r c s m = Ok m' /\
    (rows m' = rows m /\ cols m' = cols m /\ shel m' = shel m) /\
    get_elem3 m' r c s = Ok v /\
    forall r' c' s', (r', c', s') <> (r, c, s) -> get_elem3 m' r' c' s' = get_elem3 m r' c' s'.
Proof. exact @store_load. Qed.
Print Assumptions C01_store_load.

(** every matrix the API can build satisfies the hypothesis [wf] *)
Theorem C01_every_matrix :
  forall T (zero : T) (A : arith T) m, built zero A m -> wf m.
Proof. exact @built_wf. Qed.
Print Assumptions C01_every_matrix.

Theorem C01_overloads :
  forall T (m : mat T) v r c, 1 <= rows m -> 1 <= cols m -> 1 <= shel m -> wf m ->
  set_elem2 v r c m = set_elem3 v r c 1 m /\ get_elem2 m r c = get_elem3 m r c 1 /\
  set_elem1 v r m = set_elem3 v r 1 1 m /\ get_elem1 m r = get_elem3 m r 1 1 /\
  set_elem0 v m = set_elem3 v 1 1 1 m /\ get_elem0 m = get_elem3 m 1 1 1.
Proof.
  exact (fun T m v r c H1 H2 H3 Hw =>
    conj (set_elem2_eq v m r c H3) (conj (get_elem2_eq m r c H3)
    (conj (set_elem1_eq v m r H2 H3) (conj (get_elem1_eq m r H2 H3)
      (set_elem0_eq v m H1 H2 H3 Hw))))).
Qed.
Print Assumptions C01_overloads.
Example C01_example : wf ex222 /\ inside (rows ex222) (cols ex222) (shel ex222) 2 1 2.
Proof. split; [apply ex222_denotes|unfold inside; simpl; lia]. Qed.

(** ** C02 *)
Theorem C02_out_of_range_exits :
  forall T (m : mat T) v r c s, ~ inside (rows m) (cols m) (shel m) r c s ->
  get_elem3 m r c s = Exit 1 /\ set_elem3 v r c s m = Exit 1.
Proof. exact (fun T m v r c s H => conj (get_elem3_out m r c s H) (set_elem3_out v m r c s H)). Qed.
Print Assumptions C02_out_of_range_exits.

Theorem C02_short_overloads_exit :
  forall T (m : mat T) v r c,
  (~ (1 <= r <= rows m /\ 1 <= c <= cols m) -> get_elem2 m r c = Exit 1 /\ set_elem2 v r c m = Exit 1) /\
  (~ (1 <= r <= rows m) -> get_elem1 m r = Exit 1 /\ set_elem1 v r m = Exit 1).
Proof.
  exact (fun T m v r c => conj
    (fun H => conj (get_elem2_out m r c H) (set_elem2_out v m r c H))
    (fun H => conj (get_elem1_out m r H) (set_elem1_out v m r H))).
Qed.
Print Assumptions C02_short_overloads_exit.

(** in range: no out-of-bounds access, no overflow (the only undefined result
    left is reading a cell nobody has written) *)
Theorem C02_in_range_safe :
  forall T (m : mat T) r c s, wf m -> inside (rows m) (cols m) (shel m) r c s ->
  (exists v, get_elem3 m r c s = Ok v) \/ get_elem3 m r c s = Undef Uninitialised.
Proof. exact @get_elem3_safe. Qed.
Print Assumptions C02_in_range_safe.

(** The short overloads do not check the dimensions they leave out: a matrix
    with no shelves lets get_elem(1,1) read outside its (empty) block. *)
Theorem C02_missing_shelf_refuted :
  exists m : mat Z, (exists m0, Matrix_new2 0 2 2 = Ok m0 /\ set_shel 0 0 m0 = Ok m) /\
    get_elem2 m 1 1 = Undef OutOfBounds /\ set_elem2 7 1 1 m = Undef OutOfBounds.
Proof.
  exists (mkMat 2 2 0 []). split; [|split; reflexivity].
  exists (mkMat 2 2 1 (map Some [0; 0; 0; 0])). split; [vm_compute; reflexivity|]. vm_compute; reflexivity.
Qed.
Print Assumptions C02_missing_shelf_refuted.
Example C02_example : ~ inside (rows ex222) (cols ex222) (shel ex222) 2 1 3.
Proof. unfold inside; simpl; lia. Qed.

(** ** C03 *)
Theorem C03_constructors :
  forall T (zero : T) r c s, 1 <= r -> 1 <= c -> 1 <= s ->
  (r * c * s <= INT_MAX -> exists m, Matrix_new3 zero r c s = Ok m /\ denotes m r c s (fun _ _ _ => zero)) /\
  (r * c <= INT_MAX -> exists m, Matrix_new2 zero r c = Ok m /\ denotes m r c 1 (fun _ _ _ => zero)) /\
  (r <= INT_MAX -> exists m, Matrix_new1 zero r = Ok m /\ denotes m r 1 1 (fun _ _ _ => zero)).
Proof.
  exact (fun T zero r c s Hr Hc Hs => conj (Matrix_new3_ok zero r c s Hr Hc Hs)
    (conj (Matrix_new2_ok zero r c Hr Hc) (fun H => Matrix_new1_ok zero r (conj Hr H)))).
Qed.
Print Assumptions C03_constructors.

Theorem C03_bad_dimensions_exit :
  forall T (zero : T) r c s,
  (r < 1 \/ c < 1 \/ s < 1 -> Matrix_new3 zero r c s = Exit 1) /\
  (r < 1 \/ c < 1 -> Matrix_new2 zero r c = Exit 1) /\
  (r < 0 -> Matrix_new1 zero r = Exit 1).
Proof.
  exact (fun T zero r c s => conj (Matrix_new3_bad zero r c s) (conj (Matrix_new2_bad zero r c)
    (fun H => eq_trans (f_equal (fun b : bool => if b then Exit 1 else _) (proj2 (Z.ltb_lt r 0) H)) eq_refl))).
Qed.
Print Assumptions C03_bad_dimensions_exit.

Theorem C03_vector :
  forall T (zero : T) v, Z.of_nat (length v) <= INT_MAX ->
  exists m, Matrix_of_vec v = Ok m /\
    denotes m (Z.of_nat (length v)) 1 1 (fun r _ _ => nth (Z.to_nat (r - 1)) v zero).
Proof. exact @Matrix_of_vec_ok. Qed.
Print Assumptions C03_vector.

Theorem C03_vector_of_vectors :
  forall T (zero : T) v0 vv c, let n := Z.of_nat (length (v0 :: vv)) in
  n <= INT_MAX -> c <= INT_MAX -> n * c <= INT_MAX ->
  Forall (fun v => Z.of_nat (length v) = c) (v0 :: vv) ->
  exists m, Matrix_of_vecs (v0 :: vv) = Ok m /\
    denotes m n c 1 (fun r j _ => nth (Z.to_nat (j - 1)) (nth (Z.to_nat (r - 1)) (v0 :: vv) []) zero).
Proof. exact @Matrix_of_vecs_ok. Qed.
Print Assumptions C03_vector_of_vectors.

Theorem C03_ragged_rejected :
  forall T (v0 : list T) vv, let n := Z.of_nat (length (v0 :: vv)) in
  let c := Z.of_nat (length v0) in
  n <= INT_MAX -> c <= INT_MAX -> n * c <= INT_MAX ->
  ~ Forall (fun v => Z.of_nat (length v) = c) (v0 :: vv) ->
  Matrix_of_vecs (v0 :: vv) = Throw InvalidArgument.
Proof. exact @Matrix_of_vecs_ragged. Qed.
Print Assumptions C03_ragged_rejected.

Theorem C03_empty_rejected : forall T, @Matrix_of_vecs T [] = Throw OutOfRange.
Proof. exact (fun T => eq_refl). Qed.
Print Assumptions C03_empty_rejected.
Example C03_example : Matrix_of_vecs [[1; 2]; [3]] = Throw InvalidArgument /\
  ~ Forall (fun v : list Z => Z.of_nat (length v) = 2) [[1; 2]; [3]].
Proof. split; [reflexivity|]. intros H. inversion H; subst. inversion H3; subst. discriminate. Qed.

(** ** C04 *)
Theorem C04_resize :
  forall T (zero : T) R C S f r c m, denotes m R C S f -> 1 <= S ->
  1 <= r -> 1 <= c -> r * c <= INT_MAX ->
  exists m', resize zero r c m = Ok m' /\
    denotes m' r c 1 (fun i j _ => if (i <=? R) && (j <=? C) then f i j 1 else zero).
Proof. exact @resize_ok. Qed.
Print Assumptions C04_resize.

Theorem C04_resize_bad : forall T (zero : T) r c m, r < 1 \/ c < 1 -> resize zero r c m = Exit 1.
Proof. exact @resize_bad. Qed.
Print Assumptions C04_resize_bad.
Example C04_example : denotes ex222 2 2 2 ex222_f /\ 1 <= 2 /\ 3 * 1 <= INT_MAX.
Proof. split; [apply ex222_denotes|unfold INT_MAX; lia]. Qed.

(** ** C05 *)
(** What is missing for the full property: right-hand sides with several
    shelves, and empty ones. *)
Theorem C05_assign_partial :
  forall T (zero : T) this R0 C0 S0 f0 m R C f,
  denotes this R0 C0 S0 f0 -> 1 <= S0 -> denotes m R C 1 f -> 1 <= R -> 1 <= C ->
  exists m', assign zero this m = Ok m' /\ denotes m' R C 1 (fun r c _ => f r c 1).
Proof.
  exact (fun T zero this R0 C0 S0 f0 m R C f Ht H0 Hm HR HC =>
    assign_ok zero this R0 C0 S0 f0 m R C 1 f Ht H0 Hm HR HC (Z.le_refl 1)).
Qed.
Print Assumptions C05_assign_partial.

(** every right-hand side with several shelves loses all but the first *)
Theorem C05_assign_drops_shelves :
  forall T (zero : T) this R0 C0 S0 f0 m R C S f,
  denotes this R0 C0 S0 f0 -> 1 <= S0 -> denotes m R C S f -> 1 <= R -> 1 <= C -> 1 <= S ->
  exists m', assign zero this m = Ok m' /\ denotes m' R C 1 (fun r c _ => f r c 1).
Proof. exact @assign_ok. Qed.
Print Assumptions C05_assign_drops_shelves.

Theorem C05_assign_refuted :
  exists (this m m' : mat Z) f, denotes m 2 2 2 f /\ Matrix_new2 0 1 1 = Ok this /\
    assign 0 this m = Ok m' /\ shel m' <> shel m.
Proof.
  exists (mkMat 1 1 1 [Some 0]), ex222. eexists _, ex222_f.
  split; [apply ex222_denotes|]. split; [reflexivity|]. split; [vm_compute; reflexivity|]. discriminate.
Qed.
Print Assumptions C05_assign_refuted.

Theorem C05_assign_empty_refuted :
  exists (this m : mat Z), Matrix_new1 0 0 = Ok m /\ Matrix_new2 0 1 1 = Ok this /\
    assign 0 this m = Exit 1.
Proof. eexists _, _. split; [reflexivity|]. split; [reflexivity|]. reflexivity. Qed.
Print Assumptions C05_assign_empty_refuted.
Example C05_example : exists this m, denotes this 2 2 2 ex222_f /\ denotes m 2 3 1 (ex_f ex23).
Proof. destruct ex23_denotes as (m & _ & H). exists ex222, m. split; auto. apply ex222_denotes. Qed.

(** ** C06 *)
Theorem C06_copy :
  forall T (zero : T) m R C S f, denotes m R C S f -> 1 <= R -> 1 <= C -> 1 <= S ->
  exists m', Matrix_copy zero m = Ok m' /\ denotes m' R C S f.
Proof. exact @Matrix_copy_ok. Qed.
Print Assumptions C06_copy.
Example C06_example : Matrix_copy 0 ex222 = Ok ex222.
Proof. vm_compute; reflexivity. Qed.

(** ** C08 *)
Theorem C08_transpose :
  forall T (zero : T) m R C f, denotes m R C 1 f -> 1 <= R -> 1 <= C ->
  exists m', invert zero m = Ok m' /\ denotes m' C R 1 (fun i j _ => f j i 1).
Proof. exact @invert_ok. Qed.
Print Assumptions C08_transpose.

Theorem C08_involution :
  forall T (zero : T) m R C f, denotes m R C 1 f -> 1 <= R -> 1 <= C ->
  exists m', invert zero m = Ok m' /\ invert zero m' = Ok m.
Proof. exact @invert_twice. Qed.
Print Assumptions C08_involution.

Theorem C08_3d_exits : forall T (zero : T) m, shel m <> 1 -> invert zero m = Exit 1.
Proof.
  exact (fun T zero m H => eq_trans (f_equal (fun b : bool => if negb b then Exit 1 else _)
           (proj2 (Z.eqb_neq (shel m) 1) H)) eq_refl).
Qed.
Print Assumptions C08_3d_exits.
Example C08_example : exists m, denotes m 2 3 1 (ex_f ex23) /\ shel ex222 <> 1.
Proof. destruct ex23_denotes as (m & _ & H). exists m. split; auto. discriminate. Qed.

(** ** C09 (any arithmetic, in particular binary64) *)
Theorem C09_product :
  forall T (A : arith T) m1 m2 R N C f1 f2,
  denotes m1 R N 1 f1 -> denotes m2 N C 1 f2 -> 1 <= R -> 1 <= C -> R * C <= INT_MAX ->
  exists m', mat_mul A m1 m2 = Ok m' /\
    denotes m' R C 1 (fun i j _ => accum A (Z.to_nat N) (fun k => f1 i k 1) (fun k => f2 k j 1)).
Proof. exact @mat_mul_ok. Qed.
Print Assumptions C09_product.

Theorem C09_incompatible_exits :
  forall T (A : arith T) m1 m2, shel m1 <> 1 \/ shel m2 <> 1 \/ cols m1 <> rows m2 ->
  mat_mul A m1 m2 = Exit 1.
Proof. exact @mat_mul_bad. Qed.
Print Assumptions C09_incompatible_exits.

Theorem C09_associative_exact :
  forall T (A : arith T) opp inv, exact_arith A opp inv ->
  forall a b c R N P C fa fb fc,
  denotes a R N 1 fa -> denotes b N P 1 fb -> denotes c P C 1 fc ->
  1 <= R -> 1 <= N -> 1 <= P -> 1 <= C -> R * P <= INT_MAX -> N * C <= INT_MAX -> R * C <= INT_MAX ->
  exists ab bc r, mat_mul A a b = Ok ab /\ mat_mul A b c = Ok bc /\
    mat_mul A ab c = Ok r /\ mat_mul A a bc = Ok r.
Proof. exact @mat_mul_assoc. Qed.
Print Assumptions C09_associative_exact.

Theorem C09_transpose_exact :
  forall T (A : arith T) opp inv, exact_arith A opp inv ->
  forall a b R N C fa fb,
  denotes a R N 1 fa -> denotes b N C 1 fb -> 1 <= R -> 1 <= N -> 1 <= C -> R * C <= INT_MAX ->
  exists ab at_ bt r, mat_mul A a b = Ok ab /\ invert (a_zero A) ab = Ok r /\
    invert (a_zero A) a = Ok at_ /\ invert (a_zero A) b = Ok bt /\ mat_mul A bt at_ = Ok r.
Proof. exact @mat_mul_transpose. Qed.
Print Assumptions C09_transpose_exact.
Example C09_example : exact_arith qc_arith Qcopp Qcinv /\
  exists a b, denotes a 2 2 1 (ex_f ex22) /\ denotes b 2 3 1 (ex_f ex23).
Proof.
  split; [apply qc_exact|]. destruct ex22_denotes as (a & _ & Ha). destruct ex23_denotes as (b & _ & Hb). eauto.
Qed.

(** ** C10 *)
Theorem C10_diag :
  forall T (zero : T) m n f, 1 <= n -> n * n <= INT_MAX ->
  (denotes m 1 n 1 f -> exists m', Matrix_diag zero m = Ok m' /\
     denotes m' n n 1 (fun i j _ => if i =? j then f 1 i 1 else zero)) /\
  (denotes m n 1 1 f -> exists m', Matrix_diag zero m = Ok m' /\
     denotes m' n n 1 (fun i j _ => if i =? j then f i 1 1 else zero)).
Proof.
  exact (fun T zero m n f H1 H2 => conj (fun H => Matrix_diag_row zero m n f H H1 H2)
    (fun H => Matrix_diag_col zero m n f H H1 H2)).
Qed.
Print Assumptions C10_diag.

Theorem C10_rejects :
  forall T (zero : T) m, (1 < cols m /\ 1 < rows m) \/ 1 < shel m ->
  Matrix_diag zero m = Throw InvalidArgument.
Proof. exact @Matrix_diag_bad. Qed.
Print Assumptions C10_rejects.
Example C10_example : exists m, denotes m 3 1 1 (fun r _ _ => nth (Z.to_nat (r - 1)) [7; 8; 9] 0).
Proof. destruct (Matrix_of_vec_ok 0 [7; 8; 9]) as (m & _ & H); [unfold INT_MAX; simpl; lia|]. exists m; exact H. Qed.

(** ** C11 *)
Theorem C11_concat_rows :
  forall T (zero : T) m1 m2 R1 R2 C S f1 f2,
  denotes m1 R1 C S f1 -> denotes m2 R2 C S f2 -> 1 <= R1 -> 1 <= R2 -> 1 <= C -> 1 <= S ->
  (R1 + R2) * C * S <= INT_MAX ->
  exists m', Matrix_concatenate_rows zero m1 m2 = Ok m' /\
    denotes m' (R1 + R2) C S (fun i j s => if i <=? R1 then f1 i j s else f2 (i - R1) j s).
Proof. exact @concat_rows_ok. Qed.
Print Assumptions C11_concat_rows.

Theorem C11_concat_cols :
  forall T (zero : T) m1 m2 R C1 C2 S f1 f2,
  denotes m1 R C1 S f1 -> denotes m2 R C2 S f2 -> 1 <= R -> 1 <= C1 -> 1 <= C2 -> 1 <= S ->
  R * (C1 + C2) * S <= INT_MAX ->
  exists m', Matrix_concatenate_cols zero m1 m2 = Ok m' /\
    denotes m' R (C1 + C2) S (fun i j s => if j <=? C1 then f1 i j s else f2 i (j - C1) s).
Proof. exact @concat_cols_ok. Qed.
Print Assumptions C11_concat_cols.

Theorem C11_mismatch :
  forall T (zero : T) (m1 m2 : mat T),
  (cols m1 <> cols m2 \/ shel m1 <> shel m2 -> exists m', Matrix_concatenate_rows zero m1 m2 = Ok m' /\
     denotes m' 1 1 1 (fun _ _ _ => zero)) /\
  (rows m1 <> rows m2 \/ shel m1 <> shel m2 -> exists m', Matrix_concatenate_cols zero m1 m2 = Ok m' /\
     denotes m' 1 1 1 (fun _ _ _ => zero)).
Proof. exact @concat_mismatch. Qed.
Print Assumptions C11_mismatch.
Example C11_example : exists m1 m2, denotes m1 2 2 1 (ex_f ex22) /\ denotes m2 2 3 1 (ex_f ex23).
Proof. destruct ex22_denotes as (a & _ & Ha). destruct ex23_denotes as (b & _ & Hb). eauto. Qed.

(** ** C12 *)
Theorem C12_set_row :
  forall T (zero : T) m R C S f v w r, denotes m R C S f -> lists v C w -> 1 <= r <= R -> 1 <= S ->
  exists m', set_row zero v r m = Ok m' /\
    denotes m' R C S (fun i j s => if (i =? r) && (s =? 1) then w j else f i j s) /\
    exists u, get_row m' r = Ok u /\ lists u C w.
Proof. exact @set_row_get. Qed.
Print Assumptions C12_set_row.

Theorem C12_wrong_length :
  forall T (zero : T) v r (m : mat T), cols m <> Z.of_nat (length v) ->
  set_row zero v r m = Throw InvalidArgument.
Proof. exact @set_row_bad. Qed.
Print Assumptions C12_wrong_length.

Theorem C12_get_row_col :
  forall T (m : mat T) R C S f, denotes m R C S f -> 1 <= S ->
  (forall r, 1 <= r <= R -> exists v, get_row m r = Ok v /\ lists v C (fun j => f r j 1)) /\
  (forall c, 1 <= c <= C -> exists v, get_col m c = Ok v /\ lists v R (fun i => f i c 1)).
Proof.
  exact (fun T m R C S f Hm HS => conj (fun r Hr => get_row_ok m R C S f r Hm Hr HS)
    (fun c Hc => get_col_ok m R C S f c Hm Hc HS)).
Qed.
Print Assumptions C12_get_row_col.
Example C12_example : exists m, denotes m 2 3 1 (ex_f ex23) /\ lists [7; 8; 9] 3 (fun j => 6 + j).
Proof.
  destruct ex23_denotes as (m & _ & H). exists m; split; auto. split; [reflexivity|].
  intros i Hi. assert (E : i = 1 \/ i = 2 \/ i = 3) by lia. destruct E as [->|[->| ->]]; reflexivity.
Qed.

(** ** C13: holds for square matrices only *)
Theorem C13_set_col_partial :
  forall T (zero : T) m n S f v w c, denotes m n n S f -> lists v n w -> 1 <= c <= n -> 1 <= S ->
  exists m', set_col zero v c m = Ok m' /\
    denotes m' n n S (fun i j s => if (j =? c) && (s =? 1) then w i else f i j s) /\
    exists u, get_col m' c = Ok u /\ lists u n w.
Proof. exact @set_col_get. Qed.
Print Assumptions C13_set_col_partial.

(** every vector of the right length is rejected on every non-square matrix *)
Theorem C13_set_col_refuted :
  forall T (zero : T) m R C S f v w c, denotes m R C S f -> lists v R w -> R <> C ->
  set_col zero v c m = Throw InvalidArgument.
Proof. exact @set_col_nonsquare. Qed.
Print Assumptions C13_set_col_refuted.
Example C13_example : exists m, denotes m 2 3 1 (ex_f ex23) /\ set_col 0 [8; 9] 1 m = Throw InvalidArgument.
Proof. destruct ex23_denotes as (m & E & H). exists m; split; auto. vm_compute in E. inversion E. reflexivity. Qed.
Example C13_example_square : exists m m', Matrix_of_vecs ex22 = Ok m /\ set_col 0 [8; 9] 1 m = Ok m' /\
  get_row m' 2 = Ok [9; 4].
Proof. eexists _, _. split; [vm_compute; reflexivity|]. split; [vm_compute; reflexivity|]. vm_compute; reflexivity. Qed.

(** ** C14 *)
Theorem C14_swap_row :
  forall T (zero : T) m R C S f a b, denotes m R C S f -> 1 <= a <= R -> 1 <= b <= R -> 1 <= S ->
  exists m', swap_row zero a b m = Ok m' /\
    denotes m' R C S (fun i j s => if s =? 1 then
        if i =? a then f b j 1 else if i =? b then f a j 1 else f i j s else f i j s).
Proof. exact @swap_row_ok. Qed.
Print Assumptions C14_swap_row.

Theorem C14_swap_row_twice :
  forall T (zero : T) m R C S f a b, denotes m R C S f -> 1 <= a <= R -> 1 <= b <= R -> 1 <= S ->
  exists m', swap_row zero a b m = Ok m' /\ swap_row zero a b m' = Ok m.
Proof. exact @swap_row_twice. Qed.
Print Assumptions C14_swap_row_twice.

(** columns: square matrices only *)
Theorem C14_swap_col_partial :
  forall T (zero : T) m n S f a b, denotes m n n S f -> 1 <= a <= n -> 1 <= b <= n -> 1 <= S ->
  (exists m', swap_col zero a b m = Ok m' /\
    denotes m' n n S (fun i j s => if s =? 1 then
        if j =? a then f i b 1 else if j =? b then f i a 1 else f i j s else f i j s)) /\
  exists m', swap_col zero a b m = Ok m' /\ swap_col zero a b m' = Ok m.
Proof.
  exact (fun T zero m n S f a b Hm Ha Hb HS => conj
    (swap_col_ok zero m n n S f a b Hm Ha Hb HS (or_introl eq_refl))
    (swap_col_twice zero m n S f a b Hm Ha Hb HS)).
Qed.
Print Assumptions C14_swap_col_partial.

Theorem C14_swap_col_refuted :
  forall T (zero : T) m R C S f a b, denotes m R C S f -> 1 <= a <= C -> 1 <= b <= C -> 1 <= S ->
  R <> C -> a <> b -> swap_col zero a b m = Throw InvalidArgument.
Proof. exact @swap_col_nonsquare. Qed.
Print Assumptions C14_swap_col_refuted.
Example C14_example : exists m m', Matrix_of_vecs ex23 = Ok m /\ denotes m 2 3 1 (ex_f ex23) /\
  swap_row 0 1 2 m = Ok m' /\ get_row m' 1 = Ok [4; 5; 6].
Proof.
  destruct ex23_denotes as (m & E & H). exists m. vm_compute in E. inversion E; subst.
  eexists; split; [reflexivity|]. split; [exact H|]. split; [vm_compute; reflexivity|]. vm_compute; reflexivity.
Qed.

(** ** C15 *)
Theorem C15_move_row :
  forall T (zero : T) m R C S f a b, denotes m R C S f -> 1 <= a <= R -> 1 <= b <= R -> 1 <= S ->
  exists m', move_row zero a b m = Ok m' /\
    denotes m' R C S (fun i j s => if s =? 1 then f (moved a b i) j 1 else f i j s).
Proof. exact @move_row_ok. Qed.
Print Assumptions C15_move_row.

Theorem C15_move_row_back :
  forall T (zero : T) m R C S f a b, denotes m R C S f -> 1 <= a <= R -> 1 <= b <= R -> 1 <= S ->
  exists m', move_row zero a b m = Ok m' /\ move_row zero b a m' = Ok m.
Proof. exact @move_row_back. Qed.
Print Assumptions C15_move_row_back.

Theorem C15_move_col_partial :
  forall T (zero : T) m n S f a b, denotes m n n S f -> 1 <= a <= n -> 1 <= b <= n -> 1 <= S ->
  (exists m', move_col zero a b m = Ok m' /\
    denotes m' n n S (fun i j s => if s =? 1 then f i (moved a b j) 1 else f i j s)) /\
  exists m', move_col zero a b m = Ok m' /\ move_col zero b a m' = Ok m.
Proof.
  exact (fun T zero m n S f a b Hm Ha Hb HS => conj
    (move_col_ok zero m n n S f a b Hm Ha Hb HS (or_introl eq_refl))
    (move_col_back zero m n S f a b Hm Ha Hb HS)).
Qed.
Print Assumptions C15_move_col_partial.

Theorem C15_move_col_refuted :
  exists (m : mat Z) f, denotes m 2 3 1 f /\ move_col 0 1 3 m = Throw InvalidArgument.
Proof.
  destruct ex23_denotes as (m & E & H). exists m, (ex_f ex23). split; [exact H|].
  vm_compute in E. inversion E. vm_compute. reflexivity.
Qed.
Print Assumptions C15_move_col_refuted.
Example C15_example : map (moved 1 3) [1; 2; 3; 4] = [2; 3; 1; 4] /\ map (moved 3 1) [1; 2; 3; 4] = [3; 1; 2; 4].
Proof. split; reflexivity. Qed.

(** ** C16 *)
Theorem C16_getRow :
  forall T (zero : T) m R C S f r, denotes m R C S f -> 1 <= r <= R -> 1 <= C -> 1 <= S ->
  exists m', getRow zero m r = Ok m' /\ denotes m' 1 C S (fun _ j s => f r j s).
Proof. exact @getRow_ok. Qed.
Print Assumptions C16_getRow.

(** square matrices only *)
Theorem C16_getCol_partial :
  forall T (zero : T) m n S f c, denotes m n n S f -> 1 <= c <= n -> 1 <= S ->
  exists m', getCol zero m c = Ok m' /\ denotes m' n 1 S (fun i _ s => f i c s).
Proof. exact @getCol_square. Qed.
Print Assumptions C16_getCol_partial.

Theorem C16_getCol_tall_refuted :
  forall T (zero : T) m R C S f c, denotes m R C S f -> 1 <= c <= C -> C < R -> 1 <= S ->
  getCol zero m c = Exit 1.
Proof. exact @getCol_tall. Qed.
Print Assumptions C16_getCol_tall_refuted.

Theorem C16_getCol_wide_refuted :
  forall T (zero : T) m R C S f c, denotes m R C S f -> 1 <= c <= C -> R < C -> 1 <= S ->
  C * 1 * S <= INT_MAX ->
  exists m', getCol zero m c = Ok m' /\
    denotes m' C 1 S (fun i _ s => if i <=? R then f i c s else zero).
Proof.
  exact (fun T zero m R C S f c Hm Hc HRC HS HM =>
    getCol_ok zero m R C S f c Hm Hc (Z.lt_le_incl _ _ HRC) HS HM).
Qed.
Print Assumptions C16_getCol_wide_refuted.
Example C16_example : exists m m', Matrix_of_vecs ex23 = Ok m /\ getCol 0 m 2 = Ok m' /\ rows m' = 3 /\
  get_elem2 m' 3 1 = Ok 0.
Proof. eexists _, _. split; [vm_compute; reflexivity|]. split; [vm_compute; reflexivity|]. split; reflexivity. Qed.
Example C16_example_tall : exists m, Matrix_of_vecs [[1]; [2]] = Ok m /\ getCol 0 m 1 = Exit 1.
Proof. eexists. split; [vm_compute; reflexivity|]. vm_compute. reflexivity. Qed.

(** ** C17 *)
Theorem C17_set_rows_shrink_partial :
  forall T (zero : T) m R C S f r, denotes m R C S f -> 0 <= r < R -> 1 <= C -> 1 <= S ->
  exists m', set_rows zero r m = Ok m' /\ denotes m' r C S f.
Proof. exact @set_rows_shrink. Qed.
Print Assumptions C17_set_rows_shrink_partial.

(** growing the rows loses all data, for every matrix *)
Theorem C17_set_rows_grow_refuted :
  forall T (zero : T) m R C S f r, denotes m R C S f -> R < r -> 1 <= C -> 1 <= S ->
  r * C * S <= INT_MAX ->
  exists m', set_rows zero r m = Ok m' /\ denotes m' r C S (fun _ _ _ => zero).
Proof. exact @set_rows_grow. Qed.
Print Assumptions C17_set_rows_grow_refuted.

(** growing the columns leaves elements uninitialised *)
Theorem C17_set_cols_grow_refuted :
  exists (m m' : mat Z) f, denotes m 2 2 1 f /\ set_cols 0 3 m = Ok m' /\
    get_elem2 m 1 1 = Ok 1 /\ get_elem2 m' 1 1 = Ok 0 /\ get_elem2 m' 2 3 = Undef Uninitialised.
Proof.
  destruct ex22_denotes as (m & E & H). vm_compute in E. inversion E; subst.
  eexists _, _, _. split; [exact H|]. split; [vm_compute; reflexivity|]. repeat (split; [vm_compute; reflexivity|]). vm_compute; reflexivity.
Qed.
Print Assumptions C17_set_cols_grow_refuted.

(** shrinking the columns of a matrix with two rows writes outside the new block *)
Theorem C17_set_cols_shrink_refuted :
  exists (m : mat Z) f, denotes m 2 2 1 f /\ set_cols 0 1 m = Undef OutOfBounds.
Proof.
  destruct ex22_denotes as (m & E & H). vm_compute in E. inversion E; subst.
  eexists _, _. split; [exact H|]. vm_compute; reflexivity.
Qed.
Print Assumptions C17_set_cols_shrink_refuted.

Theorem C17_set_shel_refuted :
  (exists (m m' : mat Z) f, denotes m 2 2 1 f /\ set_shel 0 2 m = Ok m' /\
     get_elem3 m 1 1 1 = Ok 1 /\ get_elem3 m' 1 1 1 = Ok 0 /\ get_elem3 m' 2 2 2 = Undef Uninitialised) /\
  (exists (m : mat Z) f, denotes m 2 2 2 f /\ set_shel 0 1 m = Undef OutOfBounds).
Proof.
  split.
  - destruct ex22_denotes as (m & E & H). vm_compute in E. inversion E; subst.
    eexists _, _, _. split; [exact H|]. split; [vm_compute; reflexivity|]. repeat (split; [vm_compute; reflexivity|]). vm_compute; reflexivity.
  - exists ex222, ex222_f. split; [apply ex222_denotes|]. vm_compute; reflexivity.
Qed.
Print Assumptions C17_set_shel_refuted.
Example C17_example : exists m', set_rows 0 1 ex222 = Ok m' /\ get_elem3 m' 1 2 2 = Ok 4.
Proof. eexists. split; [vm_compute; reflexivity|]. vm_compute; reflexivity. Qed.

(** ** C18: [lab x] is the printed form of [x] *)
Theorem C18_matchCol :
  forall T (lab : T -> str) m1 m2 R C1 C2 f1 f2,
  denotes m1 R C1 1 f1 -> denotes m2 R C2 1 f2 ->
  exists w, matchCol lab str_eqb m1 m2 = Ok w /\ Z.of_nat (length w) = C1 /\
    forall i, 1 <= i <= C1 -> exists e, nth_error w (Z.to_nat (i - 1)) = Some e /\
      last_match C2 (fun ii => forall j, 1 <= j <= R -> lab (f1 j i 1) = lab (f2 j ii 1)) e.
Proof. exact @matchCol_eq. Qed.
Print Assumptions C18_matchCol.

Theorem C18_matchRow :
  forall T (lab : T -> str) m1 m2 C R1 R2 f1 f2,
  denotes m1 R1 C 1 f1 -> denotes m2 R2 C 1 f2 ->
  exists w, matchRow lab str_eqb m1 m2 = Ok w /\ Z.of_nat (length w) = R1 /\
    forall i, 1 <= i <= R1 -> exists e, nth_error w (Z.to_nat (i - 1)) = Some e /\
      last_match R2 (fun ii => forall j, 1 <= j <= C -> lab (f1 i j 1) = lab (f2 ii j 1)) e.
Proof. exact @matchRow_eq. Qed.
Print Assumptions C18_matchRow.

Theorem C18_shape_mismatch :
  forall T (lab : T -> str) (m1 m2 : mat T), shel m1 = 1 -> shel m2 = 1 ->
  (rows m1 <> rows m2 -> matchCol lab str_eqb m1 m2 = Throw InvalidArgument) /\
  (cols m1 <> cols m2 -> matchRow lab str_eqb m1 m2 = Throw InvalidArgument).
Proof. exact @match_mismatch. Qed.
Print Assumptions C18_shape_mismatch.
Example C18_example : exists m1 m2, Matrix_of_vecs [[3; 9; 2]; [3; 9; 4]] = Ok m1 /\
  Matrix_of_vecs [[2; 3; 2]; [4; 3; 4]] = Ok m2 /\ matchCol dec str_eqb m1 m2 = Ok [2; -1; 3].
Proof. eexists _, _. split; [vm_compute; reflexivity|]. split; [vm_compute; reflexivity|]. vm_compute; reflexivity. Qed.

(** ** C19 *)
Theorem C19_match_recovers_order :
  forall T (lab : T -> str) m1 m2 R n N f1 f2 (p : Z -> Z),
  denotes m1 R n 1 f1 -> denotes m2 R N 1 f2 ->
  (forall i, 1 <= i <= n -> 1 <= p i <= N) ->
  (forall i ii, 1 <= i <= n -> 1 <= ii <= N ->
     ((forall j, 1 <= j <= R -> lab (f1 j i 1) = lab (f2 j ii 1)) <-> ii = p i)) ->
  exists w, matchCol lab str_eqb m1 m2 = Ok w /\ lists w n p.
Proof. exact @match_recovers. Qed.
Print Assumptions C19_match_recovers_order.

(** the recovered positions are different for different atoms *)
Theorem C19_injective :
  forall T (lab : T -> str) R n N (f1 f2 : Z -> Z -> Z -> T) (p : Z -> Z),
  (forall i, 1 <= i <= n -> 1 <= p i <= N) ->
  (forall i ii, 1 <= i <= n -> 1 <= ii <= N ->
     ((forall j, 1 <= j <= R -> lab (f1 j i 1) = lab (f2 j ii 1)) <-> ii = p i)) ->
  (forall i i', 1 <= i <= n -> 1 <= i' <= n ->
     (forall j, 1 <= j <= R -> lab (f1 j i 1) = lab (f1 j i' 1)) -> i = i') ->
  forall i i', 1 <= i <= n -> 1 <= i' <= n -> p i = p i' -> i = i'.
Proof. exact @match_injective. Qed.
Print Assumptions C19_injective.
Example C19_example : exists m1 m2, Matrix_of_vecs [[1; 2]; [5; 6]; [7; 8]] = Ok m1 /\
  Matrix_of_vecs [[2; 9; 1]; [6; 9; 5]; [8; 9; 7]] = Ok m2 /\
  matchCol dec str_eqb m1 m2 = Ok [3; 1].
Proof. eexists _, _. split; [vm_compute; reflexivity|]. split; [vm_compute; reflexivity|]. vm_compute; reflexivity. Qed.

(** ** C21 *)
Theorem C21_print_partial :
  forall T (show : T -> str) m R C f, denotes m R C 1 f ->
  print show m = Ok (matrix_text show R C 1 f).
Proof. exact @print_one_shelf. Qed.
Print Assumptions C21_print_partial.

(** in general the elements of shelf 1 are printed under every shelf caption *)
Theorem C21_print_shows_shelf_1 :
  forall T (show : T -> str) m R C S f, denotes m R C S f ->
  print show m = Ok (matrix_text show R C S (fun i j _ => f i j 1)).
Proof. exact @print_ok. Qed.
Print Assumptions C21_print_shows_shelf_1.

Theorem C21_print_refuted :
  exists (m : mat Z) f, denotes m 2 2 2 f /\ print dec m <> Ok (matrix_text dec 2 2 2 f).
Proof. exists ex222, ex222_f. split; [apply ex222_denotes|]. vm_compute. discriminate. Qed.
Print Assumptions C21_print_refuted.
Example C21_example : exists m, denotes m 2 3 1 (ex_f ex23).
Proof. destruct ex23_denotes as (m & _ & H). eauto. Qed.
