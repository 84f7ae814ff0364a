(** * Properties C22 - C37: unscrambling, transfer integral, ranking

    Vocabulary: MatrixSpec.v ([denotes]), QcSpec.v ([total], [off], [size_of],
    [is_order], [reordered], [no_repeat], [blocks_moved], [blocks_moved2],
    [finds], [orbital_row], [fits_together], [J_value]), QcExactSpec.v
    ([J_exact_value], [rot], [complete]).  The last parameter group
    "length ... + 2 <= fuel" bounds nothing: it says that the while loops of the
    swap-order computation finish within that many iterations. *)
From Coq Require Import Permutation Sorted QArith Qcanon.
From Verif Require Import QcTerm MatrixCtor MatrixFinal.
Open Scope Z_scope.

(** ** C22 *)
Theorem C22_dimer :
  forall X fuel mA mB (L : list X), NoDup (mA ++ mB) ->
  Forall (fun x => 1 <= x <= Z.of_nat (length L)) (mA ++ mB) -> (length mA + length mB + 2 <= fuel)%nat ->
  exists B A L', refreshSwapOrder2 fuel (pairsB mA mB) (pairsA mA) = Ok (B, A) /\ updateSwapLists2 B A L = Ok L' /\
    length L' = length L /\
    (forall i x, nth_error (mA ++ mB) i = Some x -> nth_error L' i = nth_error L (Z.to_nat (x - 1))) /\
    (forall k, (length mA + length mB <= k)%nat -> ~ In (Z.of_nat k + 1) (mA ++ mB) -> nth_error L' k = nth_error L k).
Proof. exact @swaps2. Qed.
Print Assumptions C22_dimer.
Theorem C22_single :
  forall X fuel mA (L : list X), NoDup mA ->
  Forall (fun x => 1 <= x <= Z.of_nat (length L)) mA -> (length mA + 2 <= fuel)%nat ->
  exists A L', refreshSwapOrder1 fuel (pairsA mA) = Ok A /\ updateSwapLists1 A L = Ok L' /\
    length L' = length L /\
    (forall i x, nth_error mA i = Some x -> nth_error L' i = nth_error L (Z.to_nat (x - 1))) /\
    (forall k, (length mA <= k)%nat -> ~ In (Z.of_nat k + 1) mA -> nth_error L' k = nth_error L k).
Proof. exact @swaps1. Qed.
Print Assumptions C22_single.
Example C22_example : refreshSwapOrder2 7 (pairsB [4; 1] [2; 5; 3]) (pairsA [4; 1]) = Ok ([(3, 2); (4, 5); (5, 2)], [(1, 2); (2, 2)])
  /\ updateSwapLists2 [(3, 2); (4, 5); (5, 2)] [(1, 2); (2, 2)] [10; 20; 30; 40; 50] = Ok [40; 10; 20; 50; 30].
Proof. split; [vm_compute; reflexivity|]. vm_compute; reflexivity. Qed.

(** ** C23 *)
(** NoFuel = the loops have not ended after [fuel] iterations each *)
Theorem C23_dimer_partial :
  forall T (zero : T) fuel mA mB basis (m S : mat T), no_repeat (mA ++ mB) -> (length mA + length mB + 2 <= fuel)%nat ->
  unscramble_Coef2 zero fuel mA mB basis m <> NoFuel /\ unscramble_S2 zero fuel mA mB basis S <> NoFuel.
Proof. exact @Coef2_terminates. Qed.
Print Assumptions C23_dimer_partial.
Theorem C23_single_partial :
  forall T (zero : T) fuel mA basis (m S : mat T), no_repeat mA -> (length mA + 2 <= fuel)%nat ->
  unscramble_Coef1 zero fuel mA basis m <> NoFuel /\ unscramble_S1 zero fuel mA basis S <> NoFuel.
Proof. exact @Coef1_terminates. Qed.
Print Assumptions C23_single_partial.
(** no number of iterations is enough when an atom of each monomer claims the first place of monomer B *)
Theorem C23_dimer_refuted :
  forall T (zero : T) fuel mA mB' b (m : mat T) R C f, denotes m R C 1 (fun r c _ => f r c) -> 1 <= R ->
  Forall (fun n => 1 <= n) b -> total b <= C -> In (Z.of_nat (length mA) + 1) mA ->
  unscramble_Coef2 zero fuel mA (Z.of_nat (length mA) + 1 :: mB') b m = NoFuel.
Proof. exact @Coef2_diverges. Qed.
Print Assumptions C23_dimer_refuted.
Theorem C23_single_refuted :
  forall T (zero : T) fuel mA' b (m : mat T) R C f, denotes m R C 1 (fun r c _ => f r c) -> 1 <= R ->
  Forall (fun n => 1 <= n) b -> total b <= C -> In 1 mA' ->
  unscramble_Coef1 zero fuel (1 :: mA') b m = NoFuel.
Proof. exact @Coef1_diverges. Qed.
Print Assumptions C23_single_refuted.
Example C23_example : no_repeat [3; -1; 1; -1] /\ In (Z.of_nat (length [3; 4]) + 1) [3; 4].
Proof.
  split; [|simpl; auto]. intros i j x Hi Hj Hx.
  do 4 (destruct i as [|i]; [do 4 (destruct j as [|j]; [simpl in *; congruence || (inversion Hi; inversion Hj; lia)|]);
    destruct j; discriminate|]). destruct i; discriminate.
Qed.

(** ** C24 *)
(** complete matches: no undefined behaviour (in fact a result) *)
Theorem C24_dimer_partial :
  forall T (zero : T) fuel mA mB b (m : mat T) R C f, denotes m R C 1 (fun r c _ => f r c) -> 1 <= R -> 1 <= C ->
  Forall (fun n => 1 <= n) b -> total b = C -> is_order (Z.of_nat (length b)) (mA ++ mB) -> (length b + 2 <= fuel)%nat ->
  exists m', unscramble_Coef2 zero fuel mA mB b m = Ok m'.
Proof.
  exact (fun T zero fuel mA mB b m R C f H1 H2 H3 H4 H5 H6 H7 =>
    match coef2_final zero fuel mA mB b m R C f H1 H2 H3 H4 H5 H6 H7 with
    | ex_intro _ m' (ex_intro _ g (conj E _)) => ex_intro _ m' E end).
Qed.
Print Assumptions C24_dimer_partial.
Theorem C24_single_partial :
  forall T (zero : T) fuel mA b (m : mat T) R C f, denotes m R C 1 (fun r c _ => f r c) -> 1 <= R -> 1 <= C ->
  Forall (fun n => 1 <= n) b -> total b = C -> is_order (Z.of_nat (length b)) mA -> (length b + 2 <= fuel)%nat ->
  exists m', unscramble_Coef1 zero fuel mA b m = Ok m'.
Proof.
  exact (fun T zero fuel mA b m R C f H1 H2 H3 H4 H5 H6 H7 =>
    match coef1_final zero fuel mA b m R C f H1 H2 H3 H4 H5 H6 H7 with
    | ex_intro _ m' (ex_intro _ g (conj E _)) => ex_intro _ m' E end).
Qed.
Print Assumptions C24_single_partial.
(** an atom without counterpart (match entry -1, see C18): the list iterator is moved before the first block *)
Theorem C24_dimer_refuted :
  forall T (zero : T) fuel mA mB b (m : mat T) R C f, denotes m R C 1 (fun r c _ => f r c) -> 1 <= R ->
  Forall (fun n => 1 <= n) b -> total b <= C -> no_repeat (mA ++ mB) -> (length mA + length mB + 2 <= fuel)%nat ->
  (length mA + length mB <= length b)%nat ->
  Forall (fun x => x = -1 \/ 1 <= x <= Z.of_nat (length b)) (mA ++ mB) -> In (-1) (mA ++ mB) ->
  unscramble_Coef2 zero fuel mA mB b m = Undef BadIterator.
Proof. exact @Coef2_unmatched. Qed.
Print Assumptions C24_dimer_refuted.
Theorem C24_single_refuted :
  forall T (zero : T) fuel mA b (m : mat T) R C f, denotes m R C 1 (fun r c _ => f r c) -> 1 <= R ->
  Forall (fun n => 1 <= n) b -> total b <= C -> no_repeat mA -> (length mA + 2 <= fuel)%nat ->
  (length mA <= length b)%nat ->
  Forall (fun x => x = -1 \/ 1 <= x <= Z.of_nat (length b)) mA -> In (-1) mA ->
  unscramble_Coef1 zero fuel mA b m = Undef BadIterator.
Proof. exact @Coef1_unmatched. Qed.
Print Assumptions C24_single_refuted.
Example C24_example : (m <- Matrix_of_vecs [[1; 2; 3]] ;; unscramble_Coef2 0 6 [2] [-1] [1; 2] m) = Undef BadIterator.
Proof. vm_compute; reflexivity. Qed.

(** ** C25 *)
Theorem C25_columns :
  forall T (zero : T) (m : mat T) R C f b, denotes m R C 1 (fun r c _ => f r c) -> 1 <= R -> 1 <= C ->
  Forall (fun n => 1 <= n) b -> total b = C ->
  exists L, splitMatrixIntoList zero b m tagColumns = Ok L /\ length L = length b /\
    (forall k x, nth_error L k = Some x ->
       denotes x R (size_of b (Z.of_nat k + 1)) 1 (fun r j _ => f r (off b (Z.of_nat k + 1) + j))) /\
    mergeListOfMatrices zero L R C tagColumns = Ok m.
Proof. exact @round_trip_cols. Qed.
Print Assumptions C25_columns.
Theorem C25_rows :
  forall T (zero : T) (m : mat T) R C f b, denotes m R C 1 (fun r c _ => f r c) -> 1 <= R -> 1 <= C ->
  Forall (fun n => 1 <= n) b -> total b = R ->
  exists L, splitMatrixIntoList zero b m tagRows = Ok L /\ length L = length b /\
    (forall k x, nth_error L k = Some x ->
       denotes x (size_of b (Z.of_nat k + 1)) C 1 (fun j c _ => f (off b (Z.of_nat k + 1) + j) c)) /\
    mergeListOfMatrices zero L R C tagRows = Ok m.
Proof. exact @round_trip_rows. Qed.
Print Assumptions C25_rows.
Definition ex24 : list (list Z) := [[1; 2; 3; 4]; [5; 6; 7; 8]].
Example ex24_denotes : exists m, Matrix_of_vecs ex24 = Ok m /\
  denotes m 2 4 1 (fun r c _ => nth (Z.to_nat (c - 1)) (nth (Z.to_nat (r - 1)) ex24 []) 0).
Proof. apply (Matrix_of_vecs_ok 0 [1; 2; 3; 4] [[5; 6; 7; 8]] 4); repeat constructor; vm_compute; congruence. Qed.
Example C25_example : total [1; 3] = 4 /\ (m <- Matrix_of_vecs ex24 ;;
  L <- splitMatrixIntoList 0 [1; 3] m tagColumns ;; mergeListOfMatrices 0 L 2 4 tagColumns) = Matrix_of_vecs ex24.
Proof. split; [reflexivity|]. vm_compute; reflexivity. Qed.

(** ** C26 *)
Theorem C26_unscramble_Coef_dimer :
  forall T (zero : T) fuel mA mB b (m : mat T) R C f, denotes m R C 1 (fun r c _ => f r c) -> 1 <= R -> 1 <= C ->
  Forall (fun n => 1 <= n) b -> total b = C -> is_order (Z.of_nat (length b)) (mA ++ mB) -> (length b + 2 <= fuel)%nat ->
  exists m' g, unscramble_Coef2 zero fuel mA mB b m = Ok m' /\ denotes m' R C 1 (fun r c _ => g r c) /\
    blocks_moved b (mA ++ mB) f g.
Proof. exact @coef2_final. Qed.
Print Assumptions C26_unscramble_Coef_dimer.
(** [blocks_moved] determines every column *)
Theorem C26_every_column :
  forall b ord c, Forall (fun n => 1 <= n) b -> is_order (Z.of_nat (length b)) ord -> 1 <= c <= total b ->
  exists i k j, 1 <= k <= Z.of_nat (length b) /\ nth_error ord i = Some k /\ 1 <= j <= size_of b k /\
    c = off (reordered b ord) (Z.of_nat i + 1) + j.
Proof. exact cover_order. Qed.
Print Assumptions C26_every_column.
Example C26_example : is_order 3 ([3] ++ [1; 2]) /\ (m <- Matrix_of_vecs ex24 ;;
  unscramble_Coef2 0 5 [3] [1; 2] [1; 2; 1] m) = Matrix_of_vecs [[4; 1; 2; 3]; [8; 5; 6; 7]].
Proof.
  split; [split; [reflexivity|split; [repeat constructor; simpl; lia|repeat constructor; lia]]|].
  vm_compute; reflexivity.
Qed.

(** ** C27 *)
Theorem C27_unscramble_Coef_single :
  forall T (zero : T) fuel mA b (m : mat T) R C f, denotes m R C 1 (fun r c _ => f r c) -> 1 <= R -> 1 <= C ->
  Forall (fun n => 1 <= n) b -> total b = C -> is_order (Z.of_nat (length b)) mA -> (length b + 2 <= fuel)%nat ->
  exists m' g, unscramble_Coef1 zero fuel mA b m = Ok m' /\ denotes m' R C 1 (fun r c _ => g r c) /\
    blocks_moved b mA f g.
Proof. exact @coef1_final. Qed.
Print Assumptions C27_unscramble_Coef_single.
Example C27_example : (m <- Matrix_of_vecs ex24 ;;
  unscramble_Coef1 0 5 [2; 3; 1] [1; 2; 1] m) = Matrix_of_vecs [[2; 3; 4; 1]; [6; 7; 8; 5]].
Proof. vm_compute; reflexivity. Qed.

(** ** C28 *)
Theorem C28_unscramble_S_dimer :
  forall T (zero : T) fuel mA mB b (m : mat T) N f, denotes m N N 1 (fun r c _ => f r c) -> 1 <= N ->
  Forall (fun n => 1 <= n) b -> total b = N -> is_order (Z.of_nat (length b)) (mA ++ mB) -> (length b + 2 <= fuel)%nat ->
  exists m' g, unscramble_S2 zero fuel mA mB b m = Ok m' /\ denotes m' N N 1 (fun r c _ => g r c) /\
    blocks_moved2 b (mA ++ mB) f g /\
    ((forall r c, 1 <= r <= N -> 1 <= c <= N -> f r c = f c r) -> forall r c, 1 <= r <= N -> 1 <= c <= N -> g r c = g c r).
Proof. exact @S2_final. Qed.
Print Assumptions C28_unscramble_S_dimer.
Theorem C28_unscramble_S_single :
  forall T (zero : T) fuel mA b (m : mat T) N f, denotes m N N 1 (fun r c _ => f r c) -> 1 <= N ->
  Forall (fun n => 1 <= n) b -> total b = N -> is_order (Z.of_nat (length b)) mA -> (length b + 2 <= fuel)%nat ->
  exists m' g, unscramble_S1 zero fuel mA b m = Ok m' /\ denotes m' N N 1 (fun r c _ => g r c) /\
    blocks_moved2 b mA f g /\
    ((forall r c, 1 <= r <= N -> 1 <= c <= N -> f r c = f c r) -> forall r c, 1 <= r <= N -> 1 <= c <= N -> g r c = g c r).
Proof. exact @S1_final. Qed.
Print Assumptions C28_unscramble_S_single.
Example C28_example : (m <- Matrix_of_vecs [[1; 2; 3]; [2; 4; 5]; [3; 5; 6]] ;;
  unscramble_S2 0 4 [2] [1] [2; 1] m) = Matrix_of_vecs [[6; 3; 5]; [3; 1; 2]; [5; 2; 4]].
Proof. vm_compute; reflexivity. Qed.

(** ** C29 *)
(** The dimer calculation done twice: with its atoms in one order (coordinates
    cP, basis sizes b, coefficients tc_P, overlap tc_S) and with atom s_i at
    position i (cP', reordered b s, tc_P tc', tc_S tc').  Any arithmetic. *)
Theorem C29_atom_order_plain :
  forall T (A : arith T) lab fuel tc tc' c1 c2 cP cP' D q1 q2 qP qP' n1 n2 oA oB b b2 s N K fP fP' fS fS',
  tc_cp tc = false ->
  tc' = mkTC (tc_1 tc) (tc_2 tc) (tc_P tc') (tc_orbs1 tc) (tc_orbs2 tc) (tc_S tc') (tc_OE tc) (tc_unscrambled tc') false ->
  denotes c1 D n1 1 q1 -> denotes c2 D n2 1 q2 ->
  denotes cP D (Z.of_nat (length b)) 1 qP -> denotes cP' D (Z.of_nat (length b)) 1 qP' ->
  Z.of_nat (length oA) = n1 -> Z.of_nat (length oB) = n2 ->
  finds lab D (Z.of_nat (length b)) q1 qP oA -> finds lab D (Z.of_nat (length b)) q2 qP oB ->
  is_order (Z.of_nat (length b)) (oA ++ oB) -> is_order (Z.of_nat (length b)) s ->
  Forall (fun n => 1 <= n) b -> total b = N -> 1 <= N -> 1 <= K ->
  denotes (tc_P tc) K N 1 (fun r c _ => fP r c) -> denotes (tc_S tc) N N 1 (fun r c _ => fS r c) ->
  denotes (tc_P tc') K N 1 (fun r c _ => fP' r c) -> denotes (tc_S tc') N N 1 (fun r c _ => fS' r c) ->
  (forall i k j, 1 <= i -> nth_error s (Z.to_nat (i - 1)) = Some k -> 1 <= j <= D -> qP' j i 1 = qP j k 1) ->
  blocks_moved b s fP fP' -> blocks_moved2 b s fS fS' ->
  (length b + 2 <= fuel)%nat ->
  exists t, tc_unscramble A lab fuel tc c1 c2 cP b b2 = Ok t /\
            forall ot on, (t' <- tc_unscramble A lab fuel tc' c1 c2 cP' (reordered b s) b2 ;; calcJ A t' ot on) = calcJ A t ot on.
Proof.
  intros until fS'. intros.
  edestruct (order_independent_plain A lab fuel tc tc' c1 c2 cP cP' D q1 q2 qP qP' n1 n2 oA oB b b2 s N K fP fP' fS fS')
    as (t & E & E'); eauto. exists t. rewrite E'. auto.
Qed.
Print Assumptions C29_atom_order_plain.
Theorem C29_atom_order_cp :
  forall T (A : arith T) lab fuel tc tc' c1 c2 cP cP' D q1 q2 qP qP' o2 oP b b2 s N R2 K f2 fP fP' fS fS',
  tc_cp tc = true -> length b2 = length b ->
  tc' = mkTC (tc_1 tc) (tc_2 tc) (tc_P tc') (tc_orbs1 tc) (tc_orbs2 tc) (tc_S tc') (tc_OE tc) (tc_unscrambled tc') true ->
  denotes c1 D (Z.of_nat (length b)) 1 q1 -> denotes c2 D (Z.of_nat (length b)) 1 q2 ->
  denotes cP D (Z.of_nat (length b)) 1 qP -> denotes cP' D (Z.of_nat (length b)) 1 qP' ->
  finds lab D (Z.of_nat (length b)) q1 q2 o2 -> finds lab D (Z.of_nat (length b)) q1 qP oP ->
  is_order (Z.of_nat (length b)) o2 -> is_order (Z.of_nat (length b)) oP -> is_order (Z.of_nat (length b)) s ->
  Forall (fun n => 1 <= n) b -> Forall (fun n => 1 <= n) b2 -> total b = N -> total b2 = N -> 1 <= N -> 1 <= K -> 1 <= R2 ->
  denotes (tc_2 tc) R2 N 1 (fun r c _ => f2 r c) ->
  denotes (tc_P tc) K N 1 (fun r c _ => fP r c) -> denotes (tc_S tc) N N 1 (fun r c _ => fS r c) ->
  denotes (tc_P tc') K N 1 (fun r c _ => fP' r c) -> denotes (tc_S tc') N N 1 (fun r c _ => fS' r c) ->
  (forall i k j, 1 <= i -> nth_error s (Z.to_nat (i - 1)) = Some k -> 1 <= j <= D -> qP' j i 1 = qP j k 1) ->
  blocks_moved b s fP fP' -> blocks_moved2 b s fS fS' ->
  (length b + 2 <= fuel)%nat ->
  exists t, tc_unscramble A lab fuel tc c1 c2 cP b b2 = Ok t /\
            forall ot on, (t' <- tc_unscramble A lab fuel tc' c1 c2 cP' (reordered b s) b2 ;; calcJ A t' ot on) = calcJ A t ot on.
Proof.
  intros until fS'. intros.
  edestruct (order_independent_cp A lab fuel tc tc' c1 c2 cP cP' D q1 q2 qP qP' o2 oP b b2 s N R2 K f2 fP fP' fS fS')
    as (t & E & E'); eauto. exists t. rewrite E'. auto.
Qed.
Print Assumptions C29_atom_order_cp.

(** concrete matrices *)
Definition el {T} (zero : T) (l : list (list T)) (r c : Z) : T := nth (Z.to_nat (c - 1)) (nth (Z.to_nat (r - 1)) l []) zero.
Lemma vecs_denotes {T} (zero : T) l n c : l <> [] -> Z.of_nat (length l) = n -> Forall (fun r => Z.of_nat (length r) = c) l ->
  c <= INT_MAX -> n <= INT_MAX -> n * c <= INT_MAX ->
  exists m, Matrix_of_vecs l = Ok m /\ denotes m n c 1 (fun r c _ => el zero l r c).
Proof.
  intros Hl Hn HF Hc HnM HM. destruct l as [|v l]; [congruence|].
  destruct (Matrix_of_vecs_ok zero v l c) as (m & E & D); try rewrite Hn; auto.
  exists m. split; auto. rewrite Hn in D. exact D.
Qed.
Ltac vecs := apply vecs_denotes; [discriminate|reflexivity|repeat constructor|vm_compute; congruence..].

Definition z_arith : arith Z := mkArith Z 0 1 2 Z.add Z.sub Z.mul Z.div (fun x => x * x).
(** a dimer of two one-atom monomers (at 0 and 5) with 2 and 1 basis functions, listed in both orders *)
Example C29_example : exists m1 m2 P P' S S' OE c1 c2 cP cP',
  Matrix_of_vecs [[0]] = Ok c1 /\ Matrix_of_vecs [[5]] = Ok c2 /\
  Matrix_of_vecs [[5; 0]] = Ok cP /\ Matrix_of_vecs [[0; 5]] = Ok cP' /\
  Matrix_of_vecs [[7; 8; 9]] = Ok P /\ Matrix_of_vecs [[8; 9; 7]] = Ok P' /\
  let tc := mkTC m1 m2 P (1, 1) (1, 1) S OE false false in
  let tc' := mkTC m1 m2 P' (1, 1) (1, 1) S' OE false false in
  exists t, tc_unscramble z_arith dec 4 tc c1 c2 cP [1; 2] [] = Ok t /\
    forall ot on, (t' <- tc_unscramble z_arith dec 4 tc' c1 c2 cP' (reordered [1; 2] [2; 1]) [] ;; calcJ z_arith t' ot on) = calcJ z_arith t ot on.
Proof.
  assert (V : forall l n c, l <> [] -> Z.of_nat (length l) = n -> Forall (fun r => Z.of_nat (length r) = c) l ->
    c <= INT_MAX -> n <= INT_MAX -> n * c <= INT_MAX ->
    exists m, Matrix_of_vecs l = Ok m /\ denotes m n c 1 (fun r c _ => el 0 l r c)) by (intros; apply vecs_denotes; auto).
  assert (Vm1 := V [[1; 1]] 1 2). assert (Vm2 := V [[3]] 1 1). assert (VP := V [[7; 8; 9]] 1 3). assert (VP' := V [[8; 9; 7]] 1 3).
  assert (VS := V [[1; 2; 3]; [2; 4; 5]; [3; 5; 6]] 3 3). assert (VS' := V [[4; 5; 2]; [5; 6; 3]; [2; 3; 1]] 3 3).
  assert (VE := V [[2]] 1 1). assert (Vc1 := V [[0]] 1 1). assert (Vc2 := V [[5]] 1 1). assert (VcP := V [[5; 0]] 1 2). assert (VcP' := V [[0; 5]] 1 2).
  Ltac sz H := match type of H with _ <= _ <= ?s => let s' := eval vm_compute in s in change s with s' in H end.
  Ltac go H m E D := destruct H as (m & E & D); [discriminate|reflexivity|repeat constructor|vm_compute; congruence..|].
  go Vm1 m1 E1 D1. go Vm2 m2 E2 D2. go VP P EP DP. go VP' P' EP' DP'. go VS Sm ES DS. go VS' Sm' ES' DS'. go VE OE EE DE.
  go Vc1 c1 Ec1 Dc1. go Vc2 c2 Ec2 Dc2. go VcP cP EcP DcP. go VcP' cP' EcP' DcP'.
  exists m1, m2, P, P', Sm, Sm', OE, c1, c2, cP, cP'. do 6 (split; [assumption|]). intros tc tc'.
  apply (C29_atom_order_plain Z z_arith dec 4 tc tc' c1 c2 cP cP' 1 (fun r c _ => el 0 [[0]] r c) (fun r c _ => el 0 [[5]] r c)
    (fun r c _ => el 0 [[5; 0]] r c) (fun r c _ => el 0 [[0; 5]] r c) 1 1 [2] [1] [1; 2] [] [2; 1] 3 1
    (el 0 [[7; 8; 9]]) (el 0 [[8; 9; 7]]) (el 0 [[1; 2; 3]; [2; 4; 5]; [3; 5; 6]]) (el 0 [[4; 5; 2]; [5; 6; 3]; [2; 3; 1]])
    eq_refl eq_refl Dc1 Dc2 DcP DcP'); try reflexivity; try lia; try exact DP; try exact DP'; try exact DS; try exact DS'.
  - intros i k H Hi. destruct (Z.to_nat (i - 1)) as [|n] eqn:En; [|destruct n; discriminate]. inversion H; subst k.
    assert (i = 1) by lia. subst i. split; [simpl; lia|]. intros k' Hk'. simpl in Hk'. unfold same_atom.
    assert (Ek : k' = 1 \/ k' = 2) by lia. destruct Ek as [-> | ->]; split; intros X; try lia; auto.
    + specialize (X 1 ltac:(lia)). vm_compute in X. discriminate.
    + intros j Hj. assert (j = 1) by lia. subst j. reflexivity.
  - intros i k H Hi. destruct (Z.to_nat (i - 1)) as [|n] eqn:En; [|destruct n; discriminate]. inversion H; subst k.
    assert (i = 1) by lia. subst i. split; [simpl; lia|]. intros k' Hk'. simpl in Hk'. unfold same_atom.
    assert (Ek : k' = 1 \/ k' = 2) by lia. destruct Ek as [-> | ->]; split; intros X; try lia; auto.
    + intros j Hj. assert (j = 1) by lia. subst j. reflexivity.
    + specialize (X 1 ltac:(lia)). vm_compute in X. discriminate.
  - split; [reflexivity|split; [repeat constructor; simpl; lia|repeat constructor; simpl; lia]].
  - split; [reflexivity|split; [repeat constructor; simpl; lia|repeat constructor; simpl; lia]].
  - repeat constructor; lia.
  - intros i k j Hi H Hj. assert (j = 1) by lia. subst j.
    destruct (Z.to_nat (i - 1)) as [|[|n]] eqn:En; [| |destruct n; discriminate]; inversion H; subst k.
    + assert (i = 1) by lia. subst i. reflexivity.
    + assert (i = 2) by lia. subst i. reflexivity.
  - intros x i k j Hi H Hj. unfold el. destruct (Z.to_nat (x - 1)) as [|n]; [|destruct n; cbn [nth]; destruct (Z.to_nat (off (reordered [1; 2] [2; 1]) i + j - 1)), (Z.to_nat (off [1; 2] k + j - 1)); reflexivity].
    destruct (Z.to_nat (i - 1)) as [|[|n]] eqn:En; [| |destruct n; discriminate]; inversion H; subst k; sz Hj.
    + assert (i = 1) by lia. subst i. assert (Ej : j = 1 \/ j = 2) by lia. destruct Ej; subst j; reflexivity.
    + assert (i = 2) by lia. subst i. assert (Ej : j = 1) by lia. subst j; reflexivity.
  - intros i k j i' k' j' Hi H Hj Hi' H' Hj'.
    destruct (Z.to_nat (i - 1)) as [|[|n]] eqn:En; [| |destruct n; discriminate]; inversion H; subst k; sz Hj;
    destruct (Z.to_nat (i' - 1)) as [|[|n']] eqn:En'; try (destruct n'; discriminate); inversion H'; subst k'; sz Hj';
    (assert (Ei : i = 1 \/ i = 2) by lia); (assert (Ei' : i' = 1 \/ i' = 2) by lia); (assert (Ej : j = 1 \/ j = 2) by lia); (assert (Ej' : j' = 1 \/ j' = 2) by lia);
    destruct Ei, Ei', Ej, Ej'; subst; try lia; reflexivity.
Qed.

(** ** C30 *)
(** In any arithmetic, calcJ evaluates the formula [J_of] on the projections of
    the (padded) monomer orbitals. *)
Theorem C30_calcJ_formula :
  forall T (A : arith T) tc N1 N2 n1 n2 N K a b fP fS e ot on t1 t2 k1 k2 r1 r2,
  fits_together tc N1 N2 n1 n2 N K a b fP fS e ->
  map_at ot sMon1 = Ok t1 -> map_at ot sMon2 = Ok t2 -> map_at on sMon1 = Ok k1 -> map_at on sMon2 = Ok k2 ->
  orbital_row N1 (snd (tc_orbs1 tc)) t1 k1 = Some r1 -> orbital_row N2 (snd (tc_orbs2 tc)) t2 k2 = Some r2 ->
  calcJ A tc ot on = Ok (J_value A (tc_cp tc) n1 N K a b fP fS e r1 r2).
Proof. exact @calcJ_ok. Qed.
Print Assumptions C30_calcJ_formula.
(** In exact arithmetic that value is the formula written with sums. *)
Theorem C30_exact :
  forall T (A : arith T) opp inv, exact_arith A opp inv ->
  forall cp n1 N K a b fP fS e r1 r2,
  J_value A cp n1 N K a b fP fS e r1 r2 = J_exact_value A cp n1 N K a b fP fS e r1 r2.
Proof. exact @J_value_exact. Qed.
Print Assumptions C30_exact.

(** The example complex: monomers with one basis function each, two dimer
    orbitals with energies 3 and 1. *)
Definition q (a : Z) : Qc := Q2Qc (inject_Z a).
Definition exS : list (list Qc) := [[q 1; Q2Qc (1 # 2)]; [Q2Qc (1 # 2); q 1]].
Definition exP : list (list Qc) := [[Q2Qc (1 # 2); Q2Qc (1 # 2)]; [q 1; q (-1)]].
Definition exE : list (list Qc) := [[q 3]; [q 1]].
Definition ex_e (k : Z) : Qc := el (q 0) exE k 1.
Example ex_complex : exists tc, fits_together tc 1 1 1 1 2 2 (el (q 0) [[q 1]]) (el (q 0) [[q 1]]) (el (q 0) exP) (el (q 0) exS) ex_e
  /\ tc_cp tc = false /\ snd (tc_orbs1 tc) = 1 /\ snd (tc_orbs2 tc) = 1.
Proof.
  destruct (vecs_denotes (q 0) [[q 1]] 1 1) as (m & E & D); [discriminate|reflexivity|repeat constructor|vm_compute; congruence..|].
  destruct (vecs_denotes (q 0) exP 2 2) as (P & EP & DP); [discriminate|reflexivity|repeat constructor|vm_compute; congruence..|].
  destruct (vecs_denotes (q 0) exS 2 2) as (S & ES & DS); [discriminate|reflexivity|repeat constructor|vm_compute; congruence..|].
  destruct (vecs_denotes (q 0) exE 2 1) as (OE & EE & DE); [discriminate|reflexivity|repeat constructor|vm_compute; congruence..|].
  exists (mkTC m m P (1, 1) (1, 1) S OE false false). split; [|auto]. constructor; cbn [tc_1 tc_2 tc_P tc_orbs1 tc_orbs2 tc_S tc_OE tc_cp fst snd]; auto; try lia.
  - left. apply MatrixFacts.denotes_ext with (1 := DE). intros r c s (_ & Hc & _). unfold ex_e. do 2 f_equal. lia.
  - unfold INT_MAX. lia.
Qed.
Example C30_example : orbital_row 1 1 ($"HOMO") 0 = Some 1 /\
  this (J_value qc_arith false 1 2 2 (el (q 0) [[q 1]]) (el (q 0) [[q 1]]) (el (q 0) exP) (el (q 0) exS) ex_e 1 1) = (71 # 77)%Q.
Proof. split; [reflexivity|]. vm_compute. reflexivity. Qed.

(** ** C31 *)
(** [tc'] is [tc] with the monomers exchanged: without counterpoise the basis
    functions of monomer 2 come first. *)
Theorem C31_symmetric :
  forall T (A : arith T) opp inv, exact_arith A opp inv ->
  forall tc tc' N1 N2 n1 n2 N K a b fP fS fP' fS' e ot on ot' on' t1 t2 k1 k2 r1 r2,
  fits_together tc N1 N2 n1 n2 N K a b fP fS e ->
  fits_together tc' N2 N1 n2 n1 N K b a fP' fS' e ->
  tc_cp tc' = tc_cp tc -> tc_orbs1 tc' = tc_orbs2 tc -> tc_orbs2 tc' = tc_orbs1 tc ->
  (forall k c, 1 <= k <= K -> 1 <= c <= N -> fP' k c = fP k (if tc_cp tc then c else rot n1 n2 c)) ->
  (forall l m, 1 <= l <= N -> 1 <= m <= N ->
     fS' l m = fS (if tc_cp tc then l else rot n1 n2 l) (if tc_cp tc then m else rot n1 n2 m)) ->
  map_at ot sMon1 = Ok t1 -> map_at ot sMon2 = Ok t2 -> map_at on sMon1 = Ok k1 -> map_at on sMon2 = Ok k2 ->
  map_at ot' sMon1 = Ok t2 -> map_at ot' sMon2 = Ok t1 -> map_at on' sMon1 = Ok k2 -> map_at on' sMon2 = Ok k1 ->
  orbital_row N1 (snd (tc_orbs1 tc)) t1 k1 = Some r1 -> orbital_row N2 (snd (tc_orbs2 tc)) t2 k2 = Some r2 ->
  exists J, calcJ A tc ot on = Ok J /\ calcJ A tc' ot' on' = Ok J.
Proof.
  intros T A opp inv HA tc tc' N1 N2 n1 n2 N K a b fP fS fP' fS' e ot on ot' on' t1 t2 k1 k2 r1 r2 H H' Ecp Eo1 Eo2 HP HS.
  intros M1 M2 M3 M4 M5 M6 M7 M8 R1 R2. eexists. split; [eapply calcJ_ok; eauto|].
  rewrite (calcJ_ok A tc' N2 N1 n2 n1 N K b a fP' fS' e ot' on' t2 t1 k2 k1 r2 r1); auto; try congruence.
  f_equal. rewrite Ecp. symmetry. destruct H as [? ? ? ? ? ? ? (P1 & P2 & _) HN].
  eapply J_value_swap; eauto; lia.
Qed.
Print Assumptions C31_symmetric.
Example C31_example : map (rot 1 2) [1; 2; 3] = [2; 3; 1] /\ exists tc,
  fits_together tc 1 1 1 1 2 2 (el (q 0) [[q 1]]) (el (q 0) [[q 1]]) (el (q 0) exP) (el (q 0) exS) ex_e.
Proof. split; [reflexivity|]. destruct ex_complex as (tc & H & _). eauto. Qed.

(** ** C32 *)
(** [tc'] is [tc] with every monomer orbital and every dimer orbital multiplied
    by its own sign (a number whose square is 1). *)
Theorem C32_phases :
  forall T (A : arith T) opp inv, exact_arith A opp inv ->
  forall tc tc' N1 N2 n1 n2 N K a b fP fS e a' b' fP' (sa sb sP : Z -> T) ot on t1 t2 k1 k2 r1 r2,
  fits_together tc N1 N2 n1 n2 N K a b fP fS e ->
  fits_together tc' N1 N2 n1 n2 N K a' b' fP' fS e ->
  tc_cp tc' = tc_cp tc -> tc_orbs1 tc' = tc_orbs1 tc -> tc_orbs2 tc' = tc_orbs2 tc ->
  (forall r, a_mul A (sa r) (sa r) = a_one A) -> (forall r, a_mul A (sb r) (sb r) = a_one A) ->
  (forall r, a_mul A (sP r) (sP r) = a_one A) ->
  (forall r c, a' r c = a_mul A (sa r) (a r c)) -> (forall r c, b' r c = a_mul A (sb r) (b r c)) ->
  (forall r c, fP' r c = a_mul A (sP r) (fP r c)) ->
  map_at ot sMon1 = Ok t1 -> map_at ot sMon2 = Ok t2 -> map_at on sMon1 = Ok k1 -> map_at on sMon2 = Ok k2 ->
  orbital_row N1 (snd (tc_orbs1 tc)) t1 k1 = Some r1 -> orbital_row N2 (snd (tc_orbs2 tc)) t2 k2 = Some r2 ->
  exists J, calcJ A tc ot on = Ok J /\ calcJ A tc' ot on = Ok (a_mul A (a_mul A (sa r1) (sb r2)) J).
Proof.
  intros T A opp inv HA tc tc' N1 N2 n1 n2 N K a b fP fS e a' b' fP' sa sb sP ot on t1 t2 k1 k2 r1 r2 H H' Ecp Eo1 Eo2.
  intros Sa Sb SP Ea Eb EP M1 M2 M3 M4 R1 R2. eexists. split; [eapply calcJ_ok; eauto|].
  rewrite (calcJ_ok A tc' N1 N2 n1 n2 N K a' b' fP' fS e ot on t1 t2 k1 k2 r1 r2); auto; try congruence.
  f_equal. rewrite Ecp. destruct H as [? ? ? ? ? ? ? (P1 & P2 & _) HN]. eapply J_value_phase with (sP := sP); eauto.
Qed.
Print Assumptions C32_phases.
Example C32_example : a_mul qc_arith (q (-1)) (q (-1)) = a_one qc_arith /\
  J_value qc_arith false 1 2 2 (el (q 0) [[q (-1)]]) (el (q 0) [[q 1]]) (el (q 0) exP) (el (q 0) exS) ex_e 1 1 = Q2Qc (-71 # 77) /\
  J_value qc_arith false 1 2 2 (el (q 0) [[q 1]]) (el (q 0) [[q 1]]) (fun k c => if k =? 1 then el (q 0) exP k c else Qcopp (el (q 0) exP k c)) (el (q 0) exS) ex_e 1 1 = Q2Qc (71 # 77).
Proof. split; [|split]; apply Qc_is_canon; vm_compute; reflexivity. Qed.

(** ** C33 *)
Theorem C33_scale :
  forall T (A : arith T) opp inv, exact_arith A opp inv ->
  forall tc tc' N1 N2 n1 n2 N K a b fP fS e c ot on t1 t2 k1 k2 r1 r2,
  fits_together tc N1 N2 n1 n2 N K a b fP fS e ->
  fits_together tc' N1 N2 n1 n2 N K a b fP fS (fun k => a_mul A c (e k)) ->
  tc_cp tc' = tc_cp tc -> tc_orbs1 tc' = tc_orbs1 tc -> tc_orbs2 tc' = tc_orbs2 tc ->
  map_at ot sMon1 = Ok t1 -> map_at ot sMon2 = Ok t2 -> map_at on sMon1 = Ok k1 -> map_at on sMon2 = Ok k2 ->
  orbital_row N1 (snd (tc_orbs1 tc)) t1 k1 = Some r1 -> orbital_row N2 (snd (tc_orbs2 tc)) t2 k2 = Some r2 ->
  exists J, calcJ A tc ot on = Ok J /\ calcJ A tc' ot on = Ok (a_mul A c J).
Proof.
  intros T A opp inv HA tc tc' N1 N2 n1 n2 N K a b fP fS e c ot on t1 t2 k1 k2 r1 r2 H H' Ecp Eo1 Eo2.
  intros M1 M2 M3 M4 R1 R2. eexists. split; [eapply calcJ_ok; eauto|].
  rewrite (calcJ_ok A tc' N1 N2 n1 n2 N K a b fP fS (fun k => a_mul A c (e k)) ot on t1 t2 k1 k2 r1 r2); auto; try congruence.
  f_equal. rewrite Ecp. eapply J_value_scale; eauto.
Qed.
Print Assumptions C33_scale.
Theorem C33_shift :
  forall T (A : arith T) opp inv, exact_arith A opp inv -> a_add A (a_one A) (a_one A) <> a_zero A ->
  forall tc tc' N1 N2 n1 n2 N K a b fP fS e d ot on t1 t2 k1 k2 r1 r2,
  fits_together tc N1 N2 n1 n2 N K a b fP fS e ->
  fits_together tc' N1 N2 n1 n2 N K a b fP fS (fun k => a_add A (e k) d) ->
  tc_cp tc' = tc_cp tc -> tc_orbs1 tc' = tc_orbs1 tc -> tc_orbs2 tc' = tc_orbs2 tc ->
  complete A N K fS fP (if tc_cp tc then a r1 else pad_after A n1 (a r1)) ->
  complete A N K fS fP (if tc_cp tc then b r2 else pad_before A n1 (b r2)) ->
  map_at ot sMon1 = Ok t1 -> map_at ot sMon2 = Ok t2 -> map_at on sMon1 = Ok k1 -> map_at on sMon2 = Ok k2 ->
  orbital_row N1 (snd (tc_orbs1 tc)) t1 k1 = Some r1 -> orbital_row N2 (snd (tc_orbs2 tc)) t2 k2 = Some r2 ->
  exists J, calcJ A tc ot on = Ok J /\ calcJ A tc' ot on = Ok J.
Proof.
  intros T A opp inv HA H2 tc tc' N1 N2 n1 n2 N K a b fP fS e d ot on t1 t2 k1 k2 r1 r2 H H' Ecp Eo1 Eo2.
  intros Ca Cb M1 M2 M3 M4 R1 R2. eexists. split; [eapply calcJ_ok; eauto|].
  rewrite (calcJ_ok A tc' N1 N2 n1 n2 N K a b fP fS (fun k => a_add A (e k) d) ot on t1 t2 k1 k2 r1 r2); auto; try congruence.
  f_equal. rewrite Ecp. eapply J_value_shift; eauto.
Qed.
Print Assumptions C33_shift.
(** normalised orbitals exist: identity overlap, rational rotation (3/5, 4/5) *)
Example C33_example :
  complete qc_arith 2 2 (el (q 0) [[q 1; q 0]; [q 0; q 1]]) (el (q 0) [[Q2Qc (3 # 5); Q2Qc (4 # 5)]; [Q2Qc (4 # 5); Q2Qc (-3 # 5)]])
    (pad_after qc_arith 1 (el (q 0) [[q 1]] 1)) /\ a_add qc_arith (q 1) (q 1) <> q 0.
Proof. split; [apply Qc_is_canon; vm_compute; reflexivity|]. discriminate. Qed.

(** ** C34 *)
(** the row used is part of C30_calcJ_formula through [orbital_row]; here the rejections *)
Theorem C34_rows :
  forall nMO homo n, 0 <= homo <= nMO ->
  orbital_row nMO homo ($"HOMO") n = (if (n <=? 0) && (1 <=? homo + n) then Some (homo + n) else None) /\
  orbital_row nMO homo ($"LUMO") n = (if (0 <=? n) && (homo + 1 + n <=? nMO) then Some (homo + 1 + n) else None) /\
  forall ty, ty <> $"HOMO" -> ty <> $"LUMO" -> orbital_row nMO homo ty n = None.
Proof.
  intros nMO homo n H. unfold orbital_row. rewrite str_eqb_refl. split; [|split].
  - destruct (Z.leb_spec n 0), (Z.ltb_spec (- homo) n), (Z.leb_spec 1 (homo + n)); cbn; auto; lia.
  - change (str_eqb ($"LUMO") ($"HOMO")) with false. cbv iota. rewrite str_eqb_refl.
    destruct (Z.leb_spec 0 n), (Z.ltb_spec n (nMO - homo)), (Z.leb_spec (homo + 1 + n) nMO); cbn; auto; lia.
  - intros ty H1 H2. destruct (str_eqb ty ($"HOMO")) eqn:E1; [apply str_eqb_eq in E1; contradiction|].
    destruct (str_eqb ty ($"LUMO")) eqn:E2; [apply str_eqb_eq in E2; contradiction|]. reflexivity.
Qed.
Print Assumptions C34_rows.
Theorem C34_rejects_1 :
  forall T (A : arith T) tc ot on t1 k1,
  map_at ot sMon1 = Ok t1 -> map_at on sMon1 = Ok k1 -> is_int k1 ->
  is_int (fst (tc_orbs1 tc)) -> 0 <= snd (tc_orbs1 tc) <= fst (tc_orbs1 tc) ->
  orbital_row (fst (tc_orbs1 tc)) (snd (tc_orbs1 tc)) t1 k1 = None ->
  calcJ A tc ot on = Throw InvalidArgument.
Proof. exact @calcJ_bad1. Qed.
Print Assumptions C34_rejects_1.
Theorem C34_rejects_2 :
  forall T (A : arith T) tc ot on t1 k1 t2 k2 r1 N1 n1 a,
  map_at ot sMon1 = Ok t1 -> map_at on sMon1 = Ok k1 -> map_at ot sMon2 = Ok t2 -> map_at on sMon2 = Ok k2 -> is_int k2 ->
  denotes (tc_1 tc) N1 n1 1 (fun r c _ => a r c) -> 1 <= n1 ->
  fst (tc_orbs1 tc) = N1 -> 0 <= snd (tc_orbs1 tc) <= N1 ->
  orbital_row N1 (snd (tc_orbs1 tc)) t1 k1 = Some r1 ->
  is_int (fst (tc_orbs2 tc)) -> 0 <= snd (tc_orbs2 tc) <= fst (tc_orbs2 tc) ->
  orbital_row (fst (tc_orbs2 tc)) (snd (tc_orbs2 tc)) t2 k2 = None ->
  calcJ A tc ot on = Throw InvalidArgument.
Proof. exact @calcJ_bad2. Qed.
Print Assumptions C34_rejects_2.
Theorem C34_missing_key_1 :
  forall T (A : arith T) tc ot on,
  (map_at ot sMon1 = Throw OutOfRange \/ map_at on sMon1 = Throw OutOfRange) -> calcJ A tc ot on = Throw OutOfRange.
Proof. exact @calcJ_missing. Qed.
Print Assumptions C34_missing_key_1.
Theorem C34_missing_key_2 :
  forall T (A : arith T) tc ot on t1 k1 r1 N1 n1 a,
  map_at ot sMon1 = Ok t1 -> map_at on sMon1 = Ok k1 ->
  denotes (tc_1 tc) N1 n1 1 (fun r c _ => a r c) -> 1 <= n1 ->
  fst (tc_orbs1 tc) = N1 -> 0 <= snd (tc_orbs1 tc) <= N1 ->
  orbital_row N1 (snd (tc_orbs1 tc)) t1 k1 = Some r1 ->
  (map_at ot sMon2 = Throw OutOfRange \/ map_at on sMon2 = Throw OutOfRange) -> calcJ A tc ot on = Throw OutOfRange.
Proof. exact @calcJ_missing2. Qed.
Print Assumptions C34_missing_key_2.
Example C34_example : orbital_row 10 4 ($"HOMO") (-3) = Some 1 /\ orbital_row 10 4 ($"HOMO") (-4) = None /\
  orbital_row 10 4 ($"LUMO") 0 = Some 5 /\ orbital_row 10 4 ($"LUMO") 5 = Some 10 /\ orbital_row 10 4 ($"LUMO") 6 = None /\
  map_at [($"mon2", 1)] sMon1 = Throw OutOfRange.
Proof. repeat split. Qed.

Definition ex24m : mat Z := mkMat 2 4 1 (map Some [1; 2; 3; 4; 5; 6; 7; 8]).

(** ** C35 *)
Theorem C35_constructor :
  forall T (m1 m2 P : mat T) o1 o2 (S OE : mat T) (cp : bool), is_int (cols m1 + cols m2) ->
  let good := cols S = cols P /\ (if cp then cols m1 = cols P /\ cols m2 = cols P else cols m1 + cols m2 <= cols P) in
  (good -> TransferComplex m1 m2 P o1 o2 S OE cp = Ok (mkTC m1 m2 P o1 o2 S OE false cp)) /\
  (~ good -> TransferComplex m1 m2 P o1 o2 S OE cp = Throw InvalidArgument).
Proof. exact @TC_accepts. Qed.
Print Assumptions C35_constructor.
Example C35_example : TransferComplex ex24m ex24m ex24m (1, 1) (1, 1) ex24m ex24m true = Ok (mkTC ex24m ex24m ex24m (1, 1) (1, 1) ex24m ex24m false true) /\
  TransferComplex ex24m ex24m ex24m (1, 1) (1, 1) ex24m ex24m false = Throw InvalidArgument.
Proof. split; reflexivity. Qed.

(** ** C36 *)
(** matrices whose sizes agree: a value (this is C30_calcJ_formula) *)
Theorem C36_evaluates_partial :
  forall T (A : arith T) m1 m2 P o1 o2 S OE cp tc N1 N2 n1 n2 N K a b fP fS e ot on t1 t2 k1 k2 r1 r2,
  TransferComplex m1 m2 P o1 o2 S OE cp = Ok tc ->
  fits_together tc N1 N2 n1 n2 N K a b fP fS e ->
  map_at ot sMon1 = Ok t1 -> map_at ot sMon2 = Ok t2 -> map_at on sMon1 = Ok k1 -> map_at on sMon2 = Ok k2 ->
  orbital_row N1 (snd (tc_orbs1 tc)) t1 k1 = Some r1 -> orbital_row N2 (snd (tc_orbs2 tc)) t2 k2 = Some r2 ->
  exists J, calcJ A tc ot on = Ok J.
Proof. intros. eexists. eapply calcJ_ok; eauto. Qed.
Print Assumptions C36_evaluates_partial.
(** monomers together narrower than the dimer: accepted, then the process stops *)
Theorem C36_short_refuted :
  forall T (A : arith T) m1 m2 P S OE o1 o2 N1 N2 n1 n2 N K a b fP fS ot on t1 t2 k1 k2 r1 r2,
  denotes m1 N1 n1 1 (fun r c _ => a r c) -> denotes m2 N2 n2 1 (fun r c _ => b r c) ->
  denotes P K N 1 (fun r c _ => fP r c) -> denotes S N N 1 (fun r c _ => fS r c) ->
  1 <= n1 -> 1 <= n2 -> 1 <= K -> n1 + n2 < N ->
  fst o1 = N1 /\ 0 <= snd o1 <= N1 -> fst o2 = N2 /\ 0 <= snd o2 <= N2 ->
  map_at ot sMon1 = Ok t1 -> map_at ot sMon2 = Ok t2 -> map_at on sMon1 = Ok k1 -> map_at on sMon2 = Ok k2 ->
  orbital_row N1 (snd o1) t1 k1 = Some r1 -> orbital_row N2 (snd o2) t2 k2 = Some r2 ->
  exists tc, TransferComplex m1 m2 P o1 o2 S OE false = Ok tc /\ calcJ A tc ot on = Exit 1.
Proof. exact @calcJ_short. Qed.
Print Assumptions C36_short_refuted.
(** a wrong number of dimer energies: accepted, then the process stops *)
Theorem C36_energies_refuted :
  forall T (A : arith T) m1 m2 P S OE o1 o2 N1 N2 n1 n2 N K K' a b fP fS e ot on t1 t2 k1 k2 r1 r2,
  denotes m1 N1 n1 1 (fun r c _ => a r c) -> denotes m2 N2 n2 1 (fun r c _ => b r c) ->
  denotes P K N 1 (fun r c _ => fP r c) -> denotes S N N 1 (fun r c _ => fS r c) ->
  energies OE K' e -> K' <> K -> 1 <= K' -> K' * K' <= INT_MAX ->
  1 <= n1 -> 1 <= n2 -> 1 <= K -> n1 + n2 = N ->
  fst o1 = N1 /\ 0 <= snd o1 <= N1 -> fst o2 = N2 /\ 0 <= snd o2 <= N2 ->
  map_at ot sMon1 = Ok t1 -> map_at ot sMon2 = Ok t2 -> map_at on sMon1 = Ok k1 -> map_at on sMon2 = Ok k2 ->
  orbital_row N1 (snd o1) t1 k1 = Some r1 -> orbital_row N2 (snd o2) t2 k2 = Some r2 ->
  exists tc, TransferComplex m1 m2 P o1 o2 S OE false = Ok tc /\ calcJ A tc ot on = Exit 1.
Proof. exact @calcJ_energies. Qed.
Print Assumptions C36_energies_refuted.
Example C36_example : (m <- Matrix_of_vecs [[1]] ;; P <- Matrix_of_vecs [[1; 2; 3]] ;; S <- Matrix_of_vecs [[1; 0; 0]; [0; 1; 0]; [0; 0; 1]] ;;
   tc <- TransferComplex m m P (1, 1) (1, 1) S m false ;;
   calcJ z_arith tc [($"mon1", $"HOMO"); ($"mon2", $"HOMO")] [($"mon1", 0); ($"mon2", 0)]) = Exit 1.
Proof. vm_compute. reflexivity. Qed.

(** ** C37 *)
(** [srt] sorts: any function that permutes and orders by the energy.  Square
    energy matrices (in particular single energies) only. *)
Theorem C37_ranks_partial :
  forall T (A : arith T) (le : T -> T -> Prop) (srt : list (T * spin) -> list (T * spin)),
  (forall l, Permutation l (srt l)) -> (forall l, StronglySorted (fun x y => le (fst x) (fst y)) (srt l)) ->
  forall a b na nb fa fb,
  denotes a na na 1 (fun r c _ => fa r c) -> 1 <= na -> denotes b nb nb 1 (fun r c _ => fb r c) -> 0 <= nb ->
  exists l, findRank A srt a b = Ok l /\
    map fst l = map Z.of_nat (seq 1 (length l)) /\
    StronglySorted (fun x y => le (fst x) (fst y)) (map snd l) /\
    Permutation (map snd l) (column na fa Alpha ++ column nb fb Beta).
Proof. exact @findRank_ranks. Qed.
Print Assumptions C37_ranks_partial.
(** the shape the log reader produces: n energies in one column *)
Theorem C37_column_refuted :
  forall T (A : arith T) srt a b n fa, denotes a n 1 1 (fun r _ _ => fa r) -> 2 <= n -> findRank A srt a b = Exit 1.
Proof. exact @findRank_column. Qed.
Print Assumptions C37_column_refuted.
Fixpoint ins (x : Z * spin) (l : list (Z * spin)) : list (Z * spin) :=
  match l with [] => [x] | y :: t => if fst x <=? fst y then x :: l else y :: ins x t end.
Example C37_example : (a <- Matrix_of_vecs [[5]] ;; b <- Matrix_of_vecs [[3; 0]; [4; 0]] ;;
  findRank z_arith (fold_right ins []) a b) = Ok [(1, (3, Beta)); (2, (4, Beta)); (3, (5, Alpha))].
Proof. vm_compute. reflexivity. Qed.
