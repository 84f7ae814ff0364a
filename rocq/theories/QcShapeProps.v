(** * Properties C36, C37 for all shapes

    Vocabulary: MatrixSpec.v ([denotes m R C S f]: m has R rows, C columns, S
    shells and elements f), QcSpec.v ([orbital_row]), QcFinal.v ([column]: the
    first column of energies, tagged with its spin), QcShape.v ([padded]: that
    column followed by zeros up to a given length, [ranked]: a list numbered
    from 1). *)
From Coq Require Import Permutation Sorted.
From Verif Require Import QcShape MatrixCtor MatrixFinal QcProps.
Open Scope Z_scope.

(** ** C36: what calcJ does with any matrices the constructor accepts

    Monomer coefficients N1 x n1 and N2 x n2, dimer coefficients K x N, overlap
    rs x N, dimer energies eR x eC, existing orbitals.  The constructor looks at
    numbers of columns only: a value comes back exactly when the overlap has as
    many rows as the monomers have columns (together; with a counterpoise
    calculation: as the dimer), the energies form one row or one column, and
    there are as many of them as dimer orbitals.  Otherwise the process stops, or
    an exception comes from the energies. *)
Theorem C36_exact_partial :
  forall T (A : arith T) m1 m2 P S OE o1 o2 (cp : bool) tc N1 N2 n1 n2 rs N K eR eC a b fP fS fE ot on t1 t2 k1 k2 r1 r2,
  denotes m1 N1 n1 1 (fun r c _ => a r c) -> denotes m2 N2 n2 1 (fun r c _ => b r c) ->
  denotes P K N 1 (fun r c _ => fP r c) -> denotes S rs N 1 (fun r c _ => fS r c) ->
  denotes OE eR eC 1 (fun r c _ => fE r c) ->
  1 <= n1 -> 1 <= n2 -> 1 <= K -> 1 <= rs -> 1 <= eR -> 1 <= eC -> n1 + n2 <= INT_MAX ->
  rs * K <= INT_MAX -> Z.max eR eC * Z.max eR eC <= INT_MAX ->
  fst o1 = N1 /\ 0 <= snd o1 <= N1 -> fst o2 = N2 /\ 0 <= snd o2 <= N2 ->
  map_at ot sMon1 = Ok t1 -> map_at ot sMon2 = Ok t2 -> map_at on sMon1 = Ok k1 -> map_at on sMon2 = Ok k2 ->
  orbital_row N1 (snd o1) t1 k1 = Some r1 -> orbital_row N2 (snd o2) t2 k2 = Some r2 ->
  TransferComplex m1 m2 P o1 o2 S OE cp = Ok tc ->
  exists v, calcJ A tc ot on =
  if negb (rs =? (if cp then N else n1 + n2)) then Exit 1
  else if (1 <? eR) && (1 <? eC) then Throw InvalidArgument
  else if negb (Z.max eR eC =? K) then Exit 1
  else Ok v.
Proof. exact @calcJ_any. Qed.
Print Assumptions C36_exact_partial.

(** a square block of energies: accepted, then an exception *)
Example C36_exact_example_block :
  (m <- Matrix_of_vecs [[1]] ;; P <- Matrix_of_vecs [[1; 2]; [3; 4]] ;; S <- Matrix_of_vecs [[1; 0]; [0; 1]] ;;
   tc <- TransferComplex m m P (1, 1) (1, 1) S P false ;;
   calcJ z_arith tc [($"mon1", $"HOMO"); ($"mon2", $"HOMO")] [($"mon1", 0); ($"mon2", 0)]) = Throw InvalidArgument.
Proof. vm_compute. reflexivity. Qed.
(** an overlap that is not square, monomers narrower than the dimer: accepted and evaluated *)
Example C36_exact_example_flat :
  (m <- Matrix_of_vecs [[1]] ;; P <- Matrix_of_vecs [[1; 2; 3]] ;; S <- Matrix_of_vecs [[1; 0; 1]; [0; 1; 1]] ;; OE <- Matrix_of_vecs [[1]] ;;
   tc <- TransferComplex m m P (1, 1) (1, 1) S OE false ;;
   calcJ z_arith tc [($"mon1", $"HOMO"); ($"mon2", $"HOMO")] [($"mon1", 0); ($"mon2", 0)]) = Ok (-1).
Proof. vm_compute. reflexivity. Qed.

(** ** C37 for energies of any two shapes

    [srt]: any function that permutes a list. *)
Theorem C37_exact_partial :
  forall T (A : arith T) (srt : list (T * spin) -> list (T * spin)) a b na ca nb cb fa fb,
  denotes a na ca 1 (fun r c _ => fa r c) -> denotes b nb cb 1 (fun r c _ => fb r c) ->
  1 <= na -> 1 <= ca -> 0 <= nb -> 0 <= cb ->
  findRank A srt a b =
    if ca <? na then Exit 1
    else if (0 <? cb) && (cb <? nb) then Exit 1
    else Ok (ranked (srt (padded A na ca fa Alpha ++ (if 0 <? cb then padded A nb cb fb Beta else [])))).
Proof. exact @findRank_any. Qed.
Print Assumptions C37_exact_partial.

Lemma ranked_snd {T} (l : list (T * spin)) : map snd (ranked l) = l.
Proof.
  unfold ranked. generalize 1%nat. induction l as [|x l IH]; intros n; cbn [length seq map combine snd]; f_equal; auto.
Qed.

(** The energies are exactly the ranked ones only for square matrices: one
    energy, or as many columns as energies. *)
Theorem C37_right_iff_square_partial :
  forall T (A : arith T) (srt : list (T * spin) -> list (T * spin)), (forall l, Permutation l (srt l)) ->
  forall a b na ca nb cb fa fb,
  denotes a na ca 1 (fun r c _ => fa r c) -> denotes b nb cb 1 (fun r c _ => fb r c) ->
  1 <= na -> 1 <= ca -> 0 <= nb -> 0 <= cb -> (cb = 0 -> nb = 0) ->
  (exists l, findRank A srt a b = Ok l /\ Permutation (map snd l) (column na fa Alpha ++ column nb fb Beta))
  <-> na = ca /\ nb = cb.
Proof.
  intros T A srt HP a b na ca nb cb fa fb Ha Hb H1 H2 H3 H4 H5.
  rewrite (findRank_any A srt a b na ca nb cb fa fb) by auto.
  assert (Hlen : forall n f sp, length (column n f sp : list (T * spin)) = Z.to_nat n).
  { intros. unfold column. rewrite !map_length, seq_length. reflexivity. }
  destruct (Z.ltb_spec ca na) as [L|L].
  { split; [intros (l & E & _); discriminate|lia]. }
  destruct (Z.ltb_spec 0 cb) as [Lb|Lb]; cbn [andb].
  - destruct (Z.ltb_spec cb nb) as [L2|L2].
    { split; [intros (l & E & _); discriminate|lia]. }
    split.
    + intros (l & E & H). injection E as <-. rewrite ranked_snd in H.
      apply (Permutation_trans (HP _)) in H. apply Permutation_length in H.
      unfold padded in H. rewrite !app_length, !repeat_length, !Hlen in H. lia.
    + intros [-> ->]. eexists. split; [reflexivity|]. rewrite ranked_snd. apply Permutation_sym.
      eapply Permutation_trans; [|apply HP]. unfold padded. rewrite !Z.sub_diag. cbn [Z.to_nat repeat]. rewrite !app_nil_r. apply Permutation_refl.
  - split.
    + intros (l & E & H). injection E as <-. rewrite ranked_snd in H.
      apply (Permutation_trans (HP _)) in H. apply Permutation_length in H.
      unfold padded in H. rewrite !app_length, !repeat_length, !Hlen in H. cbn [length] in H. lia.
    + intros [-> ->]. eexists. split; [reflexivity|]. rewrite ranked_snd. apply Permutation_sym.
      eapply Permutation_trans; [|apply HP]. unfold padded. rewrite !Z.sub_diag. cbn [Z.to_nat repeat]. rewrite !app_nil_r.
      replace (column cb fb Beta) with ([] : list (T * spin)); [rewrite app_nil_r; apply Permutation_refl|].
      symmetry. apply length_zero_iff_nil. rewrite Hlen. lia.
Qed.
Print Assumptions C37_right_iff_square_partial.
(** one alpha energy stored in a row of two: a spurious zero is ranked *)
Example C37_exact_example : (a <- Matrix_of_vecs [[5; 7]] ;; b <- Matrix_of_vecs [[3]] ;;
  findRank z_arith (fold_right ins []) a b) = Ok [(1, (0, Alpha)); (2, (3, Beta)); (3, (5, Alpha))].
Proof. vm_compute. reflexivity. Qed.
