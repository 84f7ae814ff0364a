(** * Lining up atoms and the transfer integral: where undefined behaviour can come from *)
From Verif Require Export MemFacts MainSafeSpec.
From Verif Require Export StrFacts.
Open Scope Z_scope.

(** ** matching *)
Section Match.
Context {T : Type} (zero : T) (lab : T -> str).
Lemma vecs_denotes (v0 : list T) vv m : Z.of_nat (length (v0 :: vv)) <= INT_MAX -> Matrix_of_vecs (v0 :: vv) = Ok m ->
  Forall (fun v => length v = length v0) (v0 :: vv) /\
  denotes m (Z.of_nat (length (v0 :: vv))) (Z.of_nat (length v0)) 1 (fun r j _ => nth (Z.to_nat (j - 1)) (nth (Z.to_nat (r - 1)) (v0 :: vv) []) zero).
Proof.
  intros Hn E. set (n := Z.of_nat (length (v0 :: vv))) in *. set (c := Z.of_nat (length v0)).
  assert (H1 : 1 <= n) by (unfold n; cbn [length]; lia). assert (Hc : 0 <= c) by (unfold c; lia).
  destruct (Z.le_gt_cases (n * c) INT_MAX) as [B|B].
  - assert (c <= INT_MAX) by nia.
    destruct (Forall_dec (fun v : list T => Z.of_nat (length v) = c) (fun v => Z.eq_dec _ _) (v0 :: vv)) as [F|F].
    + destruct (Matrix_of_vecs_ok zero v0 vv c) as (m' & E' & D); auto. rewrite E in E'. injection E' as <-. split; [|exact D]. eapply Forall_impl; [|exact F]. cbv beta. unfold c. intros. lia.
    + rewrite Matrix_of_vecs_ragged in E; [discriminate|auto..].
  - unfold Matrix_of_vecs in E. unfold vat in E; cbn [nth_error Z.ltb Z.compare Z.to_nat bind] in E. fold n c in E. unfold imul, ichk, is_intb in E. destruct (Z.leb_spec (n * c) INT_MAX); [lia|]. rewrite andb_false_r in E. discriminate.
Qed.
Lemma good_match U c1 c2 m1 m2 : (length c1 <= 3)%nat -> (length c2 <= 3)%nat -> Matrix_of_vecs c1 = Ok m1 -> Matrix_of_vecs c2 = Ok m2 ->
  good U (fun w => length w = atoms c1 /\ forall i e, nth_error w i = Some e -> 1 <= e <= Z.of_nat (atoms c2) \/ ~ counterpart lab c1 c2 i) (matchCol lab str_eqb m1 m2).
Proof.
  intros L1 L2 E1 E2. destruct c1 as [|v1 c1]; [discriminate|]. destruct c2 as [|v2 c2]; [discriminate|].
  apply vecs_denotes in E1 as [F1 D1]; [|change INT_MAX with 2147483647; lia]. apply vecs_denotes in E2 as [F2 D2]; [|change INT_MAX with 2147483647; lia].
  destruct (Nat.eq_dec (length (v1 :: c1)) (length (v2 :: c2))) as [El|Nl].
  - rewrite <- El in D2. destruct (matchCol_ok lab str_eqb m1 m2 _ _ _ _ _ D1 D2) as (w & -> & Lw & Hw). cbn [good]. change (atoms (v1 :: c1)) with (length v1). change (atoms (v2 :: c2)) with (length v2). split; [lia|].
    intros i e Hi. assert (Il : (i < length w)%nat) by (apply nth_error_Some; congruence). destruct (Hw (Z.of_nat i + 1)) as (e' & He & Lm); [lia|].
    replace (Z.to_nat (Z.of_nat i + 1 - 1)) with i in He by lia. rewrite Hi in He. injection He as <-. destruct Lm as [[-> No]|[Hr _]]; [right|left; lia].
    intros (k & Hk & Pl). change (atoms (v2 :: c2)) with (length v2) in Hk. apply (No (Z.of_nat k + 1)); [lia|]. intros j Hj. apply str_eqb_eq.
    replace (Z.to_nat (Z.of_nat k + 1 - 1)) with k by lia. replace (Z.to_nat (Z.of_nat i + 1 - 1)) with i by lia. set (j' := Z.to_nat (j - 1)).
    assert (Hj' : (j' < length (v1 :: c1))%nat) by (unfold j'; lia).
    assert (P : nth j' (place_of lab (v1 :: c1) i) None = nth j' (place_of lab (v2 :: c2) k) None) by congruence. unfold place_of in P.
    rewrite (nth_indep _ None (option_map lab (nth_error [] i))) in P by (rewrite map_length; auto). rewrite (nth_indep _ None (option_map lab (nth_error [] k))) in P by (rewrite map_length; lia).
    rewrite (map_nth (fun axis => option_map lab (nth_error axis i))), (map_nth (fun axis => option_map lab (nth_error axis k))) in P.
    assert (A1 : length (nth j' (v1 :: c1) []) = length v1) by (rewrite Forall_forall in F1; apply F1; apply nth_In; auto).
    assert (A2 : length (nth j' (v2 :: c2) []) = length v2) by (rewrite Forall_forall in F2; apply F2; apply nth_In; lia).
    rewrite (nth_error_nth' _ zero) in P by lia. rewrite (nth_error_nth' _ zero) in P by lia. cbn [option_map] in P. congruence.
  - unfold matchCol. pose proof D1 as (_ & R1 & _ & S1 & _). pose proof D2 as (_ & R2 & _ & S2 & _). rewrite R1, R2, S1, S2. cbn [Z.eqb Pos.eqb negb orb]. destruct (Z.eqb_spec (Z.of_nat (length (v2 :: c2))) (Z.of_nat (length (v1 :: c1)))); [lia|exact I].
Qed.
End Match.

(** ** swap lists *)
Section Swap.
Context (U : ubkind -> Prop).
Definition within (n : Z) (p : Z * Z) : Prop := 1 <= fst p <= n /\ 1 <= snd p <= n.
(** every pair is inside, unless a bad iterator does not matter *)
Definition may (n : Z) (l : list (Z * Z)) : Prop := U BadIterator \/ Forall (within n) l.
Lemma Forall_upd {X} (P : X -> Prop) l k x : Forall P l -> P x -> Forall P (upd l k x).
Proof. intros F Hx. revert k. induction F; intros [|k]; cbn [upd]; constructor; auto. Qed.
Lemma retarget_may n fuel was is : (U BadIterator \/ 1 <= is <= n) -> forall l pos, may n l -> good U (fun l' => may n l' /\ length l' = length l) (retarget fuel was is l pos).
Proof.
  intros Hi. induction fuel as [|k IH]; intros l pos M; cbn [retarget]; [exact I|]. destruct (_ =? _)%nat; [cbn [good]; auto|]. cbv zeta.
  destruct (nth_error l (find_second was l pos)) as [p|] eqn:E; [|apply IH; auto]. eapply good_weak; [apply IH|].
  - destruct M as [M|M]; [left; auto|]. destruct Hi as [Hi|Hi]; [left; auto|]. right. apply Forall_upd; [auto|]. apply nth_error_In in E. rewrite Forall_forall in M. apply M in E as [E1 E2]. split; cbn [fst snd]; auto.
  - intros l' [M' L']. rewrite upd_len in L'. auto.
Qed.
Lemma pair_may n l i : may n l -> 1 <= i <= Z.of_nat (length l) -> good U (fun p => U BadIterator \/ within n p) (pair_at l i).
Proof.
  intros M Hi. unfold pair_at. destruct (nth_error l _) as [p|] eqn:E; cbn [good].
  - destruct M as [M|M]; [auto|]. right. rewrite Forall_forall in M. apply M. eapply nth_error_In; eauto.
  - apply nth_error_None in E. lia.
Qed.
Lemma snd_may n (p : Z * Z) : U BadIterator \/ within n p -> U BadIterator \/ 1 <= snd p <= n. Proof. intros [?|[? ?]]; auto. Qed.
Lemma refresh1_may n fuel l : may n l -> good U (may n) (refreshSwapOrder1 fuel l).
Proof.
  intros M. unfold refreshSwapOrder1. eapply good_weak; [apply (good_up U (fun l' => may n l' /\ length l' = length l))|].
  - auto.
  - intros i l' Hi [M' L']. eapply good_bind; [apply (pair_may n); [eauto|lia]|]. intros p Hp. eapply good_weak; [apply (retarget_may n); [eapply snd_may; eauto|auto]|]. intros l2 [M2 L2]. split; [auto|lia].
  - intros l' [M' _]. auto.
Qed.
Lemma refresh2_may n fuel B A : may n B -> may n A -> good U (fun BA => may n (fst BA) /\ may n (snd BA)) (refreshSwapOrder2 fuel B A).
Proof.
  intros MB MA. unfold refreshSwapOrder2. eapply good_bind.
  - apply (good_up U (fun s => (may n (fst s) /\ length (fst s) = length B) /\ may n (snd s))); [cbn [fst snd]; auto|].
    intros i s Hi [[M1 L1] M2]. eapply good_bind; [apply (pair_may n); [eauto|lia]|]. intros p Hp. eapply good_bind; [apply (retarget_may n); [eapply snd_may; eauto|eauto]|]. intros b [Mb Lb].
    eapply good_bind; [apply (retarget_may n); [eapply snd_may; eauto|eauto]|]. intros x [Mx Lx]. cbn [good fst snd]. split; [split; [auto|lia]|auto].
  - intros s [[M1 _] M2]. eapply good_bind.
    + apply (good_up U (fun l' => may n l' /\ length l' = length (snd s))); [auto|]. intros i l' Hi [M' L']. eapply good_bind; [apply (pair_may n); [eauto|lia]|]. intros p Hp. destruct (_ =? _); [cbn [good]; auto|].
      eapply good_weak; [apply (retarget_may n); [eapply snd_may; eauto|auto]|]. intros l2 [Ml Ll]. split; [auto|lia].
    + intros l' [M' _]. cbn [good fst snd]. auto.
Qed.
Lemma list_at_good {X} (P : X -> Prop) (l : list X) k : (U BadIterator \/ 1 <= k <= Z.of_nat (length l)) -> Forall P l -> good U P (list_at l k).
Proof.
  intros H F. unfold list_at. destruct (Z.ltb_spec k 1) as [K|K]; [destruct H as [H|H]; [exact H|lia]|]. destruct (nth_error l _) as [x|] eqn:E; cbn [good].
  - rewrite Forall_forall in F. apply F. eapply nth_error_In; eauto.
  - apply nth_error_None in E. destruct H as [H|H]; [exact H|lia].
Qed.
Lemma list_put_good {X} (P : X -> Prop) (l : list X) k x : (U BadIterator \/ 1 <= k <= Z.of_nat (length l)) -> Forall P l -> P x -> good U (fun l' => Forall P l' /\ length l' = length l) (list_put l k x).
Proof. intros H F Px. unfold list_put. eapply good_bind; [apply (list_at_good P); auto|]. intros y _. cbn [good]. rewrite upd_len. auto using Forall_upd. Qed.
Lemma swap_good {X} (P : X -> Prop) p (l : list X) : (U BadIterator \/ within (Z.of_nat (length l)) p) -> Forall P l -> good U (fun l' => Forall P l' /\ length l' = length l) (swap_blocks p l).
Proof.
  intros H F. unfold swap_blocks. destruct (_ =? _); [cbn [good]; auto|].
  assert (H1 : U BadIterator \/ 1 <= fst p <= Z.of_nat (length l)) by (destruct H as [?|[? ?]]; auto). assert (H2 : U BadIterator \/ 1 <= snd p <= Z.of_nat (length l)) by (destruct H as [?|[? ?]]; auto).
  eapply good_bind; [apply (list_at_good P); auto|]. intros t Pt. eapply good_bind; [apply (list_at_good P); auto|]. intros y Py. eapply good_bind; [apply (list_put_good P); auto|].
  intros l1 [F1 L1]. eapply good_weak; [apply (list_put_good P); auto; rewrite L1; auto|]. intros l2 [F2 L2]. split; [auto|lia].
Qed.
Lemma swaps_good {X} (P : X -> Prop) ps n : may n ps -> forall l : list X, n <= Z.of_nat (length l) -> Forall P l -> good U (fun l' => Forall P l' /\ length l' = length l) (for_each ps swap_blocks l).
Proof.
  intros M l Hn F. apply (good_each U (fun l' => Forall P l' /\ length l' = length l)); [auto|]. intros p l' Ip [F' L']. eapply good_weak; [apply (swap_good P); auto|].
  - destruct M as [M|M]; [auto|]. right. rewrite Forall_forall in M. apply M in Ip as [A B]. rewrite L'. split; lia.
  - intros l2 [F2 L2]. split; [auto|lia].
Qed.
Lemma number_may n m : forall k, (U BadIterator \/ (1 <= k /\ k + Z.of_nat (length m) - 1 <= n /\ Forall (fun e => 1 <= e <= n) m)) -> may n (number_from k m).
Proof.
  induction m as [|e m IH]; intros k H; cbn [number_from]; [right; constructor|]. destruct H as [H|(H1 & H2 & F)]; [left; auto|]. inversion F; subst. cbn [length] in H2.
  destruct (IH (k + 1)) as [M|M]; [right; split; [lia|]; split; [lia|auto]|left; auto|right]. constructor; [split; cbn [fst snd]; lia|auto].
Qed.
End Swap.

(** ** qc_functions *)
Section Qc.
Context {T : Type} (A : arith T) (U : ubkind -> Prop).
Notation zero := (a_zero A).
(** at most 46340 rows and columns, unless an overflow does not matter *)
Definition fs (m : mat T) : Prop := full m /\ (U SignedOverflow \/ (rows m <= 46340 /\ cols m <= 46340)).
Definition few (d : list Z) : Prop := U SignedOverflow \/ (Forall (fun k => k <= 46340) d /\ Z.of_nat (length d) <= 46340).
Lemma good_split d (m : mat T) tag : fs m -> few d -> good U (fun l => Forall fs l /\ length l = length d) (splitMatrixIntoList zero d m tag).
Proof.
  intros [F Fm] Hd. pose proof F as (R0 & C0 & _).
  set (inv := fun s : Z * list (mat T) => Forall fs (snd s) /\ (U SignedOverflow \/ 0 <= fst s <= 46340 * Z.of_nat (length (snd s)))).
  assert (G : forall body : Z -> Z * list (mat T) -> outcome (Z * list (mat T)), (forall i s, inv s -> (length (snd s) < length d)%nat -> good U (fun s' => inv s' /\ length (snd s') = S (length (snd s))) (body i s)) ->
    good U (fun s => Forall fs (snd s) /\ length (snd s) = length d) (for_up 1 (Z.of_nat (length d)) body (0, []))).
  { intros body Hb. unfold for_up. replace (Z.to_nat (Z.of_nat (length d) - 1 + 1)) with (length d) by lia.
    assert (K : forall n lo s, inv s -> (length (snd s) + n = length d)%nat -> good U (fun s' => Forall fs (snd s') /\ length (snd s') = length d) (for_n n lo body s)).
    { induction n as [|n IH]; intros lo s Is Ls; cbn [for_n]; [cbn [good]; split; [apply Is|lia]|]. eapply good_bind; [apply Hb; [auto|lia]|]. intros s' [Is' Ls']. apply IH; [auto|lia]. }
    apply K; [split; [constructor|right; cbn; lia]|reflexivity]. }
  assert (Hk : forall k, In k d -> U SignedOverflow \/ k <= 46340). { intros k Ik. destruct Hd as [Hd|[Hd _]]; [auto|right]. rewrite Forall_forall in Hd. auto. }
  assert (Hl : forall s : Z * list (mat T), inv s -> (length (snd s) < length d)%nat -> U SignedOverflow \/ (0 <= fst s <= 46340 * Z.of_nat (length (snd s)) /\ Z.of_nat (length (snd s)) + 1 <= 46340)).
  { intros s [_ [Is|Is]] L; [auto|]. destruct Hd as [Hd|[_ Hd]]; [auto|right; lia]. }
  unfold splitMatrixIntoList. destruct (str_eqb _ _); [|destruct (str_eqb _ _); [|exact I]].
  - eapply good_bind; [apply G|intros s Hs; exact Hs]. intros i s Is Ls. specialize (Hl s Is Ls). eapply good_bind; [apply good_vat|]. intros k Ik. specialize (Hk k Ik). eapply good_bind; [apply good_new2|].
    { destruct Hk as [Hk|Hk]; [auto|]. destruct Fm as [Fm|Fm]; [auto|]. right. change INT_MAX with 2147483647. nia. }
    intros n Fn. assert (K0 : 0 <= k) by (destruct Fn as ((_ & N0 & _) & _ & <-); exact N0). eapply good_bind with (P := sized (rows m) k).
    + apply good_up; [auto|]. intros i1 n1 _ F1. apply good_up; [auto|]. intros j n2 Hj F2. eapply good_bind; [apply good_iadd|].
      { destruct Hk as [Hk|Hk]; [auto|]. destruct Hl as [Hl|Hl]; [auto|]. right. unfold is_int. change INT_MIN with (-2147483648). change INT_MAX with 2147483647. lia. }
      intros c _. eapply good_bind; [apply good_get2; auto|]; intros; apply good_set2; auto.
    + intros n' (Fn' & Rn & Cn). eapply good_bind; [apply good_iadd|].
      { destruct Hk as [Hk|Hk]; [auto|]. destruct Hl as [Hl|Hl]; [auto|]. right. unfold is_int. change INT_MIN with (-2147483648). change INT_MAX with 2147483647. lia. }
      intros c ->. cbn [good fst snd]. rewrite app_length. cbn [length]. split; [|lia]. split; cbn [fst snd].
      * apply Forall_app. split; [apply Is|]. constructor; [|constructor]. split; [auto|]. rewrite Rn, Cn. destruct Fm; [auto|]. destruct Hk; [auto|right; lia].
      * destruct Hk as [Hk|Hk]; [auto|]. destruct Hl as [Hl|Hl]; [auto|]. right. rewrite app_length. cbn [length]. lia.
  - eapply good_bind; [apply G|intros s Hs; exact Hs]. intros i s Is Ls. specialize (Hl s Is Ls). eapply good_bind; [apply good_vat|]. intros k Ik. specialize (Hk k Ik). eapply good_bind; [apply good_new2|].
    { destruct Hk as [Hk|Hk]; [auto|]. destruct Fm as [Fm|Fm]; [auto|]. right. change INT_MAX with 2147483647. nia. }
    intros n Fn. assert (K0 : 0 <= k) by (destruct Fn as ((N0 & _) & <- & _); exact N0). eapply good_bind with (P := sized k (cols m)).
    + apply good_up; [auto|]. intros i1 n1 _ F1. apply good_up; [auto|]. intros j n2 Hj F2. eapply good_bind; [apply good_iadd|].
      { destruct Hk as [Hk|Hk]; [auto|]. destruct Hl as [Hl|Hl]; [auto|]. right. unfold is_int. change INT_MIN with (-2147483648). change INT_MAX with 2147483647. lia. }
      intros c _. eapply good_bind; [apply good_get2; auto|]; intros; apply good_set2; auto.
    + intros n' (Fn' & Rn & Cn). eapply good_bind; [apply good_iadd|].
      { destruct Hk as [Hk|Hk]; [auto|]. destruct Hl as [Hl|Hl]; [auto|]. right. unfold is_int. change INT_MIN with (-2147483648). change INT_MAX with 2147483647. lia. }
      intros c ->. cbn [good fst snd]. rewrite app_length. cbn [length]. split; [|lia]. split; cbn [fst snd].
      * apply Forall_app. split; [apply Is|]. constructor; [|constructor]. split; [auto|]. rewrite Rn, Cn. destruct Fm; [auto|]. destruct Hk; [auto|right; lia].
      * destruct Hk as [Hk|Hk]; [auto|]. destruct Hl as [Hl|Hl]; [auto|]. right. rewrite app_length. cbn [length]. lia.
Qed.
Lemma good_merge l R C tag : Forall fs l -> (U SignedOverflow \/ (R <= 46340 /\ C <= 46340)) -> R * C <= INT_MAX -> good U (sized R C) (mergeListOfMatrices zero l R C tag).
Proof.
  intros F HD HM. rewrite Forall_forall in F. unfold mergeListOfMatrices. eapply good_bind; [apply good_new2; auto|]. intros m Fm.
  set (inv := fun s : Z * mat T => sized R C (snd s) /\ (U SignedOverflow \/ 0 <= fst s)). assert (I0 : inv (0, m)) by (split; [exact Fm|right; cbn; lia]).
  destruct (str_eqb _ _); [|destruct (str_eqb _ _); [|exact I]].
  - eapply good_bind with (P := inv); [|intros s Hs; apply Hs]. apply good_each; [exact I0|]. intros b s Ib [Fs Is]. apply F in Ib as [Fb Db]. pose proof Fb as (Rb & Cb & _).
    destruct (Z.ltb_spec C (fst s)) as [Lc|Lc]; [exact I|].
    assert (K : forall j, j <= cols b -> 0 <= j -> U SignedOverflow \/ is_int (j + fst s)).
    { intros j Hj J0. destruct HD; [auto|]. destruct Is; [auto|]. destruct Db; [auto|]. right. unfold is_int. change INT_MIN with (-2147483648). change INT_MAX with 2147483647. lia. }
    eapply good_bind with (P := sized R C).
    + apply good_up; [auto|]. intros i t _ Ft. destruct (_ <? _); [exact I|]. apply good_up; [auto|]. intros j t2 Hj Ft2. eapply good_bind; [apply good_get2; auto|]. intros v _.
      eapply good_bind; [apply good_iadd; apply K; lia|]. intros; apply good_set2; auto.
    + intros m' Fm'. eapply good_bind; [apply good_iadd; rewrite Z.add_comm; apply K; lia|]. intros c ->. split; [exact Fm'|]. cbn [fst]. destruct Is; [auto|right; lia].
  - eapply good_bind with (P := inv); [|intros s Hs; apply Hs]. apply good_each; [exact I0|]. intros b s Ib [Fs Is]. apply F in Ib as [Fb Db]. pose proof Fb as (Rb & Cb & _).
    destruct (Z.ltb_spec R (fst s)) as [Lc|Lc]; [exact I|].
    assert (K : forall j, j <= rows b -> 0 <= j -> U SignedOverflow \/ is_int (fst s + j)).
    { intros j Hj J0. destruct HD; [auto|]. destruct Is; [auto|]. destruct Db; [auto|]. right. unfold is_int. change INT_MIN with (-2147483648). change INT_MAX with 2147483647. lia. }
    eapply good_bind with (P := sized R C).
    + apply good_up; [auto|]. intros i t _ Ft. destruct (_ <? _); [exact I|]. apply good_up; [auto|]. intros j t2 Hj Ft2. eapply good_bind; [apply good_get2; auto|]. intros v _.
      eapply good_bind; [apply good_iadd; apply K; lia|]. intros; apply good_set2; auto.
    + intros m' Fm'. eapply good_bind; [apply good_iadd; apply K; lia|]. intros c ->. split; [exact Fm'|]. cbn [fst]. destruct Is; [auto|right; lia].
Qed.
Definition inside_all (n : Z) (w : list Z) : Prop := Forall (fun e => 1 <= e <= n) w.
Lemma like_fs (m m' : mat T) : fs m -> sized (rows m) (cols m) m' -> fs m'. Proof. intros [_ H] (F & Hr & Hc). split; [exact F|]. rewrite Hr, Hc. exact H. Qed.
Lemma good_u2 fuel mA mB basis (m : mat T) tag : fs m -> few basis ->
  (U BadIterator \/ (Z.of_nat (length mA + length mB) <= Z.of_nat (length basis) /\ inside_all (Z.of_nat (length basis)) mA /\ inside_all (Z.of_nat (length basis)) mB)) ->
  good U fs (unscramble2 zero fuel mA mB basis m tag).
Proof.
  intros F Hb H. unfold unscramble2, splitCoefsUpByAtoms, createNewMatrix. eapply good_bind; [apply good_split; auto|]. intros l [Fl Ll]. eapply good_bind.
  - apply (refresh2_may U (Z.of_nat (length basis))); unfold pairsB, pairsA; apply number_may; (destruct H as [H|(H1 & H2 & H3)]; [auto|right]); (split; [lia|]; split; [lia|auto]).
  - intros BA [M1 M2]. unfold updateSwapLists2. eapply good_bind with (P := fun l' => Forall fs l').
    + eapply good_bind; [eapply (swaps_good U fs); [exact M1|lia|auto]|]. intros l1 [F1 L1]. eapply good_weak; [eapply (swaps_good U fs); [exact M2|lia|auto]|]. intros ? [? _]; auto.
    + intros l2 F2. eapply good_weak; [apply good_merge; [auto|apply F|apply F]|]. intros m'. apply like_fs; auto.
Qed.
Lemma good_u1 fuel mA basis (m : mat T) tag : fs m -> few basis -> (U BadIterator \/ (Z.of_nat (length mA) <= Z.of_nat (length basis) /\ inside_all (Z.of_nat (length basis)) mA)) ->
  good U fs (unscramble1 zero fuel mA basis m tag).
Proof.
  intros F Hb H. unfold unscramble1, splitCoefsUpByAtoms, createNewMatrix. eapply good_bind; [apply good_split; auto|]. intros l [Fl Ll]. eapply good_bind.
  - apply (refresh1_may U (Z.of_nat (length basis))); unfold pairsA; apply number_may; (destruct H as [H|(H1 & H2)]; [auto|right]); (split; [lia|]; split; [lia|auto]).
  - intros a M1. unfold updateSwapLists1. eapply good_bind; [eapply (swaps_good U fs); [exact M1|lia|auto]|]. intros l2 [F2 _]. eapply good_weak; [apply good_merge; [auto|apply F|apply F]|]. intros m'. apply like_fs; auto.
Qed.
Lemma good_transfer {R} (f : T -> T -> T -> T -> R) m1 m2 P S0 OE cp : fs m1 -> rows m1 = 1 -> fs m2 -> rows m2 = 1 -> fs P -> fs S0 -> fs OE -> good U any (transfer_with A f m1 m2 P S0 OE cp).
Proof.
  intros [F1 D1] W1 [F2 D2] W2 [FP DP] [FS DS] [FO DO]. unfold transfer_with.
  eapply good_bind; [apply good_invert; auto|intros m1i (G1 & R1 & C1)]. eapply good_bind; [apply good_invert; auto|intros m2i (G2 & R2 & C2)]. eapply good_bind; [apply good_invert; auto|intros Pi (GP & RP & CP)].
  eapply good_bind; [apply good_new0; auto|intros zA0 (fa & Da)]. eapply good_bind; [apply good_new0; auto|intros zB0 (fb & Db)].
  rewrite W1 in C1. rewrite W2 in C2.
  eapply good_bind with (P := fun zz => (full (fst zz) /\ cols (fst zz) = 1) /\ (full (snd zz) /\ cols (snd zz) = 1)).
  - destruct cp.
    + eapply good_bind; [eapply good_assign; eauto|intros zA (? & ? & ?)]. eapply good_bind; [eapply good_assign; eauto|intros zB (? & ? & ?)]. cbn [good fst snd]. split; split; auto; congruence.
    + assert (S1 : shel m1i = 1) by (pose proof G1 as (_ & _ & S1 & _); exact S1). assert (S2 : shel m2i = 1) by (pose proof G2 as (_ & _ & S2 & _); exact S2). rewrite S1, S2.
      eapply good_bind; [apply good_new3; right; rewrite Z.mul_1_r, R1; apply F1|intros za (? & Ra & Ca)]. eapply good_bind; [apply good_new3; right; rewrite Z.mul_1_r, R2; apply F2|intros zb (? & Rb & Cb)].
      eapply good_bind; [apply good_cat; auto|intros ca [? Cc]]. { rewrite Rb, R1, R2, C1. destruct D1; [auto|]. destruct D2; [auto|]. right. change INT_MAX with 2147483647. lia. }
      eapply good_bind; [eapply good_assign; eauto|intros zA (? & ? & ?)].
      eapply good_bind; [apply good_cat; auto|intros cb [? Cd]]. { rewrite Ra, R1, R2, Ca. destruct D1; [auto|]. destruct D2; [auto|]. right. change INT_MAX with 2147483647. lia. }
      eapply good_bind; [eapply good_assign; eauto|intros zB (? & ? & ?)]. cbn [good fst snd].
      split; (split; [auto|]); [destruct Cc; congruence|destruct Cd; congruence].
  - intros zz [[HA CA] [HB CB]].
    assert (LP : U SignedOverflow \/ rows P <= 46340) by tauto. assert (LS : U SignedOverflow \/ rows S0 <= 46340) by tauto.
    pose proof FP as (RP0 & _). pose proof FS as (RS0 & _).
    eapply good_bind; [apply good_invert; auto|intros zAi (Ga & Ra & _)]. eapply good_bind; [apply good_invert; auto|intros zBi (Gb & Rb & _)]. rewrite CA in Ra. rewrite CB in Rb.
    eapply good_bind; [apply good_mul; [|auto..]|intros In (GI & _ & CI)]. { rewrite CP. destruct LP; [auto|]. destruct LS; [auto|]. right. change INT_MAX with 2147483647. nia. }
    rewrite CP in CI. assert (L1 : U SignedOverflow \/ 1 * rows P <= INT_MAX). { destruct LP; [auto|right]. change INT_MAX with 2147483647. lia. }
    eapply good_bind; [apply good_mul; [|auto..]|intros gA (GA & RA & CgA)]. { rewrite Ra, CI. exact L1. }
    eapply good_bind; [apply good_mul; [|auto..]|intros gB (GB & RB & CgB)]. { rewrite Rb, CI. exact L1. }
    rewrite Ra in RA. rewrite Rb in RB. rewrite CI in CgA, CgB.
    eapply good_bind; [apply good_invert; auto|intros gAi (GAi & RAi & CAi)]. eapply good_bind; [apply good_invert; auto|intros gBi (GBi & RBi & CBi)]. rewrite RA in CAi. rewrite RB in CBi. rewrite CgA in RAi. rewrite CgB in RBi.
    assert (M11 : 1 * 1 <= INT_MAX) by (change INT_MAX with 2147483647; lia).
    eapply good_bind; [apply good_mul; [rewrite RB, CAi; auto|auto..]|intros SAB (GSAB & _)].
    pose proof FO as (RO0 & CO0 & _).
    eapply good_bind; [apply good_diag; [auto|]|intros En (GE & RE & CE)]. { destruct DO; [auto|right]. change INT_MAX with 2147483647. nia. }
    assert (LE : U SignedOverflow \/ rows En * 1 <= INT_MAX). { destruct DO; [auto|right]. change INT_MAX with 2147483647. lia. }
    eapply good_bind; [apply good_mul; [rewrite CAi; exact LE|auto..]|intros EgA (GEA & _ & CEA)]. rewrite CAi in CEA.
    eapply good_bind; [apply good_mul; [rewrite RB, CEA; auto|auto..]|intros JAB (GJ & _)].
    eapply good_bind; [apply good_mul; [rewrite CBi; exact LE|auto..]|intros EgB (GEB & _ & CEB)]. rewrite CBi in CEB.
    eapply good_bind; [apply good_mul; [rewrite RB, CEB; auto|auto..]|intros eB (GeB & _)].
    eapply good_bind; [apply good_mul; [rewrite CAi; exact LE|auto..]|intros EgA' (GEA' & _ & CEA')]. rewrite CAi in CEA'.
    eapply good_bind; [apply good_mul; [rewrite RA, CEA'; auto|auto..]|intros eA (GeA & _)].
    do 4 (eapply good_bind; [apply good_get2; auto|intros ? ?]).
    exact I.
Qed.
(** number of orbitals and of the HOMO *)
Definition counted (o : Z * Z) : Prop := U SignedOverflow \/ (0 <= snd o <= fst o /\ fst o <= INT_MAX).
Lemma good_select m c0 f orbs ty MO : full m -> counted orbs -> denotes c0 1 1 1 f -> good U (sized 1 (cols m)) (select_row A m c0 orbs ty MO).
Proof.
  intros F Ho D. unfold select_row. destruct (str_eqb _ _); [|destruct (str_eqb _ _); [|exact I]];
    [destruct (Z.ltb_spec 0 MO) as [H0|H0]|destruct (Z.ltb_spec MO 0) as [H0|H0]]; try exact I.
  - eapply good_bind; [apply good_imul|intros neg ->]. { destruct Ho as [Ho|Ho]; [auto|right]. unfold is_int in *. change INT_MIN with (-2147483648) in *. change INT_MAX with 2147483647 in *. lia. }
    destruct (Z.leb_spec MO (-1 * snd orbs)) as [L|L]; [exact I|].
    eapply good_bind; [apply good_iadd|intros r _]. { destruct Ho as [Ho|Ho]; [auto|right]. unfold is_int in *. change INT_MIN with (-2147483648) in *. change INT_MAX with 2147483647 in *. lia. }
    eapply good_bind; [apply good_getRow; auto|intros row (Fr & Rr & Cr)]. eapply good_weak; [eapply good_assign; eauto|]. intros x. rewrite Rr, Cr. auto.
  - eapply good_bind; [apply good_isub|intros al ->]. { destruct Ho as [Ho|Ho]; [auto|right]. unfold is_int in *. change INT_MIN with (-2147483648) in *. change INT_MAX with 2147483647 in *. lia. }
    destruct (Z.leb_spec (fst orbs - snd orbs) MO) as [L|L]; [exact I|].
    assert (K : U SignedOverflow \/ (is_int (snd orbs + MO) /\ is_int (snd orbs + MO + 1))).
    { destruct Ho as [Ho|Ho]; [auto|right]. unfold is_int in *. change INT_MIN with (-2147483648) in *. change INT_MAX with 2147483647 in *. lia. }
    eapply good_bind; [apply good_iadd; tauto|intros r0 ->]. eapply good_bind; [apply good_iadd; tauto|intros r _].
    eapply good_bind; [apply good_getRow; auto|intros row (Fr & Rr & Cr)]. eapply good_weak; [eapply good_assign; eauto|]. intros x. rewrite Rr, Cr. auto.
Qed.
Lemma good_map_at {V} (m : list (str * V)) k : good U any (map_at m k).
Proof. induction m as [|[? ?] m IH]; cbn [map_at]; [exact I|]. destruct (str_eqb _ _); [exact I|auto]. Qed.
Definition full_tc (tc : TC (T:=T)) : Prop := fs (tc_1 tc) /\ fs (tc_2 tc) /\ fs (tc_P tc) /\ fs (tc_S tc) /\ fs (tc_OE tc) /\ counted (tc_orbs1 tc) /\ counted (tc_orbs2 tc).
Lemma row_fs (m r : mat T) : fs m -> sized 1 (cols m) r -> fs r /\ rows r = 1.
Proof. intros [_ H] (F & Hr & Hc). split; [|exact Hr]. split; [exact F|]. rewrite Hr, Hc. destruct H; [auto|right; lia]. Qed.
Lemma good_calcJ {R} (f : T -> T -> T -> T -> R) tc ot on : full_tc tc -> good U any (calcJ_with A f tc ot on).
Proof.
  intros (F1 & F2 & FP & FS & FO & N1 & N2). unfold calcJ_with. eapply good_bind; [apply good_new0; auto|intros c1 (f1 & D1)]. eapply good_bind; [apply good_new0; auto|intros c2 (f2 & D2)].
  eapply good_bind; [apply good_map_at|intros ? _]. eapply good_bind; [apply good_map_at|intros ? _]. eapply good_bind; [eapply good_select; [apply F1|eauto..]|intros r1 H1]. apply (row_fs _ _ F1) in H1 as [? ?].
  eapply good_bind; [apply good_map_at|intros ? _]. eapply good_bind; [apply good_map_at|intros ? _]. eapply good_bind; [eapply good_select; [apply F2|eauto..]|intros r2 H2]. apply (row_fs _ _ F2) in H2 as [? ?]. apply good_transfer; auto.
Qed.
Lemma good_complex m1 m2 P o1 o2 S0 OE cp : fs m1 -> fs m2 -> fs P -> fs S0 -> fs OE -> counted o1 -> counted o2 -> good U (fun tc => full_tc tc /\ tc_cp tc = cp) (TransferComplex m1 m2 P o1 o2 S0 OE cp).
Proof.
  intros [F1 D1] [F2 D2] HP HS HO N1 N2. unfold TransferComplex. destruct (negb _); [exact I|]. eapply good_bind with (P := any).
  - destruct cp; [do 2 (destruct (negb _); [exact I|]); exact I|]. pose proof F1 as (_ & C1 & _). pose proof F2 as (_ & C2 & _). eapply good_bind; [apply good_iadd|intros ? _; destruct (_ <? _); exact I].
    destruct D1; [auto|]. destruct D2; [auto|]. right. unfold is_int. change INT_MIN with (-2147483648). change INT_MAX with 2147483647. lia.
  - intros _ _. cbn [good]. unfold full_tc. cbn. split; [|reflexivity]. split; [split; assumption|]. split; [split; assumption|]. auto.
Qed.
End Qc.
