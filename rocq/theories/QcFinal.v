(** * Final forms of the facts about qc_functions.cpp *)
From Coq Require Import Permutation Sorted.
From Verif Require Export QcOrder QcExact.
From Verif Require Import MatrixFacts MatrixCtor MatrixOps MatrixOps2 MatrixFinal.
Open Scope Z_scope.

Lemma in_range_length (l : list Z) (n : nat) : NoDup l -> Forall (fun x => 1 <= x <= Z.of_nat n) l -> (length l <= n)%nat.
Proof.
  intros Hn HF. assert (H : incl l (map Z.of_nat (seq 1 n))).
  { intros x Hx. rewrite Forall_forall in HF. specialize (HF x Hx). cbn beta in HF. apply in_map_iff. exists (Z.to_nat x).
    split; [lia|]. apply in_seq. lia. }
  pose proof (NoDup_incl_length Hn H) as HL. rewrite map_length, seq_length in HL. exact HL.
Qed.

(** ** Swap order *)
Lemma swaps2 {X} fuel mA mB (L : list X) : NoDup (mA ++ mB) ->
  Forall (fun x => 1 <= x <= Z.of_nat (length L)) (mA ++ mB) -> (length mA + length mB + 2 <= fuel)%nat ->
  exists B A L', refreshSwapOrder2 fuel (pairsB mA mB) (pairsA mA) = Ok (B, A) /\ updateSwapLists2 B A L = Ok L' /\
    length L' = length L /\
    (forall i x, nth_error (mA ++ mB) i = Some x -> nth_error L' i = nth_error L (Z.to_nat (x - 1))) /\
    (forall k, (length mA + length mB <= k)%nat -> ~ In (Z.of_nat k + 1) (mA ++ mB) -> nth_error L' k = nth_error L k).
Proof.
  intros Hn HF Hf. destruct (refresh2_swaps mA mB fuel L) as (B & A & E & E1 & Hpd); auto.
  { apply nodup_no_repeat; auto. }
  pose proof (in_range_length _ _ Hn HF) as Hl. rewrite app_length in Hl.
  destruct (run_pairs2 mA mB L Hpd Hl HF) as (L' & E2 & H1 & H2 & H3).
  exists B, A, L'. rewrite E1. auto.
Qed.

Lemma swaps1 {X} fuel mA (L : list X) : NoDup mA ->
  Forall (fun x => 1 <= x <= Z.of_nat (length L)) mA -> (length mA + 2 <= fuel)%nat ->
  exists A L', refreshSwapOrder1 fuel (pairsA mA) = Ok A /\ updateSwapLists1 A L = Ok L' /\
    length L' = length L /\
    (forall i x, nth_error mA i = Some x -> nth_error L' i = nth_error L (Z.to_nat (x - 1))) /\
    (forall k, (length mA <= k)%nat -> ~ In (Z.of_nat k + 1) mA -> nth_error L' k = nth_error L k).
Proof.
  intros Hn HF Hf. destruct (refresh1_swaps mA fuel L) as (A & E & E1 & Hpd); auto.
  { apply nodup_no_repeat; auto. }
  destruct (run_pairs1 mA L Hpd (in_range_length _ _ Hn HF) HF) as (L' & E2 & H1 & H2 & H3).
  exists A, L'. rewrite E1. auto.
Qed.

(** ** Termination *)
Lemma refresh_terminates2 mA mB fuel : no_repeat (mA ++ mB) -> (length mA + length mB + 2 <= fuel)%nat ->
  exists r, refreshSwapOrder2 fuel (pairsB mA mB) (pairsA mA) = Ok r.
Proof. intros H Hf. destruct (@refresh2_swaps unit mA mB fuel [] H Hf) as (B & A & E & _). eauto. Qed.
Lemma refresh_terminates1 mA fuel : no_repeat mA -> (length mA + 2 <= fuel)%nat ->
  exists r, refreshSwapOrder1 fuel (pairsA mA) = Ok r.
Proof. intros H Hf. destruct (@refresh1_swaps unit mA fuel [] H Hf) as (A & E & _). eauto. Qed.

Lemma upd_same {X} (l : list X) n x : nth_error l n = Some x -> upd l n x = l.
Proof. revert n; induction l as [|y l IH]; intros [|n] H; simpl in *; auto; [congruence|]. rewrite IH; auto. Qed.
Lemma find_second_le w l : forall pos, (find_second w l pos <= length l)%nat.
Proof. induction l as [|p l IH]; intros pos; cbn [find_second length]; [lia|]. destruct pos; [destruct (w =? snd p)|]; pose proof (IH O); try pose proof (IH pos); lia. Qed.
Lemma find_second_hit w l : forall pos h, nth_error l (find_second w l pos) = Some h -> snd h = w.
Proof.
  induction l as [|p l IH]; intros pos h; cbn [find_second]; [discriminate|].
  destruct pos; [destruct (Z.eqb_spec w (snd p))|]; cbn [nth_error]; intros H; eauto. inversion H; subst; auto.
Qed.
Lemma retarget_same w : forall fuel l pos, retarget fuel w w l pos = Ok l \/ retarget fuel w w l pos = NoFuel.
Proof.
  induction fuel as [|fuel IH]; intros l pos; auto. cbn [retarget]. destruct (Nat.eqb pos (length l)); auto. cbv zeta.
  destruct (nth_error l (find_second w l pos)) as [h|] eqn:E; auto.
  assert (Hh : (fst h, w) = h) by (rewrite <- (find_second_hit _ _ _ _ E); destruct h; reflexivity).
  rewrite Hh, upd_same by auto. apply IH.
Qed.

(** the first atom of monomer B is already in place, and an atom of A claims the same place *)
Lemma refresh_diverges2 mA mB' fuel : In (Z.of_nat (length mA) + 1) mA ->
  refreshSwapOrder2 fuel (pairsB mA (Z.of_nat (length mA) + 1 :: mB')) (pairsA mA) = NoFuel.
Proof.
  intros Hin. unfold refreshSwapOrder2, pairsB. cbn [number_from length].
  set (w := Z.of_nat (length mA) + 1) in *. replace (1 + Z.of_nat (length mA)) with w by lia.
  rewrite for_up_step by lia. cbn [fst snd]. unfold pair_at at 1.
  replace (Z.to_nat (1 - 1)) with O by lia. cbn [nth_error bind fst snd].
  destruct (retarget_same w fuel ((w, w) :: number_from (w + 1) mB') (Z.to_nat 1)) as [->| ->]; cbn [bind]; auto.
  rewrite retarget_forever; auto. apply In_nth_error in Hin. destruct Hin as (k & Hk).
  exists (1 + Z.of_nat k, w), k. split; [lia|]. split; auto.
  unfold pairsA. rewrite number_from_nth, Hk. reflexivity.
Qed.

Lemma refresh_diverges1 mA' fuel : In 1 mA' -> refreshSwapOrder1 fuel (pairsA (1 :: mA')) = NoFuel.
Proof.
  intros Hin. unfold refreshSwapOrder1, pairsA. cbn [number_from length].
  rewrite for_up_step by lia. unfold pair_at at 1.
  replace (Z.to_nat (1 - 1)) with O by lia. cbn [nth_error bind fst snd].
  rewrite retarget_forever; auto. apply In_nth_error in Hin. destruct Hin as (k & Hk).
  exists (2 + Z.of_nat k, 1), (S k). split; [lia|]. split; auto. cbn [nth_error].
  change (1 + 1) with 2. rewrite number_from_nth, Hk. reflexivity.
Qed.

(** ** An atom without counterpart *)
Lemma refresh_unmatched2 {X} fuel mA mB (L : list X) : no_repeat (mA ++ mB) ->
  (length mA + length mB + 2 <= fuel)%nat -> (length mA + length mB <= length L)%nat ->
  Forall (fun x => x = -1 \/ 1 <= x <= Z.of_nat (length L)) (mA ++ mB) -> In (-1) (mA ++ mB) ->
  (BA <- refreshSwapOrder2 fuel (pairsB mA mB) (pairsA mA) ;; updateSwapLists2 (fst BA) (snd BA) L) = Undef BadIterator.
Proof.
  intros Hn Hf Hl HF Hin. destruct (refresh2_swaps mA mB fuel L) as (B & A & E & E1 & Hpd); auto.
  rewrite E. cbn [bind fst snd]. rewrite E1. rewrite Forall_forall in HF. apply run_undef; auto.
  - intros p Hp. apply in_app_iff in Hp. destruct Hp as [Hp|Hp]; apply number_from_in in Hp.
    + split; [lia|]. apply HF. apply in_app_iff. right. eapply nth_error_In. apply Hp.
    + split; [lia|]. apply HF. apply in_app_iff. left. eapply nth_error_In. apply Hp.
  - assert (H : In (-1) (map snd (pairsB mA mB ++ pairsA mA))).
    { rewrite map_app. unfold pairsA, pairsB. rewrite !number_from_snd. apply in_app_iff. apply in_app_iff in Hin. tauto. }
    apply in_map_iff in H. destruct H as (p & E2 & Hp). eauto.
Qed.

Lemma refresh_unmatched1 {X} fuel mA (L : list X) : no_repeat mA ->
  (length mA + 2 <= fuel)%nat -> (length mA <= length L)%nat ->
  Forall (fun x => x = -1 \/ 1 <= x <= Z.of_nat (length L)) mA -> In (-1) mA ->
  (A <- refreshSwapOrder1 fuel (pairsA mA) ;; updateSwapLists1 A L) = Undef BadIterator.
Proof.
  intros Hn Hf Hl HF Hin. destruct (refresh1_swaps mA fuel L) as (A & E & E1 & Hpd); auto.
  rewrite E. cbn [bind fst snd]. rewrite E1. rewrite Forall_forall in HF. apply run_undef; auto.
  - intros p Hp. apply number_from_in in Hp. split; [lia|]. apply HF. eapply nth_error_In. apply Hp.
  - assert (H : In (-1) (map snd (pairsA mA))) by (unfold pairsA; rewrite number_from_snd; auto).
    apply in_map_iff in H. destruct H as (p & E2 & Hp). eauto.
Qed.

Section Final.
Context {T : Type}.
Variable zero : T.
Implicit Types (m : mat T).

(** ** Split and merge *)
Lemma round_trip_cols m R C f b : denotes m R C 1 (fun r c _ => f r c) -> 1 <= R -> 1 <= C ->
  Forall (fun n => 1 <= n) b -> total b = C ->
  exists L, splitMatrixIntoList zero b m tagColumns = Ok L /\ length L = length b /\
    (forall k x, nth_error L k = Some x ->
       denotes x R (size_of b (Z.of_nat k + 1)) 1 (fun r j _ => f r (off b (Z.of_nat k + 1) + j))) /\
    mergeListOfMatrices zero L R C tagColumns = Ok m.
Proof.
  intros Hm HR HC Hb Ht. destruct (denotes_dims _ _ _ _ _ Hm) as (_ & HCi & _ & HM).
  destruct (split_cols zero m R C f b Hm HR Hb ltac:(lia)) as (L & E & HF).
  exists L. split; auto. pose proof (F2_length _ _ _ HF) as HL. rewrite cut_length in HL. split; auto. split.
  - intros k x Hk. assert (Hkl : (k < length b)%nat) by (rewrite <- HL; apply nth_error_Some; congruence).
    assert (Hb' : nth_error b k = Some (size_of b (Z.of_nat k + 1))).
    { unfold size_of. replace (Z.to_nat (Z.of_nat k + 1 - 1)) with k by lia. apply nth_error_nth'; auto. }
    pose proof (cut_nth b f 0 k _ Hb') as Hc.
    assert (HN : forall (L' : list (mat T)) D, Forall2 (is_colblock R) L' D -> forall k x d, nth_error L' k = Some x ->
       nth_error D k = Some d -> is_colblock R x d).
    { clear. induction 1; intros [|k] z d; simpl; try discriminate; intros; eauto. congruence. }
    pose proof (HN _ _ HF _ _ _ Hk Hc) as Hd. unfold is_colblock in Hd. cbn [fst snd] in Hd.
    eapply denotes_ext; [exact Hd|]. intros r c s Hin. cbn beta. unfold off.
    replace (Z.to_nat (Z.of_nat k + 1 - 1)) with k by lia. f_equal.
  - destruct (merge_cols zero L (cut 0 b f) R C) as (m' & E' & D); auto; try rewrite cut_szs; auto; try lia.
    rewrite E'. f_equal. eapply denotes_inj; [exact D|]. eapply denotes_ext; [exact Hm|].
    intros r c s Hin. cbn beta. rewrite cut_szs. destruct (Z.leb_spec c (total b)); [|inr].
    rewrite glue_cut by inr. f_equal.
Qed.

Lemma round_trip_rows m R C f b : denotes m R C 1 (fun r c _ => f r c) -> 1 <= R -> 1 <= C ->
  Forall (fun n => 1 <= n) b -> total b = R ->
  exists L, splitMatrixIntoList zero b m tagRows = Ok L /\ length L = length b /\
    (forall k x, nth_error L k = Some x ->
       denotes x (size_of b (Z.of_nat k + 1)) C 1 (fun j c _ => f (off b (Z.of_nat k + 1) + j) c)) /\
    mergeListOfMatrices zero L R C tagRows = Ok m.
Proof.
  intros Hm HR HC Hb Ht. destruct (denotes_dims _ _ _ _ _ Hm) as (HRi & _ & _ & HM).
  destruct (split_rows zero m R C (fun c r => f r c) b Hm HC Hb ltac:(lia)) as (L & E & HF).
  exists L. split; auto. pose proof (F2_length _ _ _ HF) as HL. rewrite cut_length in HL. split; auto. split.
  - intros k x Hk. assert (Hkl : (k < length b)%nat) by (rewrite <- HL; apply nth_error_Some; congruence).
    assert (Hb' : nth_error b k = Some (size_of b (Z.of_nat k + 1))).
    { unfold size_of. replace (Z.to_nat (Z.of_nat k + 1 - 1)) with k by lia. apply nth_error_nth'; auto. }
    pose proof (cut_nth b (fun c r => f r c) 0 k _ Hb') as Hc.
    assert (HN : forall (L' : list (mat T)) D, Forall2 (is_rowblock C) L' D -> forall k x d, nth_error L' k = Some x ->
       nth_error D k = Some d -> is_rowblock C x d).
    { clear. induction 1; intros [|k] z d; simpl; try discriminate; intros; eauto. congruence. }
    pose proof (HN _ _ HF _ _ _ Hk Hc) as Hd. unfold is_rowblock in Hd. cbn [fst snd] in Hd.
    eapply denotes_ext; [exact Hd|]. intros r c s Hin. cbn beta. unfold off.
    replace (Z.to_nat (Z.of_nat k + 1 - 1)) with k by lia. f_equal.
  - destruct (merge_rows zero L (cut 0 b (fun c r => f r c)) R C) as (m' & E' & D); auto; try rewrite cut_szs; auto; try lia.
    rewrite E'. f_equal. eapply denotes_inj; [exact D|]. eapply denotes_ext; [exact Hm|].
    intros r c s Hin. cbn beta. rewrite cut_szs. destruct (Z.leb_spec r (total b)); [|inr].
    rewrite (glue_cut zero b (fun c r => f r c)) by inr. f_equal.
Qed.

(** ** Unscrambling *)
Lemma perm_moved b ord f : Forall (fun n => 1 <= n) b -> is_order (Z.of_nat (length b)) ord ->
  blocks_moved b ord f (perm_fun zero b ord f).
Proof.
  intros Hb Ho x i k j Hi Hk Hj.
  replace i with (Z.of_nat (Z.to_nat (i - 1)) + 1) by lia. rewrite (perm_fun_at zero b ord f x _ k j) by auto. reflexivity.
Qed.
Lemma perm_moved2 b ord f : Forall (fun n => 1 <= n) b -> is_order (Z.of_nat (length b)) ord ->
  blocks_moved2 b ord f (fun r c => perm_fun zero b ord (fun c' r' => perm_fun zero b ord f r' c') c r).
Proof.
  intros Hb Ho i k j i' k' j' Hi Hk Hj Hi' Hk' Hj'.
  replace i with (Z.of_nat (Z.to_nat (i - 1)) + 1) by lia. rewrite (perm_fun_at zero b ord _ _ _ k j) by auto.
  replace i' with (Z.of_nat (Z.to_nat (i' - 1)) + 1) by lia. rewrite (perm_fun_at zero b ord _ _ _ k' j') by auto. reflexivity.
Qed.

Lemma moved_symmetric b ord (f g : Z -> Z -> T) : Forall (fun n => 1 <= n) b -> is_order (Z.of_nat (length b)) ord ->
  blocks_moved2 b ord f g ->
  (forall r c, 1 <= r <= total b -> 1 <= c <= total b -> f r c = f c r) ->
  forall r c, 1 <= r <= total b -> 1 <= c <= total b -> g r c = g c r.
Proof.
  intros Hb Ho HM Hf r c Hr Hc.
  destruct (cover_order b ord r Hb Ho Hr) as (i & k & j & Hk & Hi & Hj & Er).
  destruct (cover_order b ord c Hb Ho Hc) as (i' & k' & j' & Hk' & Hi' & Hj' & Ec).
  replace i with (Z.to_nat (Z.of_nat i + 1 - 1)) in Hi by lia.
  replace i' with (Z.to_nat (Z.of_nat i' + 1 - 1)) in Hi' by lia.
  rewrite Er, Ec. rewrite (HM _ k j _ k' j') by (auto; lia). rewrite (HM _ k' j' _ k j) by (auto; lia).
  assert (In_range : forall k j, 1 <= k <= Z.of_nat (length b) -> 1 <= j <= size_of b k -> 1 <= off b k + j <= total b).
  { clear -Hb. intros k j Hk Hj. assert (Hn : nth_error b (Z.to_nat (k - 1)) = Some (size_of b k)) by (apply nth_error_nth'; lia).
    apply nth_error_split in Hn. destruct Hn as (l1 & l2 & E1 & E2).
    unfold off. rewrite <- E2. rewrite E1 at 1 2. rewrite firstn_app, firstn_all, Nat.sub_diag. simpl firstn. rewrite app_nil_r.
    assert (Htot : total b = total l1 + size_of b k + total l2).
    { rewrite E1 at 1. clear. unfold total. rewrite fold_right_app. cbn [fold_right].
      generalize (fold_right Z.add 0 l2) as z. generalize (size_of b k). induction l1; intros; cbn [fold_right]; [lia|]. rewrite IHl1. lia. }
    assert (0 <= total l1 /\ 0 <= total l2).
    { rewrite E1 in Hb. apply Forall_app in Hb. destruct Hb as [H1 H2]. inversion H2; subst. split; apply total_nonneg; auto. }
    lia. }
  apply Hf; apply In_range; auto.
Qed.

Lemma coef2_final fuel mA mB b m R C f : denotes m R C 1 (fun r c _ => f r c) -> 1 <= R -> 1 <= C ->
  Forall (fun n => 1 <= n) b -> total b = C -> is_order (Z.of_nat (length b)) (mA ++ mB) -> (length b + 2 <= fuel)%nat ->
  exists m' g, unscramble_Coef2 zero fuel mA mB b m = Ok m' /\ denotes m' R C 1 (fun r c _ => g r c) /\
    blocks_moved b (mA ++ mB) f g.
Proof.
  intros Hm HR HC Hb Ht Ho Hf.
  destruct (unscramble2_cols zero fuel mA mB b m R C f Hm HR HC Hb ltac:(lia) Ho Hf) as (m' & E & D).
  exists m', (perm_fun zero b (mA ++ mB) f). split; auto. split; [|apply perm_moved; auto].
  eapply denotes_ext; [exact D|]. intros r c s Hin. cbn beta. destruct (Z.leb_spec c (total b)); auto. inr.
Qed.
Lemma coef1_final fuel mA b m R C f : denotes m R C 1 (fun r c _ => f r c) -> 1 <= R -> 1 <= C ->
  Forall (fun n => 1 <= n) b -> total b = C -> is_order (Z.of_nat (length b)) mA -> (length b + 2 <= fuel)%nat ->
  exists m' g, unscramble_Coef1 zero fuel mA b m = Ok m' /\ denotes m' R C 1 (fun r c _ => g r c) /\
    blocks_moved b mA f g.
Proof.
  intros Hm HR HC Hb Ht Ho Hf.
  destruct (unscramble1_cols zero fuel mA b m R C f Hm HR HC Hb ltac:(lia) Ho Hf) as (m' & E & D).
  exists m', (perm_fun zero b mA f). split; auto. split; [|apply perm_moved; auto].
  eapply denotes_ext; [exact D|]. intros r c s Hin. cbn beta. destruct (Z.leb_spec c (total b)); auto. inr.
Qed.
Lemma S2_final fuel mA mB b m N f : denotes m N N 1 (fun r c _ => f r c) -> 1 <= N ->
  Forall (fun n => 1 <= n) b -> total b = N -> is_order (Z.of_nat (length b)) (mA ++ mB) -> (length b + 2 <= fuel)%nat ->
  exists m' g, unscramble_S2 zero fuel mA mB b m = Ok m' /\ denotes m' N N 1 (fun r c _ => g r c) /\
    blocks_moved2 b (mA ++ mB) f g /\
    ((forall r c, 1 <= r <= N -> 1 <= c <= N -> f r c = f c r) -> forall r c, 1 <= r <= N -> 1 <= c <= N -> g r c = g c r).
Proof.
  intros Hm HN Hb Ht Ho Hf. destruct (unscramble_S2_ok zero fuel mA mB b m N f Hm HN Hb Ht Ho Hf) as (m' & E & D).
  eexists m', _. split; [exact E|]. split; [exact D|]. split; [apply perm_moved2; auto|].
  intros Hs. subst N. eapply moved_symmetric; [exact Hb|exact Ho|apply perm_moved2; auto|exact Hs].
Qed.
Lemma S1_final fuel mA b m N f : denotes m N N 1 (fun r c _ => f r c) -> 1 <= N ->
  Forall (fun n => 1 <= n) b -> total b = N -> is_order (Z.of_nat (length b)) mA -> (length b + 2 <= fuel)%nat ->
  exists m' g, unscramble_S1 zero fuel mA b m = Ok m' /\ denotes m' N N 1 (fun r c _ => g r c) /\
    blocks_moved2 b mA f g /\
    ((forall r c, 1 <= r <= N -> 1 <= c <= N -> f r c = f c r) -> forall r c, 1 <= r <= N -> 1 <= c <= N -> g r c = g c r).
Proof.
  intros Hm HN Hb Ht Ho Hf. destruct (unscramble_S1_ok zero fuel mA b m N f Hm HN Hb Ht Ho Hf) as (m' & E & D).
  eexists m', _. split; [exact E|]. split; [exact D|]. split; [apply perm_moved2; auto|].
  intros Hs. subst N. eapply moved_symmetric; [exact Hb|exact Ho|apply perm_moved2; auto|exact Hs].
Qed.

(** ** findRank *)
Lemma collect (sp : spin) m n f : denotes m n 1 1 (fun r _ _ => f r) -> forall acc,
  for_up 1 (rows m) (fun i acc => v <- get_elem1 m i ;; Ok (acc ++ [(v, sp)])) acc =
  Ok (acc ++ map (fun i => (f i, sp)) (map Z.of_nat (seq 1 (Z.to_nat n)))).
Proof.
  intros Hm acc. destruct (denotes_dims _ _ _ _ _ Hm) as (Hn & _). pose proof Hm as (_ & ER & EC & ES & _). rewrite ER.
  destruct (for_up_inv (fun i s => s = acc ++ map (fun i => (f i, sp)) (map Z.of_nat (seq 1 (Z.to_nat (i - 1)))))
     (fun i acc => v <- get_elem1 m i ;; Ok (acc ++ [(v, sp)])) 1 n acc) as (s & E & H).
  - lia.
  - replace (Z.to_nat (1 - 1)) with O by lia. cbn [seq map]. rewrite app_nil_r. reflexivity.
  - intros i s Hi ->. rewrite get_elem1_eq by lia. rewrite (denotes_get3 _ _ _ _ _ _ _ _ Hm) by inr. cbn [bind].
    eexists. split; [reflexivity|]. rewrite <- app_assoc. f_equal.
    replace (Z.to_nat (i + 1 - 1)) with (Z.to_nat (i - 1) + 1)%nat by lia. rewrite seq_app, !map_app. f_equal.
    cbn [seq map]. do 2 f_equal. f_equal. lia.
  - rewrite E, H. do 3 f_equal. do 2 f_equal. lia.
Qed.
End Final.

Section Rank.
Context {T : Type}.
Variable A : arith T.
Notation zero := (a_zero A).
Variable srt : list (T * spin) -> list (T * spin).

(** the energies of the first column, tagged *)
Definition column (n : Z) (f : Z -> Z -> T) (sp : spin) : list (T * spin) :=
  map (fun i => (f i 1, sp)) (map Z.of_nat (seq 1 (Z.to_nat n))).

Lemma findRank_square a b na nb fa fb :
  denotes a na na 1 (fun r c _ => fa r c) -> 1 <= na -> denotes b nb nb 1 (fun r c _ => fb r c) -> 0 <= nb ->
  findRank A srt a b =
    Ok (combine (map Z.of_nat (seq 1 (length (srt (column na fa Alpha ++ column nb fb Beta)))))
                (srt (column na fa Alpha ++ column nb fb Beta))).
Proof.
  intros Ha Hna Hb Hnb. unfold findRank.
  destruct (getCol_square zero a na 1 _ 1 Ha ltac:(lia) ltac:(lia)) as (ma & E1 & D1). rewrite E1. cbn [bind].
  rewrite (collect Alpha ma na (fun i => fa i 1) D1). cbn [bind].
  pose proof Hb as (_ & _ & EC & _). rewrite EC. destruct (Z.ltb_spec 0 nb).
  - destruct (getCol_square zero b nb 1 _ 1 Hb ltac:(lia) ltac:(lia)) as (mb & E2 & D2). rewrite E2. cbn [bind].
    rewrite (collect Beta mb nb (fun i => fb i 1) D2). cbn [bind app]. reflexivity.
  - cbn [bind app]. unfold column at 2 4. replace (Z.to_nat nb) with O by lia. cbn [seq map]. rewrite app_nil_r. reflexivity.
Qed.

Lemma findRank_column a b n fa : denotes a n 1 1 (fun r _ _ => fa r) -> 2 <= n -> findRank A srt a b = Exit 1.
Proof. intros Ha Hn. unfold findRank. rewrite (getCol_tall zero a n 1 1 _ 1 Ha); auto; lia. Qed.
End Rank.

Section Accepted.
Context {T : Type}.
Variable A : arith T.
Notation zero := (a_zero A).

Lemma findRank_ranks (le : T -> T -> Prop) (srt : list (T * spin) -> list (T * spin)) :
  (forall l, Permutation l (srt l)) -> (forall l, StronglySorted (fun x y => le (fst x) (fst y)) (srt l)) ->
  forall a b na nb fa fb,
  denotes a na na 1 (fun r c _ => fa r c) -> 1 <= na -> denotes b nb nb 1 (fun r c _ => fb r c) -> 0 <= nb ->
  exists l, findRank A srt a b = Ok l /\
    map fst l = map Z.of_nat (seq 1 (length l)) /\
    StronglySorted (fun x y => le (fst x) (fst y)) (map snd l) /\
    Permutation (map snd l) (column na fa Alpha ++ column nb fb Beta).
Proof.
  intros HP HS a b na nb fa fb Ha Hna Hb Hnb. eexists. split; [apply findRank_square; eauto|].
  set (l := srt (column na fa Alpha ++ column nb fb Beta)).
  assert (H : forall (X Y : Type) (u : list X) (v : list Y), length u = length v -> map fst (combine u v) = u /\ map snd (combine u v) = v).
  { clear. induction u as [|x u IH]; intros [|y v] E; try discriminate; simpl; auto. destruct (IH v) as [-> ->]; auto. }
  destruct (H _ _ (map Z.of_nat (seq 1 (length l))) l) as [E1 E2]. { rewrite map_length, seq_length; auto. }
  rewrite E1, E2. split; [|split].
  - rewrite combine_length, map_length, seq_length, Nat.min_id. reflexivity.
  - apply HS.
  - apply Permutation_sym. apply HP.
Qed.

Ltac st E := rewrite E; cbn [bind fst snd].

Lemma cti_energies m1 m2 P S OE n1 n2 K K' a b fS fP e :
  denotes m1 1 n1 1 (fun _ c _ => a c) -> denotes m2 1 n2 1 (fun _ c _ => b c) ->
  denotes P K (n1 + n2) 1 (fun r c _ => fP r c) -> denotes S (n1 + n2) (n1 + n2) 1 (fun r c _ => fS r c) ->
  energies OE K' e -> K' <> K -> 1 <= K' -> K' * K' <= INT_MAX -> 1 <= n1 -> 1 <= n2 -> 1 <= K ->
  calculate_transfer_integral A m1 m2 P S OE false = Exit 1.
Proof.
  intros H1 H2 HP HS HE HKK HK' HKM Hn1 Hn2 HK. unfold calculate_transfer_integral, transfer_with.
  destruct (denotes_dims _ _ _ _ _ HP) as (HKi & HNi & _ & HKN).
  assert (HNK : (n1 + n2) * K <= INT_MAX) by lia. assert (H11 : 1 * 1 <= INT_MAX) by (unfold INT_MAX; lia).
  destruct (invert_ok zero m1 1 n1 _ H1 ltac:(lia) Hn1) as (m1i & E1 & D1). st E1.
  destruct (invert_ok zero m2 1 n2 _ H2 ltac:(lia) Hn2) as (m2i & E2 & D2). st E2.
  destruct (invert_ok zero P K (n1 + n2) _ HP HK ltac:(lia)) as (Pi & E3 & DPi). st E3.
  destruct (Matrix_new0_ok zero) as (z0 & E0 & Dz0). st E0.
  pose proof D1 as (_ & ER1 & EC1 & ES1 & _). pose proof D2 as (_ & ER2 & EC2 & ES2 & _).
  rewrite ER1, ES1, ER2, ES2.
  destruct (Matrix_new3_ok zero n1 1 1 Hn1 ltac:(lia) ltac:(lia) ltac:(lia)) as (zA & EA & DA). st EA.
  destruct (Matrix_new3_ok zero n2 1 1 Hn2 ltac:(lia) ltac:(lia) ltac:(lia)) as (zB & EB & DB). st EB.
  destruct (concat_rows_ok zero m1i zB n1 n2 1 1 _ _ D1 DB Hn1 Hn2 ltac:(lia) ltac:(lia) ltac:(lia)) as (ca & Ea & Da). st Ea.
  destruct (assign_ok zero z0 1 1 1 _ ca _ _ _ _ Dz0 ltac:(lia) Da ltac:(lia) ltac:(lia) ltac:(lia)) as (ZA & EZA & DZA). st EZA.
  destruct (concat_rows_ok zero zA m2i n1 n2 1 1 _ _ DA D2 Hn1 Hn2 ltac:(lia) ltac:(lia) ltac:(lia)) as (cb & Eb & Db). st Eb.
  destruct (assign_ok zero z0 1 1 1 _ cb _ _ _ _ Dz0 ltac:(lia) Db ltac:(lia) ltac:(lia) ltac:(lia)) as (ZB & EZB & DZB). st EZB.
  destruct (invert_ok zero ZA (n1 + n2) 1 _ DZA ltac:(lia) ltac:(lia)) as (zAi & E5 & DzA). st E5.
  destruct (invert_ok zero ZB (n1 + n2) 1 _ DZB ltac:(lia) ltac:(lia)) as (zBi & E6 & DzB). st E6.
  destruct (mat_mul_ok A S Pi (n1 + n2) (n1 + n2) K _ _ HS DPi ltac:(lia) HK HNK) as (In & E4 & DI). st E4.
  destruct (mat_mul_ok A zAi In 1 (n1 + n2) K _ _ DzA DI ltac:(lia) HK ltac:(lia)) as (gA & E7 & DgA). st E7.
  destruct (mat_mul_ok A zBi In 1 (n1 + n2) K _ _ DzB DI ltac:(lia) HK ltac:(lia)) as (gB & E8 & DgB). st E8.
  destruct (invert_ok zero gA 1 K _ DgA ltac:(lia) HK) as (gAi & E9 & DgAi). st E9.
  destruct (invert_ok zero gB 1 K _ DgB ltac:(lia) HK) as (gBi & E10 & DgBi). st E10.
  destruct (mat_mul_ok A gB gAi 1 K 1 _ _ DgB DgAi ltac:(lia) ltac:(lia) H11) as (SAB & E11 & DS). st E11.
  destruct (diag_energies A OE K' e HE HK' HKM) as (En & E12 & DE). st E12.
  rewrite mat_mul_bad; auto. right; right. destruct DE as (_ & _ & -> & _). destruct DgAi as (_ & -> & _). lia.
Qed.

Lemma calcJ_select m1 m2 P S OE o1 o2 N1 N2 n1 n2 a b ot on t1 t2 k1 k2 r1 r2 un cp :
  denotes m1 N1 n1 1 (fun r c _ => a r c) -> denotes m2 N2 n2 1 (fun r c _ => b r c) -> 1 <= n1 -> 1 <= n2 ->
  fst o1 = N1 /\ 0 <= snd o1 <= N1 -> fst o2 = N2 /\ 0 <= snd o2 <= N2 ->
  map_at ot sMon1 = Ok t1 -> map_at ot sMon2 = Ok t2 -> map_at on sMon1 = Ok k1 -> map_at on sMon2 = Ok k2 ->
  orbital_row N1 (snd o1) t1 k1 = Some r1 -> orbital_row N2 (snd o2) t2 k2 = Some r2 ->
  exists x y, calcJ A (mkTC m1 m2 P o1 o2 S OE un cp) ot on = calculate_transfer_integral A x y P S OE cp /\
    denotes x 1 n1 1 (fun _ c _ => a r1 c) /\ denotes y 1 n2 1 (fun _ c _ => b r2 c).
Proof.
  intros H1 H2 P1 P2 [Ho1 Ho1'] [Ho2 Ho2'] M1 M2 M3 M4 R1 R2.
  unfold calcJ, calcJ_with. cbn [tc_1 tc_2 tc_P tc_orbs1 tc_orbs2 tc_S tc_OE tc_cp].
  destruct (Matrix_new0_ok zero) as (z0 & E0 & Dz0). st E0. st M1. st M3.
  destruct (select_ok A m1 z0 o1 t1 k1 r1 N1 n1 a) as (x & Ex & Dx); eauto. st Ex. st M2. st M4.
  destruct (select_ok A m2 z0 o2 t2 k2 r2 N2 n2 b) as (y & Ey & Dy); eauto. st Ey.
  exists x, y. auto.
Qed.

Lemma TC_made m1 m2 P S OE o1 o2 N1 N2 n1 n2 N K (a b fP fS : Z -> Z -> T) :
  denotes m1 N1 n1 1 (fun r c _ => a r c) -> denotes m2 N2 n2 1 (fun r c _ => b r c) ->
  denotes P K N 1 (fun r c _ => fP r c) -> denotes S N N 1 (fun r c _ => fS r c) -> n1 + n2 <= N ->
  TransferComplex m1 m2 P o1 o2 S OE false = Ok (mkTC m1 m2 P o1 o2 S OE false false).
Proof.
  intros H1 H2 HP HS HN. destruct (denotes_dims _ _ _ _ _ HP) as (_ & HNi & _).
  destruct (denotes_dims _ _ _ _ _ H1) as (_ & Hn1 & _). destruct (denotes_dims _ _ _ _ _ H2) as (_ & Hn2 & _).
  pose proof H1 as (_ & _ & C1 & _). pose proof H2 as (_ & _ & C2 & _). pose proof HP as (_ & _ & CP & _). pose proof HS as (_ & _ & CS & _).
  apply TC_accepts; rewrite C1, C2, ?CP, ?CS; [|split; auto]. unfold is_int, INT_MIN. lia.
Qed.

Lemma calcJ_short m1 m2 P S OE o1 o2 N1 N2 n1 n2 N K a b fP fS ot on t1 t2 k1 k2 r1 r2 :
  denotes m1 N1 n1 1 (fun r c _ => a r c) -> denotes m2 N2 n2 1 (fun r c _ => b r c) ->
  denotes P K N 1 (fun r c _ => fP r c) -> denotes S N N 1 (fun r c _ => fS r c) ->
  1 <= n1 -> 1 <= n2 -> 1 <= K -> n1 + n2 < N ->
  fst o1 = N1 /\ 0 <= snd o1 <= N1 -> fst o2 = N2 /\ 0 <= snd o2 <= N2 ->
  map_at ot sMon1 = Ok t1 -> map_at ot sMon2 = Ok t2 -> map_at on sMon1 = Ok k1 -> map_at on sMon2 = Ok k2 ->
  orbital_row N1 (snd o1) t1 k1 = Some r1 -> orbital_row N2 (snd o2) t2 k2 = Some r2 ->
  exists tc, TransferComplex m1 m2 P o1 o2 S OE false = Ok tc /\ calcJ A tc ot on = Exit 1.
Proof.
  intros H1 H2 HP HS P1 P2 HK HN Ho1 Ho2 M1 M2 M3 M4 R1 R2.
  eexists. split; [eapply TC_made; eauto; lia|].
  destruct (calcJ_select m1 m2 P S OE o1 o2 N1 N2 n1 n2 a b ot on t1 t2 k1 k2 r1 r2 false false) as (x & y & E & Dx & Dy); auto.
  rewrite E. eapply (cti_short A x y); eauto.
Qed.

Lemma calcJ_energies m1 m2 P S OE o1 o2 N1 N2 n1 n2 N K K' a b fP fS e ot on t1 t2 k1 k2 r1 r2 :
  denotes m1 N1 n1 1 (fun r c _ => a r c) -> denotes m2 N2 n2 1 (fun r c _ => b r c) ->
  denotes P K N 1 (fun r c _ => fP r c) -> denotes S N N 1 (fun r c _ => fS r c) ->
  energies OE K' e -> K' <> K -> 1 <= K' -> K' * K' <= INT_MAX ->
  1 <= n1 -> 1 <= n2 -> 1 <= K -> n1 + n2 = N ->
  fst o1 = N1 /\ 0 <= snd o1 <= N1 -> fst o2 = N2 /\ 0 <= snd o2 <= N2 ->
  map_at ot sMon1 = Ok t1 -> map_at ot sMon2 = Ok t2 -> map_at on sMon1 = Ok k1 -> map_at on sMon2 = Ok k2 ->
  orbital_row N1 (snd o1) t1 k1 = Some r1 -> orbital_row N2 (snd o2) t2 k2 = Some r2 ->
  exists tc, TransferComplex m1 m2 P o1 o2 S OE false = Ok tc /\ calcJ A tc ot on = Exit 1.
Proof.
  intros H1 H2 HP HS HE HKK HK' HKM P1 P2 HK HN Ho1 Ho2 M1 M2 M3 M4 R1 R2. subst N.
  eexists. split; [eapply TC_made; eauto; lia|].
  destruct (calcJ_select m1 m2 P S OE o1 o2 N1 N2 n1 n2 a b ot on t1 t2 k1 k2 r1 r2 false false) as (x & y & E & Dx & Dy); auto.
  rewrite E. eapply (cti_energies x y); eauto.
Qed.
End Accepted.
