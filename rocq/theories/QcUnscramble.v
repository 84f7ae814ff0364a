(** * Facts about unscramble_Coef and unscramble_S *)
From Verif Require Export QcBlocks.
From Verif Require Import MatrixFacts MatrixCtor MatrixOps MatrixOps2.
From Coq Require Import Permutation.
Open Scope Z_scope.

Section Uns.
Context {T : Type}.
Variable zero : T.
Implicit Types (m : mat T).
Notation desc := (Z * (Z -> Z -> T))%type.
Notation szs D := (map (@fst Z (Z -> Z -> T)) D).

Definition d0 : desc := (0, fun _ _ => zero).
Definition perm_desc (b ord : list Z) (f : Z -> Z -> T) : list desc :=
  map (fun x => nth (Z.to_nat (x - 1)) (cut 0 b f) d0) ord.
(** content after reordering *)
Definition perm_fun b ord f x c : T := glue zero (perm_desc b ord f) x c.

Lemma nth_cut_fst b f k : fst (nth k (cut 0 b f) d0) = nth k b 0.
Proof.
  pose proof (map_nth (@fst Z (Z -> Z -> T)) (cut 0 b f) d0 k) as H. rewrite cut_szs in H. symmetry. exact H.
Qed.

Lemma perm_szs b ord f : szs (perm_desc b ord f) = reordered b ord.
Proof.
  unfold perm_desc, reordered, size_of. rewrite map_map. apply map_ext. intros x. apply nth_cut_fst.
Qed.

Lemma order_perm n ord : is_order n ord -> Permutation ord (map Z.of_nat (seq 1 (Z.to_nat n))).
Proof.
  intros (HL & Hnd & HF). apply NoDup_Permutation_bis; auto.
  - rewrite map_length, seq_length. lia.
  - intros x Hx. rewrite Forall_forall in HF. specialize (HF x Hx). simpl in HF.
    apply in_map_iff. exists (Z.to_nat x). split; [lia|]. apply in_seq. lia.
Qed.

Lemma total_perm l l' : Permutation l l' -> total l = total l'.
Proof. induction 1; simpl; try lia. Qed.

Lemma sizes_seq b : map (size_of b) (map Z.of_nat (seq 1 (length b))) = b.
Proof.
  rewrite map_map. apply nth_error_ext. intros n. rewrite nth_error_map.
  destruct (Nat.lt_ge_cases n (length b)) as [H|H].
  - rewrite (nth_error_nth' _ O) by (rewrite seq_length; auto). cbn [option_map].
    rewrite seq_nth by auto. unfold size_of. replace (Z.to_nat (Z.of_nat (1 + n) - 1)) with n by lia.
    symmetry. apply nth_error_nth'; auto.
  - assert (E1 : nth_error (seq 1 (length b)) n = None) by (apply nth_error_None; rewrite seq_length; auto).
    assert (E2 : nth_error b n = None) by (apply nth_error_None; auto). rewrite E1, E2. reflexivity.
Qed.

Lemma total_reordered b ord : is_order (Z.of_nat (length b)) ord -> total (reordered b ord) = total b.
Proof.
  intros H. unfold reordered. rewrite (total_perm _ _ (Permutation_map (size_of b) (order_perm _ _ H))).
  rewrite Nat2Z.id, sizes_seq. reflexivity.
Qed.

Lemma reordered_pos b ord : Forall (fun n => 1 <= n) b -> is_order (Z.of_nat (length b)) ord ->
  Forall (fun n => 1 <= n) (reordered b ord).
Proof.
  intros Hb (HL & _ & HF). unfold reordered. rewrite Forall_forall in *. intros n Hn.
  apply in_map_iff in Hn. destruct Hn as (x & <- & Hx). specialize (HF x Hx). simpl in HF.
  apply Hb. unfold size_of. apply nth_In. lia.
Qed.

Lemma F2_length {X Y} (P : X -> Y -> Prop) L D : Forall2 P L D -> length L = length D.
Proof. induction 1; simpl; auto. Qed.

Lemma Forall2_perm {X Y} (P : X -> Y -> Prop) L D L' ord d1 :
  Forall2 P L D -> is_order (Z.of_nat (length D)) ord -> length L' = length L ->
  (forall i x, nth_error ord i = Some x -> nth_error L' i = nth_error L (Z.to_nat (x - 1))) ->
  Forall2 P L' (map (fun x => nth (Z.to_nat (x - 1)) D d1) ord).
Proof.
  intros HF (HL & _ & HR) Hlen H. pose proof (F2_length _ _ _ HF) as Hl.
  assert (G : forall i a d, nth_error L i = Some a -> nth_error D i = Some d -> P a d).
  { clear -HF. induction HF; intros [|i] a d; simpl; try discriminate; [congruence|eauto]. }
  assert (K : forall L' ord, length L' = length ord ->
    (forall i x, nth_error ord i = Some x -> 1 <= x <= Z.of_nat (length D) /\ nth_error L' i = nth_error L (Z.to_nat (x - 1))) ->
    Forall2 P L' (map (fun x => nth (Z.to_nat (x - 1)) D d1) ord)).
  { clear -G Hl. induction L' as [|a L' IH]; intros [|x ord] Hlen H; simpl in Hlen; try discriminate; cbn [map]; constructor.
    - destruct (H O x eq_refl) as [Hx E]. simpl in E. apply (G (Z.to_nat (x - 1))); auto.
      apply nth_error_nth'. lia.
    - apply IH; [lia|]. intros i y Hy. apply (H (S i) y Hy). }
  apply K; [lia|]. intros i x Hi. split; auto. rewrite Forall_forall in HR. apply HR. eapply nth_error_In; eauto.
Qed.

(** the reordered list of blocks *)
Lemma blocks2 (sh : mat T -> desc -> Prop) L b f mA mB fuel :
  Forall2 sh L (cut 0 b f) -> is_order (Z.of_nat (length b)) (mA ++ mB) -> (length b + 2 <= fuel)%nat ->
  exists B A L', refreshSwapOrder2 fuel (pairsB mA mB) (pairsA mA) = Ok (B, A) /\
    updateSwapLists2 B A L = Ok L' /\ Forall2 sh L' (perm_desc b (mA ++ mB) f).
Proof.
  intros HF Ho Hf. pose proof Ho as (HL & Hnd & HR). rewrite app_length in HL.
  pose proof (F2_length _ _ _ HF) as Hl. rewrite cut_length in Hl.
  destruct (refresh2_swaps mA mB fuel L) as (B & A & E & E1 & Hpd); [apply nodup_no_repeat; auto|lia|].
  destruct (run_pairs2 mA mB L) as (L' & E2 & Len & HA & _); auto; [lia|rewrite Hl; auto|].
  exists B, A, L'. split; auto. split; [congruence|].
  apply Forall2_perm with (L := L); auto. rewrite cut_length; auto.
Qed.

Lemma blocks1 (sh : mat T -> desc -> Prop) L b f mA fuel :
  Forall2 sh L (cut 0 b f) -> is_order (Z.of_nat (length b)) mA -> (length b + 2 <= fuel)%nat ->
  exists A L', refreshSwapOrder1 fuel (pairsA mA) = Ok A /\
    updateSwapLists1 A L = Ok L' /\ Forall2 sh L' (perm_desc b mA f).
Proof.
  intros HF Ho Hf. pose proof Ho as (HL & Hnd & HR).
  pose proof (F2_length _ _ _ HF) as Hl. rewrite cut_length in Hl.
  destruct (refresh1_swaps mA fuel L) as (A & E & E1 & Hpd); [apply nodup_no_repeat; auto|lia|].
  destruct (run_pairs1 mA L) as (L' & E2 & Len & HA & _); auto; [lia|rewrite Hl; auto|].
  exists A, L'. split; auto. split; [congruence|].
  apply Forall2_perm with (L := L); auto. rewrite cut_length; auto.
Qed.

Ltac dims H := destruct (denotes_dims _ _ _ _ _ H) as (? & ? & _ & ?).

Lemma unscramble2_cols fuel mA mB b m R C f : denotes m R C 1 (fun r c _ => f r c) -> 1 <= R -> 1 <= C ->
  Forall (fun n => 1 <= n) b -> total b <= C -> is_order (Z.of_nat (length b)) (mA ++ mB) -> (length b + 2 <= fuel)%nat ->
  exists m', unscramble2 zero fuel mA mB b m tagColumns = Ok m' /\
    denotes m' R C 1 (fun r c _ => if c <=? total b then perm_fun b (mA ++ mB) f r c else zero).
Proof.
  intros Hm HR HC Hb Ht Ho Hf. unfold unscramble2, splitCoefsUpByAtoms, createNewMatrix. dims Hm.
  destruct (split_cols zero m R C f b Hm HR Hb Ht) as (L & E & HF). rewrite E. cbn [bind].
  destruct (blocks2 _ L b f mA mB fuel HF Ho Hf) as (B & A & L' & E1 & E2 & HF').
  rewrite E1. cbn [bind fst snd]. rewrite E2. cbn [bind].
  pose proof Hm as (_ & -> & -> & _).
  destruct (merge_cols zero L' (perm_desc b (mA ++ mB) f) R C) as (m' & E3 & D); auto; try lia;
    try (rewrite perm_szs); try (apply reordered_pos; auto).
  { rewrite total_reordered by auto. lia. }
  exists m'; split; auto. eapply denotes_ext; [exact D|]. intros r c s Hin. cbn beta.
  rewrite perm_szs, total_reordered by auto. reflexivity.
Qed.

Lemma unscramble2_rows fuel mA mB b m R C f : denotes m R C 1 (fun r c _ => f r c) -> 1 <= R -> 1 <= C ->
  Forall (fun n => 1 <= n) b -> total b <= R -> is_order (Z.of_nat (length b)) (mA ++ mB) -> (length b + 2 <= fuel)%nat ->
  exists m', unscramble2 zero fuel mA mB b m tagRows = Ok m' /\
    denotes m' R C 1 (fun r c _ => if r <=? total b then perm_fun b (mA ++ mB) (fun c r => f r c) c r else zero).
Proof.
  intros Hm HR HC Hb Ht Ho Hf. unfold unscramble2, splitCoefsUpByAtoms, createNewMatrix. dims Hm.
  destruct (split_rows zero m R C (fun c r => f r c) b Hm HC Hb Ht) as (L & E & HF). rewrite E. cbn [bind].
  destruct (blocks2 _ L b (fun c r => f r c) mA mB fuel HF Ho Hf) as (B & A & L' & E1 & E2 & HF').
  rewrite E1. cbn [bind fst snd]. rewrite E2. cbn [bind].
  pose proof Hm as (_ & -> & -> & _).
  destruct (merge_rows zero L' (perm_desc b (mA ++ mB) (fun c r => f r c)) R C) as (m' & E3 & D); auto; try lia;
    try (rewrite perm_szs); try (apply reordered_pos; auto).
  { rewrite total_reordered by auto. lia. }
  exists m'; split; auto. eapply denotes_ext; [exact D|]. intros r c s Hin. cbn beta.
  rewrite perm_szs, total_reordered by auto. reflexivity.
Qed.

Lemma unscramble1_cols fuel mA b m R C f : denotes m R C 1 (fun r c _ => f r c) -> 1 <= R -> 1 <= C ->
  Forall (fun n => 1 <= n) b -> total b <= C -> is_order (Z.of_nat (length b)) mA -> (length b + 2 <= fuel)%nat ->
  exists m', unscramble1 zero fuel mA b m tagColumns = Ok m' /\
    denotes m' R C 1 (fun r c _ => if c <=? total b then perm_fun b mA f r c else zero).
Proof.
  intros Hm HR HC Hb Ht Ho Hf. unfold unscramble1, splitCoefsUpByAtoms, createNewMatrix. dims Hm.
  destruct (split_cols zero m R C f b Hm HR Hb Ht) as (L & E & HF). rewrite E. cbn [bind].
  destruct (blocks1 _ L b f mA fuel HF Ho Hf) as (A & L' & E1 & E2 & HF').
  rewrite E1. cbn [bind fst snd]. rewrite E2. cbn [bind].
  pose proof Hm as (_ & -> & -> & _).
  destruct (merge_cols zero L' (perm_desc b mA f) R C) as (m' & E3 & D); auto; try lia;
    try (rewrite perm_szs); try (apply reordered_pos; auto).
  { rewrite total_reordered by auto. lia. }
  exists m'; split; auto. eapply denotes_ext; [exact D|]. intros r c s Hin. cbn beta.
  rewrite perm_szs, total_reordered by auto. reflexivity.
Qed.

Lemma unscramble1_rows fuel mA b m R C f : denotes m R C 1 (fun r c _ => f r c) -> 1 <= R -> 1 <= C ->
  Forall (fun n => 1 <= n) b -> total b <= R -> is_order (Z.of_nat (length b)) mA -> (length b + 2 <= fuel)%nat ->
  exists m', unscramble1 zero fuel mA b m tagRows = Ok m' /\
    denotes m' R C 1 (fun r c _ => if r <=? total b then perm_fun b mA (fun c r => f r c) c r else zero).
Proof.
  intros Hm HR HC Hb Ht Ho Hf. unfold unscramble1, splitCoefsUpByAtoms, createNewMatrix. dims Hm.
  destruct (split_rows zero m R C (fun c r => f r c) b Hm HC Hb Ht) as (L & E & HF). rewrite E. cbn [bind].
  destruct (blocks1 _ L b (fun c r => f r c) mA fuel HF Ho Hf) as (A & L' & E1 & E2 & HF').
  rewrite E1. cbn [bind fst snd]. rewrite E2. cbn [bind].
  pose proof Hm as (_ & -> & -> & _).
  destruct (merge_rows zero L' (perm_desc b mA (fun c r => f r c)) R C) as (m' & E3 & D); auto; try lia;
    try (rewrite perm_szs); try (apply reordered_pos; auto).
  { rewrite total_reordered by auto. lia. }
  exists m'; split; auto. eapply denotes_ext; [exact D|]. intros r c s Hin. cbn beta.
  rewrite perm_szs, total_reordered by auto. reflexivity.
Qed.

(** pointwise reading of [perm_fun] *)
Lemma perm_fun_at b ord f x i k j : Forall (fun n => 1 <= n) b -> is_order (Z.of_nat (length b)) ord ->
  nth_error ord i = Some k -> 1 <= j <= size_of b k ->
  perm_fun b ord f x (off (reordered b ord) (Z.of_nat i + 1) + j) = f x (off b k + j).
Proof.
  intros Hb Ho Hi Hj. pose proof Ho as (HL & _ & HR).
  assert (Hk : 1 <= k <= Z.of_nat (length b)) by (rewrite Forall_forall in HR; apply HR; eapply nth_error_In; eauto).
  unfold perm_fun, off. replace (Z.to_nat (Z.of_nat i + 1 - 1)) with i by lia.
  rewrite <- (perm_szs b ord f).
  assert (Hn : nth_error b (Z.to_nat (k - 1)) = Some (size_of b k)) by (apply nth_error_nth'; lia).
  pose proof (cut_nth b f 0 (Z.to_nat (k - 1)) _ Hn) as Hc.
  erewrite glue_at with (i := i); [|rewrite perm_szs; apply reordered_pos; auto| |].
  2:{ unfold perm_desc. rewrite nth_error_map, Hi. cbn [option_map]. reflexivity. }
  - rewrite (nth_error_nth _ _ d0 Hc). cbn [snd]. rewrite Z.add_0_l. reflexivity.
  - rewrite (nth_error_nth _ _ d0 Hc). cbn [fst]. exact Hj.
Qed.

(** every position lies in exactly one block *)
Lemma block_cover b : Forall (fun n => 1 <= n) b -> forall c, 1 <= c <= total b ->
  exists i n j, nth_error b i = Some n /\ 1 <= j <= n /\ c = total (firstn i b) + j.
Proof.
  induction 1 as [|n b Hn HF IH]; intros c Hc; [simpl in Hc; lia|].
  change (total (n :: b)) with (n + total b) in Hc.
  destruct (Z.le_gt_cases c n) as [L|L].
  - exists O, n, c. simpl. repeat split; auto; lia.
  - destruct (IH (c - n)) as (i & n' & j & Hi & Hj & E); [lia|].
    exists (S i), n', j. cbn [nth_error firstn]. change (total (n :: firstn i b)) with (n + total (firstn i b)).
    repeat split; auto; lia.
Qed.

(** reading across does not matter *)
Lemma perm_fun_map {b ord} f (g : Z -> Z -> T) x y : Forall (fun n => 1 <= n) b -> is_order (Z.of_nat (length b)) ord ->
  (forall c, 1 <= c <= total b -> f x c = g y c) ->
  forall c, 1 <= c <= total b -> perm_fun b ord f x c = perm_fun b ord g y c.
Proof.
  intros Hb Ho H c Hc. pose proof Ho as (HL & _ & HR).
  destruct (block_cover (reordered b ord) (reordered_pos _ _ Hb Ho) c) as (i & n & j & Hi & Hj & E).
  { rewrite total_reordered; auto. }
  unfold reordered in Hi. rewrite nth_error_map in Hi. destruct (nth_error ord i) as [k|] eqn:Ek; simpl in Hi; [|discriminate].
  inversion Hi; subst n. assert (Ec : c = off (reordered b ord) (Z.of_nat i + 1) + j).
  { unfold off. replace (Z.to_nat (Z.of_nat i + 1 - 1)) with i by lia. exact E. }
  rewrite Ec, !(perm_fun_at b ord _ _ i k j) by auto.
  apply H. assert (Hk : 1 <= k <= Z.of_nat (length b)) by (rewrite Forall_forall in HR; apply HR; eapply nth_error_In; eauto).
  assert (Hn : nth_error b (Z.to_nat (k - 1)) = Some (size_of b k)) by (apply nth_error_nth'; lia).
  apply nth_error_split in Hn. destruct Hn as (l1 & l2 & E1 & E2).
  unfold off. rewrite <- E2. rewrite E1 at 1 2. rewrite firstn_app, firstn_all, Nat.sub_diag. simpl firstn. rewrite app_nil_r.
  assert (Htot : total b = total l1 + size_of b k + total l2).
  { rewrite E1 at 1. clear. unfold total. rewrite fold_right_app. cbn [fold_right].
    generalize (fold_right Z.add 0 l2) as z. generalize (size_of b k). induction l1; intros; cbn [fold_right]; [lia|]. rewrite IHl1. lia. }
  assert (0 <= total l1 /\ 0 <= total l2).
  { rewrite E1 in Hb. apply Forall_app in Hb. destruct Hb as [H1 H2]. inversion H2; subst. split; apply total_nonneg; auto. }
  lia.
Qed.

Lemma unscramble_S2_ok fuel mA mB b m N f : denotes m N N 1 (fun r c _ => f r c) -> 1 <= N ->
  Forall (fun n => 1 <= n) b -> total b = N -> is_order (Z.of_nat (length b)) (mA ++ mB) -> (length b + 2 <= fuel)%nat ->
  exists m', unscramble_S2 zero fuel mA mB b m = Ok m' /\
    denotes m' N N 1 (fun r c _ => perm_fun b (mA ++ mB) (fun c' r' => perm_fun b (mA ++ mB) f r' c') c r).
Proof.
  intros Hm HN Hb Ht Ho Hf. unfold unscramble_S2.
  destruct (unscramble2_cols fuel mA mB b m N N f Hm HN HN Hb ltac:(lia) Ho Hf) as (m1 & E1 & D1).
  rewrite E1. cbn [bind].
  destruct (unscramble2_rows fuel mA mB b m1 N N _ D1 HN HN Hb ltac:(lia) Ho Hf) as (m2 & E2 & D2).
  exists m2; split; auto. eapply denotes_ext; [exact D2|]. intros r c s Hin. cbn beta.
  destruct (Z.leb_spec r (total b)); [|inr].
  apply (perm_fun_map (fun c r => if c <=? total b then perm_fun b (mA ++ mB) f r c else zero)
     (fun c' r' => perm_fun b (mA ++ mB) f r' c') c c); auto; [|inr].
  intros r' Hr'. destruct (Z.leb_spec c (total b)); auto. inr.
Qed.

Lemma unscramble_S1_ok fuel mA b m N f : denotes m N N 1 (fun r c _ => f r c) -> 1 <= N ->
  Forall (fun n => 1 <= n) b -> total b = N -> is_order (Z.of_nat (length b)) mA -> (length b + 2 <= fuel)%nat ->
  exists m', unscramble_S1 zero fuel mA b m = Ok m' /\
    denotes m' N N 1 (fun r c _ => perm_fun b mA (fun c' r' => perm_fun b mA f r' c') c r).
Proof.
  intros Hm HN Hb Ht Ho Hf. unfold unscramble_S1.
  destruct (unscramble1_cols fuel mA b m N N f Hm HN HN Hb ltac:(lia) Ho Hf) as (m1 & E1 & D1).
  rewrite E1. cbn [bind].
  destruct (unscramble1_rows fuel mA b m1 N N _ D1 HN HN Hb ltac:(lia) Ho Hf) as (m2 & E2 & D2).
  exists m2; split; auto. eapply denotes_ext; [exact D2|]. intros r c s Hin. cbn beta.
  destruct (Z.leb_spec r (total b)); [|inr].
  apply (perm_fun_map (fun c r => if c <=? total b then perm_fun b mA f r c else zero)
     (fun c' r' => perm_fun b mA f r' c') c c); auto; [|inr].
  intros r' Hr'. destruct (Z.leb_spec c (total b)); auto. inr.
Qed.
End Uns.
