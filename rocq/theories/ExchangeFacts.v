(** * Exchanging the monomers *)
From Coq Require Import Permutation.
From Verif Require Import QcUnscramble QcOrder QcFinal QcExact.
From Verif Require Export ExchangeSpec.
From Verif Require Export QcExactSpec.
From Verif Require Export StrSpec StrModel.
Open Scope Z_scope.

(** ** blocks *)
Lemma total_app a b : total (a ++ b) = total a + total b.
Proof. unfold total. induction a as [|x a IH]; cbn [app fold_right]; [lia|]. rewrite IH. lia. Qed.
Lemma off_app_l a b i : 1 <= i -> i <= count a + 1 -> off (a ++ b) i = off a i.
Proof. intros H1 H2. unfold off, count in *. rewrite firstn_app. replace (Z.to_nat (i - 1) - length a)%nat with O by lia. cbn [firstn]. rewrite app_nil_r. reflexivity. Qed.
Lemma off_app_r a b i : 1 <= i -> off (a ++ b) (count a + i) = total a + off b i.
Proof.
  intros H. unfold off, count. rewrite firstn_app, total_app. rewrite firstn_all2 by lia. f_equal. f_equal. f_equal. lia.
Qed.
Lemma reordered_app b x y : reordered b (x ++ y) = reordered b x ++ reordered b y.
Proof. apply map_app. Qed.
Lemma count_reordered b x : count (reordered b x) = count x.
Proof. unfold count, reordered. rewrite map_length. reflexivity. Qed.

Section Exact.
Context {T : Type}.
Variable A : arith T.
Variables opp inv : T -> T.
Hypothesis HA : exact_arith A opp inv.
Let FT := ea_field A opp inv HA.
Add Field TF : FT.
Notation Sum := (sum A).

Fixpoint lsum (l : list T) : T := match l with [] => a_zero A | x :: t => a_add A x (lsum t) end.
Lemma lsum_perm l l' : Permutation l l' -> lsum l = lsum l'.
Proof. induction 1 as [|x l l' _ IH|x y l|l l' l'' _ IH1 _ IH2]; cbn [lsum]; [reflexivity|rewrite IH; reflexivity|ring|congruence]. Qed.
Lemma sum_blocks b : Forall (fun n => 1 <= n) b -> forall u,
  Sum (Z.to_nat (total b)) u = lsum (map (fun k => Sum (Z.to_nat (size_of b k)) (fun j => u (off b k + j))) (map (fun i => Z.of_nat i) (seq 1 (length b)))).
Proof.
  induction 1 as [|n b Hn Hb IH]; intros u; [reflexivity|]. assert (Ht : 0 <= total b) by (clear -Hb; induction Hb; cbn [total fold_right]; [lia|unfold total in *; lia]).
  change (total (n :: b)) with (n + total b). replace (Z.to_nat (n + total b)) with (Z.to_nat n + Z.to_nat (total b))%nat by lia. rewrite (sum_app A opp inv HA). rewrite (IH (fun k => u (Z.of_nat (Z.to_nat n) + k))).
  cbn [length seq map lsum]. f_equal.
  rewrite <- (seq_shift (length b) 1), !map_map. f_equal. apply map_ext_in. intros k Hk. apply in_seq in Hk.
  assert (E1 : size_of (n :: b) (Z.of_nat (S k)) = size_of b (Z.of_nat k)). { unfold size_of. replace (Z.to_nat (Z.of_nat (S k) - 1)) with (S (Z.to_nat (Z.of_nat k - 1))) by lia. reflexivity. }
  assert (E2 : off (n :: b) (Z.of_nat (S k)) = n + off b (Z.of_nat k)). { unfold off. replace (Z.to_nat (Z.of_nat (S k) - 1)) with (S (Z.to_nat (Z.of_nat k - 1))) by lia. reflexivity. }
  rewrite E1, E2. apply sum_ext. intros j _. f_equal. lia.
Qed.
Lemma sum_moved b ord u u' : Forall (fun n => 1 <= n) b -> is_order (count b) ord ->
  (forall i k j, 1 <= i -> nth_error ord (Z.to_nat (i - 1)) = Some k -> 1 <= j <= size_of b k -> u' (off (reordered b ord) i + j) = u (off b k + j)) ->
  Sum (Z.to_nat (total b)) u' = Sum (Z.to_nat (total b)) u.
Proof.
  intros Hb Ho H. unfold count in Ho. pose proof Ho as (HL & _). rewrite (sum_blocks b Hb u).
  rewrite <- (total_reordered b ord Ho) at 1. rewrite (sum_blocks (reordered b ord) (reordered_pos _ _ Hb Ho) u').
  pose proof (order_perm _ _ Ho) as Pm. rewrite Nat2Z.id in Pm. transitivity (lsum (map (fun k => Sum (Z.to_nat (size_of b k)) (fun j => u (off b k + j))) ord)); [|apply lsum_perm, Permutation_map, Pm].
  f_equal. rewrite reordered_length. replace (map (fun k => Sum (Z.to_nat (size_of b k)) (fun j => u (off b k + j))) ord)
    with (map (fun i => let k := nth (i - 1) ord 0 in Sum (Z.to_nat (size_of b k)) (fun j => u (off b k + j))) (seq 1 (length ord))).
  - rewrite map_map. apply map_ext_in. intros i Hi. apply in_seq in Hi. cbv zeta. set (k := nth (i - 1) ord 0).
    assert (Hk : nth_error ord (i - 1) = Some k) by (apply nth_error_nth'; lia).
    assert (Es : size_of (reordered b ord) (Z.of_nat i) = size_of b k). { unfold size_of at 1, reordered. apply nth_error_nth. rewrite nth_error_map. replace (Z.to_nat (Z.of_nat i - 1)) with (i - 1)%nat by lia. rewrite Hk. reflexivity. }
    rewrite Es. apply sum_ext. intros j Hj. apply H; [lia| |lia]. replace (Z.to_nat (Z.of_nat i - 1)) with (i - 1)%nat by lia. exact Hk.
  - rewrite <- (map_map (fun i => nth (i - 1) ord 0) (fun k => Sum (Z.to_nat (size_of b k)) (fun j => u (off b k + j)))). f_equal.
    rewrite <- (seq_shift (length ord) 0), map_map. clear. induction ord as [|x l IH] using rev_ind; [reflexivity|]. rewrite app_length, seq_app, !map_app. cbn [length plus seq map]. f_equal.
    + rewrite <- IH at 2. apply map_ext_in. intros i Hi. apply in_seq in Hi. rewrite app_nth1 by lia. reflexivity.
    + rewrite app_nth2 by lia. replace (S (length l) - 1 - length l)%nat with O by lia. reflexivity.
Qed.
Lemma overlap_moved b ord S P S' P' z z' k : Forall (fun n => 1 <= n) b -> is_order (count b) ord ->
  blocks_moved b ord z z' -> blocks_moved b ord P P' -> blocks_moved2 b ord S S' -> forall r,
  overlap_with A (Z.to_nat (total b)) S' P' (z' r) k = overlap_with A (Z.to_nat (total b)) S P (z r) k.
Proof.
  intros Hb Ho Hz HP HS r. unfold overlap_with. apply (sum_moved b ord); auto. intros i k' j Hi Hk Hj.
  apply (sum_moved b ord (fun m => a_mul A (a_mul A (z r (off b k' + j)) (S (off b k' + j) m)) (P k m))); auto.
  intros i2 k2 j2 Hi2 Hk2 Hj2. rewrite (Hz r i k' j Hi Hk Hj), (HP k i2 k2 j2 Hi2 Hk2 Hj2), (HS i k' j i2 k2 j2) by auto. reflexivity.
Qed.
(** the four numbers with the two orbitals exchanged *)
Lemma numbers_exchange {X} (f : T -> T -> T -> T -> X) K e gA gB gA' gB' : (forall k, 1 <= k <= Z.of_nat K -> gA' k = gB k /\ gB' k = gA k) ->
  numbers_of A f K e gA' gB' = numbers_of A (fun j x y s => f j y x s) K e gA gB.
Proof.
  intros H. unfold numbers_of. rewrite !(quad_exact A opp inv HA), !(accum_sum A).
  f_equal; apply sum_ext; intros k Hk; destruct (H k Hk) as [E1 E2]; rewrite ?E1, ?E2; ring.
Qed.
Lemma numbers_ext {X} (f : T -> T -> T -> T -> X) K e gA gB gA' gB' : (forall k, 1 <= k <= Z.of_nat K -> gA' k = gA k /\ gB' k = gB k) -> numbers_of A f K e gA' gB' = numbers_of A f K e gA gB.
Proof.
  intros H. unfold numbers_of. rewrite !(quad_exact A opp inv HA), !(accum_sum A).
  f_equal; apply sum_ext; intros k Hk; destruct (H k Hk) as [E1 E2]; rewrite ?E1, ?E2; ring.
Qed.
(** a common order of the basis functions does not matter *)
Lemma numbers_moved {X} (h : T -> T -> T -> T -> X) b ord n1 K f g fP fS f' g' fP' fS' e r1 r2 : Forall (fun n => 1 <= n) b -> is_order (count b) ord ->
  blocks_moved b ord f f' -> blocks_moved b ord g g' -> blocks_moved b ord fP fP' -> blocks_moved2 b ord fS fS' ->
  numbers_value A h true n1 (total b) K f' g' fP' fS' e r1 r2 = numbers_value A h true n1 (total b) K f g fP fS e r1 r2.
Proof.
  intros Hb Ho H1 H2 HP HS. unfold numbers_value. apply numbers_ext. intros k Hk. rewrite !(projection_exact A opp inv HA). split; apply (overlap_moved b ord); auto.
Qed.
Lemma numbers_swap {X} (h : T -> T -> T -> T -> X) (cp : bool) n1 n2 N K a b fP fS e fP' fS' r1 r2 : 0 <= n1 -> 0 <= n2 -> (if cp then n1 = N /\ n2 = N else n1 + n2 = N) ->
  (forall k c, 1 <= k <= K -> 1 <= c <= N -> fP' k c = fP k (if cp then c else rot n1 n2 c)) ->
  (forall l m, 1 <= l <= N -> 1 <= m <= N -> fS' l m = fS (if cp then l else rot n1 n2 l) (if cp then m else rot n1 n2 m)) ->
  numbers_value A h cp n2 N K b a fP' fS' e r2 r1 = numbers_value A (fun j x y s => h j y x s) cp n1 N K a b fP fS e r1 r2.
Proof.
  intros H1 H2 HN HP HS. unfold numbers_value. apply numbers_exchange. intros k Hk. rewrite !(projection_exact A opp inv HA). destruct cp.
  - split; apply (overlap_ext A); auto; intros; [apply HS|apply HP|apply HS|apply HP]; lia.
  - subst N. split.
    + rewrite <- (overlap_rot A opp inv HA n1 n2 fS fP) by auto. apply (overlap_ext A); intros; [|apply HS; lia|apply HP; lia].
      unfold pad_before, pad_after, rot. destruct (Z.leb_spec l n2).
      * destruct (Z.leb_spec (n1 + l) n1); [lia|]. f_equal; lia.
      * destruct (Z.leb_spec (l - n2) n1); [auto|lia].
    + rewrite <- (overlap_rot A opp inv HA n1 n2 fS fP) by auto. apply (overlap_ext A); intros; [|apply HS; lia|apply HP; lia].
      unfold pad_before, pad_after, rot. destruct (Z.leb_spec l n2).
      * destruct (Z.leb_spec (n1 + l) n1); [lia|]. auto.
      * destruct (Z.leb_spec (l - n2) n1); [auto|lia].
Qed.
End Exact.

(** ** the atoms of monomer 2 before those of monomer 1 *)
Lemma place_app_l {X} (x y : list X) i k : nth_error x (Z.to_nat (i - 1)) = Some k -> nth_error (x ++ y) (Z.to_nat (i - 1)) = Some k.
Proof. intros H. rewrite nth_error_app1; [exact H|]. apply nth_error_Some. congruence. Qed.
Lemma place_app_r {X} (x y : list X) i k : 1 <= i -> nth_error y (Z.to_nat (i - 1)) = Some k -> nth_error (x ++ y) (Z.to_nat (count x + i - 1)) = Some k.
Proof. intros Hi H. unfold count. rewrite nth_error_app2 by lia. rewrite <- H. f_equal. lia. Qed.
Lemma in_app_place {X} (x y : list X) i k : 1 <= i -> nth_error (x ++ y) (Z.to_nat (i - 1)) = Some k ->
  nth_error x (Z.to_nat (i - 1)) = Some k /\ i <= count x \/ exists i', 1 <= i' /\ i = count x + i' /\ nth_error y (Z.to_nat (i' - 1)) = Some k.
Proof.
  intros Hi H. unfold count. destruct (Nat.lt_ge_cases (Z.to_nat (i - 1)) (length x)) as [L|L].
  - left. rewrite nth_error_app1 in H by lia. split; [exact H|lia].
  - right. rewrite nth_error_app2 in H by lia. exists (i - Z.of_nat (length x)). split; [lia|]. split; [lia|]. rewrite <- H. f_equal. lia.
Qed.
(** where position [c] of the order oB ++ oA stands in oA ++ oB *)
Lemma rot_block b oA oB i k j : Forall (fun n => 1 <= n) b -> is_order (count b) (oA ++ oB) -> 1 <= i -> nth_error (oB ++ oA) (Z.to_nat (i - 1)) = Some k -> 1 <= j <= size_of b k ->
  exists i', 1 <= i' /\ nth_error (oA ++ oB) (Z.to_nat (i' - 1)) = Some k /\
    rot (total (reordered b oA)) (total (reordered b oB)) (off (reordered b (oB ++ oA)) i + j) = off (reordered b (oA ++ oB)) i' + j.
Proof.
  intros Hb Ho Hi Hk Hj. rewrite !reordered_app. set (nA := total (reordered b oA)). set (nB := total (reordered b oB)).
  assert (Bd : forall x, Forall (fun y => 1 <= y <= count b) x -> forall i, 1 <= i -> nth_error x (Z.to_nat (i - 1)) = Some k -> 0 <= off (reordered b x) i /\ off (reordered b x) i + size_of b k <= total (reordered b x)).
  { clear - Hb Hj. intros x Hx i Hi H. apply nth_error_split in H as (l1 & l2 & -> & L). rewrite reordered_app. rewrite off_app_l by (rewrite ?count_reordered; unfold count; lia). rewrite total_app.
    assert (O : off (reordered b l1) i = total (reordered b l1)). { unfold off. rewrite firstn_all2; [reflexivity|]. unfold reordered. rewrite map_length. lia. }
    rewrite O. cbn [reordered map]. change (total (size_of b k :: map (size_of b) l2)) with (size_of b k + total (map (size_of b) l2)). apply Forall_app in Hx as [H1 H2]. inversion H2 as [|? ? _ H3]; subst.
    assert (P : forall l, Forall (fun y => 1 <= y <= count b) l -> 0 <= total (map (size_of b) l)).
    { clear - Hb. induction 1 as [|y l Hy _ IH]; cbn [map]; unfold total in *; cbn [fold_right]; [lia|]. assert (1 <= size_of b y); [|lia]. unfold size_of, count in *. rewrite Forall_forall in Hb. apply Hb, nth_In. lia. }
    pose proof (P l1 H1). pose proof (P l2 H3). unfold reordered in *. lia. }
  destruct Ho as (_ & _ & HF). apply Forall_app in HF as [FA FB].
  apply in_app_place in Hk as [[Hk Hc]|(i2 & Hi2 & -> & Hk)]; [| |exact Hi].
  - exists (count oA + i). split; [unfold count; lia|]. split; [apply place_app_r; auto|]. rewrite off_app_l by (rewrite ?count_reordered; lia). rewrite <- (count_reordered b oA), off_app_r by lia.
    destruct (Bd oB FB i Hi Hk) as [B1 B2]. fold nB in B2. unfold rot. destruct (Z.leb_spec (off (reordered b oB) i + j) nB); [unfold nA; lia|lia].
  - exists i2. split; [exact Hi2|]. split; [apply place_app_l; exact Hk|]. rewrite <- (count_reordered b oB), off_app_r by lia. fold nB.
    destruct (Bd oA FA i2 Hi2 Hk). assert (Hc : i2 <= count oA) by (unfold count; assert (Z.to_nat (i2 - 1) < length oA)%nat by (apply nth_error_Some; congruence); lia).
    rewrite off_app_l by (rewrite ?count_reordered; lia). unfold rot. destruct (Z.leb_spec (nB + off (reordered b oA) i2 + j) nB); lia.
Qed.
Lemma order_swap n oA oB : is_order n (oA ++ oB) -> is_order n (oB ++ oA).
Proof.
  intros (H1 & H2 & H3). split; [rewrite app_length in *; lia|]. split; [|apply Forall_app; apply Forall_app in H3; tauto].
  eapply Permutation_NoDup; [apply Permutation_app_comm|exact H2].
Qed.
Lemma moved_rot {X} b oA oB (f g g' : Z -> Z -> X) : Forall (fun n => 1 <= n) b -> is_order (count b) (oA ++ oB) ->
  blocks_moved b (oA ++ oB) f g -> blocks_moved b (oB ++ oA) f g' ->
  forall x c, 1 <= c <= total b -> g' x c = g x (rot (total (reordered b oA)) (total (reordered b oB)) c).
Proof.
  intros Hb Ho M M' x c Hc. destruct (cover_order b (oB ++ oA) c Hb (order_swap _ _ _ Ho) Hc) as (i & k & j & _ & Hi & Hj & ->).
  replace i with (Z.to_nat (Z.of_nat i + 1 - 1)) in Hi by lia. rewrite (M' x _ k j) by (auto; lia).
  destruct (rot_block b oA oB (Z.of_nat i + 1) k j Hb Ho ltac:(lia) Hi Hj) as (i' & Hi' & Hk' & ->). rewrite (M x i' k j); auto.
Qed.
Lemma moved_rot2 {X} b oA oB (f g g' : Z -> Z -> X) : Forall (fun n => 1 <= n) b -> is_order (count b) (oA ++ oB) ->
  blocks_moved2 b (oA ++ oB) f g -> blocks_moved2 b (oB ++ oA) f g' ->
  forall r c, 1 <= r <= total b -> 1 <= c <= total b ->
    g' r c = g (rot (total (reordered b oA)) (total (reordered b oB)) r) (rot (total (reordered b oA)) (total (reordered b oB)) c).
Proof.
  intros Hb Ho M M' r c Hr Hc. destruct (cover_order b (oB ++ oA) c Hb (order_swap _ _ _ Ho) Hc) as (i & k & j & _ & Hi & Hj & ->). destruct (cover_order b (oB ++ oA) r Hb (order_swap _ _ _ Ho) Hr) as (i2 & k2 & j2 & _ & Hi2 & Hj2 & ->).
  replace i with (Z.to_nat (Z.of_nat i + 1 - 1)) in Hi by lia. replace i2 with (Z.to_nat (Z.of_nat i2 + 1 - 1)) in Hi2 by lia. rewrite (M' _ k2 j2 _ k j) by (auto; lia).
  destruct (rot_block b oA oB (Z.of_nat i + 1) k j Hb Ho ltac:(lia) Hi Hj) as (i' & Hi' & Hk' & ->). destruct (rot_block b oA oB (Z.of_nat i2 + 1) k2 j2 Hb Ho ltac:(lia) Hi2 Hj2) as (i2' & Hi2' & Hk2' & ->). rewrite (M i2' k2 j2 i' k j); auto.
Qed.

(** ** the order of the atoms of monomer 2 in monomer 1, from that of monomer 1 in monomer 2 *)
Definition inverse (o : list Z) : list Z := map (idx o) (map (fun i => Z.of_nat i) (seq 1 (length o))).
Lemma inverse_nth n o i k : is_order n o -> 1 <= i -> (nth_error (inverse o) (Z.to_nat (i - 1)) = Some k <-> (i <= n /\ 1 <= k /\ nth_error o (Z.to_nat (k - 1)) = Some i)).
Proof.
  intros Ho Hi. pose proof Ho as (HL & Hnd & _). unfold inverse. rewrite map_map, nth_error_map. destruct (nth_error (seq 1 (length o)) (Z.to_nat (i - 1))) as [m|] eqn:E.
  - assert (L : (Z.to_nat (i - 1) < length o)%nat). { rewrite <- (seq_length (length o) 1). apply nth_error_Some. congruence. }
    assert (m = Z.to_nat i) as ->. { apply nth_error_nth with (d := O) in E. rewrite seq_nth in E by lia. lia. }
    cbn [option_map]. rewrite Z2Nat.id by lia. destruct (idx_ok o i (order_in n o i Ho ltac:(lia))) as [H1 H2]. split.
    + intros Q. assert (k = idx o i) as -> by congruence. split; [lia|]. split; [lia|exact H2].
    + intros (_ & Hk & H). f_equal. rewrite NoDup_nth_error in Hnd. assert (Z.to_nat (k - 1) = Z.to_nat (idx o i - 1)); [|lia]. apply Hnd; [apply nth_error_Some|]; congruence.
  - cbn [option_map]. split; [discriminate|]. intros (H & _). apply nth_error_None in E. rewrite seq_length in E. lia.
Qed.
Lemma inverse_order n o : is_order n o -> is_order n (inverse o).
Proof.
  intros Ho. pose proof Ho as (HL & _). unfold inverse. apply order_idx; [exact Ho|]. split; [rewrite map_length, seq_length; exact HL|]. split.
  - apply FinFun.Injective_map_NoDup; [intros x y; lia|apply seq_NoDup].
  - apply Forall_forall. intros x Hx. apply in_map_iff in Hx as (y & <- & Hy). apply in_seq in Hy. lia.
Qed.
Lemma inverse_finds {T} (lab : T -> str) D n q1 q2 o : is_order n o -> finds lab D n q1 q2 o -> finds lab D n q2 q1 (inverse o).
Proof.
  intros Ho F i k Hk Hi. apply (inverse_nth n o i k Ho Hi) in Hk as (Hin & Hk & E). pose proof Ho as (HL & Hnd & HR).
  assert (Lk : (Z.to_nat (k - 1) < length o)%nat) by (apply nth_error_Some; congruence). split; [lia|]. intros k' Hk'.
  assert (Sy : same_atom lab D q2 q1 i k' <-> same_atom lab D q1 q2 k' i) by (unfold same_atom; split; intros H j Hj; symmetry; apply H; exact Hj).
  rewrite Sy. destruct (nth_error o (Z.to_nat (k' - 1))) as [x|] eqn:Ex; [|apply nth_error_None in Ex; lia]. destruct (F k' x Ex ltac:(lia)) as [_ Hu]. rewrite (Hu i ltac:(lia)). split.
  - intros ->. rewrite NoDup_nth_error in Hnd. assert (Z.to_nat (k' - 1) = Z.to_nat (k - 1)); [|lia]. apply Hnd; [lia|congruence].
  - intros ->. congruence.
Qed.
(** oP after the inverse of o2 *)
Definition after (oP o : list Z) : list Z := map (fun k => nth (Z.to_nat (k - 1)) oP 0) o.
Lemma after_nth n oP o i m : is_order n oP -> is_order n o -> (nth_error (after oP o) (Z.to_nat (i - 1)) = Some m <-> exists k, nth_error o (Z.to_nat (i - 1)) = Some k /\ nth_error oP (Z.to_nat (k - 1)) = Some m).
Proof.
  intros (HL & _) (_ & _ & HR). unfold after. rewrite nth_error_map. destruct (nth_error o (Z.to_nat (i - 1))) as [k|] eqn:E; cbn [option_map].
  - assert (Hk : 1 <= k <= n) by (rewrite Forall_forall in HR; apply HR; eapply nth_error_In; eauto).
    assert (Q : nth_error oP (Z.to_nat (k - 1)) = Some (nth (Z.to_nat (k - 1)) oP 0)) by (apply nth_error_nth'; lia). split.
    + intros H. exists k. split; [reflexivity|congruence].
    + intros (k' & H1 & H2). congruence.
  - split; [discriminate|]. intros (k & H & _). discriminate.
Qed.
Lemma after_order n oP o : is_order n oP -> is_order n o -> is_order n (after oP o).
Proof.
  intros HP Ho. pose proof HP as (HLP & HndP & HRP). pose proof Ho as (HL & Hnd & HR).
  assert (Q : forall i m, nth_error (after oP o) i = Some m -> exists k, 1 <= k /\ nth_error o i = Some k /\ nth_error oP (Z.to_nat (k - 1)) = Some m).
  { intros i m H. replace i with (Z.to_nat (Z.of_nat i + 1 - 1)) in H by lia. apply (after_nth n oP o _ m HP Ho) in H as (k & H1 & H2). exists k. replace (Z.to_nat (Z.of_nat i + 1 - 1)) with i in H1 by lia.
    rewrite Forall_forall in HR. split; [apply HR; eapply nth_error_In; eauto|auto]. }
  split; [unfold after; rewrite map_length; exact HL|]. split.
  - apply NoDup_nth_error. intros i i' Hi E. destruct (nth_error (after oP o) i) as [m|] eqn:E1; [|apply nth_error_None in E1; lia]. symmetry in E.
    destruct (Q i m E1) as (k & K1 & K2 & K3). destruct (Q i' m E) as (k' & K1' & K2' & K3').
    assert (k = k'). { rewrite NoDup_nth_error in HndP. assert (Z.to_nat (k - 1) = Z.to_nat (k' - 1)); [|lia]. apply HndP; [apply nth_error_Some|]; congruence. }
    subst k'. rewrite NoDup_nth_error in Hnd. apply Hnd; [apply nth_error_Some|]; congruence.
  - apply Forall_forall. intros x Hx. apply In_nth_error in Hx as (i & Hi). destruct (Q i x Hi) as (k & _ & _ & K). rewrite Forall_forall in HRP. apply HRP. eapply nth_error_In; eauto.
Qed.
Lemma after_finds {T} (lab : T -> str) D n q1 q2 qP o2 oP : is_order n o2 -> is_order n oP -> finds lab D n q1 q2 o2 -> finds lab D n q1 qP oP -> finds lab D n q2 qP (after oP (inverse o2)).
Proof.
  intros Ho HoP F FP i m Hm Hi. apply (after_nth n oP _ i m HoP (inverse_order n o2 Ho)) in Hm as (k & Hk & Hm). apply (inverse_nth n o2 i k Ho Hi) in Hk as (Hin & Hk & E).
  destruct (FP k m Hm Hk) as [Hr Hu]. split; [exact Hr|]. intros k' Hk'. rewrite <- (Hu k' Hk'). destruct (F k i E Hk) as [_ Hq]. pose proof (proj2 (Hq i ltac:(lia)) eq_refl) as Sm.
  unfold same_atom in *. split; intros H j Hj; [rewrite Sm by exact Hj|rewrite <- Sm by exact Hj]; apply H; exact Hj.
Qed.
Lemma size_nth b ord i k : nth_error ord (Z.to_nat (i - 1)) = Some k -> size_of (reordered b ord) i = size_of b k.
Proof. intros H. unfold size_of at 1, reordered. apply nth_error_nth. rewrite nth_error_map, H. reflexivity. Qed.
Lemma reordered_inverse b o : is_order (count b) o -> reordered (reordered b o) (inverse o) = b.
Proof.
  intros Ho. apply nth_error_ext. intros n. unfold reordered at 1. rewrite nth_error_map. pose proof (inverse_order _ _ Ho) as (HL & _).
  destruct (nth_error (inverse o) n) as [k|] eqn:E; cbn [option_map].
  - replace n with (Z.to_nat (Z.of_nat n + 1 - 1)) in E by lia. apply (inverse_nth _ o (Z.of_nat n + 1) k Ho ltac:(lia)) in E as (H1 & H2 & H3). rewrite (size_nth b o k _ H3). unfold size_of. replace (Z.to_nat (Z.of_nat n + 1 - 1)) with n by lia.
    symmetry. apply nth_error_nth'. unfold count in *. lia.
  - apply nth_error_None in E. symmetry. apply nth_error_None. unfold count in *. lia.
Qed.
Lemma reordered_after b oP o : is_order (count b) oP -> is_order (count b) o -> reordered (reordered b oP) o = reordered b (after oP o).
Proof.
  intros HP Ho. unfold reordered at 1 3, after. rewrite map_map. apply map_ext_in. intros k Hk. destruct Ho as (_ & _ & HR). rewrite Forall_forall in HR. specialize (HR k Hk). cbv beta in HR.
  apply size_nth. destruct HP as (HL & _). apply nth_error_nth'. lia.
Qed.
(** the functions of the second run are those of the first one, moved *)
Lemma moved_back {X} b o (f g : Z -> Z -> X) : is_order (count b) o -> blocks_moved b o f g -> blocks_moved (reordered b o) (inverse o) g f.
Proof.
  intros Ho M x i k j Hi Hk Hj. rewrite (reordered_inverse b o Ho). apply (inverse_nth _ o i k Ho Hi) in Hk as (H1 & H2 & H3). rewrite (size_nth b o k i H3) in Hj. symmetry. apply M; auto.
Qed.
Lemma moved_after {X} b oP o (f g g' : Z -> Z -> X) : is_order (count b) oP -> is_order (count b) o -> blocks_moved b oP f g -> blocks_moved b (after oP o) f g' -> blocks_moved (reordered b oP) o g g'.
Proof.
  intros HP Ho M M' x i k j Hi Hk Hj. rewrite (reordered_after b oP o HP Ho). pose proof Ho as (_ & _ & HR). rewrite Forall_forall in HR. pose proof (HR k ltac:(eapply nth_error_In; eauto)) as Hkr. cbv beta in Hkr.
  assert (Hm : nth_error oP (Z.to_nat (k - 1)) = Some (nth (Z.to_nat (k - 1)) oP 0)) by (destruct HP as (HL & _); apply nth_error_nth'; lia). set (m := nth (Z.to_nat (k - 1)) oP 0) in *.
  rewrite (size_nth b oP k m Hm) in Hj. rewrite (M x k m j) by (auto; lia). apply M'; auto. apply (after_nth _ oP o i m HP Ho). eauto.
Qed.
Lemma moved2_after {X} b oP o (f g g' : Z -> Z -> X) : is_order (count b) oP -> is_order (count b) o -> blocks_moved2 b oP f g -> blocks_moved2 b (after oP o) f g' -> blocks_moved2 (reordered b oP) o g g'.
Proof.
  intros HP Ho M M' i k j i' k' j' Hi Hk Hj Hi' Hk' Hj'. rewrite (reordered_after b oP o HP Ho). pose proof Ho as (_ & _ & HR). rewrite Forall_forall in HR.
  pose proof (HR k ltac:(eapply nth_error_In; eauto)) as Hkr. pose proof (HR k' ltac:(eapply nth_error_In; eauto)) as Hkr'. cbv beta in Hkr, Hkr'.
  assert (Hm : nth_error oP (Z.to_nat (k - 1)) = Some (nth (Z.to_nat (k - 1)) oP 0)) by (destruct HP as (HL & _); apply nth_error_nth'; lia). set (m := nth (Z.to_nat (k - 1)) oP 0) in *.
  assert (Hm' : nth_error oP (Z.to_nat (k' - 1)) = Some (nth (Z.to_nat (k' - 1)) oP 0)) by (destruct HP as (HL & _); apply nth_error_nth'; lia). set (m' := nth (Z.to_nat (k' - 1)) oP 0) in *.
  rewrite (size_nth b oP k m Hm) in Hj. rewrite (size_nth b oP k' m' Hm') in Hj'. rewrite (M k m j k' m' j') by (auto; lia). apply M'; auto; apply (after_nth _ oP o _ _ HP Ho); eauto.
Qed.
