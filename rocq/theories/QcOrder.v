(** * Unscrambling does not depend on the atom order of the dimer *)
From Verif Require Export QcTransfer.
From Verif Require Import MatrixFacts MatrixCtor MatrixOps MatrixOps2 MatrixFinal.
Open Scope Z_scope.

Fixpoint idx (l : list Z) (k : Z) : Z :=
  match l with [] => 0 | x :: t => if x =? k then 1 else 1 + idx t k end.

Lemma idx_ok l k : In k l -> 1 <= idx l k <= Z.of_nat (length l) /\ nth_error l (Z.to_nat (idx l k - 1)) = Some k.
Proof.
  induction l as [|x l IH]; [contradiction|]. cbn [idx length]. intros [->|H].
  - rewrite Z.eqb_refl. split; [lia|]. reflexivity.
  - destruct (Z.eqb_spec x k) as [->|]; [split; [lia|reflexivity]|].
    destruct (IH H) as [H1 H2]. split; [lia|].
    replace (Z.to_nat (1 + idx l k - 1)) with (S (Z.to_nat (idx l k - 1))) by lia. exact H2.
Qed.

Lemma order_in n ord k : is_order n ord -> 1 <= k <= n -> In k ord.
Proof.
  intros H Hk. pose proof (order_perm n ord H) as HP.
  eapply Permutation.Permutation_in; [apply Permutation.Permutation_sym; exact HP|].
  apply in_map_iff. exists (Z.to_nat k). split; [lia|]. apply in_seq. lia.
Qed.

Lemma order_idx n s m : is_order n s -> is_order n m -> is_order n (map (idx s) m).
Proof.
  intros Hs (HL & Hnd & HF). pose proof Hs as (HLs & _ & _). rewrite Forall_forall in HF. split; [|split].
  - rewrite map_length; auto.
  - assert (Hinj : forall x y, In x m -> In y m -> idx s x = idx s y -> x = y).
    { intros x y Hx Hy E. pose proof (HF x Hx). pose proof (HF y Hy). simpl in *.
      destruct (idx_ok s x (order_in _ _ _ Hs H)) as [_ E1]. destruct (idx_ok s y (order_in _ _ _ Hs H0)) as [_ E2].
      rewrite E in E1. congruence. }
    clear -Hnd Hinj. induction Hnd as [|x m Hni Hnd IH]; simpl; constructor.
    + intros Hin. apply in_map_iff in Hin. destruct Hin as (y & E & Hy). apply Hni.
      rewrite (Hinj x y); simpl; auto.
    + apply IH. intros; apply Hinj; simpl; auto.
  - rewrite Forall_forall. intros y Hy. apply in_map_iff in Hy. destruct Hy as (x & <- & Hx).
    specialize (HF x Hx). simpl in HF. rewrite <- HLs. apply idx_ok. eapply order_in; eauto.
Qed.

Section Order.
Context {T : Type}.
Variable A : arith T.
Notation zero := (a_zero A).
Variable lab : T -> str.

Lemma match_finds c q c' q' D n N ord : denotes c D n 1 q -> denotes c' D N 1 q' ->
  Z.of_nat (length ord) = n -> finds lab D N q q' ord -> matchCol lab str_eqb c c' = Ok ord.
Proof.
  intros Hc Hc' HL HF.
  destruct (match_recovers lab c c' D n N q q' (fun i => nth (Z.to_nat (i - 1)) ord 0) Hc Hc') as (w & E & Hw).
  - intros i Hi. destruct (HF i (nth (Z.to_nat (i - 1)) ord 0)); auto; [|lia]. apply nth_error_nth'. lia.
  - intros i ii Hi Hii. destruct (HF i (nth (Z.to_nat (i - 1)) ord 0)) as [_ H]; auto; [|lia|].
    { apply nth_error_nth'. lia. } apply H; auto.
  - rewrite E. f_equal. destruct Hw as [Hl Hw]. apply nth_error_ext. intros k.
    destruct (Nat.lt_ge_cases k (length ord)) as [L|L].
    + specialize (Hw (Z.of_nat k + 1) ltac:(lia)). cbv beta in Hw.
      replace (Z.to_nat (Z.of_nat k + 1 - 1)) with k in Hw by lia.
      rewrite Hw. symmetry. apply nth_error_nth'. auto.
    + rewrite (proj2 (nth_error_None w k)) by lia. symmetry. apply nth_error_None. lia.
Qed.

(** sizes and contents after two reorderings *)
Lemma size_reordered b s k : 1 <= k <= Z.of_nat (length b) -> is_order (Z.of_nat (length b)) s ->
  size_of (reordered b s) (idx s k) = size_of b k.
Proof.
  intros Hk Hs. destruct (idx_ok s k (order_in _ _ _ Hs Hk)) as [H1 H2].
  unfold size_of at 1, reordered.
  apply nth_error_nth. rewrite nth_error_map, H2. reflexivity.
Qed.

Lemma reordered_twice b s m : is_order (Z.of_nat (length b)) s -> Forall (fun x => 1 <= x <= Z.of_nat (length b)) m ->
  reordered (reordered b s) (map (idx s) m) = reordered b m.
Proof.
  intros Hs Hm. unfold reordered at 1 3. rewrite map_map. apply map_ext_in. intros k Hk.
  rewrite Forall_forall in Hm. apply size_reordered; auto.
Qed.

Lemma reordered_length b s : length (reordered b s) = length s.
Proof. apply map_length. Qed.

(** position [c] of the reordered whole, described *)
Lemma cover_order b m c : Forall (fun n => 1 <= n) b -> is_order (Z.of_nat (length b)) m -> 1 <= c <= total b ->
  exists i k j, 1 <= k <= Z.of_nat (length b) /\ nth_error m i = Some k /\ 1 <= j <= size_of b k /\
    c = off (reordered b m) (Z.of_nat i + 1) + j.
Proof.
  intros Hb Ho Hc. pose proof Ho as (HL & _ & HR).
  destruct (block_cover (reordered b m) (reordered_pos _ _ Hb Ho) c) as (i & n & j & Hi & Hj & E).
  { rewrite total_reordered; auto. }
  unfold reordered in Hi. rewrite nth_error_map in Hi. destruct (nth_error m i) as [k|] eqn:Ek; simpl in Hi; [|discriminate].
  inversion Hi; subst n. exists i, k, j. split; [rewrite Forall_forall in HR; apply HR; eapply nth_error_In; eauto|].
  split; auto. split; auto. unfold off. replace (Z.to_nat (Z.of_nat i + 1 - 1)) with i by lia. exact E.
Qed.

Lemma compose_fun b s m f f' x c : Forall (fun n => 1 <= n) b ->
  is_order (Z.of_nat (length b)) s -> is_order (Z.of_nat (length b)) m -> blocks_moved b s f f' ->
  1 <= c <= total b ->
  perm_fun zero (reordered b s) (map (idx s) m) f' x c = perm_fun zero b m f x c.
Proof.
  intros Hb Hs Hm HM Hc. pose proof Hm as (_ & _ & HmF). pose proof Hs as (HLs & _).
  assert (Hb' : Forall (fun n => 1 <= n) (reordered b s)) by (apply reordered_pos; auto).
  assert (Hm' : is_order (Z.of_nat (length (reordered b s))) (map (idx s) m)).
  { rewrite reordered_length, HLs. apply order_idx; auto. }
  destruct (cover_order b m c Hb Hm Hc) as (i & k & j & Hk & Hi & Hj & Ec).
  rewrite Ec at 2. rewrite (perm_fun_at zero b m f x i k j) by auto.
  rewrite Ec, <- (reordered_twice b s m) by auto.
  rewrite (perm_fun_at zero (reordered b s) (map (idx s) m) f' x i (idx s k) j); auto.
  - destruct (idx_ok s k (order_in _ _ _ Hs Hk)) as [H1 H2]. apply HM; auto. lia.
  - rewrite nth_error_map, Hi. reflexivity.
  - rewrite size_reordered; auto.
Qed.

Lemma compose_fun2 b s m f f' r c : Forall (fun n => 1 <= n) b ->
  is_order (Z.of_nat (length b)) s -> is_order (Z.of_nat (length b)) m -> blocks_moved2 b s f f' ->
  1 <= r <= total b -> 1 <= c <= total b ->
  perm_fun zero (reordered b s) (map (idx s) m) (fun c' r' => perm_fun zero (reordered b s) (map (idx s) m) f' r' c') c r =
  perm_fun zero b m (fun c' r' => perm_fun zero b m f r' c') c r.
Proof.
  intros Hb Hs Hm HM Hr Hc. pose proof Hm as (_ & _ & HmF). pose proof Hs as (HLs & _).
  assert (Hb' : Forall (fun n => 1 <= n) (reordered b s)) by (apply reordered_pos; auto).
  assert (Hm' : is_order (Z.of_nat (length (reordered b s))) (map (idx s) m)).
  { rewrite reordered_length, HLs. apply order_idx; auto. }
  destruct (cover_order b m c Hb Hm Hc) as (i & k & j & Hk & Hi & Hj & Ec).
  destruct (cover_order b m r Hb Hm Hr) as (i' & k' & j' & Hk' & Hi' & Hj' & Er).
  rewrite Er at 2. rewrite (perm_fun_at zero b m _ c i' k' j') by auto. cbv beta.
  rewrite Ec at 2. rewrite (perm_fun_at zero b m f _ i k j) by auto.
  rewrite Er, Ec, <- (reordered_twice b s m) by auto.
  rewrite (perm_fun_at zero (reordered b s) (map (idx s) m) _ _ i' (idx s k') j'); auto.
  2:{ rewrite nth_error_map, Hi'. reflexivity. } 2:{ rewrite size_reordered; auto. }
  cbv beta.
  rewrite (perm_fun_at zero (reordered b s) (map (idx s) m) f' _ i (idx s k) j); auto.
  2:{ rewrite nth_error_map, Hi. reflexivity. } 2:{ rewrite size_reordered; auto. }
  destruct (idx_ok s k (order_in _ _ _ Hs Hk)) as [H1 H2]. destruct (idx_ok s k' (order_in _ _ _ Hs Hk')) as [H3 H4].
  apply HM; auto; lia.
Qed.

Lemma finds_moved D N q qP qP' s ord : is_order N s -> finds lab D N q qP ord ->
  (forall i k j, 1 <= i -> nth_error s (Z.to_nat (i - 1)) = Some k -> 1 <= j <= D -> qP' j i 1 = qP j k 1) ->
  finds lab D N q qP' (map (idx s) ord).
Proof.
  intros Hs HF HM i k' Hi Hi1. rewrite nth_error_map in Hi.
  destruct (nth_error ord (Z.to_nat (i - 1))) as [k|] eqn:Ek; simpl in Hi; [|discriminate]. inversion Hi; subst k'; clear Hi.
  destruct (HF i k Ek Hi1) as [Hk Hu]. destruct (idx_ok s k (order_in _ _ _ Hs Hk)) as [H1 H2].
  pose proof Hs as (HL & Hnd & HR). split; [lia|].
  intros k' Hk'. assert (Hn : exists x, nth_error s (Z.to_nat (k' - 1)) = Some x).
  { destruct (nth_error s (Z.to_nat (k' - 1))) eqn:E; eauto. apply nth_error_None in E. lia. }
  destruct Hn as (x & Hx).
  assert (Hxr : 1 <= x <= N) by (rewrite Forall_forall in HR; apply HR; eapply nth_error_In; eauto).
  assert (E : same_atom lab D q qP' i k' <-> same_atom lab D q qP i x).
  { unfold same_atom. split; intros K j Hj; specialize (K j Hj).
    - rewrite K. f_equal. apply HM; auto. lia.
    - rewrite K. f_equal. symmetry. apply HM; auto. lia. }
  rewrite E, (Hu x Hxr). split; intros K.
  - subst x. rewrite NoDup_nth_error in Hnd.
    assert (Z.to_nat (k' - 1) = Z.to_nat (idx s k - 1)); [|lia].
    apply Hnd; [apply nth_error_Some; congruence|congruence].
  - subst k'. congruence.
Qed.

Lemma unscramble_plain fuel tc c1 c2 cP D q1 q2 qP n1 n2 oA oB b b2 N K fP fS :
  tc_cp tc = false ->
  denotes c1 D n1 1 q1 -> denotes c2 D n2 1 q2 -> denotes cP D (Z.of_nat (length b)) 1 qP ->
  Z.of_nat (length oA) = n1 -> Z.of_nat (length oB) = n2 ->
  finds lab D (Z.of_nat (length b)) q1 qP oA -> finds lab D (Z.of_nat (length b)) q2 qP oB ->
  is_order (Z.of_nat (length b)) (oA ++ oB) ->
  Forall (fun n => 1 <= n) b -> total b = N -> 1 <= N -> 1 <= K ->
  denotes (tc_P tc) K N 1 (fun r c _ => fP r c) -> denotes (tc_S tc) N N 1 (fun r c _ => fS r c) ->
  (length b + 2 <= fuel)%nat ->
  exists uP uS, tc_unscramble A lab fuel tc c1 c2 cP b b2 =
      Ok (mkTC (tc_1 tc) (tc_2 tc) uP (tc_orbs1 tc) (tc_orbs2 tc) uS (tc_OE tc) true false) /\
    denotes uP K N 1 (fun r c _ => perm_fun zero b (oA ++ oB) fP r c) /\
    denotes uS N N 1 (fun r c _ => perm_fun zero b (oA ++ oB) (fun c' r' => perm_fun zero b (oA ++ oB) fS r' c') c r).
Proof.
  intros Hcp Hc1 Hc2 HcP HlA HlB HfA HfB Ho Hb Ht HN HK HP HS Hf. unfold tc_unscramble. rewrite Hcp.
  rewrite (match_finds c1 q1 cP qP D n1 _ oA Hc1 HcP HlA HfA). cbn [bind].
  rewrite (match_finds c2 q2 cP qP D n2 _ oB Hc2 HcP HlB HfB). cbn [bind].
  unfold unscramble_Coef2.
  destruct (unscramble2_cols zero fuel oA oB b (tc_P tc) K N fP HP HK HN Hb ltac:(lia) Ho Hf) as (uP & E1 & D1).
  rewrite E1. cbn [bind].
  destruct (unscramble_S2_ok zero fuel oA oB b (tc_S tc) N fS HS HN Hb Ht Ho Hf) as (uS & E2 & D2).
  rewrite E2. cbn [bind]. exists uP, uS. split; auto. split; auto.
  eapply denotes_ext; [exact D1|]. intros r c s Hin. cbn beta. destruct (Z.leb_spec c (total b)); auto. inr.
Qed.

Lemma unscramble_cp fuel tc c1 c2 cP D q1 q2 qP o2 oP b b2 N R2 K f2 fP fS :
  tc_cp tc = true -> length b2 = length b ->
  denotes c1 D (Z.of_nat (length b)) 1 q1 -> denotes c2 D (Z.of_nat (length b)) 1 q2 ->
  denotes cP D (Z.of_nat (length b)) 1 qP ->
  finds lab D (Z.of_nat (length b)) q1 q2 o2 -> finds lab D (Z.of_nat (length b)) q1 qP oP ->
  is_order (Z.of_nat (length b)) o2 -> is_order (Z.of_nat (length b)) oP ->
  Forall (fun n => 1 <= n) b -> Forall (fun n => 1 <= n) b2 -> total b = N -> total b2 = N -> 1 <= N -> 1 <= K -> 1 <= R2 ->
  denotes (tc_2 tc) R2 N 1 (fun r c _ => f2 r c) ->
  denotes (tc_P tc) K N 1 (fun r c _ => fP r c) -> denotes (tc_S tc) N N 1 (fun r c _ => fS r c) ->
  (length b + 2 <= fuel)%nat ->
  exists u2 uP uS, tc_unscramble A lab fuel tc c1 c2 cP b b2 =
      Ok (mkTC (tc_1 tc) u2 uP (tc_orbs1 tc) (tc_orbs2 tc) uS (tc_OE tc) true true) /\
    denotes u2 R2 N 1 (fun r c _ => perm_fun zero b2 o2 f2 r c) /\
    denotes uP K N 1 (fun r c _ => perm_fun zero b oP fP r c) /\
    denotes uS N N 1 (fun r c _ => perm_fun zero b oP (fun c' r' => perm_fun zero b oP fS r' c') c r).
Proof.
  intros Hcp Hlb Hc1 Hc2 HcP Hf2 HfP Ho2 HoP Hb Hb2 Ht Ht2 HN HK HR2 H2 HP HS Hf. unfold tc_unscramble. rewrite Hcp.
  rewrite (match_finds c1 q1 c2 q2 D _ _ o2 Hc1 Hc2 (proj1 Ho2) Hf2). cbn [bind].
  unfold unscramble_Coef1.
  destruct (unscramble1_cols zero fuel o2 b2 (tc_2 tc) R2 N f2 H2 HR2 HN Hb2 ltac:(lia)) as (u2 & E0 & D0);
    [rewrite Hlb; auto|lia|]. rewrite E0. cbn [bind].
  rewrite (match_finds c1 q1 cP qP D _ _ oP Hc1 HcP (proj1 HoP) HfP). cbn [bind].
  destruct (unscramble1_cols zero fuel oP b (tc_P tc) K N fP HP HK HN Hb ltac:(lia) HoP Hf) as (uP & E1 & D1).
  rewrite E1. cbn [bind].
  destruct (unscramble_S1_ok zero fuel oP b (tc_S tc) N fS HS HN Hb Ht HoP Hf) as (uS & E2 & D2).
  rewrite E2. cbn [bind]. exists u2, uP, uS. split; auto. split; [|split; auto].
  - eapply denotes_ext; [exact D0|]. intros r c s Hin. cbn beta. destruct (Z.leb_spec c (total b2)); auto. inr.
  - eapply denotes_ext; [exact D1|]. intros r c s Hin. cbn beta. destruct (Z.leb_spec c (total b)); auto. inr.
Qed.

(** ** Order independence *)
Lemma order_independent_plain fuel tc tc' c1 c2 cP cP' D q1 q2 qP qP' n1 n2 oA oB b b2 s N K fP fP' fS fS' :
  tc_cp tc = false ->
  tc' = mkTC (tc_1 tc) (tc_2 tc) (tc_P tc') (tc_orbs1 tc) (tc_orbs2 tc) (tc_S tc') (tc_OE tc) (tc_unscrambled tc') false ->
  denotes c1 D n1 1 q1 -> denotes c2 D n2 1 q2 ->
  denotes cP D (Z.of_nat (length b)) 1 qP -> denotes cP' D (Z.of_nat (length b)) 1 qP' ->
  Z.of_nat (length oA) = n1 -> Z.of_nat (length oB) = n2 ->
  finds lab D (Z.of_nat (length b)) q1 qP oA -> finds lab D (Z.of_nat (length b)) q2 qP oB ->
  is_order (Z.of_nat (length b)) (oA ++ oB) -> is_order (Z.of_nat (length b)) s ->
  Forall (fun n => 1 <= n) b -> total b = N -> 1 <= N -> 1 <= K ->
  denotes (tc_P tc) K N 1 (fun r c _ => fP r c) -> denotes (tc_S tc) N N 1 (fun r c _ => fS r c) ->
  denotes (tc_P tc') K N 1 (fun r c _ => fP' r c) -> denotes (tc_S tc') N N 1 (fun r c _ => fS' r c) ->
  (forall i k j, 1 <= i -> nth_error s (Z.to_nat (i - 1)) = Some k -> 1 <= j <= D -> qP' j i 1 = qP j k 1) ->
  blocks_moved b s fP fP' -> blocks_moved2 b s fS fS' ->
  (length b + 2 <= fuel)%nat ->
  exists t, tc_unscramble A lab fuel tc c1 c2 cP b b2 = Ok t /\
            tc_unscramble A lab fuel tc' c1 c2 cP' (reordered b s) b2 = Ok t.
Proof.
  intros Hcp Etc Hc1 Hc2 HcP HcP' HlA HlB HfA HfB Ho Hs Hb Ht HN HK HP HS HP' HS' Hq HmP HmS Hf.
  pose proof Hs as (HLs & _).
  destruct (unscramble_plain fuel tc c1 c2 cP D q1 q2 qP n1 n2 oA oB b b2 N K fP fS) as (uP & uS & E & DP & DS); auto.
  assert (Hl' : length (reordered b s) = length b) by (rewrite reordered_length; lia).
  destruct (unscramble_plain fuel tc' c1 c2 cP' D q1 q2 qP' n1 n2 (map (idx s) oA) (map (idx s) oB) (reordered b s) b2 N K fP' fS')
    as (uP' & uS' & E' & DP' & DS'); try (rewrite Hl'); try (rewrite map_length); auto.
  - rewrite Etc; reflexivity.
  - eapply finds_moved; eauto.
  - eapply finds_moved; eauto.
  - rewrite <- map_app. apply order_idx; auto.
  - apply reordered_pos; auto.
  - rewrite total_reordered; auto.
  - rewrite E, E'. eexists; split; [reflexivity|]. rewrite <- map_app in DP', DS'.
    assert (EP : uP' = uP).
    { eapply denotes_inj; [exact DP'|]. eapply denotes_ext; [exact DP|]. intros r c sh Hin. cbn beta.
      symmetry. apply compose_fun; auto. inr. }
    assert (ES : uS' = uS).
    { eapply denotes_inj; [exact DS'|]. eapply denotes_ext; [exact DS|]. intros r c sh Hin. cbn beta.
      symmetry. apply compose_fun2; auto; inr. }
    rewrite EP, ES, Etc. reflexivity.
Qed.

Lemma order_independent_cp fuel tc tc' c1 c2 cP cP' D q1 q2 qP qP' o2 oP b b2 s N R2 K f2 fP fP' fS fS' :
  tc_cp tc = true -> length b2 = length b ->
  tc' = mkTC (tc_1 tc) (tc_2 tc) (tc_P tc') (tc_orbs1 tc) (tc_orbs2 tc) (tc_S tc') (tc_OE tc) (tc_unscrambled tc') true ->
  denotes c1 D (Z.of_nat (length b)) 1 q1 -> denotes c2 D (Z.of_nat (length b)) 1 q2 ->
  denotes cP D (Z.of_nat (length b)) 1 qP -> denotes cP' D (Z.of_nat (length b)) 1 qP' ->
  finds lab D (Z.of_nat (length b)) q1 q2 o2 -> finds lab D (Z.of_nat (length b)) q1 qP oP ->
  is_order (Z.of_nat (length b)) o2 -> is_order (Z.of_nat (length b)) oP -> is_order (Z.of_nat (length b)) s ->
  Forall (fun n => 1 <= n) b -> Forall (fun n => 1 <= n) b2 -> total b = N -> total b2 = N -> 1 <= N -> 1 <= K -> 1 <= R2 ->
  denotes (tc_2 tc) R2 N 1 (fun r c _ => f2 r c) ->
  denotes (tc_P tc) K N 1 (fun r c _ => fP r c) -> denotes (tc_S tc) N N 1 (fun r c _ => fS r c) ->
  denotes (tc_P tc') K N 1 (fun r c _ => fP' r c) -> denotes (tc_S tc') N N 1 (fun r c _ => fS' r c) ->
  (forall i k j, 1 <= i -> nth_error s (Z.to_nat (i - 1)) = Some k -> 1 <= j <= D -> qP' j i 1 = qP j k 1) ->
  blocks_moved b s fP fP' -> blocks_moved2 b s fS fS' ->
  (length b + 2 <= fuel)%nat ->
  exists t, tc_unscramble A lab fuel tc c1 c2 cP b b2 = Ok t /\
            tc_unscramble A lab fuel tc' c1 c2 cP' (reordered b s) b2 = Ok t.
Proof.
  intros Hcp Hlb Etc Hc1 Hc2 HcP HcP' Hf2 HfP Ho2 HoP Hs Hb Hb2 Ht Ht2 HN HK HR2 H2 HP HS HP' HS' Hq HmP HmS Hf.
  pose proof Hs as (HLs & _).
  destruct (unscramble_cp fuel tc c1 c2 cP D q1 q2 qP o2 oP b b2 N R2 K f2 fP fS) as (u2 & uP & uS & E & D2 & DP & DS); auto.
  assert (Hl' : length (reordered b s) = length b) by (rewrite reordered_length; lia).
  destruct (unscramble_cp fuel tc' c1 c2 cP' D q1 q2 qP' o2 (map (idx s) oP) (reordered b s) b2 N R2 K f2 fP' fS')
    as (u2' & uP' & uS' & E' & D2' & DP' & DS'); try (rewrite Hl'); try (rewrite map_length); auto.
  - rewrite Etc; reflexivity.
  - eapply finds_moved; eauto.
  - apply order_idx; auto.
  - apply reordered_pos; auto.
  - rewrite total_reordered; auto.
  - rewrite Etc; auto.
  - rewrite E, E'. eexists; split; [reflexivity|].
    assert (E2 : u2' = u2) by (eapply denotes_inj; [exact D2'|exact D2]).
    assert (EP : uP' = uP).
    { eapply denotes_inj; [exact DP'|]. eapply denotes_ext; [exact DP|]. intros r c sh Hin. cbn beta.
      symmetry. apply compose_fun; auto. inr. }
    assert (ES : uS' = uS).
    { eapply denotes_inj; [exact DS'|]. eapply denotes_ext; [exact DS|]. intros r c sh Hin. cbn beta.
      symmetry. apply compose_fun2; auto; inr. }
    rewrite E2, EP, ES, Etc. reflexivity.
Qed.
End Order.
