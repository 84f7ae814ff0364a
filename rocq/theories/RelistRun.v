(** * Runs of calc_J with the atoms listed in another order *)
From Verif Require Import QcUnscramble QcTransfer QcOrder.
From Verif Require Export RelistSpec.
From Verif Require Export MainRun.
From Verif Require Export StrSpec StrModel.
Open Scope Z_scope.

Section Relist.
Context {T : Type} (A : arith T).
Lemma numbers_value_ext {X} (f : T -> T -> T -> T -> X) cp n1 N K a b fP fS a' b' fP' fS' e r1 r2 : 0 <= n1 ->
  (forall c, 1 <= c <= N -> a' r1 c = a r1 c) -> (forall c, 1 <= c <= N -> b' r2 c = b r2 c) ->
  (forall k c, 1 <= k <= K -> 1 <= c <= N -> fP' k c = fP k c) -> (forall r c, 1 <= r <= N -> 1 <= c <= N -> fS' r c = fS r c) ->
  numbers_value A f cp n1 N K a' b' fP' fS' e r1 r2 = numbers_value A f cp n1 N K a b fP fS e r1 r2.
Proof.
  intros Hn Ha Hb HP HS. unfold numbers_value, numbers_of.
  assert (QA : forall k, 1 <= k <= Z.of_nat (Z.to_nat K) -> projection A (Z.to_nat N) fS' fP' (if cp then a' r1 else pad_after A n1 (a' r1)) k = projection A (Z.to_nat N) fS fP (if cp then a r1 else pad_after A n1 (a r1)) k).
  { intros k Hk. apply projection_ext; intros; [|apply HS; lia|apply HP; lia]. destruct cp; [apply Ha; lia|]. unfold pad_after. destruct (l <=? n1); [apply Ha; lia|reflexivity]. }
  assert (QB : forall k, 1 <= k <= Z.of_nat (Z.to_nat K) -> projection A (Z.to_nat N) fS' fP' (if cp then b' r2 else pad_before A n1 (b' r2)) k = projection A (Z.to_nat N) fS fP (if cp then b r2 else pad_before A n1 (b r2)) k).
  { intros k Hk. apply projection_ext; intros; [|apply HS; lia|apply HP; lia]. destruct cp; [apply Hb; lia|]. unfold pad_before. destruct (Z.leb_spec l n1); [reflexivity|apply Hb; lia]. }
  assert (W : forall g g', (forall k, 1 <= k <= Z.of_nat (Z.to_nat K) -> g' k = g k) -> forall i, weighted A (Z.to_nat K) e g' i = weighted A (Z.to_nat K) e g i).
  { intros g g' Hg i. unfold weighted. apply MatrixOps2.accum_ext. intros k Hk. split; [reflexivity|auto]. }
  f_equal; apply MatrixOps2.accum_ext; intros k Hk; split; auto.
Qed.
(** two lists of the blocks that lead to the same order give the same function *)
Lemma moved_same {X} b s m (f f' g g' : Z -> Z -> X) : Forall (fun n => 1 <= n) b -> is_order (count b) s -> is_order (count b) m ->
  blocks_moved b s f f' -> blocks_moved b m f g -> blocks_moved (reordered b s) (map (idx s) m) f' g' -> forall x c, 1 <= c <= total b -> g' x c = g x c.
Proof.
  intros Hb Hs Hm M0 M M' x c Hc. pose proof Hm as (_ & _ & HmF). destruct (cover_order b m c Hb Hm Hc) as (i & k & j & Hk & Hi & Hj & ->).
  destruct (idx_ok s k (order_in _ _ _ Hs Hk)) as [H1 H2].
  assert (Hi' : nth_error m (Z.to_nat (Z.of_nat i + 1 - 1)) = Some k) by (replace (Z.to_nat (Z.of_nat i + 1 - 1)) with i by lia; exact Hi).
  rewrite (M x _ k j) by (auto; lia). rewrite <- (reordered_twice b s m Hs HmF).
  rewrite (M' x (Z.of_nat i + 1) (idx s k) j); [|lia|rewrite nth_error_map, Hi'; reflexivity|rewrite (size_reordered b s k Hk Hs); exact Hj].
  apply M0; auto. lia.
Qed.
Lemma moved2_same {X} b s m (f f' g g' : Z -> Z -> X) : Forall (fun n => 1 <= n) b -> is_order (count b) s -> is_order (count b) m ->
  blocks_moved2 b s f f' -> blocks_moved2 b m f g -> blocks_moved2 (reordered b s) (map (idx s) m) f' g' -> forall r c, 1 <= r <= total b -> 1 <= c <= total b -> g' r c = g r c.
Proof.
  intros Hb Hs Hm M0 M M' r c Hr Hc. pose proof Hm as (_ & _ & HmF). destruct (cover_order b m c Hb Hm Hc) as (i & k & j & Hk & Hi & Hj & ->). destruct (cover_order b m r Hb Hm Hr) as (i2 & k2 & j2 & Hk2 & Hi2 & Hj2 & ->).
  destruct (idx_ok s k (order_in _ _ _ Hs Hk)) as [H1 H2]. destruct (idx_ok s k2 (order_in _ _ _ Hs Hk2)) as [H3 H4].
  assert (Hi' : nth_error m (Z.to_nat (Z.of_nat i + 1 - 1)) = Some k) by (replace (Z.to_nat (Z.of_nat i + 1 - 1)) with i by lia; exact Hi).
  assert (Hi2' : nth_error m (Z.to_nat (Z.of_nat i2 + 1 - 1)) = Some k2) by (replace (Z.to_nat (Z.of_nat i2 + 1 - 1)) with i2 by lia; exact Hi2).
  rewrite (M _ k2 j2 _ k j) by (auto; lia). rewrite <- (reordered_twice b s m Hs HmF).
  rewrite (M' (Z.of_nat i2 + 1) (idx s k2) j2 (Z.of_nat i + 1) (idx s k) j); [|lia|rewrite nth_error_map, Hi2'; reflexivity|rewrite (size_reordered b s k2 Hk2 Hs); exact Hj2|lia|rewrite nth_error_map, Hi'; reflexivity|rewrite (size_reordered b s k Hk Hs); exact Hj].
  apply M0; auto; lia.
Qed.
End Relist.

Section Run.
Context (N : nums) (A : arith (num N)) (lab : num N -> str).
Context (X : Type) (finish : params -> bool -> num N -> num N -> num N -> num N -> X) (Hsame : forall p q, same_request q p -> finish q = finish p).

Lemma position_relisted s (old new : list (num N * num N * num N)) : Z.of_nat (length s) = count old -> Forall (fun k => 1 <= k <= count old) s -> points_relisted N s old new ->
  forall i k j, 1 <= i -> nth_error s (Z.to_nat (i - 1)) = Some k -> 1 <= j <= 3 -> position N new j i 1 = position N old j k 1.
Proof.
  intros L F [Hc H] i k j Hi Hk Hj. specialize (H i k Hi Hk). rewrite Forall_forall in F. pose proof (F k ltac:(eapply nth_error_In; eauto)) as Hr. cbv beta in Hr. unfold count in *.
  destruct (nth_error old (Z.to_nat (k - 1))) as [p|] eqn:E; [|apply nth_error_None in E; lia].
  assert (Q : forall (g : num N * num N * num N -> num N), nth (Z.to_nat (i - 1)) (map g new) (n_zero N) = nth (Z.to_nat (k - 1)) (map g old) (n_zero N)).
  { intros g. rewrite (nth_error_nth (map g new) (Z.to_nat (i - 1)) (n_zero N) (x := g p)) by (rewrite nth_error_map, H; reflexivity).
    symmetry. apply nth_error_nth. rewrite nth_error_map, E. reflexivity. }
  unfold position, table. assert (j = 1 \/ j = 2 \/ j = 3) as [->|[->| ->]] by lia; cbn [Z.to_nat Z.sub Z.add Z.opp Z.pos_sub Pos.to_nat Pos.iter_op Pos.pred_double Nat.add nth]; apply Q.
Qed.
(** the two runs end with the same numbers *)
Definition alike (p p' : params) (x y : outcome X) : Prop := exists J_ab e_a e_b S_ab, x = Ok (finish p true J_ab e_a e_b S_ab) /\ y = Ok (finish p' true J_ab e_a e_b S_ab).
Lemma numbers_out p d f2 fP fS r1 r2 : exists j a b s, forall Y (f : num N -> num N -> num N -> num N -> Y), numbers_of_job N A f p d f2 fP fS r1 r2 = f j a b s.
Proof. unfold numbers_of_job, numbers_value, numbers_of. do 4 eexists. intros Y f. reflexivity. Qed.
Lemma alike_intro p p' d d' f2 fP fS f2' fP' fS' r1 r2 x y :
  x = Ok (numbers_of_job N A (finish p true) p d f2 fP fS r1 r2) -> y = Ok (numbers_of_job N A (finish p' true) p' d' f2' fP' fS' r1 r2) ->
  (forall Y (h : num N -> num N -> num N -> num N -> Y), numbers_of_job N A h p' d' f2' fP' fS' r1 r2 = numbers_of_job N A h p d f2 fP fS r1 r2) -> alike p p' x y.
Proof. intros -> -> H. destruct (numbers_out p d f2 fP fS r1 r2) as (j & a & b & s & Q). exists j, a, b, s. rewrite H, !Q. auto. Qed.

Lemma relist_plain E E' disk disk' prog prog' l l' p p' d d' r1 r2 oA oB s : clean_line E l -> asks E l p -> clean_line E' l' -> asks E' l' p' -> counterPoise p = false -> counterPoise p' = false ->
  contain N disk p d -> contain N disk' p' d' -> belong N false d -> belong N false d' -> rows_asked N p d r1 r2 -> rows_asked N p' d' r1 r2 ->
  ba1 N d <> [] -> ba2 N d <> [] -> baP N d <> [] -> total (baP N d) = size N d -> Forall (fun k => 1 <= k) (baP N d) ->
  count (at1 N d) = count oA -> count (at2 N d) = count oB -> count (atP N d) = count (baP N d) ->
  finds lab 3 (count (baP N d)) (position N (at1 N d)) (position N (atP N d)) oA ->
  finds lab 3 (count (baP N d)) (position N (at2 N d)) (position N (atP N d)) oB ->
  is_order (count (baP N d)) (oA ++ oB) -> same_1 N d d' -> same_2 N d d' -> dimer_relisted N s d d' ->
  exists bound, forall fuel, (bound <= fuel)%nat -> alike p p' (main_with E N A lab disk finish fuel (prog :: words l)) (main_with E' N A lab disk' finish fuel (prog' :: words l')).
Proof.
  intros C1 A1 C2 A2 Hcp Hcp' Hc Hc' Hb Hb' Hr Hr' N1 N2 NP Tb Fb K1 K2 KP FA FB Ho (S1 & S2 & S3 & S4 & S5) (S6 & S7 & S8 & S9 & S10) [Q1 Q2 Q3 Q4 Q5 Q6 Q7].
  pose proof Q1 as (QL & _ & QF). pose proof (fun a b c => position_relisted s (atP N d) (atP N d') ltac:(lia) ltac:(rewrite KP; exact QF) Q3 a b c) as Pos.
  assert (Cn : count (baP N d') = count (baP N d)). { rewrite Q2. unfold count in *. rewrite reordered_length. exact QL. }
  destruct (with_files_plain E N A lab disk X finish prog l p d r1 r2 oA oB (Hsame p) C1 A1 Hcp Hc Hb Hr N1 N2 NP Tb Fb K1 K2 KP FA FB Ho) as (b1 & R1).
  destruct (with_files_plain E' N A lab disk' X finish prog' l' p' d' r1 r2 (map (idx s) oA) (map (idx s) oB) (Hsame p') C2 A2 Hcp' Hc' Hb' Hr') as (b2 & R2).
  { rewrite S5. exact N1. } { rewrite S10. exact N2. } { intros Z0. rewrite Z0 in Cn. destruct (baP N d); [congruence|discriminate Cn]. }
  { rewrite Q2, Q4, <- Tb. apply total_reordered. exact Q1. } { rewrite Q2. apply reordered_pos; auto. }
  { rewrite S4, K1. unfold count. rewrite map_length. reflexivity. } { rewrite S9, K2. unfold count. rewrite map_length. reflexivity. } { rewrite (proj1 Q3), KP, Cn. reflexivity. }
  { rewrite Cn, S4. apply (finds_moved lab 3 _ _ (position N (atP N d))); auto. } { rewrite Cn, S9. apply (finds_moved lab 3 _ _ (position N (atP N d))); auto. }
  { rewrite Cn, <- map_app. apply order_idx; auto. }
  exists (b1 + b2)%nat. intros fuel Hf. destruct (R1 fuel ltac:(lia)) as (gP & gS & M1 & M2 & E1). destruct (R2 fuel ltac:(lia)) as (gP' & gS' & M1' & M2' & E2).
  rewrite <- map_app, Q2 in M1', M2'. eapply alike_intro; [exact E1|exact E2|]. intros Y h. unfold numbers_of_job. rewrite Hcp, Hcp', S1, S6, Q4, Q5.
  replace (count (coefP N d')) with (count (coefP N d)) by (rewrite <- (be_eP _ _ _ Hb), <- (be_eP _ _ _ Hb'), Q5; reflexivity).
  apply numbers_value_ext; [unfold width; lia|reflexivity|reflexivity|..].
  - intros k c _ Hk. apply (moved_same (baP N d) s (oA ++ oB) (table N (coefP N d)) (table N (coefP N d')) gP gP' Fb Q1 Ho Q6 M1 M1'). lia.
  - intros i j Hi Hj. apply (moved2_same (baP N d) s (oA ++ oB) (symmetric N (over N d)) (symmetric N (over N d')) gS gS' Fb Q1 Ho Q7 M2 M2'); lia.
Qed.
Lemma relist_counterpoise E E' disk disk' prog prog' l l' p p' d d' r1 r2 o2 oP s s2 : clean_line E l -> asks E l p -> clean_line E' l' -> asks E' l' p' -> counterPoise p = true -> counterPoise p' = true ->
  contain N disk p d -> contain N disk' p' d' -> belong N true d -> belong N true d' -> rows_asked N p d r1 r2 -> rows_asked N p' d' r1 r2 ->
  ba1 N d <> [] -> length (ba2 N d) = length (baP N d) -> baP N d <> [] -> total (baP N d) = size N d -> total (ba2 N d) = size N d ->
  Forall (fun k => 1 <= k) (baP N d) -> Forall (fun k => 1 <= k) (ba2 N d) ->
  count (at1 N d) = count (baP N d) -> count (at2 N d) = count (baP N d) -> count (atP N d) = count (baP N d) ->
  finds lab 3 (count (baP N d)) (position N (at1 N d)) (position N (at2 N d)) o2 ->
  finds lab 3 (count (baP N d)) (position N (at1 N d)) (position N (atP N d)) oP ->
  is_order (count (baP N d)) o2 -> is_order (count (baP N d)) oP -> same_1 N d d' -> second_relisted N s2 d d' -> dimer_relisted N s d d' ->
  exists bound, forall fuel, (bound <= fuel)%nat -> alike p p' (main_with E N A lab disk finish fuel (prog :: words l)) (main_with E' N A lab disk' finish fuel (prog' :: words l')).
Proof.
  intros C1 A1 C2 A2 Hcp Hcp' Hc Hc' Hb Hb' Hr Hr' N1 L2 NP Tb Tb2 Fb Fb2 K1 K2 KP F2 FP Ho2 HoP (S1 & S2 & S3 & S4 & S5) [T1 T2 T3 T4 T5] [Q1 Q2 Q3 Q4 Q5 Q6 Q7].
  assert (Lc : count (ba2 N d) = count (baP N d)) by (unfold count; lia).
  pose proof Q1 as (QL & _ & QF). pose proof (fun a b c => position_relisted s (atP N d) (atP N d') ltac:(lia) ltac:(rewrite KP; exact QF) Q3 a b c) as Pos.
  pose proof T1 as (TL & _ & TF). pose proof (fun a b c => position_relisted s2 (at2 N d) (at2 N d') ltac:(lia) ltac:(rewrite K2, <- Lc; exact TF) T3 a b c) as Pos2.
  assert (Cn : count (baP N d') = count (baP N d)). { rewrite Q2. unfold count in *. rewrite reordered_length. exact QL. }
  assert (Cn2 : count (ba2 N d') = count (ba2 N d)). { rewrite T2. unfold count in *. rewrite reordered_length. exact TL. }
  assert (Ho2' : is_order (count (ba2 N d)) o2) by (rewrite Lc; exact Ho2). assert (T1' : is_order (count (baP N d)) s2) by (rewrite <- Lc; exact T1).
  destruct (with_files_counterpoise E N A lab disk X finish prog l p d r1 r2 o2 oP (Hsame p) C1 A1 Hcp Hc Hb Hr N1 L2 NP Tb Tb2 Fb Fb2 K1 K2 KP F2 FP Ho2 HoP) as (b1 & R1).
  destruct (with_files_counterpoise E' N A lab disk' X finish prog' l' p' d' r1 r2 (map (idx s2) o2) (map (idx s) oP) (Hsame p') C2 A2 Hcp' Hc' Hb' Hr') as (b2 & R2).
  { rewrite S5. exact N1. } { unfold count in *. lia. } { intros Z0. rewrite Z0 in Cn. destruct (baP N d); [congruence|discriminate Cn]. }
  { rewrite Q2, Q4, <- Tb. apply total_reordered. exact Q1. } { rewrite T2, Q4, <- Tb2. apply total_reordered. exact T1. } { rewrite Q2. apply reordered_pos; auto. } { rewrite T2. apply reordered_pos; auto. }
  { rewrite S4, K1, Cn. reflexivity. } { rewrite (proj1 T3), K2, Cn. reflexivity. } { rewrite (proj1 Q3), KP, Cn. reflexivity. }
  { rewrite Cn, S4. apply (finds_moved lab 3 _ _ (position N (at2 N d))); auto. } { rewrite Cn, S4. apply (finds_moved lab 3 _ _ (position N (atP N d))); auto. }
  { rewrite Cn. apply order_idx; auto. } { rewrite Cn. apply order_idx; auto. }
  exists (b1 + b2)%nat. intros fuel Hf. destruct (R1 fuel ltac:(lia)) as (g2 & gP & gS & M0 & M1 & M2 & E1). destruct (R2 fuel ltac:(lia)) as (g2' & gP' & gS' & M0' & M1' & M2' & E2).
  rewrite Q2 in M1', M2'. rewrite T2 in M0'. eapply alike_intro; [exact E1|exact E2|]. intros Y h. unfold numbers_of_job. rewrite Hcp, Hcp', S1, Q4, Q5.
  replace (count (coefP N d')) with (count (coefP N d)) by (rewrite <- (be_eP _ _ _ Hb), <- (be_eP _ _ _ Hb'), Q5; reflexivity).
  apply numbers_value_ext; [unfold width; lia|reflexivity|..].
  - intros c Hk. apply (moved_same (ba2 N d) s2 o2 (table N (coef2 N d)) (table N (coef2 N d')) g2 g2' Fb2 T1 Ho2' T5 M0 M0'). lia.
  - intros k c _ Hk. apply (moved_same (baP N d) s oP (table N (coefP N d)) (table N (coefP N d')) gP gP' Fb Q1 HoP Q6 M1 M1'). lia.
  - intros i j Hi Hj. apply (moved2_same (baP N d) s oP (symmetric N (over N d)) (symmetric N (over N d')) gS gS' Fb Q1 HoP Q7 M2 M2'); lia.
Qed.
End Run.
