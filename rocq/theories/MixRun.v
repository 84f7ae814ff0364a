(** * Runs of calc_J with combined orbitals of the dimer *)
From Verif Require Import QcUnscramble QcTransfer QcOrder QcExact.
From Verif Require Export PhaseRun.
From Verif Require Export MainRun.
From Verif Require Export ReaderModel MainSpec MixSpec.
From Verif Require Export StrSpec StrModel.
Open Scope Z_scope.

Section Sums.
Context {T : Type} (A : arith T) (opp inv : T -> T) (HA : exact_arith A opp inv).
Let FT := ea_field A opp inv HA.
Add Field TFM : FT.
Notation "x * y" := (a_mul A x y).
Notation Sum := (sum A).
(** combining both arguments of a sum of products with orthonormal columns *)
Lemma sum_mixed K K' (U : Z -> Z -> T) (x y : Z -> T) :
  (forall m n, 1 <= m <= Z.of_nat K -> 1 <= n <= Z.of_nat K -> Sum K' (fun k => U k m * U k n) = if m =? n then a_one A else a_zero A) ->
  Sum K' (fun k => Sum K (fun m => U k m * x m) * Sum K (fun n => U k n * y n)) = Sum K (fun m => x m * y m).
Proof.
  intros HU. rewrite (sum_ext A K' _ (fun k => Sum K (fun m => Sum K (fun n => (x m * y n) * (U k m * U k n))))).
  2:{ intros k _. rewrite <- (sum_scale_r A opp inv HA). apply sum_ext. intros m _. rewrite <- (sum_scale_l A opp inv HA). apply sum_ext. intros n _. ring. }
  rewrite (sum_swap A opp inv HA). apply sum_ext. intros m Hm. rewrite (sum_swap A opp inv HA).
  rewrite (sum_ext A K _ (fun n => (x m * y n) * (if m =? n then a_one A else a_zero A))).
  2:{ intros n Hn. rewrite (sum_scale_l A opp inv HA), (HU m n Hm Hn). reflexivity. }
  rewrite (sum_single A opp inv HA K _ m Hm).
  - rewrite Z.eqb_refl. ring.
  - intros n Hn Hne. destruct (Z.eqb_spec m n); [congruence|]. ring.
Qed.
Lemma projection_mixed N K (U : Z -> Z -> T) (fS fS' fP fP' : Z -> Z -> T) z z' k :
  (forall c, 1 <= c <= Z.of_nat N -> z' c = z c) -> (forall r c, 1 <= r <= Z.of_nat N -> 1 <= c <= Z.of_nat N -> fS' r c = fS r c) ->
  (forall c, 1 <= c <= Z.of_nat N -> fP' k c = Sum K (fun m => U k m * fP m c)) ->
  projection A N fS' fP' z' k = Sum K (fun m => U k m * projection A N fS fP z m).
Proof.
  intros Hz HS HP. unfold projection. rewrite accum_sum.
  rewrite (sum_ext A N _ (fun l => Sum K (fun m => U k m * (z l * accum A N (fun c => fS l c) (fun c => fP m c))))).
  - rewrite (sum_swap A opp inv HA). apply sum_ext. intros m _. rewrite (sum_scale_l A opp inv HA), accum_sum. reflexivity.
  - intros l Hl. rewrite Hz by auto. rewrite accum_sum.
    rewrite (sum_ext A N _ (fun c => Sum K (fun m => U k m * (fS l c * fP m c)))).
    2:{ intros c Hc. rewrite HS, HP by auto. rewrite <- (sum_scale_l A opp inv HA). apply sum_ext. intros m _. ring. }
    rewrite (sum_swap A opp inv HA), <- (sum_scale_l A opp inv HA). apply sum_ext. intros m _. rewrite (sum_scale_l A opp inv HA), accum_sum. ring.
Qed.
Lemma numbers_mixed {R} (f : T -> T -> T -> T -> R) K K' (U : Z -> Z -> T) (e e' gA gB gA' gB' : Z -> T) :
  (forall m n, 1 <= m <= Z.of_nat K -> 1 <= n <= Z.of_nat K -> Sum K' (fun k => U k m * U k n) = if m =? n then a_one A else a_zero A) ->
  (forall k m, 1 <= k <= Z.of_nat K' -> 1 <= m <= Z.of_nat K -> U k m * e' k = U k m * e m) ->
  (forall k, 1 <= k <= Z.of_nat K' -> gA' k = Sum K (fun m => U k m * gA m)) -> (forall k, 1 <= k <= Z.of_nat K' -> gB' k = Sum K (fun m => U k m * gB m)) ->
  numbers_of A f K' e' gA' gB' = numbers_of A f K e gA gB.
Proof.
  intros HU He HgA HgB. unfold numbers_of. rewrite !(quad_exact A opp inv HA), !accum_sum.
  assert (Q : forall (g h g' h' : Z -> T), (forall k, 1 <= k <= Z.of_nat K' -> g' k = Sum K (fun m => U k m * g m)) -> (forall k, 1 <= k <= Z.of_nat K' -> h' k = Sum K (fun m => U k m * h m)) ->
    Sum K' (fun k => e' k * (g' k * h' k)) = Sum K (fun k => e k * (g k * h k))).
  { intros g h g' h' Hg Hh. rewrite (sum_ext A K' _ (fun k => Sum K (fun m => U k m * (e m * g m)) * Sum K (fun n => U k n * h n))).
    - rewrite (sum_mixed K K' U (fun m => e m * g m) h HU). apply sum_ext. intros. ring.
    - intros k Hk. rewrite Hg, Hh by auto. replace (Sum K (fun m => U k m * (e m * g m))) with (e' k * Sum K (fun m => U k m * g m)); [ring|].
      rewrite <- (sum_scale_l A opp inv HA). apply sum_ext. intros m Hm. transitivity ((U k m * e' k) * g m); [ring|]. rewrite He by auto. ring. }
  assert (Q0 : Sum K' (fun k => gB' k * gA' k) = Sum K (fun k => gB k * gA k)).
  { rewrite <- (sum_mixed K K' U gB gA HU). apply sum_ext. intros k Hk. rewrite HgA, HgB by auto. reflexivity. }
  rewrite Q0, (Q gA gB gA' gB' HgA HgB), (Q gA gA gA' gA' HgA HgA), (Q gB gB gB' gB' HgB HgB). reflexivity.
Qed.
Lemma numbers_value_mixed {R} (f : T -> T -> T -> T -> R) (cp : bool) n1 N K K' (U a b fP fS a' b' fP' fS' : Z -> Z -> T) (e e' : Z -> T) r1 r2 r1' r2' : 0 <= n1 ->
  (forall m n, 1 <= m <= K -> 1 <= n <= K -> Sum (Z.to_nat K') (fun k => U k m * U k n) = if m =? n then a_one A else a_zero A) ->
  (forall k m, 1 <= k <= K' -> 1 <= m <= K -> U k m * e' k = U k m * e m) ->
  (forall c, 1 <= c <= (if cp then N else n1) -> a' r1' c = a r1 c) -> (forall c, 1 <= c <= (if cp then N else N - n1) -> b' r2' c = b r2 c) ->
  (forall k c, 1 <= k <= K' -> 1 <= c <= N -> fP' k c = Sum (Z.to_nat K) (fun m => U k m * fP m c)) -> (forall r c, 1 <= r <= N -> 1 <= c <= N -> fS' r c = fS r c) ->
  numbers_value A f cp n1 N K' a' b' fP' fS' e' r1' r2' = numbers_value A f cp n1 N K a b fP fS e r1 r2.
Proof.
  intros Hn HU He Ha Hb HP HS. unfold numbers_value. apply numbers_mixed with (U := U).
  - intros m n Hm Hn'. apply HU; lia.
  - intros k m Hk Hm. apply He; lia.
  - intros k Hk. apply projection_mixed; try (intros; apply HS; lia); try (intros; apply HP; lia).
    intros c Hc. destruct cp; [apply Ha; lia|]. unfold pad_after. destruct (Z.leb_spec c n1); [apply Ha; lia|reflexivity].
  - intros k Hk. apply projection_mixed; try (intros; apply HS; lia); try (intros; apply HP; lia).
    intros c Hc. destruct cp; [apply Hb; lia|]. unfold pad_before. destruct (Z.leb_spec c n1); [reflexivity|apply Hb; lia].
Qed.
(** a linear relation between the columns survives the reordering *)
Lemma moved_mixed b o (f f' g g' : Z -> Z -> T) K (U : Z -> Z -> T) k : Forall (fun n => 1 <= n) b -> is_order (count b) o -> blocks_moved b o f g -> blocks_moved b o f' g' ->
  (forall c, 1 <= c <= total b -> f' k c = Sum K (fun m => U k m * f m c)) -> forall c, 1 <= c <= total b -> g' k c = Sum K (fun m => U k m * g m c).
Proof.
  intros Hb Hm M M' H c Hc. destruct (cover_order b o c Hb Hm Hc) as (i & n & j & Hk & Hi & Hj & ->).
  assert (Hi' : nth_error o (Z.to_nat (Z.of_nat i + 1 - 1)) = Some n) by (replace (Z.to_nat (Z.of_nat i + 1 - 1)) with i by lia; exact Hi).
  rewrite (M' k _ n j) by (auto; lia). rewrite H by (apply in_total; auto). apply sum_ext. intros m _. rewrite (M m _ n j) by (auto; lia). reflexivity.
Qed.
End Sums.
(** the same row of a table that is moved *)
Lemma moved_row {T} b o (f f' g g' : Z -> Z -> T) x x' : Forall (fun n => 1 <= n) b -> is_order (count b) o -> blocks_moved b o f g -> blocks_moved b o f' g' ->
  (forall c, 1 <= c <= total b -> f' x' c = f x c) -> forall c, 1 <= c <= total b -> g' x' c = g x c.
Proof.
  intros Hb Hm M M' H c Hc. destruct (cover_order b o c Hb Hm Hc) as (i & n & j & Hk & Hi & Hj & ->).
  assert (Hi' : nth_error o (Z.to_nat (Z.of_nat i + 1 - 1)) = Some n) by (replace (Z.to_nat (Z.of_nat i + 1 - 1)) with i by lia; exact Hi).
  rewrite (M' x' _ n j), (M x _ n j) by (auto; lia). apply H. apply in_total; auto.
Qed.

Section Run.
Context (N : nums) (A : arith (num N)) (opp inv : num N -> num N) (HA : exact_arith A opp inv) (lab : num N -> str).
Context (X : Type) (finish : params -> bool -> num N -> num N -> num N -> num N -> X) (Hsame : forall p q, same_request q p -> finish q = finish p).
Definition same_runs (u : bool) (p p' : params) (x y : outcome X) : Prop := exists j a b t, x = Ok (finish p u j a b t) /\ y = Ok (finish p' u j a b t).
Lemma same_intro u p p' d d' f2 fP fS f2' fP' fS' r1 r2 r1' r2' x y :
  x = Ok (numbers_of_job N A (finish p u) p d f2 fP fS r1 r2) -> y = Ok (numbers_of_job N A (finish p' u) p' d' f2' fP' fS' r1' r2') ->
  numbers_of_job N A (@tuple4 (num N)) p' d' f2' fP' fS' r1' r2' = numbers_of_job N A (@tuple4 (num N)) p d f2 fP fS r1 r2 -> same_runs u p p' x y.
Proof.
  intros -> -> H. unfold numbers_of_job, numbers_value, numbers_of, tuple4 in H |- *. inversion H as [[H1 H2 H3 H4]]. do 4 eexists. split; [reflexivity|]. rewrite H1, H2, H3, H4. reflexivity.
Qed.
Lemma mix_run E E' disk disk' prog prog' l l' p p' d d' r1 r2 r1' r2' U u : clean_line E l -> asks E l p -> clean_line E' l' -> asks E' l' p' -> counterPoise p' = counterPoise p ->
  contain N disk p d -> contain N disk' p' d' -> belong N (counterPoise p) d -> belong N (counterPoise p) d' -> rows_asked N p d r1 r2 -> rows_asked N p' d' r1' r2' ->
  lined_up N lab (counterPoise p) d u -> combined N A U d d' r1 r2 r1' r2' ->
  exists bound, forall fuel, (bound <= fuel)%nat -> same_runs u p p' (main_with E N A lab disk finish fuel (prog :: words l)) (main_with E' N A lab disk' finish fuel (prog' :: words l')).
Proof.
  intros C1 A1 C2 A2 Hcp Hc Hc' Hb Hb' Hr Hr' Hl [PP PU Pe [W1 P1] [W2 P2] [PS1 PS2] [Q1 [Q2 Q3]] [B1 [B2 B3]]].
  assert (Wc : if counterPoise p then width N (coef1 N d) = size N d /\ width N (coef2 N d) = size N d else width N (coef1 N d) + width N (coef2 N d) = size N d) by exact (be_w _ _ _ Hb).
  assert (SS : forall r c, 1 <= r <= size N d -> 1 <= c <= size N d -> symmetric N (over N d') r c = symmetric N (over N d) r c) by (intros r c Hr0 Hc0; unfold symmetric; apply PS2; lia).
  assert (LL : forall X (l : list X), Z.to_nat (count l) = length l) by (intros; unfold count; lia).
  destruct Hl as [Hn|oA oB Ecp N1 N2 NP Tb Fb K1 K2 KP FA FB Ho|o2 oP Ecp N1 L2 NP Tb Tb2 Fb Fb2 K1 K2 KP F2 FP Ho2 HoP].
  - destruct (with_files_as_read E N A lab disk X finish prog l p d r1 r2 (Hsame p) C1 A1 Hc Hb Hr Hn) as (b1 & R1).
    destruct (with_files_as_read E' N A lab disk' X finish prog' l' p' d' r1' r2' (Hsame p') C2 A2 Hc') as (b2 & R2); [rewrite Hcp; exact Hb'|exact Hr'|rewrite B1, B2, B3; exact Hn|].
    exists (b1 + b2)%nat. intros fuel Hf. eapply same_intro; [exact (R1 fuel ltac:(lia))|exact (R2 fuel ltac:(lia))|].
    unfold numbers_of_job. rewrite Hcp, W1, PS1. apply (numbers_value_mixed A opp inv HA) with (U := U); auto; rewrite ?LL; auto.
    + unfold width; lia.
    + intros c Hc0. apply P1. destruct (counterPoise p); lia.
    + intros c Hc0. apply P2. destruct (counterPoise p); lia.
  - rewrite Ecp in *. destruct (with_files_plain E N A lab disk X finish prog l p d r1 r2 oA oB (Hsame p) C1 A1 Ecp Hc Hb Hr N1 N2 NP Tb Fb K1 K2 KP FA FB Ho) as (b1 & R1).
    destruct (with_files_plain E' N A lab disk' X finish prog' l' p' d' r1' r2' oA oB (Hsame p') C2 A2 Hcp Hc' Hb' Hr') as (b2 & R2); try (rewrite ?B1, ?B2, ?B3, ?Q1, ?Q2, ?Q3, ?PS1; assumption).
    rewrite B3 in R2. exists (b1 + b2)%nat. intros fuel Hf. destruct (R1 fuel ltac:(lia)) as (gP & gS & M1 & M2 & E1). destruct (R2 fuel ltac:(lia)) as (gP' & gS' & M1' & M2' & E2).
    eapply same_intro; [exact E1|exact E2|]. unfold numbers_of_job. rewrite Hcp, Ecp, W1, PS1. apply (numbers_value_mixed A opp inv HA) with (U := U); auto; rewrite ?LL; auto.
    + unfold width; lia.
    + intros c Hc0. apply P2. lia.
    + intros k c Hk Hc0. apply (moved_mixed A (baP N d) (oA ++ oB) _ _ gP gP' _ U k Fb Ho M1 M1'); [|lia]. intros c' Hc'0. apply PP; lia.
    + rewrite <- Tb. apply (moved2_eq (baP N d) (oA ++ oB) _ _ gS gS' Fb Ho M2 M2'). rewrite Tb. exact SS.
  - rewrite Ecp in *. destruct (with_files_counterpoise E N A lab disk X finish prog l p d r1 r2 o2 oP (Hsame p) C1 A1 Ecp Hc Hb Hr N1 L2 NP Tb Tb2 Fb Fb2 K1 K2 KP F2 FP Ho2 HoP) as (b1 & R1).
    destruct (with_files_counterpoise E' N A lab disk' X finish prog' l' p' d' r1' r2' o2 oP (Hsame p') C2 A2 Hcp Hc' Hb' Hr') as (b2 & R2); try (rewrite ?B1, ?B2, ?B3, ?Q1, ?Q2, ?Q3, ?PS1; assumption).
    rewrite B2, B3 in R2. exists (b1 + b2)%nat. intros fuel Hf. destruct (R1 fuel ltac:(lia)) as (g2 & gP & gS & M0 & M1 & M2 & E1). destruct (R2 fuel ltac:(lia)) as (g2' & gP' & gS' & M0' & M1' & M2' & E2).
    eapply same_intro; [exact E1|exact E2|]. unfold numbers_of_job. rewrite Hcp, Ecp, W1, PS1. apply (numbers_value_mixed A opp inv HA) with (U := U); auto; rewrite ?LL; auto.
    + unfold width; lia.
    + intros c Hc0. apply P1. lia.
    + intros c Hc0. assert (Ho2' : is_order (count (ba2 N d)) o2) by (unfold count in *; rewrite L2; exact Ho2).
      apply (moved_row (ba2 N d) o2 _ _ g2 g2' r2 r2' Fb2 Ho2' M0 M0'); [|lia]. intros c' Hc'0. apply P2; lia.
    + intros k c Hk Hc0. apply (moved_mixed A (baP N d) oP _ _ gP gP' _ U k Fb HoP M1 M1'); [|lia]. intros c' Hc'0. apply PP; lia.
    + rewrite <- Tb. apply (moved2_eq (baP N d) oP _ _ gS gS' Fb HoP M2 M2'). rewrite Tb. exact SS.
Qed.
End Run.
