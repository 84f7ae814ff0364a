(** * Runs of calc_J on the same calculations with other signs of the orbitals *)
From Verif Require Import QcUnscramble QcTransfer QcOrder.
From Verif Require Export PhaseSpec Exact.
From Verif Require Export MainRun.
From Verif Require Export StrSpec StrModel.
Open Scope Z_scope.

(** what the proof needs to know about the arithmetic *)
Record sign_laws {T} (A : arith T) (sg : bool -> T -> T -> Prop) : Prop := {
  sl_zero : forall s, sg s (a_zero A) (a_zero A);
  sl_refl : forall x, sg false x x;
  sl_add : forall s x x' y y', sg s x x' -> sg s y y' -> sg s (a_add A x y) (a_add A x' y');
  sl_sub : forall s x x' y y', sg s x x' -> sg s y y' -> sg s (a_sub A x y) (a_sub A x' y');
  sl_mul : forall s t x x' y y', sg s x x' -> sg t y y' -> sg (xorb s t) (a_mul A x y) (a_mul A x' y');
  sl_mul0 : forall s t x x', sg t x x' -> sg s (a_mul A (a_zero A) x) (a_mul A (a_zero A) x');
  sl_den : forall s x x', sg s x x' -> a_sub A (a_one A) (a_pow2 A x') = a_sub A (a_one A) (a_pow2 A x);
  sl_div : forall s x x' z, sg s x x' -> sg s (a_div A x z) (a_div A x' z) }.

Section ExactLaws.
Context {T : Type} (A : arith T) (opp inv : T -> T) (HA : exact_arith A opp inv).
Let FT := ea_field A opp inv HA.
Add Field TFP : FT.
Lemma exact_laws : sign_laws A (fun s x y => y = signed opp s x).
Proof.
  constructor; unfold signed.
  - intros []; ring.
  - reflexivity.
  - intros [] x ? y ? -> ->; ring.
  - intros [] x ? y ? -> ->; ring.
  - intros [] [] x ? y ? -> ->; cbn [xorb]; ring.
  - intros [] t x x' _; ring.
  - intros [] x ? ->; rewrite !(ea_pow2 A opp inv HA); ring.
  - intros [] x ? z ->; rewrite !(Fdiv_def FT); ring.
Qed.
End ExactLaws.

Section Signs.
Context {T : Type} (A : arith T) (sg : bool -> T -> T -> Prop) (L : sign_laws A sg).
Lemma accum_sg n s u v u' v' : (forall k, 1 <= k <= Z.of_nat n -> sg s (a_mul A (u k) (v k)) (a_mul A (u' k) (v' k))) -> sg s (accum A n u v) (accum A n u' v').
Proof.
  induction n as [|n IH]; intros H; cbn [accum]; [apply (sl_zero _ _ L)|]. apply (sl_add _ _ L); [apply IH; intros k Hk; apply H; lia|]. apply H. lia.
Qed.
Lemma projection_sg N (fS fS' fP fP' : Z -> Z -> T) z z' k s t : (forall c, 1 <= c <= Z.of_nat N -> sg s (z c) (z' c)) -> (forall r c, 1 <= r <= Z.of_nat N -> 1 <= c <= Z.of_nat N -> fS' r c = fS r c) ->
  (forall c, 1 <= c <= Z.of_nat N -> sg t (fP k c) (fP' k c)) -> sg (xorb s t) (projection A N fS fP z k) (projection A N fS' fP' z' k).
Proof.
  intros Hz HS HP. unfold projection. apply accum_sg. intros l Hl. apply (sl_mul _ _ L); [apply Hz, Hl|]. apply accum_sg. intros m Hm. rewrite HS by auto.
  rewrite <- (xorb_false_l t). apply (sl_mul _ _ L); [apply (sl_refl _ _ L)|apply HP, Hm].
Qed.
Lemma weighted_sg K e g g' (s : Z -> bool) i : (forall k, 1 <= k <= Z.of_nat K -> sg (s k) (g k) (g' k)) -> sg (s i) (weighted A K e g i) (weighted A K e g' i).
Proof.
  intros H. unfold weighted. apply accum_sg. intros k Hk. destruct (Z.eqb_spec i k) as [->|Hne].
  - rewrite <- (xorb_false_l (s k)). apply (sl_mul _ _ L); [apply (sl_refl _ _ L)|apply H, Hk].
  - apply (sl_mul0 _ _ L) with (t := s k). apply H, Hk.
Qed.
(** the four numbers *)
Definition four_signed (s : bool) (x y : T * T * T * T) : Prop :=
  let '(j, a, b, t) := x in let '(j', a', b', t') := y in sg s j j' /\ sg false a a' /\ sg false b b' /\ sg s t t'.
Definition tuple4 (j a b t : T) := (j, a, b, t).
Lemma numbers_of_sg K e gA gB gA' gB' s1 s2 (sP : Z -> bool) :
  (forall k, 1 <= k <= Z.of_nat K -> sg (xorb s1 (sP k)) (gA k) (gA' k)) -> (forall k, 1 <= k <= Z.of_nat K -> sg (xorb s2 (sP k)) (gB k) (gB' k)) ->
  four_signed (xorb s1 s2) (numbers_of A tuple4 K e gA gB) (numbers_of A tuple4 K e gA' gB').
Proof.
  intros HA HB. assert (WA := fun i => weighted_sg K e gA gA' (fun k => xorb s1 (sP k)) i HA). assert (WB := fun i => weighted_sg K e gB gB' (fun k => xorb s2 (sP k)) i HB). cbv beta in WA, WB.
  unfold numbers_of, tuple4, four_signed. split; [|split; [|split]]; apply accum_sg; intros k Hk.
  - replace (xorb s1 s2) with (xorb (xorb s2 (sP k)) (xorb s1 (sP k))) by (destruct s1, s2, (sP k); reflexivity). apply (sl_mul _ _ L); auto.
  - replace false with (xorb (xorb s1 (sP k)) (xorb s1 (sP k))) by (destruct s1, (sP k); reflexivity). apply (sl_mul _ _ L); auto.
  - replace false with (xorb (xorb s2 (sP k)) (xorb s2 (sP k))) by (destruct s2, (sP k); reflexivity). apply (sl_mul _ _ L); auto.
  - replace (xorb s1 s2) with (xorb (xorb s2 (sP k)) (xorb s1 (sP k))) by (destruct s1, s2, (sP k); reflexivity). apply (sl_mul _ _ L); auto.
Qed.
Lemma J_eff_sg s j a b t j' a' b' t' : four_signed s (j, a, b, t) (j', a', b', t') -> sg s (J_eff A j a b t) (J_eff A j' a' b' t').
Proof.
  intros (H1 & H2 & H3 & H4). unfold J_eff. rewrite (sl_den _ _ L s t t' H4). apply (sl_div _ _ L). apply (sl_sub _ _ L); [exact H1|].
  rewrite <- (xorb_false_l s). apply (sl_mul _ _ L); [|exact H4]. rewrite <- (xorb_false_l false). apply (sl_mul _ _ L); [apply (sl_refl _ _ L)|]. apply (sl_add _ _ L); auto.
Qed.
Lemma numbers_value_sg (cp : bool) n1 N K (a b fP fS a' b' fP' fS' : Z -> Z -> T) (e : Z -> T) (r1 r2 : Z) s1 s2 (sP : Z -> bool) : 0 <= n1 ->
  (forall c, 1 <= c <= (if cp then N else n1) -> sg s1 (a r1 c) (a' r1 c)) -> (forall c, 1 <= c <= (if cp then N else N - n1) -> sg s2 (b r2 c) (b' r2 c)) ->
  (forall k c, 1 <= k <= K -> 1 <= c <= N -> sg (sP k) (fP k c) (fP' k c)) -> (forall r c, 1 <= r <= N -> 1 <= c <= N -> fS' r c = fS r c) ->
  four_signed (xorb s1 s2) (numbers_value A tuple4 cp n1 N K a b fP fS e r1 r2) (numbers_value A tuple4 cp n1 N K a' b' fP' fS' e r1 r2).
Proof.
  intros Hn Ha Hb HP HS. unfold numbers_value. apply (numbers_of_sg _ _ _ _ _ _ s1 s2 sP); intros k Hk; apply projection_sg; try (intros; apply HS; lia); try (intros; apply HP; lia).
  - intros c Hc. destruct cp; [apply Ha; lia|]. unfold pad_after. destruct (Z.leb_spec c n1); [apply Ha; lia|apply (sl_zero _ _ L)].
  - intros c Hc. destruct cp; [apply Hb; lia|]. unfold pad_before. destruct (Z.leb_spec c n1); [apply (sl_zero _ _ L)|apply Hb; lia].
Qed.
(** the same order of the blocks *)
Lemma in_total b k j : Forall (fun n => 1 <= n) b -> 1 <= k <= Z.of_nat (length b) -> 1 <= j <= size_of b k -> 1 <= off b k + j <= total b.
Proof.
  intros Hb Hk Hj. assert (Hn : nth_error b (Z.to_nat (k - 1)) = Some (size_of b k)) by (apply nth_error_nth'; lia).
  apply nth_error_split in Hn. destruct Hn as (l1 & l2 & E1 & E2).
  unfold off. rewrite <- E2. rewrite E1 at 1 2. rewrite firstn_app, firstn_all, Nat.sub_diag. simpl firstn. rewrite app_nil_r.
  assert (Htot : total b = total l1 + size_of b k + total l2).
  { rewrite E1 at 1. clear. unfold total. rewrite fold_right_app. cbn [fold_right].
    generalize (fold_right Z.add 0 l2) as z. generalize (size_of b k). induction l1; intros; cbn [fold_right]; [lia|]. rewrite IHl1. lia. }
  assert (0 <= total l1 /\ 0 <= total l2).
  { rewrite E1 in Hb. apply Forall_app in Hb. destruct Hb as [H1 H2]. inversion H2; subst. split; apply total_nonneg; auto. }
  lia.
Qed.
Lemma moved_sg b m (f f' g g' : Z -> Z -> T) s x : Forall (fun n => 1 <= n) b -> is_order (count b) m -> blocks_moved b m f g -> blocks_moved b m f' g' ->
  (forall c, 1 <= c <= total b -> sg s (f x c) (f' x c)) -> forall c, 1 <= c <= total b -> sg s (g x c) (g' x c).
Proof.
  intros Hb Hm M M' H c Hc. destruct (cover_order b m c Hb Hm Hc) as (i & k & j & Hk & Hi & Hj & ->).
  assert (Hi' : nth_error m (Z.to_nat (Z.of_nat i + 1 - 1)) = Some k) by (replace (Z.to_nat (Z.of_nat i + 1 - 1)) with i by lia; exact Hi).
  rewrite (M x _ k j), (M' x _ k j) by (auto; lia). apply H. apply in_total; auto.
Qed.
Lemma moved2_eq b m (f f' g g' : Z -> Z -> T) : Forall (fun n => 1 <= n) b -> is_order (count b) m -> blocks_moved2 b m f g -> blocks_moved2 b m f' g' ->
  (forall r c, 1 <= r <= total b -> 1 <= c <= total b -> f' r c = f r c) ->
  forall r c, 1 <= r <= total b -> 1 <= c <= total b -> g' r c = g r c.
Proof.
  intros Hb Hm M M' Hff r c Hr Hc. destruct (cover_order b m c Hb Hm Hc) as (i & k & j & Hk & Hi & Hj & ->). destruct (cover_order b m r Hb Hm Hr) as (i2 & k2 & j2 & Hk2 & Hi2 & Hj2 & ->).
  assert (Hi' : nth_error m (Z.to_nat (Z.of_nat i + 1 - 1)) = Some k) by (replace (Z.to_nat (Z.of_nat i + 1 - 1)) with i by lia; exact Hi).
  assert (Hi2' : nth_error m (Z.to_nat (Z.of_nat i2 + 1 - 1)) = Some k2) by (replace (Z.to_nat (Z.of_nat i2 + 1 - 1)) with i2 by lia; exact Hi2).
  rewrite (M _ k2 j2 _ k j), (M' _ k2 j2 _ k j) by (auto; lia). apply Hff; apply in_total; auto.
Qed.
End Signs.

Section Run.
Context (N : nums) (A : arith (num N)) (lab : num N -> str) (sg : bool -> num N -> num N -> Prop) (L : sign_laws A sg).
Context (X : Type) (finish : params -> bool -> num N -> num N -> num N -> num N -> X) (Hsame : forall p q, same_request q p -> finish q = finish p).
Definition signed_runs (s u : bool) (p p' : params) (x y : outcome X) : Prop :=
  exists j a b t j' a' b' t', four_signed sg s (j, a, b, t) (j', a', b', t') /\ x = Ok (finish p u j a b t) /\ y = Ok (finish p' u j' a' b' t').
Lemma signed_intro s u p p' d d' f2 fP fS f2' fP' fS' r1 r2 x y :
  x = Ok (numbers_of_job N A (finish p u) p d f2 fP fS r1 r2) -> y = Ok (numbers_of_job N A (finish p' u) p' d' f2' fP' fS' r1 r2) ->
  four_signed sg s (numbers_of_job N A tuple4 p d f2 fP fS r1 r2) (numbers_of_job N A tuple4 p' d' f2' fP' fS' r1 r2) -> signed_runs s u p p' x y.
Proof.
  intros -> -> H. unfold numbers_of_job, numbers_value, numbers_of, tuple4 in H |- *. do 8 eexists. split; [exact H|]. split; reflexivity.
Qed.
Lemma phase_run E E' disk disk' prog prog' l l' p p' d d' r1 r2 s1 s2 sP u : clean_line E l -> asks E l p -> clean_line E' l' -> asks E' l' p' -> counterPoise p' = counterPoise p ->
  contain N disk p d -> contain N disk' p' d' -> belong N (counterPoise p) d -> belong N (counterPoise p) d' -> rows_asked N p d r1 r2 -> rows_asked N p' d' r1 r2 ->
  lined_up N lab (counterPoise p) d u -> phases N sg s1 s2 sP r1 r2 d d' ->
  exists bound, forall fuel, (bound <= fuel)%nat -> signed_runs (xorb s1 s2) u p p' (main_with E N A lab disk finish fuel (prog :: words l)) (main_with E' N A lab disk' finish fuel (prog' :: words l')).
Proof.
  intros C1 A1 C2 A2 Hcp Hc Hc' Hb Hb' Hr Hr' Hl [P1 P2 PP [W1 W2] Pe [PS1 PS2] [Q1 [Q2 Q3]] [B1 [B2 B3]]].
  assert (Kn : count (coefP N d') = count (coefP N d)) by (rewrite <- (be_eP _ _ _ Hb), <- (be_eP _ _ _ Hb'), Pe; reflexivity).
  assert (Wc : if counterPoise p then width N (coef1 N d) = size N d /\ width N (coef2 N d) = size N d else width N (coef1 N d) + width N (coef2 N d) = size N d) by exact (be_w _ _ _ Hb).
  rewrite (be_wP _ _ _ Hb) in PP.
  assert (SS : forall r c, 1 <= r <= size N d -> 1 <= c <= size N d -> symmetric N (over N d') r c = symmetric N (over N d) r c) by (intros r c Hr0 Hc0; unfold symmetric; apply PS2; lia).
  destruct Hl as [Hn|oA oB Ecp N1 N2 NP Tb Fb K1 K2 KP FA FB Ho|o2 oP Ecp N1 L2 NP Tb Tb2 Fb Fb2 K1 K2 KP F2 FP Ho2 HoP].
  - destruct (with_files_as_read E N A lab disk X finish prog l p d r1 r2 (Hsame p) C1 A1 Hc Hb Hr Hn) as (b1 & R1).
    destruct (with_files_as_read E' N A lab disk' X finish prog' l' p' d' r1 r2 (Hsame p') C2 A2 Hc') as (b2 & R2); [rewrite Hcp; exact Hb'|exact Hr'|rewrite B1, B2, B3; exact Hn|].
    exists (b1 + b2)%nat. intros fuel Hf. eapply signed_intro; [exact (R1 fuel ltac:(lia))|exact (R2 fuel ltac:(lia))|].
    unfold numbers_of_job. rewrite Hcp, W1, PS1, Pe, Kn. apply (numbers_value_sg A sg L) with (sP := sP); auto.
    + unfold width; lia.
    + intros c Hc0. apply P1. destruct (counterPoise p); lia.
    + intros c Hc0. apply P2. destruct (counterPoise p); lia.
  - rewrite Ecp in *. destruct (with_files_plain E N A lab disk X finish prog l p d r1 r2 oA oB (Hsame p) C1 A1 Ecp Hc Hb Hr N1 N2 NP Tb Fb K1 K2 KP FA FB Ho) as (b1 & R1).
    destruct (with_files_plain E' N A lab disk' X finish prog' l' p' d' r1 r2 oA oB (Hsame p') C2 A2 Hcp Hc' Hb' Hr') as (b2 & R2); try (rewrite ?B1, ?B2, ?B3, ?Q1, ?Q2, ?Q3, ?PS1; assumption).
    rewrite B3 in R2. exists (b1 + b2)%nat. intros fuel Hf. destruct (R1 fuel ltac:(lia)) as (gP & gS & M1 & M2 & E1). destruct (R2 fuel ltac:(lia)) as (gP' & gS' & M1' & M2' & E2).
    eapply signed_intro; [exact E1|exact E2|]. unfold numbers_of_job. rewrite Hcp, Ecp, W1, PS1, Pe, Kn. apply (numbers_value_sg A sg L) with (sP := sP).
    + unfold width; lia.
    + exact P1.
    + intros c Hc0. apply P2. lia.
    + intros k c Hk Hc0. apply (moved_sg sg (baP N d) (oA ++ oB) _ _ gP gP' (sP k) k Fb Ho M1 M1'); [|lia]. intros c' Hc'0. apply PP; lia.
    + rewrite <- Tb. apply (moved2_eq (baP N d) (oA ++ oB) _ _ gS gS' Fb Ho M2 M2'). rewrite Tb. exact SS.
  - rewrite Ecp in *. destruct (with_files_counterpoise E N A lab disk X finish prog l p d r1 r2 o2 oP (Hsame p) C1 A1 Ecp Hc Hb Hr N1 L2 NP Tb Tb2 Fb Fb2 K1 K2 KP F2 FP Ho2 HoP) as (b1 & R1).
    destruct (with_files_counterpoise E' N A lab disk' X finish prog' l' p' d' r1 r2 o2 oP (Hsame p') C2 A2 Hcp Hc' Hb' Hr') as (b2 & R2); try (rewrite ?B1, ?B2, ?B3, ?Q1, ?Q2, ?Q3, ?PS1; assumption).
    rewrite B2, B3 in R2. exists (b1 + b2)%nat. intros fuel Hf. destruct (R1 fuel ltac:(lia)) as (g2 & gP & gS & M0 & M1 & M2 & E1). destruct (R2 fuel ltac:(lia)) as (g2' & gP' & gS' & M0' & M1' & M2' & E2).
    eapply signed_intro; [exact E1|exact E2|]. unfold numbers_of_job. rewrite Hcp, Ecp, W1, PS1, Pe, Kn. apply (numbers_value_sg A sg L) with (sP := sP).
    + unfold width; lia.
    + intros c Hc0. apply P1. lia.
    + intros c Hc0. assert (Ho2' : is_order (count (ba2 N d)) o2) by (unfold count in *; rewrite L2; exact Ho2).
      apply (moved_sg sg (ba2 N d) o2 _ _ g2 g2' s2 r2 Fb2 Ho2' M0 M0'); [|lia]. intros c' Hc'0. apply P2; lia.
    + intros k c Hk Hc0. apply (moved_sg sg (baP N d) oP _ _ gP gP' (sP k) k Fb HoP M1 M1'); [|lia]. intros c' Hc'0. apply PP; lia.
    + rewrite <- Tb. apply (moved2_eq (baP N d) oP _ _ gS gS' Fb HoP M2 M2'). rewrite Tb. exact SS.
Qed.
End Run.
