(** * Runs of calc_J with any orbitals of the monomers *)
From Verif Require Import MatrixFacts QcUnscramble QcTransfer QcOrder QcExact.
From Verif Require Import MixRun PhaseRun.
From Verif Require Export LevelsRun ElementRun.
From Verif Require Export Exact.
From Verif Require Export ReaderModel MainSpec LevelsSpec SuperSpec.
From Verif Require Export StrSpec StrModel.
Open Scope Z_scope.

Section Run.
Context (N : nums) (A : arith (num N)) (lab : num N -> str).
(** [place] puts an orbital with [w] coefficients among [n] basis functions: whatever is done with the coefficients
    of two orbitals can be done before or after *)
Definition placing (w n : Z) (place : (Z -> num N) -> (Z -> num N) -> Prop) : Prop :=
  forall (f : num N -> num N -> num N) x x' x'' z z' z'', f (a_zero A) (a_zero A) = a_zero A -> place x z -> place x' z' -> place x'' z'' ->
    (forall c, 1 <= c <= w -> x'' c = f (x c) (x' c)) -> forall c, 1 <= c <= n -> z'' c = f (z c) (z' c).
Lemma placing_all w n : n <= w -> placing w n (fun x z => z = x).
Proof. intros H f x x' x'' z z' z'' _ -> -> -> E c Hc. apply E. lia. Qed.
Lemma placing_after w n : placing w n (fun x z => z = pad_after A w x).
Proof. intros f x x' x'' z z' z'' F0 -> -> -> E c Hc. unfold pad_after. destruct (Z.leb_spec c w); [apply E; lia|auto]. Qed.
Lemma placing_before w1 w n : n <= w1 + w -> placing w n (fun x z => z = pad_before A w1 x).
Proof. intros H f x x' x'' z z' z'' F0 -> -> -> E c Hc. unfold pad_before. destruct (Z.leb_spec c w1); [auto|apply E; lia]. Qed.
Lemma placing_moved b o n : Forall (fun k => 1 <= k) b -> is_order (count b) o -> total b = n -> placing n n (fun x z => exists g g' r, blocks_moved b o g g' /\ x = g r /\ z = g' r).
Proof.
  intros Fb Ho <- f x x' x'' z z' z'' _ (g & m & r & M & -> & ->) (g1 & m1 & r1 & M1 & -> & ->) (g2 & m2 & r2 & M2 & -> & ->) E c Hc.
  destruct (cover_order b o c Fb Ho Hc) as (i & k & j & Hk & Hi & Hj & ->).
  assert (Hi' : nth_error o (Z.to_nat (Z.of_nat i + 1 - 1)) = Some k) by (replace (Z.to_nat (Z.of_nat i + 1 - 1)) with i by lia; exact Hi).
  rewrite (M r _ k j), (M1 r1 _ k j), (M2 r2 _ k j) by (auto; lia). apply E. apply in_total; auto.
Qed.

Lemma super_run E disk (prog : str) l p d r1 r2 u : job N E disk l p d r1 r2 -> lined_up N lab (counterPoise p) d u ->
  exists fS fP place1 place2, placing (width N (coef1 N d)) (size N d) place1 /\ placing (width N (coef2 N d)) (size N d) place2 /\
    forall E' disk' (prog' : str) l' p' d' r1' r2',
    job N E' disk' l' p' d' r1' r2' -> counterPoise p' = counterPoise p -> other_orbitals N d d' ->
    exists z1 z2, place1 (table N (coef1 N d') r1') z1 /\ place2 (table N (coef2 N d') r2') z2 /\
      forall X (finish : params -> bool -> num N -> num N -> num N -> num N -> X), (forall q, same_request q p' -> finish q = finish p') -> exists bound, forall fuel, (bound <= fuel)%nat ->
      main_with E' N A lab disk' finish fuel (prog' :: words l') =
        Ok (numbers_of A (finish p' u) (length (coefP N d)) (entry N (enP N d)) (projection A (Z.to_nat (size N d)) fS fP z1) (projection A (Z.to_nat (size N d)) fS fP z2)).
Proof.
  intros [C1 A1 Hc Hb Hr] Hl.
  assert (Wc : if counterPoise p then width N (coef1 N d) = size N d /\ width N (coef2 N d) = size N d else width N (coef1 N d) + width N (coef2 N d) = size N d) by exact (be_w _ _ _ Hb).
  assert (LL : forall X (l : list X), Z.to_nat (count l) = length l) by (intros; unfold count; lia).
  assert (W0 : 0 <= width N (coef1 N d) /\ 0 <= width N (coef2 N d)) by (unfold width; lia).
  set (S0 := size N d) in *.
  assert (PW : forall (fS fS' fP fP' : Z -> Z -> num N) z k, (forall r c, 1 <= r <= S0 -> 1 <= c <= S0 -> fS' r c = fS r c) ->
     (forall c, 1 <= c <= S0 -> fP' k c = fP k c) -> projection A (Z.to_nat S0) fS' fP' z k = projection A (Z.to_nat S0) fS fP z k).
  { intros fS fS' fP fP' z k H2 H3. apply projection_ext; intros; [reflexivity|apply H2|apply H3]; lia. }
  assert (EE : forall X (f : num N -> num N -> num N -> num N -> X) e' gA gB gA' gB', (forall k, 1 <= k <= count (coefP N d) -> e' k = entry N (enP N d) k) ->
     (forall k, 1 <= k <= count (coefP N d) -> gA' k = gA k) -> (forall k, 1 <= k <= count (coefP N d) -> gB' k = gB k) ->
     numbers_of A f (length (coefP N d)) e' gA' gB' = numbers_of A f (length (coefP N d)) (entry N (enP N d)) gA gB).
  { intros X f e' gA gB gA' gB' Pe HA HB. rewrite (numbers_ext A f _ e' gA gB gA' gB') by assumption. unfold numbers_of.
    assert (WW : forall g i, weighted A (length (coefP N d)) e' g i = weighted A (length (coefP N d)) (entry N (enP N d)) g i).
    { intros g i. unfold weighted. apply accum_ext. intros k Hk. split; [|reflexivity]. destruct (Z.eqb_spec i k) as [->|]; [apply Pe; unfold count; lia|reflexivity]. }
    f_equal; apply accum_ext; intros k Hk; rewrite ?WW; split; reflexivity. }
  set (pl1 := fun x z => z = if counterPoise p then x else pad_after A (width N (coef1 N d)) x). set (pl2 := fun x z => z = if counterPoise p then x else pad_before A (width N (coef1 N d)) x).
  assert (L1 : placing (width N (coef1 N d)) S0 pl1).
  { unfold pl1. destruct (counterPoise p); [apply placing_all; lia|apply placing_after]. }
  assert (L2 : placing (width N (coef2 N d)) S0 pl2).
  { unfold pl2. destruct (counterPoise p); [apply placing_all; lia|apply placing_before; lia]. }
  destruct Hl as [Hn|oA oB Ecp N1 N2 NP Tb Fb K1 K2 KP FA FB Ho|o2 oP Ecp N1 LL2 NP Tb Tb2 Fb Fb2 K1 K2 KP F2 FP Ho2 HoP].
  - exists (symmetric N (over N d)), (table N (coefP N d)), pl1, pl2. split; [exact L1|]. split; [exact L2|].
    intros E' disk' prog' l' p' d' r1' r2' [C2 A2 Hc' Hb' Hr'] Hcp [[PK [Pe PP]] [W1 W2] [PS1 PS2] [Q1 [Q2 Q3]] [B1 [B2 B3]]].
    eexists _, _. split; [reflexivity|]. split; [reflexivity|]. intros X finish Hsame.
    destruct (with_files_as_read E' N A lab disk' X finish prog' l' p' d' r1' r2' Hsame C2 A2 Hc') as (b2 & R2); [exact Hb'|exact Hr'|rewrite B1, B2, B3; exact Hn|].
    exists b2. intros fuel Hf. rewrite (R2 fuel Hf). f_equal. unfold numbers_of_job, numbers_value. rewrite Hcp, W1, PS1, PK, LL. fold S0. apply EE; [exact Pe| |]; intros k Hk;
    (apply PW; [intros r c Hr0 Hc0; unfold symmetric; apply PS2; lia|intros c Hc0; apply PP; assumption]).
  - assert (Hb0 : belong N false d) by (rewrite <- Ecp; exact Hb).
    destruct (with_files_plain E N A lab disk unit (fun _ _ _ _ _ _ => tt) prog l p d r1 r2 oA oB (fun _ _ => eq_refl) C1 A1 Ecp Hc Hb0 Hr N1 N2 NP Tb Fb K1 K2 KP FA FB Ho) as (b1 & R1).
    destruct (R1 b1 (le_n b1)) as (gP & gS & M1 & M2 & _). clear R1.
    exists gS, gP, pl1, pl2. split; [exact L1|]. split; [exact L2|].
    intros E' disk' prog' l' p' d' r1' r2' [C2 A2 Hc' Hb' Hr'] Hcp [[PK [Pe PP]] [W1 W2] [PS1 PS2] [Q1 [Q2 Q3]] [B1 [B2 B3]]].
    eexists _, _. split; [reflexivity|]. split; [reflexivity|]. intros X finish Hsame.
    destruct (with_files_plain E' N A lab disk' X finish prog' l' p' d' r1' r2' oA oB Hsame C2 A2 (eq_trans Hcp Ecp) Hc') as (b2 & R2); try (rewrite Hcp, Ecp in Hb'; exact Hb'); try exact Hr'; try (rewrite ?B1, ?B2, ?B3, ?Q1, ?Q2, ?Q3, ?PS1; assumption).
    rewrite B3 in R2. exists b2. intros fuel Hf. destruct (R2 fuel Hf) as (gP' & gS' & M1' & M2' & E2). rewrite E2. f_equal. unfold numbers_of_job, numbers_value. rewrite Hcp, W1, PS1, PK, LL. fold S0.
    assert (SS : forall r c, 1 <= r <= S0 -> 1 <= c <= S0 -> gS' r c = gS r c).
    { unfold S0 in *. rewrite <- Tb. apply (moved2_eq (baP N d) (oA ++ oB) _ _ gS gS' Fb Ho M2 M2'). rewrite Tb. intros r c Hr0 Hc0. unfold symmetric. apply PS2; lia. }
    assert (PPm : forall k, 1 <= k <= count (coefP N d) -> forall c, 1 <= c <= S0 -> gP' k c = gP k c).
    { intros k Hk. unfold S0 in *. rewrite <- Tb. apply (moved_row (baP N d) (oA ++ oB) _ _ gP gP' k k Fb Ho M1 M1'). intros c Hc0. apply PP; [exact Hk|rewrite <- Tb; exact Hc0]. }
    apply EE; [exact Pe| |]; intros k Hk; (apply PW; [exact SS|apply PPm; exact Hk]).
  - assert (Hb0 : belong N true d) by (rewrite <- Ecp; exact Hb).
    destruct (with_files_counterpoise E N A lab disk unit (fun _ _ _ _ _ _ => tt) prog l p d r1 r2 o2 oP (fun _ _ => eq_refl) C1 A1 Ecp Hc Hb0 Hr N1 LL2 NP Tb Tb2 Fb Fb2 K1 K2 KP F2 FP Ho2 HoP) as (b1 & R1).
    destruct (R1 b1 (le_n b1)) as (g2 & gP & gS & M0 & M1 & M2 & _). clear R1.
    assert (Wc' : width N (coef2 N d) = S0) by (rewrite Ecp in Wc; exact (proj2 Wc)).
    assert (Ho2' : is_order (count (ba2 N d)) o2) by (unfold count in *; rewrite LL2; exact Ho2).
    exists gS, gP, pl1, (fun x z => exists g g' r, blocks_moved (ba2 N d) o2 g g' /\ x = g r /\ z = g' r). split; [exact L1|]. split; [rewrite Wc'; apply placing_moved; assumption|].
    intros E' disk' prog' l' p' d' r1' r2' [C2 A2 Hc' Hb' Hr'] Hcp [[PK [Pe PP]] [W1 W2] [PS1 PS2] [Q1 [Q2 Q3]] [B1 [B2 B3]]].
    destruct (with_files_counterpoise E' N A lab disk' unit (fun _ _ _ _ _ _ => tt) prog' l' p' d' r1' r2' o2 oP (fun _ _ => eq_refl) C2 A2 (eq_trans Hcp Ecp) Hc') as (b0 & R0); try (rewrite Hcp, Ecp in Hb'; exact Hb'); try exact Hr'; try (rewrite ?B1, ?B2, ?B3, ?Q1, ?Q2, ?Q3, ?PS1; assumption).
    rewrite B2, B3 in R0. destruct (R0 b0 (le_n b0)) as (h2 & _ & _ & MM & _).
    eexists _, (h2 r2'). split; [reflexivity|]. split; [exists (table N (coef2 N d')), h2, r2'; auto|]. intros X finish Hsame.
    destruct (with_files_counterpoise E' N A lab disk' X finish prog' l' p' d' r1' r2' o2 oP Hsame C2 A2 (eq_trans Hcp Ecp) Hc') as (b2 & R2); try (rewrite Hcp, Ecp in Hb'; exact Hb'); try exact Hr'; try (rewrite ?B1, ?B2, ?B3, ?Q1, ?Q2, ?Q3, ?PS1; assumption).
    rewrite B2, B3 in R2. exists b2.
    intros fuel Hf. destruct (R2 fuel Hf) as (g2' & gP' & gS' & M0' & M1' & M2' & E2). rewrite E2. f_equal. unfold numbers_of_job, numbers_value. rewrite Hcp, W1, PS1, PK, LL. fold S0.
    assert (SS : forall r c, 1 <= r <= S0 -> 1 <= c <= S0 -> gS' r c = gS r c).
    { unfold S0 in *. rewrite <- Tb. apply (moved2_eq (baP N d) oP _ _ gS gS' Fb HoP M2 M2'). rewrite Tb. intros r c Hr0 Hc0. unfold symmetric. apply PS2; lia. }
    assert (PPm : forall k, 1 <= k <= count (coefP N d) -> forall c, 1 <= c <= S0 -> gP' k c = gP k c).
    { intros k Hk. unfold S0 in *. rewrite <- Tb. apply (moved_row (baP N d) oP _ _ gP gP' k k Fb HoP M1 M1'). intros c Hc0. apply PP; [exact Hk|rewrite <- Tb; exact Hc0]. }
    assert (G2 : forall c, 1 <= c <= S0 -> g2' r2' c = h2 r2' c).
    { unfold S0 in *. rewrite <- Tb2. apply (moved_row (ba2 N d) o2 _ _ h2 g2' r2' r2' Fb2 Ho2' MM M0'). intros; reflexivity. }
    apply EE; [exact Pe| |]; intros k Hk; [apply PW; [exact SS|apply PPm; exact Hk]|].
    rewrite Ecp. apply projection_ext; intros; [apply G2|apply SS|apply PPm]; auto; lia.
Qed.
End Run.
