(** * Runs of calc_J with the atoms at other positions *)
From Verif Require Import MatrixFacts QcUnscramble QcTransfer QcOrder QcExact.
From Verif Require Export LevelsRun.
From Verif Require Export ReaderModel MainSpec LevelsSpec MoveSpec.
From Verif Require Export StrSpec StrModel.
Open Scope Z_scope.

Lemma numbers_energies {T} (A : arith T) {R} (f : T -> T -> T -> T -> R) K (e e' gA gB : Z -> T) : (forall k, 1 <= k <= Z.of_nat K -> e' k = e k) -> numbers_of A f K e' gA gB = numbers_of A f K e gA gB.
Proof.
  intros He. assert (W : forall g i, 1 <= i <= Z.of_nat K -> weighted A K e' g i = weighted A K e g i).
  { intros g i Hi. unfold weighted. apply accum_ext. intros k Hk. rewrite (He i Hi). split; reflexivity. }
  unfold numbers_of. f_equal; apply accum_ext; intros k Hk; split; auto.
Qed.
Ltac lens := unfold count in *; repeat match goal with H : is_order _ _ |- _ => destruct H as (H & _) end; lia.
Section Run.
Context (N : nums) (A : arith (num N)) (lab : num N -> str).
(** one set of numbers for all positions of the atoms *)
Lemma moved_run E disk (prog : str) l p d r1 r2 u : job N E disk l p d r1 r2 -> lined_up N lab (counterPoise p) d u ->
  exists gA gB, forall X (finish : params -> bool -> num N -> num N -> num N -> num N -> X) E' disk' prog' l' p' d' r1' r2', (forall q, same_request q p' -> finish q = finish p') ->
    job N E' disk' l' p' d' r1' r2' -> counterPoise p' = counterPoise p -> atoms_moved N lab (counterPoise p) d d' r1 r2 r1' r2' ->
    exists bound, forall fuel, (bound <= fuel)%nat ->
      main_with E' N A lab disk' finish fuel (prog' :: words l') = Ok (numbers_of A (finish p' u) (length (coefP N d)) (entry N (enP N d)) gA gB).
Proof.
  intros [C1 A1 Hc Hb Hr] Hl.
  assert (Wc : if counterPoise p then width N (coef1 N d) = size N d /\ width N (coef2 N d) = size N d else width N (coef1 N d) + width N (coef2 N d) = size N d) by exact (be_w _ _ _ Hb).
  assert (LL : forall X (l : list X), Z.to_nat (count l) = length l) by (intros; unfold count; lia).
  assert (W0 : 0 <= width N (coef1 N d)) by (unfold width; lia).
  set (S0 := size N d) in *.
  set (z1 := fun a => if counterPoise p then a r1 else pad_after A (width N (coef1 N d)) (a r1)). set (z2 := fun b => if counterPoise p then b r2 else pad_before A (width N (coef1 N d)) (b r2)).
  assert (PW : forall (fS fS' fP fP' : Z -> Z -> num N) z z' k, (forall c, 1 <= c <= S0 -> z' c = z c) -> (forall r c, 1 <= r <= S0 -> 1 <= c <= S0 -> fS' r c = fS r c) ->
     (forall c, 1 <= c <= S0 -> fP' k c = fP k c) -> projection A (Z.to_nat S0) fS' fP' z' k = projection A (Z.to_nat S0) fS fP z k).
  { intros fS fS' fP fP' z z' k H1 H2 H3. apply projection_ext; intros; [apply H1|apply H2|apply H3]; lia. }
  assert (Z1 : forall (a a' : Z -> Z -> num N) r1', (forall c, 1 <= c <= width N (coef1 N d) -> a' r1' c = a r1 c) -> forall c, 1 <= c <= S0 ->
     (if counterPoise p then a' r1' else pad_after A (width N (coef1 N d)) (a' r1')) c = z1 a c).
  { intros a a' r1' H c Hc0. unfold z1. destruct (counterPoise p); [apply H; lia|]. unfold pad_after. destruct (Z.leb_spec c (width N (coef1 N d))); [apply H; lia|reflexivity]. }
  assert (Z2 : forall (b b' : Z -> Z -> num N) r2', (forall c, 1 <= c <= width N (coef2 N d) -> b' r2' c = b r2 c) -> forall c, 1 <= c <= S0 ->
     (if counterPoise p then b' r2' else pad_before A (width N (coef1 N d)) (b' r2')) c = z2 b c).
  { intros b b' r2' H c Hc0. unfold z2. destruct (counterPoise p); [apply H; lia|]. unfold pad_before. destruct (Z.leb_spec c (width N (coef1 N d))); [reflexivity|apply H; lia]. }
  destruct Hl as [Hn|oA oB Ecp N1 N2 NP Tb Fb K1 K2 KP FA FB Ho|o2 oP Ecp N1 L2 NP Tb Tb2 Fb Fb2 K1 K2 KP F2 FP Ho2 HoP].
  - exists (projection A (Z.to_nat S0) (symmetric N (over N d)) (table N (coefP N d)) (z1 (table N (coef1 N d)))), (projection A (Z.to_nat S0) (symmetric N (over N d)) (table N (coefP N d)) (z2 (table N (coef2 N d)))).
    intros X finish E' disk' prog' l' p' d' r1' r2' Hsame [C2 A2 Hc' Hb' Hr'] Hcp [Le [PK PP] [W1 P1] [W2 P2] [PS1 PS2] [B1 [B2 B3]] [Q1 [Q3 T1]] T2]. rewrite <- Hcp in *.
    destruct (with_files_as_read E' N A lab disk' X finish prog' l' p' d' r1' r2' Hsame C2 A2 Hc') as (b2 & R2); [exact Hb'|exact Hr'|rewrite B1, B2, B3; exact Hn|].
    exists b2. intros fuel Hf. rewrite (R2 fuel Hf). f_equal. unfold numbers_of_job, numbers_value. rewrite W1, PS1, PK, LL. fold S0. rewrite (numbers_energies A _ _ (entry N (enP N d)) (entry N (enP N d'))) by (intros k Hk; apply Le; unfold count; exact Hk). apply numbers_ext; intros k Hk.
    + apply PW; [apply Z1, P1|intros r c Hr0 Hc0; unfold symmetric; apply PS2; lia|intros c Hc0; apply PP; unfold count; lia].
    + apply PW; [apply Z2, P2|intros r c Hr0 Hc0; unfold symmetric; apply PS2; lia|intros c Hc0; apply PP; unfold count; lia].
  - assert (Hb0 : belong N false d) by (rewrite <- Ecp; exact Hb).
    destruct (with_files_plain E N A lab disk unit (fun _ _ _ _ _ _ => tt) prog l p d r1 r2 oA oB (fun _ _ => eq_refl) C1 A1 Ecp Hc Hb0 Hr N1 N2 NP Tb Fb K1 K2 KP FA FB Ho) as (b1 & R1).
    destruct (R1 b1 (le_n b1)) as (gP & gS & M1 & M2 & _). clear R1.
    exists (projection A (Z.to_nat S0) gS gP (z1 (table N (coef1 N d)))), (projection A (Z.to_nat S0) gS gP (z2 (table N (coef2 N d)))).
    intros X finish E' disk' prog' l' p' d' r1' r2' Hsame [C2 A2 Hc' Hb' Hr'] Hcp [Le [PK PP] [W1 P1] [W2 P2] [PS1 PS2] [B1 [B2 B3]] [Q1 [Q3 T1]] T2].
    rewrite Ecp in T2. destruct T2 as (Q2 & _ & T2).
    destruct (with_files_plain E' N A lab disk' X finish prog' l' p' d' r1' r2' oA oB Hsame C2 A2 (eq_trans Hcp Ecp) Hc') as (b2 & R2); try (rewrite Hcp, Ecp in Hb'; exact Hb'); try exact Hr'; try (rewrite ?B1, ?B2, ?B3, ?Q1, ?Q2, ?Q3, ?PS1; first [assumption|apply T1; [lens|assumption]|apply T2; [lens|assumption]]).
    rewrite B3 in R2. exists b2. intros fuel Hf. destruct (R2 fuel Hf) as (gP' & gS' & M1' & M2' & E2). rewrite E2. f_equal. unfold numbers_of_job, numbers_value. rewrite Hcp, W1, PS1, PK, LL. fold S0.
    assert (SS : forall r c, 1 <= r <= S0 -> 1 <= c <= S0 -> gS' r c = gS r c).
    { unfold S0 in *. rewrite <- Tb. apply (moved2_eq (baP N d) (oA ++ oB) _ _ gS gS' Fb Ho M2 M2'). rewrite Tb. intros r c Hr0 Hc0. unfold symmetric. apply PS2; lia. }
    assert (PPm : forall k, 1 <= k <= count (coefP N d) -> forall c, 1 <= c <= S0 -> gP' k c = gP k c).
    { intros k Hk. unfold S0 in *. rewrite <- Tb. apply (moved_row (baP N d) (oA ++ oB) _ _ gP gP' k k Fb Ho M1 M1'). intros c Hc0. apply PP; [exact Hk|rewrite <- Tb; exact Hc0]. }
    rewrite (numbers_energies A _ _ (entry N (enP N d)) (entry N (enP N d'))) by (intros k Hk; apply Le; unfold count; exact Hk). apply numbers_ext; intros k Hk.
    + apply PW; [apply Z1, P1|exact SS|apply PPm; unfold count; lia].
    + apply PW; [apply Z2, P2|exact SS|apply PPm; unfold count; lia].
  - assert (Hb0 : belong N true d) by (rewrite <- Ecp; exact Hb).
    destruct (with_files_counterpoise E N A lab disk unit (fun _ _ _ _ _ _ => tt) prog l p d r1 r2 o2 oP (fun _ _ => eq_refl) C1 A1 Ecp Hc Hb0 Hr N1 L2 NP Tb Tb2 Fb Fb2 K1 K2 KP F2 FP Ho2 HoP) as (b1 & R1).
    destruct (R1 b1 (le_n b1)) as (g2 & gP & gS & M0 & M1 & M2 & _). clear R1.
    exists (projection A (Z.to_nat S0) gS gP (z1 (table N (coef1 N d)))), (projection A (Z.to_nat S0) gS gP (z2 g2)).
    intros X finish E' disk' prog' l' p' d' r1' r2' Hsame [C2 A2 Hc' Hb' Hr'] Hcp [Le [PK PP] [W1 P1] [W2 P2] [PS1 PS2] [B1 [B2 B3]] [Q1 [Q3 T1]] T2].
    rewrite Ecp in T2. destruct T2 as (_ & Q2 & T2).
    destruct (with_files_counterpoise E' N A lab disk' X finish prog' l' p' d' r1' r2' o2 oP Hsame C2 A2 (eq_trans Hcp Ecp) Hc') as (b2 & R2); try (rewrite Hcp, Ecp in Hb'; exact Hb'); try exact Hr'; try (rewrite ?B1, ?B2, ?B3, ?Q1, ?Q2, ?Q3, ?PS1; first [assumption|apply T1; [lens|assumption]|apply T2; [lens|assumption]]).
    rewrite B2, B3 in R2. exists b2. intros fuel Hf. destruct (R2 fuel Hf) as (g2' & gP' & gS' & M0' & M1' & M2' & E2). rewrite E2. f_equal. unfold numbers_of_job, numbers_value. rewrite Hcp, W1, PS1, PK, LL. fold S0.
    assert (Ho2' : is_order (count (ba2 N d)) o2) by (unfold count in *; rewrite L2; exact Ho2).
    assert (SS : forall r c, 1 <= r <= S0 -> 1 <= c <= S0 -> gS' r c = gS r c).
    { unfold S0 in *. rewrite <- Tb. apply (moved2_eq (baP N d) oP _ _ gS gS' Fb HoP M2 M2'). rewrite Tb. intros r c Hr0 Hc0. unfold symmetric. apply PS2; lia. }
    assert (PPm : forall k, 1 <= k <= count (coefP N d) -> forall c, 1 <= c <= S0 -> gP' k c = gP k c).
    { intros k Hk. unfold S0 in *. rewrite <- Tb. apply (moved_row (baP N d) oP _ _ gP gP' k k Fb HoP M1 M1'). intros c Hc0. apply PP; [exact Hk|rewrite <- Tb; exact Hc0]. }
    assert (G2 : forall c, 1 <= c <= width N (coef2 N d) -> g2' r2' c = g2 r2 c).
    { rewrite Ecp in Wc. destruct Wc as [_ ->]. unfold S0. rewrite <- Tb2. apply (moved_row (ba2 N d) o2 _ _ g2 g2' r2 r2' Fb2 Ho2' M0 M0'). intros c Hc0. apply P2.
      replace (width N (coef2 N d)) with (size N d); [rewrite <- Tb2; exact Hc0|]. pose proof (be_w _ _ _ Hb) as Q. rewrite Ecp in Q. symmetry. exact (proj2 Q). }
    rewrite (numbers_energies A _ _ (entry N (enP N d)) (entry N (enP N d'))) by (intros k Hk; apply Le; unfold count; exact Hk). apply numbers_ext; intros k Hk.
    + apply PW; [apply Z1, P1|exact SS|apply PPm; unfold count; lia].
    + apply PW; [apply Z2, G2|exact SS|apply PPm; unfold count; lia].
Qed.
End Run.
