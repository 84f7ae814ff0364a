(** * Runs of calc_J with any other energies of the dimer's orbitals *)
From Verif Require Import MatrixFacts QcUnscramble QcTransfer QcOrder QcExact.
From Verif Require Export LevelsRun RangeRun.
From Verif Require Export ReaderModel MainSpec LevelsSpec ElementSpec RangeSpec StableSpec.
From Verif Require Export StrSpec StrModel.
Open Scope Z_scope.

Section Run.
Context (N : nums) (A : arith (num N)) (lab : num N -> str).
(** one pair of projections for all choices of the energies *)
Lemma relevelled_run E disk (prog : str) l p d r1 r2 u : job N E disk l p d r1 r2 -> lined_up N lab (counterPoise p) d u ->
  exists gA gB, projections_are N A lab (counterPoise p) d r1 r2 gA gB u /\ forall X (finish : params -> bool -> num N -> num N -> num N -> num N -> X) E' disk' prog' l' p' d' r1' r2', (forall q, same_request q p' -> finish q = finish p') ->
    job N E' disk' l' p' d' r1' r2' -> counterPoise p' = counterPoise p -> relevelled N d d' r1 r2 r1' r2' ->
    exists bound, forall fuel, (bound <= fuel)%nat ->
      main_with E' N A lab disk' finish fuel (prog' :: words l') = Ok (numbers_of A (finish p' u) (length (coefP N d)) (entry N (enP N d')) gA gB).
Proof.
  intros [C1 A1 Hc Hb Hr] Hl.
  assert (Wc : if counterPoise p then width N (coef1 N d) = size N d /\ width N (coef2 N d) = size N d else width N (coef1 N d) + width N (coef2 N d) = size N d) by exact (be_w _ _ _ Hb).
  assert (LL : forall X (l : list X), Z.to_nat (count l) = length l) by (intros; unfold count; lia).
  assert (W0 : 0 <= width N (coef1 N d)) by (unfold width; lia).
  set (S0 := size N d) in *.
  set (z1 := fun a => if counterPoise p then a r1 else pad_after A (width N (coef1 N d)) (a r1)). set (z2 := fun b => if counterPoise p then b r2 else pad_before A (width N (coef1 N d)) (b r2)).
  assert (PW : forall (fS fS' fP fP' : Z -> Z -> num N) z z' k, (forall c, 1 <= c <= S0 -> z' c = z c) -> (forall r c, 1 <= r <= S0 -> 1 <= c <= S0 -> fS' r c = fS r c) ->
     (forall c, 1 <= c <= S0 -> fP' k c = fP k c) -> projection A (Z.to_nat S0) fS' fP' z' k = projection A (Z.to_nat S0) fS fP z k).
  { intros fS fS' fP fP' z z' k H1 H2 H3. apply projection_ext; intros; [apply H1|apply H2|apply H3]; lia. }
  assert (Z1 : forall (a a' : Z -> Z -> num N) r1', (forall c, 1 <= c <= width N (coef1 N d) -> a' r1' c = a r1 c) -> forall c, 1 <= c <= S0 ->
     (if counterPoise p then a' r1' else pad_after A (width N (coef1 N d)) (a' r1')) c = z1 a c).
  { intros a a' r1' H c Hc0. unfold z1. destruct (counterPoise p); [apply H; lia|]. unfold pad_after. destruct (Z.leb_spec c (width N (coef1 N d))); [apply H; lia|reflexivity]. }
  assert (Z2 : forall (b b' : Z -> Z -> num N) r2', (forall c, 1 <= c <= width N (coef2 N d) -> b' r2' c = b r2 c) -> forall c, 1 <= c <= S0 ->
     (if counterPoise p then b' r2' else pad_before A (width N (coef1 N d)) (b' r2')) c = z2 b c).
  { intros b b' r2' H c Hc0. unfold z2. destruct (counterPoise p); [apply H; lia|]. unfold pad_before. destruct (Z.leb_spec c (width N (coef1 N d))); [reflexivity|apply H; lia]. }
  destruct Hl as [Hn|oA oB Ecp N1 N2 NP Tb Fb K1 K2 KP FA FB Ho|o2 oP Ecp N1 L2 NP Tb Tb2 Fb Fb2 K1 K2 KP F2 FP Ho2 HoP].
  - exists (projection A (Z.to_nat S0) (symmetric N (over N d)) (table N (coefP N d)) (z1 (table N (coef1 N d)))), (projection A (Z.to_nat S0) (symmetric N (over N d)) (table N (coefP N d)) (z2 (table N (coef2 N d)))).
    split; [apply sh_not; [exact Hn|reflexivity|reflexivity]|].
    intros X finish E' disk' prog' l' p' d' r1' r2' Hsame [C2 A2 Hc' Hb' Hr'] Hcp [[PK PP] [W1 P1] [W2 P2] [PS1 PS2] [Q1 [Q2 Q3]] [B1 [B2 B3]]]. rewrite <- Hcp in *.
    destruct (with_files_as_read E' N A lab disk' X finish prog' l' p' d' r1' r2' Hsame C2 A2 Hc') as (b2 & R2); [exact Hb'|exact Hr'|rewrite B1, B2, B3; exact Hn|].
    exists b2. intros fuel Hf. rewrite (R2 fuel Hf). f_equal. unfold numbers_of_job, numbers_value. rewrite W1, PS1, PK, LL. fold S0. apply numbers_ext; intros k Hk.
    + apply PW; [apply Z1, P1|intros r c Hr0 Hc0; unfold symmetric; apply PS2; lia|intros c Hc0; apply PP; unfold count; lia].
    + apply PW; [apply Z2, P2|intros r c Hr0 Hc0; unfold symmetric; apply PS2; lia|intros c Hc0; apply PP; unfold count; lia].
  - assert (Hb0 : belong N false d) by (rewrite <- Ecp; exact Hb).
    destruct (with_files_plain E N A lab disk unit (fun _ _ _ _ _ _ => tt) prog l p d r1 r2 oA oB (fun _ _ => eq_refl) C1 A1 Ecp Hc Hb0 Hr N1 N2 NP Tb Fb K1 K2 KP FA FB Ho) as (b1 & R1).
    destruct (R1 b1 (le_n b1)) as (gP & gS & M1 & M2 & _). clear R1.
    exists (projection A (Z.to_nat S0) gS gP (z1 (table N (coef1 N d)))), (projection A (Z.to_nat S0) gS gP (z2 (table N (coef2 N d)))).
    split; [apply (sh_plain N A lab _ _ _ _ _ _ oA oB gP gS); try assumption; reflexivity|].
    intros X finish E' disk' prog' l' p' d' r1' r2' Hsame [C2 A2 Hc' Hb' Hr'] Hcp [[PK PP] [W1 P1] [W2 P2] [PS1 PS2] [Q1 [Q2 Q3]] [B1 [B2 B3]]].
    destruct (with_files_plain E' N A lab disk' X finish prog' l' p' d' r1' r2' oA oB Hsame C2 A2 (eq_trans Hcp Ecp) Hc') as (b2 & R2); try (rewrite Hcp, Ecp in Hb'; exact Hb'); try exact Hr'; try (rewrite ?B1, ?B2, ?B3, ?Q1, ?Q2, ?Q3, ?PS1; assumption).
    rewrite B3 in R2. exists b2. intros fuel Hf. destruct (R2 fuel Hf) as (gP' & gS' & M1' & M2' & E2). rewrite E2. f_equal. unfold numbers_of_job, numbers_value. rewrite Hcp, W1, PS1, PK, LL. fold S0.
    assert (SS : forall r c, 1 <= r <= S0 -> 1 <= c <= S0 -> gS' r c = gS r c).
    { unfold S0 in *. rewrite <- Tb. apply (moved2_eq (baP N d) (oA ++ oB) _ _ gS gS' Fb Ho M2 M2'). rewrite Tb. intros r c Hr0 Hc0. unfold symmetric. apply PS2; lia. }
    assert (PPm : forall k, 1 <= k <= count (coefP N d) -> forall c, 1 <= c <= S0 -> gP' k c = gP k c).
    { intros k Hk. unfold S0 in *. rewrite <- Tb. apply (moved_row (baP N d) (oA ++ oB) _ _ gP gP' k k Fb Ho M1 M1'). intros c Hc0. apply PP; [exact Hk|rewrite <- Tb; exact Hc0]. }
    apply numbers_ext; intros k Hk.
    + apply PW; [apply Z1, P1|exact SS|apply PPm; unfold count; lia].
    + apply PW; [apply Z2, P2|exact SS|apply PPm; unfold count; lia].
  - assert (Hb0 : belong N true d) by (rewrite <- Ecp; exact Hb).
    destruct (with_files_counterpoise E N A lab disk unit (fun _ _ _ _ _ _ => tt) prog l p d r1 r2 o2 oP (fun _ _ => eq_refl) C1 A1 Ecp Hc Hb0 Hr N1 L2 NP Tb Tb2 Fb Fb2 K1 K2 KP F2 FP Ho2 HoP) as (b1 & R1).
    destruct (R1 b1 (le_n b1)) as (g2 & gP & gS & M0 & M1 & M2 & _). clear R1.
    exists (projection A (Z.to_nat S0) gS gP (z1 (table N (coef1 N d)))), (projection A (Z.to_nat S0) gS gP (z2 g2)).
    split; [apply (sh_cp N A lab _ _ _ _ _ _ o2 oP g2 gP gS); try assumption; unfold z1, z2; rewrite Ecp; reflexivity|].
    intros X finish E' disk' prog' l' p' d' r1' r2' Hsame [C2 A2 Hc' Hb' Hr'] Hcp [[PK PP] [W1 P1] [W2 P2] [PS1 PS2] [Q1 [Q2 Q3]] [B1 [B2 B3]]].
    destruct (with_files_counterpoise E' N A lab disk' X finish prog' l' p' d' r1' r2' o2 oP Hsame C2 A2 (eq_trans Hcp Ecp) Hc') as (b2 & R2); try (rewrite Hcp, Ecp in Hb'; exact Hb'); try exact Hr'; try (rewrite ?B1, ?B2, ?B3, ?Q1, ?Q2, ?Q3, ?PS1; assumption).
    rewrite B2, B3 in R2. exists b2. intros fuel Hf. destruct (R2 fuel Hf) as (g2' & gP' & gS' & M0' & M1' & M2' & E2). rewrite E2. f_equal. unfold numbers_of_job, numbers_value. rewrite Hcp, W1, PS1, PK, LL. fold S0.
    assert (Ho2' : is_order (count (ba2 N d)) o2) by (unfold count in *; rewrite L2; exact Ho2).
    assert (SS : forall r c, 1 <= r <= S0 -> 1 <= c <= S0 -> gS' r c = gS r c).
    { unfold S0 in *. rewrite <- Tb. apply (moved2_eq (baP N d) oP _ _ gS gS' Fb HoP M2 M2'). rewrite Tb. intros r c Hr0 Hc0. unfold symmetric. apply PS2; lia. }
    assert (PPm : forall k, 1 <= k <= count (coefP N d) -> forall c, 1 <= c <= S0 -> gP' k c = gP k c).
    { intros k Hk. unfold S0 in *. rewrite <- Tb. apply (moved_row (baP N d) oP _ _ gP gP' k k Fb HoP M1 M1'). intros c Hc0. apply PP; [exact Hk|rewrite <- Tb; exact Hc0]. }
    assert (G2 : forall c, 1 <= c <= width N (coef2 N d) -> g2' r2' c = g2 r2 c).
    { rewrite Ecp in Wc. destruct Wc as [_ ->]. unfold S0. rewrite <- Tb2. apply (moved_row (ba2 N d) o2 _ _ g2 g2' r2 r2' Fb2 Ho2' M0 M0'). intros c Hc0. apply P2.
      replace (width N (coef2 N d)) with (size N d); [rewrite <- Tb2; exact Hc0|]. pose proof (be_w _ _ _ Hb) as Q. rewrite Ecp in Q. symmetry. exact (proj2 Q). }
    apply numbers_ext; intros k Hk.
    + apply PW; [apply Z1, P1|exact SS|apply PPm; unfold count; lia].
    + apply PW; [apply Z2, G2|exact SS|apply PPm; unfold count; lia].
Qed.
End Run.

Section Bounds.
Context {T : Type} (A : arith T) (opp inv : T -> T) (HA : exact_arith A opp inv) (le : T -> T -> Prop) (HO : ordered A le).
Let FT := ea_field A opp inv HA.
Add Field TFSt : FT.
Notation "x + y" := (a_add A x y). Notation "x * y" := (a_mul A x y). Notation "x - y" := (a_sub A x y). Notation "x / y" := (a_div A x y).
Notation "0" := (a_zero A). Notation "1" := (a_one A). Notation "x <= y" := (le x y).
Notation Sum := (sum A).
Lemma within_of c x y : 0 - c <= x - y -> x - y <= c -> within A le c x y.
Proof.
  intros H1 H2. split; [exact H2|]. apply (diff_le A opp inv HA le HO). apply (le_diff A opp inv HA le HO) in H1. replace (c - (y - x)) with (x - y - (0 - c)) by ring. exact H1.
Qed.
Lemma within_range c x y : within A le c x y -> 0 - c <= x - y /\ x - y <= c.
Proof.
  intros [H1 H2]. split; [|exact H1]. apply (diff_le A opp inv HA le HO). apply (le_diff A opp inv HA le HO) in H2. replace (x - y - (0 - c)) with (c - (y - x)) by ring. exact H2.
Qed.
Lemma difference_sum n (e e' u : Z -> T) : Sum n (fun k => e' k * u k) - Sum n (fun k => e k * u k) = Sum n (fun k => (e' k - e k) * u k).
Proof. rewrite <- (Sum_sub A opp inv HA). apply sum_ext. intros k _. ring. Qed.
Lemma J_linear j a b j' a' b' s : 1 + 1 <> 0 -> 1 - s * s <> 0 -> J_eff A j' a' b' s - J_eff A j a b s = J_eff A (j' - j) (a' - a) (b' - b) s.
Proof. intros H2 Hs. unfold J_eff. rewrite (ea_two A opp inv HA), (ea_pow2 A opp inv HA). field. auto. Qed.
Lemma twice_le x y : x + x <= y + y -> x <= y.
Proof.
  intros H. apply (cancel_le A opp inv HA le HO ((1 + 1) * (1 + 1))); [exact (four_nonneg A opp inv HA le HO)|exact (four_not_zero A opp inv HA le HO)|].
  apply (diff_le A opp inv HA le HO). apply (le_diff A opp inv HA le HO) in H. replace ((1 + 1) * (1 + 1) * y - (1 + 1) * (1 + 1) * x) with ((y + y - (x + x)) + (y + y - (x + x))) by ring.
  apply (plus_nonneg A opp inv HA le HO); exact H.
Qed.
Section Pair.
Context (n : nat) (e e' g h : Z -> T) (s c : T).
Hypothesis Hg : Sum n (fun k => g k * g k) = 1.
Hypothesis Hh : Sum n (fun k => h k * h k) = 1.
Hypothesis Hs : Sum n (fun k => g k * h k) = s.
Hypothesis Hc : forall k, (1 <= k <= Z.of_nat n)%Z -> within A le c (e' k) (e k).
Lemma moved_range k : (1 <= k <= Z.of_nat n)%Z -> 0 - c <= e' k - e k /\ e' k - e k <= c.
Proof. intros Hk. exact (within_range c _ _ (Hc k Hk)). Qed.
Lemma level_stable u : Sum n (fun k => u k * u k) = 1 -> within A le c (Sum n (fun k => e' k * (u k * u k))) (Sum n (fun k => e k * (u k * u k))).
Proof.
  intros Hu. destruct (weighted_range A opp inv HA le HO n (fun k => e' k - e k) u (0 - c) c moved_range) as [P1 P2]. rewrite Hu in P1, P2.
  apply within_of; rewrite difference_sum; [replace (0 - c) with ((0 - c) * 1) by ring; exact P1|replace c with (c * 1) by ring; exact P2].
Qed.
Lemma transfer_stable : within A le c (Sum n (fun k => e' k * (g k * h k))) (Sum n (fun k => e k * (g k * h k))).
Proof.
  set (f := fun k => e' k - e k).
  destruct (weighted_range A opp inv HA le HO n f (fun k => g k + h k) (0 - c) c moved_range) as [P1 P2]. destruct (weighted_range A opp inv HA le HO n f (fun k => g k - h k) (0 - c) c moved_range) as [M1 M2]. cbv beta in P1, P2, M1, M2.
  rewrite (norm_plus A opp inv HA n g h s Hg Hh Hs) in P1, P2. rewrite (norm_minus A opp inv HA n g h s Hg Hh Hs) in M1, M2.
  rewrite (Sum_square_plus A opp inv HA) in P1, P2. rewrite (Sum_square_minus A opp inv HA) in M1, M2.
  apply (le_diff A opp inv HA le HO) in P1. apply (le_diff A opp inv HA le HO) in P2. apply (le_diff A opp inv HA le HO) in M1. apply (le_diff A opp inv HA le HO) in M2.
  pose proof (plus_nonneg A opp inv HA le HO _ _ P1 M2) as Q1. pose proof (plus_nonneg A opp inv HA le HO _ _ P2 M1) as Q2.
  apply within_of; rewrite difference_sum; change (Sum n (fun k => (e' k - e k) * (g k * h k))) with (Sum n (fun k => f k * (g k * h k))); do 2 apply twice_le; apply (diff_le A opp inv HA le HO).
  - refine (eq_ind _ (fun x => 0 <= x) Q1 _ _). ring.
  - refine (eq_ind _ (fun x => 0 <= x) Q2 _ _). ring.
Qed.
Lemma coupling_stable : s * s <> 1 ->
  within A le c (J_eff A (Sum n (fun k => e' k * (g k * h k))) (Sum n (fun k => e' k * (g k * g k))) (Sum n (fun k => e' k * (h k * h k))) s)
                (J_eff A (Sum n (fun k => e k * (g k * h k))) (Sum n (fun k => e k * (g k * g k))) (Sum n (fun k => e k * (h k * h k))) s).
Proof.
  intros Hne. assert (D1 : 1 - s * s <> 0). { intros E. apply Hne. transitivity (1 - (1 - s * s)); [ring|]. rewrite E. ring. }
  destruct (coupling_bound A opp inv HA le HO n (fun k => e' k - e k) g h s Hg Hh Hs _ _ _ (0 - c) c moved_range eq_refl eq_refl eq_refl Hne) as [P1 P2].
  rewrite <- !difference_sum, <- (J_linear _ _ _ _ _ _ s (two_not_zero A opp inv HA le HO) D1) in P1, P2.
  apply within_of; apply twice_le.
  - replace (0 - c + (0 - c)) with (0 - c - c) by ring. exact P2.
  - replace (c + c) with (c - (0 - c)) by ring. exact P1.
Qed.
End Pair.
End Bounds.
