(** * A run without and a run with counterpoise correction *)
From Verif Require Import MatrixFacts QcUnscramble QcTransfer QcOrder.
From Verif Require Import MixRun PhaseRun.
From Verif Require Export LevelsRun ElementRun.
From Verif Require Export ReaderModel MainSpec LevelsSpec GhostSpec.
From Verif Require Export StrSpec StrModel.
Open Scope Z_scope.

(** the atoms one after the other *)
Definition in_turn (n : nat) : list Z := map (fun i => Z.of_nat i + 1) (seq 0 n).
Lemma nth_in_turn n i : (i < n)%nat -> nth_error (in_turn n) i = Some (Z.of_nat i + 1).
Proof.
  intros H. unfold in_turn. rewrite nth_error_map. rewrite (nth_error_nth' (seq 0 n) 0%nat) by (rewrite seq_length; exact H). rewrite seq_nth by exact H. reflexivity.
Qed.
Lemma reordered_in_turn b : reordered b (in_turn (length b)) = b.
Proof.
  unfold reordered, in_turn. rewrite map_map. apply nth_ext with (d := 0) (d' := 0); [rewrite map_length, seq_length; reflexivity|].
  intros i Hi. rewrite map_length, seq_length in Hi. rewrite (nth_indep _ 0 (size_of b (Z.of_nat 0 + 1))) by (rewrite map_length, seq_length; exact Hi).
  rewrite (map_nth (fun x => size_of b (Z.of_nat x + 1))), seq_nth by exact Hi. unfold size_of. f_equal. lia.
Qed.
Lemma moved_in_turn {X} b (f : Z -> Z -> X) : blocks_moved b (in_turn (length b)) f f.
Proof.
  intros x i k j Hi Hk Hj. rewrite reordered_in_turn. assert (L : (Z.to_nat (i - 1) < length b)%nat).
  { apply nth_error_Some_lt in Hk || (assert (Q : nth_error (in_turn (length b)) (Z.to_nat (i - 1)) <> None) by (rewrite Hk; discriminate); apply nth_error_Some in Q; unfold in_turn in Q; rewrite map_length, seq_length in Q; exact Q). }
  rewrite (nth_in_turn _ _ L) in Hk. inversion Hk; subst k. f_equal. f_equal. f_equal. lia.
Qed.
Lemma order_in_turn n : is_order (Z.of_nat n) (in_turn n).
Proof.
  unfold in_turn. split; [rewrite map_length, seq_length; reflexivity|]. split.
  - apply FinFun.Injective_map_NoDup; [intros a b H; lia|apply seq_NoDup].
  - apply Forall_forall. intros x Hx. apply in_map_iff in Hx. destruct Hx as (i & <- & Hi). apply in_seq in Hi. lia.
Qed.
Section Finds.
Context {T : Type} (lab : T -> str).
Lemma finds_itself D n (q : Z -> Z -> Z -> T) o : length o = n -> finds lab D (Z.of_nat n) q q o -> o = in_turn n.
Proof.
  intros L F. apply nth_ext_list. intros i Hi. destruct (nth_error o (Z.to_nat (i - 1))) as [k|] eqn:E.
  - assert (H : (Z.to_nat (i - 1) < n)%nat) by (rewrite <- L; apply nth_error_Some; rewrite E; discriminate). rewrite (nth_in_turn _ _ H). f_equal.
    destruct (F i k E Hi) as [_ U]. symmetry. apply U; [lia|]. replace (Z.of_nat (Z.to_nat (i - 1)) + 1) with i by lia. intros j Hj. reflexivity.
  - symmetry. apply nth_error_None. unfold in_turn. rewrite map_length, seq_length. apply nth_error_None in E. lia.
Qed.
Lemma finds_same D n (q q1 q' : Z -> Z -> Z -> T) o o1 : length o = length o1 -> finds lab D n q q' o -> finds lab D n q1 q' o1 ->
  (forall i j, 1 <= i <= count o -> 1 <= j <= D -> q j i 1 = q1 j i 1) -> o = o1.
Proof.
  intros L F F1 H. apply nth_ext_list. intros i Hi. destruct (nth_error o (Z.to_nat (i - 1))) as [k|] eqn:E.
  - assert (Hl : (Z.to_nat (i - 1) < length o)%nat) by (apply nth_error_Some; rewrite E; discriminate).
    destruct (nth_error o1 (Z.to_nat (i - 1))) as [k1|] eqn:E1; [|apply nth_error_None in E1; lia]. f_equal.
    destruct (F i k E Hi) as [R U]. destruct (F1 i k1 E1 Hi) as [R1 U1]. apply U1; [exact R|]. intros j Hj. rewrite <- H by (unfold count; lia). apply (proj2 (U k R) eq_refl). exact Hj.
  - symmetry. apply nth_error_None. apply nth_error_None in E. lia.
Qed.
Lemma finds_app D n (q1 q2 q q' : Z -> Z -> Z -> T) o1 o2 : finds lab D n q1 q' o1 -> finds lab D n q2 q' o2 ->
  (forall i j, 1 <= i <= count o1 -> 1 <= j <= D -> q j i 1 = q1 j i 1) -> (forall i j, 1 <= i <= count o2 -> 1 <= j <= D -> q j (count o1 + i) 1 = q2 j i 1) -> finds lab D n q q' (o1 ++ o2).
Proof.
  intros F1 F2 H1 H2 i k E Hi. destruct (Z_le_gt_dec i (count o1)) as [Hl|Hl]; unfold count in *.
  - rewrite nth_error_app1 in E by lia. destruct (F1 i k E Hi) as [R U]. split; [exact R|]. intros k' Hk'. rewrite <- (U k' Hk'). unfold same_atom. split; intros Q j Hj; [rewrite <- H1 by lia|rewrite H1 by lia]; apply Q, Hj.
  - rewrite nth_error_app2 in E by lia. replace (Z.to_nat (i - 1) - length o1)%nat with (Z.to_nat (i - Z.of_nat (length o1) - 1)) in E by lia.
    assert (L : (Z.to_nat (i - Z.of_nat (length o1) - 1) < length o2)%nat) by (apply nth_error_Some; rewrite E; discriminate).
    destruct (F2 (i - Z.of_nat (length o1)) k E ltac:(lia)) as [R U]. split; [exact R|]. intros k' Hk'. rewrite <- (U k' Hk').
    assert (P : forall j, 1 <= j <= D -> q j i 1 = q2 j (i - Z.of_nat (length o1)) 1).
    { intros j Hj. rewrite <- H2 by lia. f_equal. lia. }
    unfold same_atom. split; intros Q j Hj; [rewrite <- P by lia|rewrite P by lia]; apply Q, Hj.
Qed.
End Finds.
Section Places.
Context (N : nums).
Lemma position_nth (l : list (num N * num N * num N)) j i z : 1 <= j <= 3 -> 1 <= i ->
  position N l j i z = nth (Z.to_nat (i - 1)) (map (fun p => if j =? 1 then fst (fst p) else if j =? 2 then snd (fst p) else snd p) l) (n_zero N).
Proof. intros Hj Hi. unfold position, table. assert (j = 1 \/ j = 2 \/ j = 3) as [->|[->| ->]] by lia; reflexivity. Qed.
Lemma position_first l l' j i z : 1 <= j <= 3 -> 1 <= i <= count l -> position N (l ++ l') j i z = position N l j i z.
Proof. intros Hj Hi. unfold count in Hi. rewrite !position_nth by lia. rewrite map_app, app_nth1 by (rewrite map_length; lia). reflexivity. Qed.
Lemma position_second l l' j i z : 1 <= j <= 3 -> 1 <= i -> position N (l ++ l') j (count l + i) z = position N l' j i z.
Proof. intros Hj Hi. unfold count. rewrite !position_nth by lia. rewrite map_app, app_nth2 by (rewrite map_length; lia). f_equal. rewrite map_length. lia. Qed.
End Places.

Section Run.
Context (N : nums) (A : arith (num N)) (lab : num N -> str).
(** one pair of projections for both runs *)
Lemma ghost_run E disk (prog : str) l p d r1 r2 u E' disk' (prog' : str) l' p' d' r1' r2' : job N E disk l p d r1 r2 -> counterPoise p = false -> lined_up N lab false d u ->
  job N E' disk' l' p' d' r1' r2' -> counterPoise p' = true -> lined_up N lab true d' u -> ghosts N A d d' r1 r2 r1' r2' ->
  exists gA gB, forall X (finish : params -> bool -> num N -> num N -> num N -> num N -> X), (forall q, same_request q p -> finish q = finish p) -> (forall q, same_request q p' -> finish q = finish p') ->
    exists bound, forall fuel, (bound <= fuel)%nat ->
      main_with E N A lab disk finish fuel (prog :: words l) = Ok (numbers_of A (finish p u) (length (coefP N d)) (entry N (enP N d)) gA gB) /\
      main_with E' N A lab disk' finish fuel (prog' :: words l') = Ok (numbers_of A (finish p' u) (length (coefP N d)) (entry N (enP N d)) gA gB).
Proof.
  intros [C1 A1 Hc Hb Hr] Ecp Hl [C1' A1' Hc' Hb' Hr'] Ecp' Hl' [(G1 & G2 & G3 & G4) Z1 Z2 (PK & Pe & PP) (SN & SV)].
  assert (Wc : width N (coef1 N d) + width N (coef2 N d) = size N d) by (pose proof (be_w _ _ _ Hb) as Q; rewrite Ecp in Q; exact Q).
  assert (LL : forall X (l : list X), Z.to_nat (count l) = length l) by (intros; unfold count; lia).
  assert (W0 : 0 <= width N (coef1 N d) /\ 0 <= width N (coef2 N d)) by (unfold width; lia).
  assert (Kl : length (coefP N d') = length (coefP N d)) by (rewrite <- !LL, PK; reflexivity).
  set (S0 := size N d) in *.
  assert (PW : forall (fS fS' fP fP' : Z -> Z -> num N) z z' k, (forall c, 1 <= c <= S0 -> z' c = z c) -> (forall r c, 1 <= r <= S0 -> 1 <= c <= S0 -> fS' r c = fS r c) ->
     (forall c, 1 <= c <= S0 -> fP' k c = fP k c) -> projection A (Z.to_nat S0) fS' fP' z' k = projection A (Z.to_nat S0) fS fP z k).
  { intros fS fS' fP fP' z z' k H1 H2 H3. apply projection_ext; intros; [apply H1|apply H2|apply H3]; lia. }
  assert (EE : forall X (f : num N -> num N -> num N -> num N -> X) gA gB gA' gB', (forall k, 1 <= k <= count (coefP N d) -> gA' k = gA k) -> (forall k, 1 <= k <= count (coefP N d) -> gB' k = gB k) ->
     numbers_of A f (length (coefP N d)) (entry N (enP N d')) gA' gB' = numbers_of A f (length (coefP N d)) (entry N (enP N d)) gA gB).
  { intros X f gA gB gA' gB' HA HB. rewrite (numbers_ext A f _ (entry N (enP N d')) gA gB gA' gB') by assumption. unfold numbers_of.
    assert (WW : forall g i, weighted A (length (coefP N d)) (entry N (enP N d')) g i = weighted A (length (coefP N d)) (entry N (enP N d)) g i).
    { intros g i. unfold weighted. apply accum_ext. intros k Hk. split; [|reflexivity]. destruct (Z.eqb_spec i k) as [->|]; [apply Pe; unfold count; lia|reflexivity]. }
    f_equal; apply accum_ext; intros k Hk; rewrite ?WW; split; reflexivity. }
  destruct Hl as [Hn|oA oB _ N1 N2 NP Tb Fb K1 K2 KP FA FB Ho|? ? Q]; [| |discriminate Q]; inversion Hl' as [Hn'|? ? Q|o2 oP _ N1' L2' NP' Tb' Tb2' Fb' Fb2' K1' K2' KP' F2' FP' Ho2' HoP' Eu]; try discriminate Q; clear Hl'.
  - exists (projection A (Z.to_nat S0) (symmetric N (over N d)) (table N (coefP N d)) (pad_after A (width N (coef1 N d)) (table N (coef1 N d) r1))),
      (projection A (Z.to_nat S0) (symmetric N (over N d)) (table N (coefP N d)) (pad_before A (width N (coef1 N d)) (table N (coef2 N d) r2))).
    intros X finish Hs Hs'. destruct (with_files_as_read E N A lab disk X finish prog l p d r1 r2 Hs C1 A1 Hc Hb Hr Hn) as (b1 & R1).
    destruct (with_files_as_read E' N A lab disk' X finish prog' l' p' d' r1' r2' Hs' C1' A1' Hc' Hb' Hr' Hn') as (b2 & R2).
    exists (b1 + b2)%nat. intros fuel Hf. rewrite (R1 fuel ltac:(lia)), (R2 fuel ltac:(lia)). clear R1 R2. unfold numbers_of_job, numbers_value. rewrite Ecp, Ecp', SN, LL, LL, Kl. split; [reflexivity|]. f_equal.
    apply EE; intros k Hk; fold S0; apply PW; try (intros r c Hr0 Hc0; unfold symmetric; apply SV; lia); try (intros c Hc0; apply PP; assumption); assumption.
  - assert (Hb0 : belong N false d) by (rewrite <- Ecp; exact Hb). assert (Hb0' : belong N true d') by (rewrite <- Ecp'; exact Hb').
    assert (F2s := F2'). assert (FPs := FP').
    assert (O2 : o2 = in_turn (length (ba2 N d'))).
    { rewrite L2'. apply (finds_itself lab 3 _ (position N (at1 N d'))); [destruct Ho2' as [Q _]; unfold count in Q; lia|]. rewrite G2, <- G1 in F2'. exact F2'. }
    assert (OP : oP = oA ++ oB).
    { rewrite G1, G3, G4 in FP'. apply (finds_same lab 3 (count (baP N d)) (position N (at1 N d ++ at2 N d)) (position N (at1 N d ++ at2 N d)) (position N (atP N d)) _ _); [|exact FP'| |intros; reflexivity].
      - destruct HoP' as [Q _]. destruct Ho as [Q' _]. rewrite G4 in Q. lia.
      - apply (finds_app lab 3 _ (position N (at1 N d)) (position N (at2 N d))); try assumption; intros i j Hi Hj; [apply position_first; [exact Hj|rewrite K1; exact Hi]|rewrite <- K1; apply position_second; lia]. }
    clear F2' FP' Ho2' HoP'.
    destruct (with_files_plain E N A lab disk unit (fun _ _ _ _ _ _ => tt) prog l p d r1 r2 oA oB (fun _ _ => eq_refl) C1 A1 Ecp Hc Hb0 Hr N1 N2 NP Tb Fb K1 K2 KP FA FB Ho) as (b0 & R0).
    destruct (R0 b0 (le_n b0)) as (gP & gS & M1 & M2 & _). clear R0.
    exists (projection A (Z.to_nat S0) gS gP (pad_after A (width N (coef1 N d)) (table N (coef1 N d) r1))), (projection A (Z.to_nat S0) gS gP (pad_before A (width N (coef1 N d)) (table N (coef2 N d) r2))).
    intros X finish Hs Hs'.
    destruct (with_files_plain E N A lab disk X finish prog l p d r1 r2 oA oB Hs C1 A1 Ecp Hc Hb0 Hr N1 N2 NP Tb Fb K1 K2 KP FA FB Ho) as (b1 & R1).
    pose proof (order_in_turn (length (ba2 N d'))) as HI. assert (HI' : is_order (count (baP N d')) (in_turn (length (ba2 N d')))) by (unfold count; rewrite <- L2'; exact HI).
    assert (F2' : finds lab 3 (count (baP N d')) (position N (at1 N d')) (position N (at2 N d')) (in_turn (length (ba2 N d')))) by (rewrite <- O2; exact F2s).
    assert (FP' : finds lab 3 (count (baP N d')) (position N (at1 N d')) (position N (atP N d')) (oA ++ oB)) by (rewrite <- OP; exact FPs).
    destruct (with_files_counterpoise E' N A lab disk' X finish prog' l' p' d' r1' r2' (in_turn (length (ba2 N d'))) (oA ++ oB) Hs' C1' A1' Ecp' Hc' Hb0' Hr' N1' L2' NP' Tb' Tb2' Fb' Fb2' K1' K2' KP' F2' FP' HI') as (b2 & R2); [rewrite G4; exact Ho|].
    exists (b1 + b2)%nat. intros fuel Hf. destruct (R1 fuel ltac:(lia)) as (gP1 & gS1 & M1' & M2' & ->). destruct (R2 fuel ltac:(lia)) as (g2 & gP2 & gS2 & M0'' & M1'' & M2'' & ->). clear R1 R2.
    rewrite G4 in M1'', M2''. unfold numbers_of_job, numbers_value. rewrite Ecp, Ecp', SN, !LL, Kl. fold S0.
    assert (SS : forall r c, 1 <= r <= S0 -> 1 <= c <= S0 -> gS1 r c = gS r c).
    { unfold S0 in *. rewrite <- Tb. apply (moved2_eq (baP N d) (oA ++ oB) _ _ gS gS1 Fb Ho M2 M2'). intros; reflexivity. }
    assert (SS' : forall r c, 1 <= r <= S0 -> 1 <= c <= S0 -> gS2 r c = gS r c).
    { unfold S0 in *. rewrite <- Tb. apply (moved2_eq (baP N d) (oA ++ oB) _ _ gS gS2 Fb Ho M2 M2''). rewrite Tb. intros r c Hr0 Hc0. unfold symmetric. apply SV; lia. }
    assert (PP1 : forall k c, 1 <= c <= S0 -> gP1 k c = gP k c).
    { intros k. unfold S0 in *. rewrite <- Tb. apply (moved_row (baP N d) (oA ++ oB) _ _ gP gP1 k k Fb Ho M1 M1'). intros; reflexivity. }
    assert (PP2 : forall k, 1 <= k <= count (coefP N d) -> forall c, 1 <= c <= S0 -> gP2 k c = gP k c).
    { intros k Hk. unfold S0 in *. rewrite <- Tb. apply (moved_row (baP N d) (oA ++ oB) _ _ gP gP2 k k Fb Ho M1 M1''). intros c Hc0. apply PP; [exact Hk|rewrite <- Tb; exact Hc0]. }
    assert (T2 : forall c, 1 <= c <= S0 -> g2 r2' c = table N (coef2 N d') r2' c).
    { rewrite SN in Tb2'. fold S0 in Tb2'. rewrite <- Tb2'. apply (moved_row (ba2 N d') (in_turn (length (ba2 N d'))) _ _ (table N (coef2 N d')) g2 r2' r2' Fb2' HI (moved_in_turn _ _) M0''). intros; reflexivity. }
    split; f_equal.
    + apply numbers_ext; intros k Hk; apply PW; try (intros; reflexivity); try assumption; apply PP1.
    + apply EE; intros k Hk; apply PW; try assumption; try (apply PP2; exact Hk). intros c Hc0. rewrite (T2 c Hc0). apply Z2, Hc0.
Qed.
End Run.
