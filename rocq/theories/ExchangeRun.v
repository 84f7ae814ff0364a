(** * Runs of calc_J with the monomers exchanged *)
From Verif Require Import QcUnscramble QcOrder.
From Verif Require Export ExchangeFacts.
From Verif Require Export ReaderModel MainSpec MainRun.
From Verif Require Export StrSpec StrModel.
Open Scope Z_scope.

Section Run.
Context (E : env) (N : nums) (A : arith (num N)) (opp inv : num N -> num N) (HA : exact_arith A opp inv) (lab : num N -> str) (disk : str -> option str).
Context (X : Type) (finish : params -> bool -> num N -> num N -> num N -> num N -> X) (Hsame : forall p q, same_request q p -> finish q = finish p).

Definition swapped (d : data N) : data N :=
  mkData N (coef2 N d) (coef1 N d) (coefP N d) (en2 N d) (en1 N d) (enP N d) (occ2 N d) (occ1 N d) (occP N d) (at2 N d) (at1 N d) (atP N d) (ba2 N d) (ba1 N d) (baP N d) (size N d) (over N d).
Ltac fields := cbn [swapped coef1 coef2 coefP en1 en2 enP occ1 occ2 occP at1 at2 atP ba1 ba2 baP size over exchanged log1 log2 logP pun1 pun2 punP spinP spin1 spin2 orb_typeP orb_type1 orb_type2 orb_numP orb_num1 orb_num2 citation counterPoise] in *.
Lemma contain_swapped p d : contain N disk p d -> contain N disk (exchanged p) (swapped d).
Proof.
  intros (k1 & k2 & kP & i1 & i2 & iP & S1 & S2 & SP & P1 & P2 & PP & L1 & L2 & LP & O). exists k2, k1, kP, i2, i1, iP. fields. repeat (split; [assumption|]). assumption.
Qed.
Lemma belong_swapped cp d : belong N cp d -> belong N cp (swapped d).
Proof. intros [H1 H2 H3 H4 H5 H6]. constructor; fields; auto; [destruct cp; [tauto|lia]|tauto]. Qed.
Lemma rows_swapped p d r1 r2 : rows_asked N p d r1 r2 -> rows_asked N (exchanged p) (swapped d) r2 r1.
Proof. intros [H1 H2]. split; fields; assumption. Qed.
Lemma width_pos rows : 0 <= width N rows.
Proof. unfold width. lia. Qed.

(** the two runs end with the same numbers, e_a and e_b exchanged *)
Definition same_numbers (u : bool) (p : params) (x y : outcome X) : Prop :=
  exists J_ab e_a e_b S_ab, x = Ok (finish p u J_ab e_a e_b S_ab) /\ y = Ok (finish (exchanged p) u J_ab e_b e_a S_ab).
Lemma numbers_out p d f2 fP fS r1 r2 : exists j a b s, forall Y (f : num N -> num N -> num N -> num N -> Y), numbers_of_job N A f p d f2 fP fS r1 r2 = f j a b s.
Proof. unfold numbers_of_job, numbers_value, numbers_of. do 4 eexists. intros Y f. reflexivity. Qed.
Lemma same_intro u p d d' f2 fP fS f2' fP' fS' r1 r2 x y :
  x = Ok (numbers_of_job N A (finish p u) p d f2 fP fS r1 r2) -> y = Ok (numbers_of_job N A (finish (exchanged p) u) (exchanged p) d' f2' fP' fS' r2 r1) ->
  (forall Y (h : num N -> num N -> num N -> num N -> Y), numbers_of_job N A h (exchanged p) d' f2' fP' fS' r2 r1 = numbers_of_job N A (fun j a b s => h j b a s) p d f2 fP fS r1 r2) ->
  same_numbers u p x y.
Proof.
  intros -> -> H. destruct (numbers_out p d f2 fP fS r1 r2) as (j & a & b & s & Q). exists j, a, b, s. rewrite H, !Q. auto.
Qed.

Lemma exchange_as_read prog prog' l l' p d r1 r2 : clean_line E l -> asks E l p -> clean_line E l' -> asks E l' (exchanged p) -> counterPoise p = true ->
  contain N disk p d -> belong N true d -> rows_asked N p d r1 r2 -> ba1 N d = [] \/ ba2 N d = [] \/ baP N d = [] ->
  exists bound, forall fuel, (bound <= fuel)%nat -> same_numbers false p (main_with E N A lab disk finish fuel (prog :: words l)) (main_with E N A lab disk finish fuel (prog' :: words l')).
Proof.
  intros C1 A1 C2 A2 Hcp Hc Hb Hr Hn. assert (Hb' : belong N (counterPoise p) d) by (rewrite Hcp; exact Hb).
  destruct (with_files_as_read E N A lab disk X finish prog l p d r1 r2 (Hsame p) C1 A1 Hc Hb' Hr Hn) as (b1 & R1).
  destruct (with_files_as_read E N A lab disk X finish prog' l' (exchanged p) (swapped d) r2 r1 (Hsame _) C2 A2 (contain_swapped _ _ Hc) (belong_swapped _ _ Hb') (rows_swapped _ _ _ _ Hr)) as (b2 & R2); [fields; tauto|].
  exists (b1 + b2)%nat. intros fuel Hf. eapply same_intro; [apply R1; lia|apply R2; lia|]. intros Y h. unfold numbers_of_job. fields. rewrite Hcp. destruct (be_w _ _ _ Hb) as [W1 W2].
  apply (numbers_swap A opp inv HA h true); try apply width_pos; auto.
Qed.
Lemma exchange_plain prog prog' l l' p d r1 r2 oA oB : clean_line E l -> asks E l p -> clean_line E l' -> asks E l' (exchanged p) -> counterPoise p = false ->
  contain N disk p d -> belong N false d -> rows_asked N p d r1 r2 ->
  ba1 N d <> [] -> ba2 N d <> [] -> baP N d <> [] -> total (baP N d) = size N d -> Forall (fun k => 1 <= k) (baP N d) ->
  count (at1 N d) = count oA -> count (at2 N d) = count oB -> count (atP N d) = count (baP N d) ->
  finds lab 3 (count (baP N d)) (position N (at1 N d)) (position N (atP N d)) oA ->
  finds lab 3 (count (baP N d)) (position N (at2 N d)) (position N (atP N d)) oB ->
  is_order (count (baP N d)) (oA ++ oB) -> total (reordered (baP N d) oA) = width N (coef1 N d) ->
  exists bound, forall fuel, (bound <= fuel)%nat -> same_numbers true p (main_with E N A lab disk finish fuel (prog :: words l)) (main_with E N A lab disk finish fuel (prog' :: words l')).
Proof.
  intros C1 A1 C2 A2 Hcp Hc Hb Hr N1 N2 NP Tb Fb K1 K2 KP FA FB Ho HW.
  destruct (with_files_plain E N A lab disk X finish prog l p d r1 r2 oA oB (Hsame p) C1 A1 Hcp Hc Hb Hr N1 N2 NP Tb Fb K1 K2 KP FA FB Ho) as (b1 & R1).
  destruct (with_files_plain E N A lab disk X finish prog' l' (exchanged p) (swapped d) r2 r1 oB oA (Hsame _) C2 A2 Hcp (contain_swapped _ _ Hc) (belong_swapped _ _ Hb) (rows_swapped _ _ _ _ Hr) N2 N1 NP Tb Fb K2 K1 KP FB FA (order_swap _ _ _ Ho)) as (b2 & R2).
  exists (b1 + b2)%nat. intros fuel Hf. destruct (R1 fuel ltac:(lia)) as (gP & gS & M1 & M2 & Q1). destruct (R2 fuel ltac:(lia)) as (gP' & gS' & M1' & M2' & Q2). fields.
  assert (W2 : total (reordered (baP N d) oB) = width N (coef2 N d)).
  { pose proof (be_w _ _ _ Hb) as W. cbv iota in W. pose proof (total_reordered (baP N d) (oA ++ oB) Ho) as T. rewrite reordered_app, total_app in T. lia. }
  eapply same_intro; [exact Q1|exact Q2|]. intros Y h. unfold numbers_of_job. fields. rewrite Hcp. pose proof (be_w _ _ _ Hb) as W. cbv iota in W.
  apply (numbers_swap A opp inv HA h false); try apply width_pos; auto.
  - intros k c _ Hc'. cbv iota. rewrite <- HW, <- W2. apply (moved_rot (baP N d) oA oB (table N (coefP N d)) gP gP' Fb Ho M1 M1'). lia.
  - intros i j Hi Hj. cbv iota. rewrite <- HW, <- W2. apply (moved_rot2 (baP N d) oA oB (symmetric N (over N d)) gS gS' Fb Ho M2 M2'); lia.
Qed.
Lemma exchange_counterpoise prog prog' l l' p d r1 r2 o2 oP : clean_line E l -> asks E l p -> clean_line E l' -> asks E l' (exchanged p) -> counterPoise p = true ->
  contain N disk p d -> belong N true d -> rows_asked N p d r1 r2 ->
  baP N d <> [] -> total (baP N d) = size N d -> Forall (fun k => 1 <= k) (baP N d) -> length (ba2 N d) = length (baP N d) -> Forall (fun k => 1 <= k) (ba2 N d) ->
  count (at1 N d) = count (baP N d) -> count (at2 N d) = count (baP N d) -> count (atP N d) = count (baP N d) ->
  finds lab 3 (count (baP N d)) (position N (at1 N d)) (position N (at2 N d)) o2 ->
  finds lab 3 (count (baP N d)) (position N (at1 N d)) (position N (atP N d)) oP ->
  is_order (count (baP N d)) o2 -> is_order (count (baP N d)) oP ->
  reordered (ba2 N d) o2 = ba1 N d -> reordered (baP N d) oP = ba1 N d ->
  exists bound, forall fuel, (bound <= fuel)%nat -> same_numbers true p (main_with E N A lab disk finish fuel (prog :: words l)) (main_with E N A lab disk finish fuel (prog' :: words l')).
Proof.
  intros C1 A1 C2 A2 Hcp Hc Hb Hr NP Tb Fb L2 Fb2 K1 K2 KP F2 FP Ho2 HoP E2 EP.
  assert (Lc : count (ba2 N d) = count (baP N d)) by (unfold count; lia).
  assert (Ho2' : is_order (count (ba2 N d)) o2) by (rewrite Lc; exact Ho2).
  assert (L1 : length (ba1 N d) = length (baP N d)). { rewrite <- EP, reordered_length. destruct HoP as (H & _). unfold count in H. lia. }
  assert (T1 : total (ba1 N d) = size N d). { rewrite <- EP. rewrite (total_reordered (baP N d) oP HoP). exact Tb. }
  assert (T2 : total (ba2 N d) = size N d). { rewrite <- T1, <- E2. symmetry. apply total_reordered. exact Ho2'. }
  assert (Fb1 : Forall (fun k => 1 <= k) (ba1 N d)). { rewrite <- EP. apply (reordered_pos (baP N d) oP Fb HoP). }
  assert (N1 : ba1 N d <> []) by (intros Q; rewrite Q in L1; destruct (baP N d); [congruence|discriminate]).
  assert (N2 : ba2 N d <> []) by (intros Q; rewrite Q in L2; destruct (baP N d); [congruence|discriminate]).
  pose proof (inverse_order _ _ Ho2) as Hoi. pose proof (after_order _ _ _ HoP Hoi) as Hoa.
  destruct (with_files_counterpoise E N A lab disk X finish prog l p d r1 r2 o2 oP (Hsame p) C1 A1 Hcp Hc Hb Hr N1 L2 NP Tb T2 Fb Fb2 K1 K2 KP F2 FP Ho2 HoP) as (b1 & R1).
  destruct (with_files_counterpoise E N A lab disk X finish prog' l' (exchanged p) (swapped d) r2 r1 (inverse o2) (after oP (inverse o2)) (Hsame _) C2 A2 Hcp (contain_swapped _ _ Hc) (belong_swapped _ _ Hb) (rows_swapped _ _ _ _ Hr) N2 L1 NP Tb T1 Fb Fb1 K2 K1 KP
    (inverse_finds lab 3 _ _ _ _ Ho2 F2) (after_finds lab 3 _ _ _ _ _ _ Ho2 HoP F2 FP) Hoi Hoa) as (b2 & R2).
  exists (b1 + b2)%nat. intros fuel Hf. destruct (R1 fuel ltac:(lia)) as (g2 & gP & gS & M0 & M1 & M2 & Q1). destruct (R2 fuel ltac:(lia)) as (g1 & gP' & gS' & M0' & M1' & M2' & Q2). fields.
  eapply same_intro; [exact Q1|exact Q2|]. intros Y h. unfold numbers_of_job. fields. rewrite Hcp. destruct (be_w _ _ _ Hb) as [W1 W2].
  assert (Ho1 : is_order (count (ba1 N d)) (inverse o2)) by (unfold count; rewrite L1; exact Hoi).
  rewrite (numbers_swap A opp inv HA h true (width N (coef1 N d)) (width N (coef2 N d)) (size N d) (count (coefP N d)) g1 (table N (coef2 N d)) gP' gS' (entry N (enP N d)) gP' gS' r1 r2); try apply width_pos; auto.
  rewrite <- T1. apply (numbers_moved A opp inv HA _ (ba1 N d) (inverse o2)); auto.
  - rewrite <- E2. apply (moved_back (ba2 N d) o2); [exact Ho2'|exact M0].
  - rewrite <- EP. apply (moved_after (baP N d) oP (inverse o2) (table N (coefP N d))); auto.
  - rewrite <- EP. apply (moved2_after (baP N d) oP (inverse o2) (symmetric N (over N d))); auto.
Qed.
End Run.
