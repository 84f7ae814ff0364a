(** * Facts about calculate_transfer_integral, TransferComplex and calcJ *)
From Verif Require Export QcUnscramble.
From Verif Require Import MatrixFacts MatrixCtor MatrixOps MatrixOps2 MatrixFinal.
Open Scope Z_scope.

Section Transfer.
Context {T : Type}.
Variable A : arith T.
Notation zero := (a_zero A).
Implicit Types (m : mat T).

Ltac st E := rewrite E; cbn [bind fst snd].

Lemma projection_ext N S P z S' P' z' k :
  (forall l, 1 <= l <= Z.of_nat N -> z l = z' l) ->
  (forall l x, 1 <= l <= Z.of_nat N -> 1 <= x <= Z.of_nat N -> S l x = S' l x) ->
  (forall l, 1 <= l <= Z.of_nat N -> P k l = P' k l) ->
  projection A N S P z k = projection A N S' P' z' k.
Proof.
  intros H1 H2 H3. unfold projection. apply accum_ext. intros l Hl. split; auto. apply accum_ext. intros x Hx. split; auto.
Qed.

Lemma J_of_ext K e gA gB e' gA' gB' :
  (forall k, 1 <= k <= Z.of_nat K -> e k = e' k /\ gA k = gA' k /\ gB k = gB' k) ->
  J_of A K e gA gB = J_of A K e' gA' gB'.
Proof.
  intros H. assert (W : forall g g', (forall k, 1 <= k <= Z.of_nat K -> g k = g' k) -> forall i, 1 <= i <= Z.of_nat K ->
    weighted A K e g i = weighted A K e' g' i).
  { intros g g' Hg i Hi. unfold weighted. apply accum_ext. intros k Hk. split; auto.
    destruct (i =? k); auto. apply (H i Hi). }
  assert (HA : forall k, 1 <= k <= Z.of_nat K -> gA k = gA' k) by (intros; apply H; auto).
  assert (HB : forall k, 1 <= k <= Z.of_nat K -> gB k = gB' k) by (intros; apply H; auto).
  unfold J_of. rewrite (accum_ext A K gB (weighted A K e gA) gB' (weighted A K e' gA')) by (intros; split; auto).
  rewrite (accum_ext A K gB (weighted A K e gB) gB' (weighted A K e' gB')) by (intros; split; auto).
  rewrite (accum_ext A K gA (weighted A K e gA) gA' (weighted A K e' gA')) by (intros; split; auto).
  rewrite (accum_ext A K gB gA gB' gA') by (intros; split; auto). reflexivity.
Qed.


Lemma diag_energies OE K e : energies OE K e -> 1 <= K -> K * K <= INT_MAX ->
  exists m', Matrix_diag zero OE = Ok m' /\ denotes m' K K 1 (fun i j _ => if i =? j then e i else zero).
Proof.
  intros [H|H] HK HM.
  - destruct (Matrix_diag_col zero OE K _ H HK HM) as (m' & E & D). eauto.
  - destruct (Matrix_diag_row zero OE K _ H HK HM) as (m' & E & D). eauto.
Qed.

(** everything after the zeta matrices *)
Lemma cti_tail {R} (F : T -> T -> T -> T -> R) zA zB P S OE N K a b fS fP e :
  denotes zA N 1 1 (fun l _ _ => a l) -> denotes zB N 1 1 (fun l _ _ => b l) ->
  denotes P K N 1 (fun r c _ => fP r c) -> denotes S N N 1 (fun r c _ => fS r c) -> energies OE K e ->
  1 <= N -> 1 <= K -> K * K <= INT_MAX ->
  (Pi <- invert zero P ;;
   zAi <- invert zero zA ;;
   zBi <- invert zero zB ;;
   Inter <- mat_mul A S Pi ;;
   gA <- mat_mul A zAi Inter ;;
   gB <- mat_mul A zBi Inter ;;
   gAi <- invert zero gA ;;
   gBi <- invert zero gB ;;
   SAB <- mat_mul A gB gAi ;;
   En <- Matrix_diag zero OE ;;
   EgA <- mat_mul A En gAi ;; JAB <- mat_mul A gB EgA ;;
   EgB <- mat_mul A En gBi ;; eB <- mat_mul A gB EgB ;;
   EgA' <- mat_mul A En gAi ;; eA <- mat_mul A gA EgA' ;;
   J_ab <- get_elem2 JAB 1 1 ;;
   e_b <- get_elem2 eB 1 1 ;;
   e_a <- get_elem2 eA 1 1 ;;
   S_ab <- get_elem2 SAB 1 1 ;;
   Ok (F J_ab e_a e_b S_ab)) =
  Ok (numbers_of A F (Z.to_nat K) e (projection A (Z.to_nat N) fS fP a) (projection A (Z.to_nat N) fS fP b)).
Proof.
  intros HzA HzB HP HS HE HN HK HKK.
  destruct (denotes_dims _ _ _ _ _ HP) as (HKi & HNi & _ & HKN).
  assert (HNK : N * K <= INT_MAX) by lia.
  assert (H1 : 1 * 1 <= INT_MAX) by (unfold INT_MAX; lia).
  destruct (invert_ok zero P K N _ HP HK HN) as (Pi & E1 & DPi). st E1.
  destruct (invert_ok zero zA N 1 _ HzA HN ltac:(lia)) as (zAi & E2 & DzA). st E2.
  destruct (invert_ok zero zB N 1 _ HzB HN ltac:(lia)) as (zBi & E3 & DzB). st E3.
  destruct (mat_mul_ok A S Pi N N K _ _ HS DPi HN HK HNK) as (In & E4 & DI). st E4.
  destruct (mat_mul_ok A zAi In 1 N K _ _ DzA DI ltac:(lia) HK ltac:(lia)) as (gA & E5 & DgA). st E5.
  destruct (mat_mul_ok A zBi In 1 N K _ _ DzB DI ltac:(lia) HK ltac:(lia)) as (gB & E6 & DgB). st E6.
  destruct (invert_ok zero gA 1 K _ DgA ltac:(lia) HK) as (gAi & E7 & DgAi). st E7.
  destruct (invert_ok zero gB 1 K _ DgB ltac:(lia) HK) as (gBi & E8 & DgBi). st E8.
  destruct (mat_mul_ok A gB gAi 1 K 1 _ _ DgB DgAi ltac:(lia) ltac:(lia) H1) as (SAB & E9 & DS). st E9.
  destruct (diag_energies OE K e HE HK HKK) as (En & E10 & DE). st E10.
  destruct (mat_mul_ok A En gAi K K 1 _ _ DE DgAi HK ltac:(lia) ltac:(lia)) as (EgA & E11 & DEA). st E11.
  destruct (mat_mul_ok A gB EgA 1 K 1 _ _ DgB DEA ltac:(lia) ltac:(lia) H1) as (JAB & E12 & DJ). st E12.
  destruct (mat_mul_ok A En gBi K K 1 _ _ DE DgBi HK ltac:(lia) ltac:(lia)) as (EgB & E13 & DEB). st E13.
  destruct (mat_mul_ok A gB EgB 1 K 1 _ _ DgB DEB ltac:(lia) ltac:(lia) H1) as (eB & E14 & DeB). st E14.
  destruct (mat_mul_ok A gA EgA 1 K 1 _ _ DgA DEA ltac:(lia) ltac:(lia) H1) as (eA & E15 & DeA). st E15.
  rewrite (denotes_get2 _ _ _ _ _ _ _ DJ) by inr. cbn [bind].
  rewrite (denotes_get2 _ _ _ _ _ _ _ DeB) by inr. cbn [bind].
  rewrite (denotes_get2 _ _ _ _ _ _ _ DeA) by inr. cbn [bind].
  rewrite (denotes_get2 _ _ _ _ _ _ _ DS) by inr. cbn [bind].
  reflexivity.
Qed.

Lemma bind_swap {X Y Z0} (x : outcome X) (y : outcome Y) (k : X -> Y -> outcome Z0) x0 y0 :
  x = Ok x0 -> y = Ok y0 -> bind x (fun a => bind y (fun b => k a b)) = bind y (fun b => bind x (fun a => k a b)).
Proof. intros -> ->. reflexivity. Qed.

Lemma cti_plain_with {R} (F : T -> T -> T -> T -> R) m1 m2 P S OE n1 n2 K a b fS fP e :
  denotes m1 1 n1 1 (fun _ c _ => a c) -> denotes m2 1 n2 1 (fun _ c _ => b c) ->
  denotes P K (n1 + n2) 1 (fun r c _ => fP r c) -> denotes S (n1 + n2) (n1 + n2) 1 (fun r c _ => fS r c) ->
  energies OE K e -> 1 <= n1 -> 1 <= n2 -> 1 <= K -> K * K <= INT_MAX ->
  transfer_with A F m1 m2 P S OE false =
  Ok (numbers_of A F (Z.to_nat K) e
        (projection A (Z.to_nat (n1 + n2)) fS fP (pad_after A n1 a))
        (projection A (Z.to_nat (n1 + n2)) fS fP (pad_before A n1 b))).
Proof.
  intros H1 H2 HP HS HE Hn1 Hn2 HK HKK. unfold transfer_with.
  destruct (denotes_dims _ _ _ _ _ HP) as (HKi & HNi & _ & HKN).
  destruct (invert_ok zero m1 1 n1 _ H1 ltac:(lia) Hn1) as (m1i & E1 & D1). st E1.
  destruct (invert_ok zero m2 1 n2 _ H2 ltac:(lia) Hn2) as (m2i & E2 & D2). st E2.
  destruct (invert_ok zero P K (n1 + n2) _ HP HK ltac:(lia)) as (Pi & E3 & DPi). st E3.
  destruct (Matrix_new0_ok zero) as (z0 & E0 & Dz0). st E0.
  pose proof D1 as (_ & ER1 & EC1 & ES1 & _). pose proof D2 as (_ & ER2 & EC2 & ES2 & _).
  rewrite ER1, ES1, ER2, ES2.
  destruct (Matrix_new3_ok zero n1 1 1 Hn1 ltac:(lia) ltac:(lia) ltac:(lia)) as (zA & EA & DA). st EA.
  destruct (Matrix_new3_ok zero n2 1 1 Hn2 ltac:(lia) ltac:(lia) ltac:(lia)) as (zB & EB & DB). st EB.
  destruct (concat_rows_ok zero m1i zB n1 n2 1 1 _ _ D1 DB Hn1 Hn2 ltac:(lia) ltac:(lia) ltac:(lia)) as (ca & Ea & Da). st Ea.
  destruct (assign_ok zero z0 1 1 1 _ ca _ _ _ _ Dz0 ltac:(lia) Da ltac:(lia) ltac:(lia) ltac:(lia)) as (ZA & EZA & DZA). st EZA.
  destruct (concat_rows_ok zero zA m2i n1 n2 1 1 _ _ DA D2 Hn1 Hn2 ltac:(lia) ltac:(lia) ltac:(lia)) as (cb & Eb & Db). st Eb.
  destruct (assign_ok zero z0 1 1 1 _ cb _ _ _ _ Dz0 ltac:(lia) Db ltac:(lia) ltac:(lia) ltac:(lia)) as (ZB & EZB & DZB). st EZB.
  pose proof (cti_tail F ZA ZB P S OE (n1 + n2) K (pad_after A n1 a) (pad_before A n1 b) fS fP e) as HT.
  rewrite E3 in HT. cbn [bind] in HT. apply HT; auto; lia.
Qed.
Lemma cti_plain m1 m2 P S OE n1 n2 K a b fS fP e :
  denotes m1 1 n1 1 (fun _ c _ => a c) -> denotes m2 1 n2 1 (fun _ c _ => b c) ->
  denotes P K (n1 + n2) 1 (fun r c _ => fP r c) -> denotes S (n1 + n2) (n1 + n2) 1 (fun r c _ => fS r c) ->
  energies OE K e -> 1 <= n1 -> 1 <= n2 -> 1 <= K -> K * K <= INT_MAX ->
  calculate_transfer_integral A m1 m2 P S OE false =
  Ok (J_of A (Z.to_nat K) e
        (projection A (Z.to_nat (n1 + n2)) fS fP (pad_after A n1 a))
        (projection A (Z.to_nat (n1 + n2)) fS fP (pad_before A n1 b))).
Proof. exact (cti_plain_with (J_eff A) m1 m2 P S OE n1 n2 K a b fS fP e). Qed.

Lemma cti_cp_with {R} (F : T -> T -> T -> T -> R) m1 m2 P S OE N K a b fS fP e :
  denotes m1 1 N 1 (fun _ c _ => a c) -> denotes m2 1 N 1 (fun _ c _ => b c) ->
  denotes P K N 1 (fun r c _ => fP r c) -> denotes S N N 1 (fun r c _ => fS r c) ->
  energies OE K e -> 1 <= N -> 1 <= K -> K * K <= INT_MAX ->
  transfer_with A F m1 m2 P S OE true =
  Ok (numbers_of A F (Z.to_nat K) e (projection A (Z.to_nat N) fS fP a) (projection A (Z.to_nat N) fS fP b)).
Proof.
  intros H1 H2 HP HS HE HN HK HKK. unfold transfer_with.
  destruct (invert_ok zero m1 1 N _ H1 ltac:(lia) HN) as (m1i & E1 & D1). st E1.
  destruct (invert_ok zero m2 1 N _ H2 ltac:(lia) HN) as (m2i & E2 & D2). st E2.
  destruct (invert_ok zero P K N _ HP HK HN) as (Pi & E3 & DPi). st E3.
  destruct (Matrix_new0_ok zero) as (z0 & E0 & Dz0). st E0.
  destruct (assign_ok zero z0 1 1 1 _ m1i _ _ _ _ Dz0 ltac:(lia) D1 ltac:(lia) ltac:(lia) ltac:(lia)) as (ZA & EZA & DZA). st EZA.
  destruct (assign_ok zero z0 1 1 1 _ m2i _ _ _ _ Dz0 ltac:(lia) D2 ltac:(lia) ltac:(lia) ltac:(lia)) as (ZB & EZB & DZB). st EZB.
  pose proof (cti_tail F ZA ZB P S OE N K a b fS fP e) as HT.
  rewrite E3 in HT. cbn [bind] in HT. apply HT; auto; lia.
Qed.
Lemma cti_cp m1 m2 P S OE N K a b fS fP e :
  denotes m1 1 N 1 (fun _ c _ => a c) -> denotes m2 1 N 1 (fun _ c _ => b c) ->
  denotes P K N 1 (fun r c _ => fP r c) -> denotes S N N 1 (fun r c _ => fS r c) ->
  energies OE K e -> 1 <= N -> 1 <= K -> K * K <= INT_MAX ->
  calculate_transfer_integral A m1 m2 P S OE true =
  Ok (J_of A (Z.to_nat K) e (projection A (Z.to_nat N) fS fP a) (projection A (Z.to_nat N) fS fP b)).
Proof. exact (cti_cp_with (J_eff A) m1 m2 P S OE N K a b fS fP e). Qed.

(** ** Orbital selection *)
Lemma select_ok m c0 orbs ty n r nMO C f : denotes m nMO C 1 (fun r c _ => f r c) -> 1 <= C ->
  (exists g, denotes c0 1 1 1 g) -> 0 <= snd orbs <= nMO -> fst orbs = nMO ->
  orbital_row nMO (snd orbs) ty n = Some r ->
  exists row, select_row A m c0 orbs ty n = Ok row /\ denotes row 1 C 1 (fun _ c _ => f r c).
Proof.
  intros Hm HC (g & H0) Ho Ef Hr. destruct (denotes_dims _ _ _ _ _ Hm) as (HKi & _).
  unfold orbital_row in Hr. unfold select_row, sHOMO, sLUMO. rewrite Ef.
  assert (Hmin : INT_MIN <= - INT_MAX) by (unfold INT_MIN, INT_MAX; lia).
  assert (Hgo : forall r', r' = r -> 1 <= r <= nMO ->
    exists row, (row0 <- getRow zero m r' ;; assign zero c0 row0) = Ok row /\ denotes row 1 C 1 (fun _ c _ => f r c)).
  { intros r' -> Hrr. destruct (getRow_ok zero m nMO C 1 _ r Hm Hrr HC ltac:(lia)) as (x & Ex & Dx). rewrite Ex. cbn [bind].
    destruct (assign_ok zero c0 1 1 1 _ x _ _ _ _ H0 ltac:(lia) Dx ltac:(lia) HC ltac:(lia)) as (y & Ey & Dy). eauto. }
  destruct (str_eqb ty ($"HOMO")).
  - destruct (Z.leb_spec n 0); [|discriminate]. destruct (Z.ltb_spec (- snd orbs) n); [|discriminate]. cbn [andb] in Hr.
    inversion Hr; subst r. destruct (Z.ltb_spec 0 n); [lia|].
    unfold imul. rewrite ichk_ok by (unfold is_int; lia). cbn [bind]. destruct (Z.leb_spec n (-1 * snd orbs)); [lia|].
    unfold iadd. rewrite ichk_ok by (unfold is_int; lia). cbn [bind]. apply Hgo; lia.
  - destruct (str_eqb ty ($"LUMO")); [|discriminate].
    destruct (Z.leb_spec 0 n); [|discriminate]. destruct (Z.ltb_spec n (nMO - snd orbs)); [|discriminate]. cbn [andb] in Hr.
    inversion Hr; subst r. destruct (Z.ltb_spec n 0); [lia|].
    unfold isub. rewrite ichk_ok by (unfold is_int; lia). cbn [bind]. destruct (Z.leb_spec (nMO - snd orbs) n); [lia|].
    unfold iadd. rewrite ichk_ok by (unfold is_int; lia). cbn [bind].
    rewrite ichk_ok by (unfold is_int; lia). cbn [bind]. apply Hgo; lia.
Qed.

Lemma select_bad m c0 orbs ty n : is_int n -> is_int (fst orbs) -> is_int (snd orbs) -> 0 <= snd orbs <= fst orbs ->
  orbital_row (fst orbs) (snd orbs) ty n = None ->
  select_row A m c0 orbs ty n = Throw InvalidArgument.
Proof.
  intros Hn H1 H2 Ho Hr. unfold orbital_row in Hr. unfold select_row, sHOMO, sLUMO.
  assert (Hmin : INT_MIN <= - INT_MAX) by (unfold INT_MIN, INT_MAX; lia). unfold is_int in *.
  destruct (str_eqb ty ($"HOMO")).
  - destruct (Z.ltb_spec 0 n); auto. unfold imul. rewrite ichk_ok by (unfold is_int; lia). cbn [bind].
    destruct (Z.leb_spec n (-1 * snd orbs)); auto. exfalso.
    destruct (Z.leb_spec n 0); [|lia]. destruct (Z.ltb_spec (- snd orbs) n); [discriminate|lia].
  - destruct (str_eqb ty ($"LUMO")); auto.
    destruct (Z.ltb_spec n 0); auto. unfold isub. rewrite ichk_ok by (unfold is_int; lia). cbn [bind].
    destruct (Z.leb_spec (fst orbs - snd orbs) n); auto. exfalso.
    destruct (Z.leb_spec 0 n); [|lia]. destruct (Z.ltb_spec n (fst orbs - snd orbs)); [discriminate|lia].
Qed.



Lemma calcJ_with_ok {R} (F : T -> T -> T -> T -> R) tc N1 N2 n1 n2 N K a b fP fS e ot on t1 t2 k1 k2 r1 r2 :
  fits_together tc N1 N2 n1 n2 N K a b fP fS e ->
  map_at ot sMon1 = Ok t1 -> map_at ot sMon2 = Ok t2 -> map_at on sMon1 = Ok k1 -> map_at on sMon2 = Ok k2 ->
  orbital_row N1 (snd (tc_orbs1 tc)) t1 k1 = Some r1 -> orbital_row N2 (snd (tc_orbs2 tc)) t2 k2 = Some r2 ->
  calcJ_with A F tc ot on = Ok (numbers_value A F (tc_cp tc) n1 N K a b fP fS e r1 r2).
Proof.
  intros [H1 H2 HP HS HE [Ho1 Ho1'] [Ho2 Ho2'] (P1 & P2 & P3 & P4) HN] M1 M2 M3 M4 R1 R2.
  unfold calcJ_with. destruct (Matrix_new0_ok zero) as (z0 & E0 & Dz0). st E0. st M1. st M3.
  destruct (select_ok (tc_1 tc) z0 (tc_orbs1 tc) t1 k1 r1 N1 n1 a) as (x & Ex & Dx); eauto. st Ex. st M2. st M4.
  destruct (select_ok (tc_2 tc) z0 (tc_orbs2 tc) t2 k2 r2 N2 n2 b) as (y & Ey & Dy); eauto. st Ey.
  unfold numbers_value. destruct (tc_cp tc).
  - destruct HN as [-> ->]. apply (cti_cp_with F x y); auto.
  - subst N. apply (cti_plain_with F x y _ _ _ n1 n2); auto.
Qed.
Lemma calcJ_ok tc N1 N2 n1 n2 N K a b fP fS e ot on t1 t2 k1 k2 r1 r2 :
  fits_together tc N1 N2 n1 n2 N K a b fP fS e ->
  map_at ot sMon1 = Ok t1 -> map_at ot sMon2 = Ok t2 -> map_at on sMon1 = Ok k1 -> map_at on sMon2 = Ok k2 ->
  orbital_row N1 (snd (tc_orbs1 tc)) t1 k1 = Some r1 -> orbital_row N2 (snd (tc_orbs2 tc)) t2 k2 = Some r2 ->
  calcJ A tc ot on = Ok (J_value A (tc_cp tc) n1 N K a b fP fS e r1 r2).
Proof. exact (calcJ_with_ok (J_eff A) tc N1 N2 n1 n2 N K a b fP fS e ot on t1 t2 k1 k2 r1 r2). Qed.

Lemma calcJ_missing tc ot on :
  (map_at ot sMon1 = Throw OutOfRange \/ map_at on sMon1 = Throw OutOfRange) -> calcJ A tc ot on = Throw OutOfRange.
Proof.
  intros H. unfold calcJ, calcJ_with. destruct (Matrix_new0_ok zero) as (z0 & E0 & Dz0). st E0.
  assert (X : forall V (m : list (str * V)) k, (exists v, map_at m k = Ok v) \/ map_at m k = Throw OutOfRange).
  { induction m as [|[k' v] t IH]; intros k; simpl; auto. destruct (str_eqb k k'); eauto. }
  destruct H as [H|H].
  - st H. reflexivity.
  - destruct (X _ ot sMon1) as [(v & E)|E]; st E; auto. st H. reflexivity.
Qed.

Lemma calcJ_missing2 tc ot on t1 k1 r1 N1 n1 a :
  map_at ot sMon1 = Ok t1 -> map_at on sMon1 = Ok k1 ->
  denotes (tc_1 tc) N1 n1 1 (fun r c _ => a r c) -> 1 <= n1 ->
  fst (tc_orbs1 tc) = N1 -> 0 <= snd (tc_orbs1 tc) <= N1 ->
  orbital_row N1 (snd (tc_orbs1 tc)) t1 k1 = Some r1 ->
  (map_at ot sMon2 = Throw OutOfRange \/ map_at on sMon2 = Throw OutOfRange) -> calcJ A tc ot on = Throw OutOfRange.
Proof.
  intros M1 M3 H1 Hn1 Ho1 Ho1' R1 H. unfold calcJ, calcJ_with. destruct (Matrix_new0_ok zero) as (z0 & E0 & Dz0). st E0. st M1. st M3.
  destruct (select_ok (tc_1 tc) z0 (tc_orbs1 tc) t1 k1 r1 N1 n1 a) as (x & Ex & Dx); eauto. st Ex.
  assert (X : forall V (m : list (str * V)) k, (exists v, map_at m k = Ok v) \/ map_at m k = Throw OutOfRange).
  { induction m as [|[k' v] t IH]; intros k; simpl; auto. destruct (str_eqb k k'); eauto. }
  destruct H as [H|H].
  - st H. reflexivity.
  - destruct (X _ ot sMon2) as [(v & E)|E]; st E; auto. st H. reflexivity.
Qed.

Lemma calcJ_bad1 tc ot on t1 k1 :
  map_at ot sMon1 = Ok t1 -> map_at on sMon1 = Ok k1 -> is_int k1 ->
  is_int (fst (tc_orbs1 tc)) -> 0 <= snd (tc_orbs1 tc) <= fst (tc_orbs1 tc) ->
  orbital_row (fst (tc_orbs1 tc)) (snd (tc_orbs1 tc)) t1 k1 = None ->
  calcJ A tc ot on = Throw InvalidArgument.
Proof.
  intros M1 M3 Hk Hi Ho Hr. unfold calcJ, calcJ_with. destruct (Matrix_new0_ok zero) as (z0 & E0 & Dz0). st E0. st M1. st M3.
  rewrite select_bad; auto. unfold is_int, INT_MIN in *; lia.
Qed.

Lemma calcJ_bad2 tc ot on t1 k1 t2 k2 r1 N1 n1 a :
  map_at ot sMon1 = Ok t1 -> map_at on sMon1 = Ok k1 -> map_at ot sMon2 = Ok t2 -> map_at on sMon2 = Ok k2 -> is_int k2 ->
  denotes (tc_1 tc) N1 n1 1 (fun r c _ => a r c) -> 1 <= n1 ->
  fst (tc_orbs1 tc) = N1 -> 0 <= snd (tc_orbs1 tc) <= N1 ->
  orbital_row N1 (snd (tc_orbs1 tc)) t1 k1 = Some r1 ->
  is_int (fst (tc_orbs2 tc)) -> 0 <= snd (tc_orbs2 tc) <= fst (tc_orbs2 tc) ->
  orbital_row (fst (tc_orbs2 tc)) (snd (tc_orbs2 tc)) t2 k2 = None ->
  calcJ A tc ot on = Throw InvalidArgument.
Proof.
  intros M1 M3 M2 M4 Hk H1 Hn1 Ho1 Ho1' R1 Hi Ho Hr. unfold calcJ, calcJ_with. destruct (Matrix_new0_ok zero) as (z0 & E0 & Dz0).
  st E0. st M1. st M3.
  destruct (select_ok (tc_1 tc) z0 (tc_orbs1 tc) t1 k1 r1 N1 n1 a) as (x & Ex & Dx); eauto. st Ex. st M2. st M4.
  rewrite select_bad; auto. unfold is_int, INT_MIN in *; lia.
Qed.

(** ** Constructor checks *)
Lemma TC_accepts m1 m2 (P : mat T) o1 o2 (S OE : mat T) (cp : bool) : is_int (cols m1 + cols m2) ->
  let good := cols S = cols P /\ (if cp then cols m1 = cols P /\ cols m2 = cols P else cols m1 + cols m2 <= cols P) in
  (good -> TransferComplex m1 m2 P o1 o2 S OE cp = Ok (mkTC m1 m2 P o1 o2 S OE false cp)) /\
  (~ good -> TransferComplex m1 m2 P o1 o2 S OE cp = Throw InvalidArgument).
Proof.
  intros Hi. unfold TransferComplex. destruct (Z.eqb_spec (cols S) (cols P)) as [E|E]; cbn [negb].
  2:{ split; auto. intros [H _]; contradiction. }
  destruct cp.
  - destruct (Z.eqb_spec (cols m1) (cols P)) as [E1|E1]; cbn [negb bind]; [|split; auto; intros (_ & H & _); contradiction].
    destruct (Z.eqb_spec (cols m2) (cols P)) as [E2|E2]; cbn [negb bind]; split; auto.
    + intros H. exfalso; apply H; auto.
    + intros (_ & _ & H); contradiction.
  - unfold iadd. rewrite ichk_ok by auto. cbn [bind]. destruct (Z.ltb_spec (cols P) (cols m1 + cols m2)); cbn [bind]; split; auto.
    + intros (_ & H1); lia.
    + intros H1. exfalso; apply H1. split; auto.
Qed.

(** monomers that do not fill the dimer are accepted but stop the process *)
Lemma cti_short m1 m2 P S OE n1 n2 N K a b fS fP :
  denotes m1 1 n1 1 (fun _ c _ => a c) -> denotes m2 1 n2 1 (fun _ c _ => b c) ->
  denotes P K N 1 (fun r c _ => fP r c) -> denotes S N N 1 (fun r c _ => fS r c) ->
  1 <= n1 -> 1 <= n2 -> 1 <= K -> n1 + n2 < N ->
  calculate_transfer_integral A m1 m2 P S OE false = Exit 1.
Proof.
  intros H1 H2 HP HS Hn1 Hn2 HK HN. unfold calculate_transfer_integral, transfer_with.
  destruct (denotes_dims _ _ _ _ _ HP) as (HKi & HNi & _ & HKN).
  destruct (invert_ok zero m1 1 n1 _ H1 ltac:(lia) Hn1) as (m1i & E1 & D1). st E1.
  destruct (invert_ok zero m2 1 n2 _ H2 ltac:(lia) Hn2) as (m2i & E2 & D2). st E2.
  destruct (invert_ok zero P K N _ HP HK ltac:(lia)) as (Pi & E3 & DPi). st E3.
  destruct (Matrix_new0_ok zero) as (z0 & E0 & Dz0). st E0.
  pose proof D1 as (_ & ER1 & EC1 & ES1 & _). pose proof D2 as (_ & ER2 & EC2 & ES2 & _).
  rewrite ER1, ES1, ER2, ES2.
  destruct (Matrix_new3_ok zero n1 1 1 Hn1 ltac:(lia) ltac:(lia) ltac:(lia)) as (zA & EA & DA). st EA.
  destruct (Matrix_new3_ok zero n2 1 1 Hn2 ltac:(lia) ltac:(lia) ltac:(lia)) as (zB & EB & DB). st EB.
  destruct (concat_rows_ok zero m1i zB n1 n2 1 1 _ _ D1 DB Hn1 Hn2 ltac:(lia) ltac:(lia) ltac:(lia)) as (ca & Ea & Da). st Ea.
  destruct (assign_ok zero z0 1 1 1 _ ca _ _ _ _ Dz0 ltac:(lia) Da ltac:(lia) ltac:(lia) ltac:(lia)) as (ZA & EZA & DZA). st EZA.
  destruct (concat_rows_ok zero zA m2i n1 n2 1 1 _ _ DA D2 Hn1 Hn2 ltac:(lia) ltac:(lia) ltac:(lia)) as (cb & Eb & Db). st Eb.
  destruct (assign_ok zero z0 1 1 1 _ cb _ _ _ _ Dz0 ltac:(lia) Db ltac:(lia) ltac:(lia) ltac:(lia)) as (ZB & EZB & DZB). st EZB.
  destruct (invert_ok zero ZA (n1 + n2) 1 _ DZA ltac:(lia) ltac:(lia)) as (zAi & E5 & DzA). st E5.
  destruct (invert_ok zero ZB (n1 + n2) 1 _ DZB ltac:(lia) ltac:(lia)) as (zBi & E6 & DzB). st E6.
  destruct (mat_mul_ok A S Pi N N K _ _ HS DPi ltac:(lia) HK ltac:(lia)) as (In & E4 & DI). st E4.
  rewrite mat_mul_bad; auto. right; right. destruct DzA as (_ & _ & -> & _). destruct DI as (_ & -> & _). lia.
Qed.
End Transfer.
