(** * Facts for C36, C37 for all shapes *)
From Verif Require Export QcFinal.
From Verif Require Import MatrixFacts MatrixCtor MatrixOps MatrixOps2 MatrixFinal.
Open Scope Z_scope.

Section Shape.
Context {T : Type}.
Variable A : arith T.
Notation zero := (a_zero A).
Implicit Types (m : mat T).
Ltac st E := rewrite E; cbn [bind fst snd].

(** energies of any 2-D shape: Matrix_diag succeeds unless both dimensions exceed 1 *)
Lemma diag_shape OE eR eC f : denotes OE eR eC 1 (fun r c _ => f r c) -> 1 <= eR -> 1 <= eC ->
  Z.max eR eC * Z.max eR eC <= INT_MAX ->
  (1 < eR /\ 1 < eC -> Matrix_diag zero OE = Throw InvalidArgument) /\
  (~ (1 < eR /\ 1 < eC) -> exists e, energies OE (Z.max eR eC) e).
Proof.
  intros H HR HC HM. split; intros Hb.
  - pose proof H as (_ & ER & EC & ES & _). apply Matrix_diag_bad. left. rewrite ER, EC. lia.
  - destruct (Z.eq_dec eC 1) as [->|].
    + exists (fun r => f r 1). left. rewrite Z.max_l by lia. eapply denotes_ext; [exact H|]. intros i j s Hin. cbn beta.
      f_equal. inr.
    + assert (eR = 1) by lia. subst eR. exists (fun c => f 1 c). right. rewrite Z.max_r by lia. eapply denotes_ext; [exact H|].
      intros i j s Hin. cbn beta. f_equal. inr.
Qed.

(** everything after the zeta matrices, for all shapes *)
Lemma cti_tail_any {R} (F : T -> T -> T -> T -> R) zA zB P S OE w rs N K eR eC (a b : Z -> T) fS fP fE :
  denotes zA w 1 1 (fun l _ _ => a l) -> denotes zB w 1 1 (fun l _ _ => b l) ->
  denotes P K N 1 (fun r c _ => fP r c) -> denotes S rs N 1 (fun r c _ => fS r c) ->
  denotes OE eR eC 1 (fun r c _ => fE r c) ->
  1 <= w -> 1 <= N -> 1 <= K -> 1 <= rs -> 1 <= eR -> 1 <= eC ->
  rs * K <= INT_MAX -> Z.max eR eC * Z.max eR eC <= INT_MAX ->
  exists v, (Pi <- invert zero P ;;
   zAi <- invert zero zA ;;
   zBi <- invert zero zB ;;
   Inter <- mat_mul A S Pi ;;
   gA <- mat_mul A zAi Inter ;;
   gB <- mat_mul A zBi Inter ;;
   gAi <- invert zero gA ;;
   gBi <- invert zero gB ;;
   SAB <- mat_mul A gB gAi ;;
   En <- Matrix_diag zero OE ;;
   EgA <- mat_mul A En gAi ;; JAB <- mat_mul A gB EgA ;;
   EgB <- mat_mul A En gBi ;; eB <- mat_mul A gB EgB ;;
   EgA' <- mat_mul A En gAi ;; eA <- mat_mul A gA EgA' ;;
   J_ab <- get_elem2 JAB 1 1 ;;
   e_b <- get_elem2 eB 1 1 ;;
   e_a <- get_elem2 eA 1 1 ;;
   S_ab <- get_elem2 SAB 1 1 ;;
   Ok (F J_ab e_a e_b S_ab)) =
  if negb (rs =? w) then Exit 1
  else if (1 <? eR) && (1 <? eC) then Throw InvalidArgument
  else if negb (Z.max eR eC =? K) then Exit 1
  else Ok v.
Proof.
  intros HzA HzB HP HS HE Hw HN HK Hrs HeR HeC HM HMe.
  assert (H1 : 1 * 1 <= INT_MAX) by (unfold INT_MAX; lia).
  destruct (denotes_dims _ _ _ _ _ HP) as (HKi & HNi & _ & HKN).
  destruct (invert_ok zero P K N _ HP HK HN) as (Pi & E1 & DPi). rewrite E1. cbn [bind].
  destruct (invert_ok zero zA w 1 _ HzA Hw ltac:(lia)) as (zAi & E2 & DzA). rewrite E2. cbn [bind].
  destruct (invert_ok zero zB w 1 _ HzB Hw ltac:(lia)) as (zBi & E3 & DzB). rewrite E3. cbn [bind].
  destruct (mat_mul_ok A S Pi rs N K _ _ HS DPi Hrs HK HM) as (In & E4 & DI). rewrite E4. cbn [bind].
  destruct (Z.eqb_spec rs w) as [->|Hne]; cbn [negb].
  2:{ exists (F zero zero zero zero). rewrite mat_mul_bad; auto. right; right.
      destruct DzA as (_ & _ & -> & _). destruct DI as (_ & -> & _). lia. }
  destruct (mat_mul_ok A zAi In 1 w K _ _ DzA DI ltac:(lia) HK ltac:(lia)) as (gA & E5 & DgA). rewrite E5. cbn [bind].
  destruct (mat_mul_ok A zBi In 1 w K _ _ DzB DI ltac:(lia) HK ltac:(lia)) as (gB & E6 & DgB). rewrite E6. cbn [bind].
  destruct (invert_ok zero gA 1 K _ DgA ltac:(lia) HK) as (gAi & E7 & DgAi). rewrite E7. cbn [bind].
  destruct (invert_ok zero gB 1 K _ DgB ltac:(lia) HK) as (gBi & E8 & DgBi). rewrite E8. cbn [bind].
  destruct (mat_mul_ok A gB gAi 1 K 1 _ _ DgB DgAi ltac:(lia) ltac:(lia) H1) as (SAB & E9 & DS). rewrite E9. cbn [bind].
  destruct (diag_shape OE eR eC fE HE HeR HeC HMe) as [Hbad Hgood].
  destruct (Z.ltb_spec 1 eR) as [L1|L1]; destruct (Z.ltb_spec 1 eC) as [L2|L2]; cbn [andb].
  { exists (F zero zero zero zero). rewrite Hbad by lia. reflexivity. }
  all: destruct Hgood as (e & He); [lia|].
  all: assert (HK' : 1 <= Z.max eR eC) by lia.
  all: destruct (diag_energies A OE (Z.max eR eC) e He HK' HMe) as (En & E10 & DE); rewrite E10; cbn [bind].
  all: destruct (Z.eqb_spec (Z.max eR eC) K) as [EK|EK]; cbn [negb];
    [|exists (F zero zero zero zero); rewrite mat_mul_bad; auto; right; right;
      destruct DE as (_ & _ & -> & _); destruct DgAi as (_ & -> & _); lia].
  all: rewrite EK in DE.
  all: destruct (mat_mul_ok A En gAi K K 1 _ _ DE DgAi HK ltac:(lia) ltac:(lia)) as (EgA & E11 & DEA); rewrite E11; cbn [bind].
  all: destruct (mat_mul_ok A gB EgA 1 K 1 _ _ DgB DEA ltac:(lia) ltac:(lia) H1) as (JAB & E12 & DJ); rewrite E12; cbn [bind].
  all: destruct (mat_mul_ok A En gBi K K 1 _ _ DE DgBi HK ltac:(lia) ltac:(lia)) as (EgB & E13 & DEB); rewrite E13; cbn [bind].
  all: destruct (mat_mul_ok A gB EgB 1 K 1 _ _ DgB DEB ltac:(lia) ltac:(lia) H1) as (eB & E14 & DeB); rewrite E14; cbn [bind].
  all: destruct (mat_mul_ok A gA EgA 1 K 1 _ _ DgA DEA ltac:(lia) ltac:(lia) H1) as (eA & E15 & DeA); rewrite E15; cbn [bind].
  all: rewrite (denotes_get2 _ _ _ _ _ _ _ DJ) by inr; cbn [bind].
  all: rewrite (denotes_get2 _ _ _ _ _ _ _ DeB) by inr; cbn [bind].
  all: rewrite (denotes_get2 _ _ _ _ _ _ _ DeA) by inr; cbn [bind].
  all: rewrite (denotes_get2 _ _ _ _ _ _ _ DS) by inr; cbn [bind].
  all: eexists; reflexivity.
Qed.

Lemma cti_any x y P S OE (cp : bool) n1 n2 rs N K eR eC (a b : Z -> T) fS fP fE :
  denotes x 1 n1 1 (fun _ c _ => a c) -> denotes y 1 n2 1 (fun _ c _ => b c) ->
  denotes P K N 1 (fun r c _ => fP r c) -> denotes S rs N 1 (fun r c _ => fS r c) ->
  denotes OE eR eC 1 (fun r c _ => fE r c) ->
  1 <= n1 -> 1 <= n2 -> 1 <= K -> 1 <= rs -> 1 <= eR -> 1 <= eC ->
  (if cp then n1 = N /\ n2 = N else n1 + n2 <= N) ->
  rs * K <= INT_MAX -> Z.max eR eC * Z.max eR eC <= INT_MAX ->
  exists v, calculate_transfer_integral A x y P S OE cp =
  if negb (rs =? (if cp then N else n1 + n2)) then Exit 1
  else if (1 <? eR) && (1 <? eC) then Throw InvalidArgument
  else if negb (Z.max eR eC =? K) then Exit 1
  else Ok v.
Proof.
  intros H1 H2 HP HS HE Hn1 Hn2 HK Hrs HeR HeC HN HM HMe.
  unfold calculate_transfer_integral, transfer_with.
  destruct (denotes_dims _ _ _ _ _ HP) as (HKi & HNi & _ & HKN).
  assert (HN1 : 1 <= N) by (destruct cp; lia).
  destruct (invert_ok zero x 1 n1 _ H1 ltac:(lia) Hn1) as (m1i & E1 & D1). rewrite E1. cbn [bind].
  destruct (invert_ok zero y 1 n2 _ H2 ltac:(lia) Hn2) as (m2i & E2 & D2). rewrite E2. cbn [bind].
  destruct (invert_ok zero P K N _ HP HK HN1) as (Pi & E3 & DPi). rewrite E3. cbn [bind].
  destruct (Matrix_new0_ok zero) as (z0 & E0 & Dz0). rewrite E0. cbn [bind].
  destruct cp.
  - destruct HN as [-> ->].
    destruct (assign_ok zero z0 1 1 1 _ m1i _ _ _ _ Dz0 ltac:(lia) D1 ltac:(lia) ltac:(lia) ltac:(lia)) as (ZA & EZA & DZA). rewrite EZA. cbn [bind fst snd].
    destruct (assign_ok zero z0 1 1 1 _ m2i _ _ _ _ Dz0 ltac:(lia) D2 ltac:(lia) ltac:(lia) ltac:(lia)) as (ZB & EZB & DZB). rewrite EZB. cbn [bind fst snd].
    pose proof (cti_tail_any (J_eff A) ZA ZB P S OE N rs N K eR eC a b fS fP fE) as HT.
    rewrite E3 in HT. cbn [bind] in HT. apply HT; auto; lia.
  - pose proof D1 as (_ & ER1 & EC1 & ES1 & _). pose proof D2 as (_ & ER2 & EC2 & ES2 & _).
    rewrite ER1, ES1, ER2, ES2.
    destruct (Matrix_new3_ok zero n1 1 1 Hn1 ltac:(lia) ltac:(lia) ltac:(lia)) as (zA & EA & DA). rewrite EA. cbn [bind].
    destruct (Matrix_new3_ok zero n2 1 1 Hn2 ltac:(lia) ltac:(lia) ltac:(lia)) as (zB & EB & DB). rewrite EB. cbn [bind].
    destruct (concat_rows_ok zero m1i zB n1 n2 1 1 _ _ D1 DB Hn1 Hn2 ltac:(lia) ltac:(lia) ltac:(lia)) as (ca & Ea & Da). rewrite Ea. cbn [bind].
    destruct (assign_ok zero z0 1 1 1 _ ca _ _ _ _ Dz0 ltac:(lia) Da ltac:(lia) ltac:(lia) ltac:(lia)) as (ZA & EZA & DZA). rewrite EZA. cbn [bind].
    destruct (concat_rows_ok zero zA m2i n1 n2 1 1 _ _ DA D2 Hn1 Hn2 ltac:(lia) ltac:(lia) ltac:(lia)) as (cb & Eb & Db). rewrite Eb. cbn [bind].
    destruct (assign_ok zero z0 1 1 1 _ cb _ _ _ _ Dz0 ltac:(lia) Db ltac:(lia) ltac:(lia) ltac:(lia)) as (ZB & EZB & DZB). rewrite EZB. cbn [bind fst snd].
    pose proof (cti_tail_any (J_eff A) ZA ZB P S OE (n1 + n2) rs N K eR eC (pad_after A n1 a) (pad_before A n1 b) fS fP fE) as HT.
    rewrite E3 in HT. cbn [bind] in HT. apply HT; auto; lia.
Qed.

Lemma calcJ_any m1 m2 P S OE o1 o2 (cp : bool) tc N1 N2 n1 n2 rs N K eR eC a b fP fS fE ot on t1 t2 k1 k2 r1 r2 :
  denotes m1 N1 n1 1 (fun r c _ => a r c) -> denotes m2 N2 n2 1 (fun r c _ => b r c) ->
  denotes P K N 1 (fun r c _ => fP r c) -> denotes S rs N 1 (fun r c _ => fS r c) ->
  denotes OE eR eC 1 (fun r c _ => fE r c) ->
  1 <= n1 -> 1 <= n2 -> 1 <= K -> 1 <= rs -> 1 <= eR -> 1 <= eC -> n1 + n2 <= INT_MAX ->
  rs * K <= INT_MAX -> Z.max eR eC * Z.max eR eC <= INT_MAX ->
  fst o1 = N1 /\ 0 <= snd o1 <= N1 -> fst o2 = N2 /\ 0 <= snd o2 <= N2 ->
  map_at ot sMon1 = Ok t1 -> map_at ot sMon2 = Ok t2 -> map_at on sMon1 = Ok k1 -> map_at on sMon2 = Ok k2 ->
  orbital_row N1 (snd o1) t1 k1 = Some r1 -> orbital_row N2 (snd o2) t2 k2 = Some r2 ->
  TransferComplex m1 m2 P o1 o2 S OE cp = Ok tc ->
  exists v, calcJ A tc ot on =
  if negb (rs =? (if cp then N else n1 + n2)) then Exit 1
  else if (1 <? eR) && (1 <? eC) then Throw InvalidArgument
  else if negb (Z.max eR eC =? K) then Exit 1
  else Ok v.
Proof.
  intros H1 H2 HP HS HE Hn1 Hn2 HK Hrs HeR HeC Hi HM HMe Ho1 Ho2 M1 M2 M3 M4 R1 R2 HT.
  pose proof H1 as (_ & _ & C1 & _). pose proof H2 as (_ & _ & C2 & _). pose proof HP as (_ & _ & CP & _). pose proof HS as (_ & _ & CS & _).
  destruct (TC_accepts m1 m2 P o1 o2 S OE cp) as [Ha Hb]; [rewrite C1, C2; unfold is_int, INT_MIN; lia|].
  rewrite C1, C2, CP, CS in Ha, Hb.
  assert (HN : if cp then n1 = N /\ n2 = N else n1 + n2 <= N).
  { destruct cp.
    - destruct (Z.eq_dec n1 N); [destruct (Z.eq_dec n2 N); auto|]; (rewrite Hb in HT; [discriminate|lia]).
    - destruct (Z_le_dec (n1 + n2) N); auto. rewrite Hb in HT; [discriminate|lia]. }
  rewrite Ha in HT by auto. injection HT as <-.
  destruct (calcJ_select A m1 m2 P S OE o1 o2 N1 N2 n1 n2 a b ot on t1 t2 k1 k2 r1 r2 false cp) as (x & y & E & Dx & Dy); auto.
  rewrite E. exact (cti_any x y P S OE cp n1 n2 rs N K eR eC (a r1) (b r2) fS fP fE Dx Dy HP HS HE Hn1 Hn2 HK Hrs HeR HeC HN HM HMe).
Qed.

(** ** findRank *)
(** the first column of an R x C matrix as getCol returns it when R <= C:
    C entries, those past row R zero *)
Definition padded (R C : Z) (f : Z -> Z -> T) (sp : spin) : list (T * spin) :=
  column R f sp ++ repeat (zero, sp) (Z.to_nat (C - R)).

Lemma padded_eq R C f sp : 0 <= R <= C ->
  map (fun i => (if i <=? R then f i 1 else zero, sp)) (map Z.of_nat (seq 1 (Z.to_nat C))) = padded R C f sp.
Proof.
  intros H. unfold padded, column. replace (Z.to_nat C) with (Z.to_nat R + Z.to_nat (C - R))%nat by lia.
  rewrite seq_app, !map_app. f_equal.
  - rewrite !map_map. apply map_ext_in. intros i Hi. apply in_seq in Hi. destruct (Z.leb_spec (Z.of_nat i) R); auto. lia.
  - rewrite map_map. transitivity (map (fun _ : nat => (zero, sp)) (seq (1 + Z.to_nat R) (Z.to_nat (C - R)))).
    + apply map_ext_in. intros i Hi. apply in_seq in Hi. destruct (Z.leb_spec (Z.of_nat i) R); auto. lia.
    + generalize (1 + Z.to_nat R)%nat. induction (Z.to_nat (C - R)); intros; cbn [seq map repeat]; f_equal; auto.
Qed.

Variable srt : list (T * spin) -> list (T * spin).
Definition ranked (l : list (T * spin)) := combine (map Z.of_nat (seq 1 (length l))) l.

Lemma findRank_any a b na ca nb cb fa fb :
  denotes a na ca 1 (fun r c _ => fa r c) -> denotes b nb cb 1 (fun r c _ => fb r c) -> 1 <= na -> 1 <= ca -> 0 <= nb -> 0 <= cb ->
  findRank A srt a b =
    if ca <? na then Exit 1
    else if (0 <? cb) && (cb <? nb) then Exit 1
    else Ok (ranked (srt (padded na ca fa Alpha ++ (if 0 <? cb then padded nb cb fb Beta else [])))).
Proof.
  intros Ha Hb Hna Hca Hnb Hcb. unfold findRank.
  destruct (denotes_dims _ _ _ _ _ Ha) as (_ & Hci & _ & _). destruct (denotes_dims _ _ _ _ _ Hb) as (_ & Hcj & _ & _).
  destruct (Z.ltb_spec ca na) as [L|L].
  { rewrite (getCol_tall zero a na ca 1 _ 1 Ha); auto; lia. }
  destruct (getCol_ok zero a na ca 1 _ 1 Ha ltac:(lia) L ltac:(lia) ltac:(lia)) as (ma & E1 & D1). rewrite E1. cbn [bind].
  rewrite (collect Alpha ma ca (fun i => if i <=? na then fa i 1 else zero) D1). cbn [bind].
  rewrite (padded_eq na ca fa Alpha) by lia. pose proof Hb as (_ & _ & EC & _). rewrite EC.
  destruct (Z.ltb_spec 0 cb) as [Lb|Lb]; cbn [andb].
  - destruct (Z.ltb_spec cb nb) as [L2|L2].
    { rewrite (getCol_tall zero b nb cb 1 _ 1 Hb); auto; lia. }
    destruct (getCol_ok zero b nb cb 1 _ 1 Hb ltac:(lia) L2 ltac:(lia) ltac:(lia)) as (mb & E2 & D2). rewrite E2. cbn [bind].
    rewrite (collect Beta mb cb (fun i => if i <=? nb then fb i 1 else zero) D2). cbn [bind app].
    rewrite (padded_eq nb cb fb Beta) by lia. reflexivity.
  - cbn [bind]. rewrite app_nil_r. reflexivity.
Qed.
End Shape.
