(** * Two runs of calc_J on files with the same content *)
From Verif Require Import MatrixFacts QcUnscramble QcTransfer QcOrder QcFinal QcProps.
From Verif Require Import ParserWf ParserCheck CatnipProps ReaderProps ReaderPunProps.
From Verif Require Export ContentSpec.
From Verif Require Export MainRun.
From Verif Require Export StrSpec StrModel.
Open Scope Z_scope.

Lemma bind_same {X Y} (o : outcome X) (f g : X -> outcome Y) : (forall x, f x = g x) -> bind o f = bind o g.
Proof. intros H. destruct o; cbn [bind]; auto. Qed.

Section Calc.
Context {T : Type} (A : arith T).
Notation zero := (a_zero A).
Lemma bind_assoc {X Y Z} (o : outcome X) (f : X -> outcome Y) (g : Y -> outcome Z) : bind (bind o f) g = bind o (fun x => bind (f x) g).
Proof. destruct o; reflexivity. Qed.
(** the row [r], as calcJ takes it *)
Definition row_of (m : mat T) (r : Z) (c0 : mat T) : outcome (mat T) := row <- getRow zero m r ;; assign zero c0 row.
Lemma select_row_eq m c0 orbs ty n r : is_int (fst orbs) -> 0 <= snd orbs <= fst orbs ->
  orbital_row (fst orbs) (snd orbs) ty n = Some r -> select_row A m c0 orbs ty n = row_of m r c0.
Proof.
  intros Hi Ho Hr. unfold is_int in Hi. unfold orbital_row in Hr. unfold select_row, sHOMO, sLUMO, row_of.
  assert (Hmin : INT_MIN <= - INT_MAX) by (unfold INT_MIN, INT_MAX; lia).
  destruct (str_eqb ty ($"HOMO")).
  - destruct (Z.leb_spec n 0); [|discriminate]. destruct (Z.ltb_spec (- snd orbs) n); [|discriminate]. cbn [andb] in Hr.
    inversion Hr; subst r. destruct (Z.ltb_spec 0 n); [lia|].
    unfold imul. rewrite ichk_ok by (unfold is_int; lia). cbn [bind]. destruct (Z.leb_spec n (-1 * snd orbs)); [lia|].
    unfold iadd. rewrite ichk_ok by (unfold is_int; lia). reflexivity.
  - destruct (str_eqb ty ($"LUMO")); [|discriminate].
    destruct (Z.leb_spec 0 n); [|discriminate]. destruct (Z.ltb_spec n (fst orbs - snd orbs)); [|discriminate]. cbn [andb] in Hr.
    inversion Hr; subst r. destruct (Z.ltb_spec n 0); [lia|].
    unfold isub. rewrite ichk_ok by (unfold is_int; lia). cbn [bind]. destruct (Z.leb_spec (fst orbs - snd orbs) n); [lia|].
    unfold iadd. rewrite ichk_ok by (unfold is_int; lia). cbn [bind].
    rewrite ichk_ok by (unfold is_int; lia). cbn [bind]. f_equal. f_equal. lia.
Qed.
Lemma row_same m m' R R' C f f' r r' : denotes m R C 1 (fun i j _ => f i j) -> denotes m' R' C 1 (fun i j _ => f' i j) -> 1 <= C -> 1 <= r <= R -> 1 <= r' <= R' ->
  (forall c, 1 <= c <= C -> f' r' c = f r c) -> forall c0 g, denotes c0 1 1 1 g -> row_of m' r' c0 = row_of m r c0.
Proof.
  intros D D' HC Hr Hr' H c0 g H0. unfold row_of.
  destruct (getRow_ok zero m R C 1 _ r D Hr HC ltac:(lia)) as (x & Ex & Dx). destruct (getRow_ok zero m' R' C 1 _ r' D' Hr' HC ltac:(lia)) as (x' & Ex' & Dx').
  rewrite Ex, Ex'. cbn [bind]. replace x' with x; [reflexivity|]. eapply denotes_inj; [exact Dx|]. eapply denotes_ext; [exact Dx'|].
  intros a b c (_ & Hb & _). cbn. auto.
Qed.
Lemma orbital_row_range K h ty n r : 0 <= h <= K -> orbital_row K h ty n = Some r -> 1 <= r <= K.
Proof.
  intros Hh Hr. revert Hr. unfold orbital_row. destruct (str_eqb ty _); [|destruct (str_eqb ty _)]; try discriminate.
  - destruct (Z.leb_spec n 0), (Z.ltb_spec (- h) n); cbn [andb]; intros Q; inversion Q; lia.
  - destruct (Z.leb_spec 0 n), (Z.ltb_spec n (K - h)); cbn [andb]; intros Q; inversion Q; lia.
Qed.
(** the two computations agree if the same rows are taken *)
Lemma calc_same {X} (F : T -> T -> T -> T -> X) tc tc' ty1 n1 ty2 n2 ty1' n1' ty2' n2' :
  tc_P tc' = tc_P tc -> tc_S tc' = tc_S tc -> tc_OE tc' = tc_OE tc -> tc_cp tc' = tc_cp tc ->
  (forall c0 g, denotes c0 1 1 1 g -> select_row A (tc_1 tc') c0 (tc_orbs1 tc') ty1' n1' = select_row A (tc_1 tc) c0 (tc_orbs1 tc) ty1 n1) ->
  (forall c0 g, denotes c0 1 1 1 g -> select_row A (tc_2 tc') c0 (tc_orbs2 tc') ty2' n2' = select_row A (tc_2 tc) c0 (tc_orbs2 tc) ty2 n2) ->
  calcJ_with A F tc' [(sMon1, ty1'); (sMon2, ty2')] [(sMon1, n1'); (sMon2, n2')] =
  calcJ_with A F tc [(sMon1, ty1); (sMon2, ty2)] [(sMon1, n1); (sMon2, n2)].
Proof.
  intros EP ES EE Ec H1 H2. unfold calcJ_with. destruct (Matrix_new0_ok zero) as (z0 & -> & Dz). cbn [bind].
  change (map_at [(sMon1, ty1'); (sMon2, ty2')] sMon1) with (Ok ty1'). change (map_at [(sMon1, ty1'); (sMon2, ty2')] sMon2) with (Ok ty2').
  change (map_at [(sMon1, n1'); (sMon2, n2')] sMon1) with (Ok n1'). change (map_at [(sMon1, n1'); (sMon2, n2')] sMon2) with (Ok n2').
  change (map_at [(sMon1, ty1); (sMon2, ty2)] sMon1) with (Ok ty1). change (map_at [(sMon1, ty1); (sMon2, ty2)] sMon2) with (Ok ty2).
  change (map_at [(sMon1, n1); (sMon2, n2)] sMon1) with (Ok n1). change (map_at [(sMon1, n1); (sMon2, n2)] sMon2) with (Ok n2).
  cbn [bind]. rewrite (H1 _ _ Dz), EP, ES, EE, Ec. apply bind_same. intros c1. rewrite (H2 _ _ Dz). reflexivity.
Qed.
End Calc.

Section Job.
Context (N : nums) (A : arith (num N)) (lab : num N -> str).
Notation zero := (a_zero A).
Definition no_names {X} (F : bool -> num N -> num N -> num N -> num N -> X) (_ : params) := F.

(** everything after the constructor *)
Lemma rest_same {X} (F : bool -> num N -> num N -> num N -> num N -> X) fuel (use : bool) tc tc' c1 c2 cP basisP basis2 ty1 n1 ty2 n2 ty1' n1' ty2' n2' r1 r2 r1' r2' :
  tc_P tc' = tc_P tc -> tc_S tc' = tc_S tc -> tc_OE tc' = tc_OE tc -> tc_cp tc' = tc_cp tc -> tc_unscrambled tc' = tc_unscrambled tc ->
  (forall m c0, select_row A m c0 (tc_orbs1 tc) ty1 n1 = row_of A m r1 c0) -> (forall m c0, select_row A m c0 (tc_orbs2 tc) ty2 n2 = row_of A m r2 c0) ->
  (forall m c0, select_row A m c0 (tc_orbs1 tc') ty1' n1' = row_of A m r1' c0) -> (forall m c0, select_row A m c0 (tc_orbs2 tc') ty2' n2' = row_of A m r2' c0) ->
  (forall c0 g, denotes c0 1 1 1 g -> row_of A (tc_1 tc') r1' c0 = row_of A (tc_1 tc) r1 c0) ->
  (if tc_cp tc then tc_2 tc' = tc_2 tc /\ r2' = r2 else forall c0 g, denotes c0 1 1 1 g -> row_of A (tc_2 tc') r2' c0 = row_of A (tc_2 tc) r2 c0) ->
  (t <- (if use then tc_unscramble A lab fuel tc' c1 c2 cP basisP basis2 else Ok tc') ;; calcJ_with A (F (tc_unscrambled t)) t [(sMon1, ty1'); (sMon2, ty2')] [(sMon1, n1'); (sMon2, n2')]) =
  (t <- (if use then tc_unscramble A lab fuel tc c1 c2 cP basisP basis2 else Ok tc) ;; calcJ_with A (F (tc_unscrambled t)) t [(sMon1, ty1); (sMon2, ty2)] [(sMon1, n1); (sMon2, n2)]).
Proof.
  destruct tc as [m1 m2 P o1 o2 S OE u cp], tc' as [m1' m2' P' o1' o2' S' OE' u' cp']. cbn [tc_1 tc_2 tc_P tc_S tc_OE tc_cp tc_orbs1 tc_orbs2 tc_unscrambled].
  intros -> -> -> -> -> S1 S2 S1' S2' R1 R2. destruct use.
  - unfold tc_unscramble. cbn [tc_1 tc_2 tc_P tc_S tc_OE tc_cp tc_orbs1 tc_orbs2 tc_unscrambled]. destruct cp.
    + destruct R2 as [-> ->].
      rewrite !bind_assoc. apply bind_same. intros m12. rewrite !bind_assoc. apply bind_same. intros u2. rewrite !bind_assoc. apply bind_same. intros m1P.
      rewrite !bind_assoc. apply bind_same. intros uP. rewrite !bind_assoc. apply bind_same. intros uS. cbn [bind tc_unscrambled].
      apply calc_same; cbn [tc_1 tc_2 tc_P tc_S tc_OE tc_cp tc_orbs1 tc_orbs2]; auto.
      * intros c0 g H0. rewrite S1, S1'. eauto.
      * intros c0 g H0. rewrite S2, S2'. reflexivity.
    + rewrite !bind_assoc. apply bind_same. intros m1P. rewrite !bind_assoc. apply bind_same. intros m2P. rewrite !bind_assoc. apply bind_same. intros uP.
      rewrite !bind_assoc. apply bind_same. intros uS. cbn [bind tc_unscrambled].
      apply calc_same; cbn [tc_1 tc_2 tc_P tc_S tc_OE tc_cp tc_orbs1 tc_orbs2]; auto.
      * intros c0 g H0. rewrite S1, S1'. eauto.
      * intros c0 g H0. rewrite S2, S2'. eauto.
  - cbn [bind tc_unscrambled]. apply calc_same; cbn [tc_1 tc_2 tc_P tc_S tc_OE tc_cp tc_orbs1 tc_orbs2]; auto.
    + intros c0 g H0. rewrite S1, S1'. eauto.
    + intros c0 g H0. rewrite S2, S2'. destruct cp; [destruct R2 as [-> ->]; reflexivity|eauto].
Qed.

(** one run, up to the constructor *)
Lemma job_opens {X} (F : bool -> num N -> num N -> num N -> num N -> X) disk fuel p R n1 n2 n a b fP fS x1 x2 xP :
  readers_hold N disk fuel p R -> agree N (counterPoise p) R n1 n2 n a b fP fS ->
  three N (x_1 N R) x1 -> three N (x_2 N R) x2 -> three N (x_P N R) xP ->
  run_job_with N A lab disk (no_names F) fuel p =
    (mE <- Matrix_of_vec (e_P N R) ;; cP <- Matrix_of_vecs (x_P N R) ;; c1 <- Matrix_of_vecs (x_1 N R) ;; c2 <- Matrix_of_vecs (x_2 N R) ;;
     t <- (if some_basis N R then tc_unscramble A lab fuel (mkTC (m_1 N R) (m_2 N R) (m_P N R) (count (e_1 N R), h_1 N R) (count (e_2 N R), h_2 N R) (m_S N R) mE false (counterPoise p)) c1 c2 cP (b_P N R) (b_2 N R)
           else Ok (mkTC (m_1 N R) (m_2 N R) (m_P N R) (count (e_1 N R), h_1 N R) (count (e_2 N R), h_2 N R) (m_S N R) mE false (counterPoise p))) ;;
     calcJ_with A (F (tc_unscrambled t)) t (otypes p) (onums p)).
Proof.
  intros (pr1 & pr2 & prP & lr1 & lr2 & lrP & R1 & R2 & RP & Q1 & Q2 & QP & G1 & G2 & GP & GS & En1 & En2 & EnP & O1 & O2 & Cq1 & Cq2 & CqP & Bq1 & Bq2 & BqP)
    [Dm1 Dm2 DmP DS Hh (Hp1 & Hp2 & Hp3 & Hp4) Hn] T1 T2 TP.
  destruct (coords_matrix N _ _ T1) as (c1 & Ec1 & D1). destruct (coords_matrix N _ _ T2) as (c2 & Ec2 & D2). destruct (coords_matrix N _ _ TP) as (cP & EcP & DP).
  pose proof Dm1 as ((F1 & _) & Kr1 & Kc1 & _). pose proof Dm2 as ((F2 & _) & Kr2 & Kc2 & _). pose proof DmP as ((FP & _) & KrP & KcP & _). pose proof DS as ((Fs & _) & RS & KcS & SS & _).
  rewrite RS, KcS, SS in Fs. rewrite Kr1 in F1. rewrite Kr2 in F2. rewrite KrP in FP. destruct F1 as (F1 & _). destruct F2 as (F2 & _). destruct FP as (FP & _).
  destruct (energy_matrix N (e_1 N R)) as (e1 & Ee1 & De1); [lia|]. destruct (energy_matrix N (e_2 N R)) as (e2 & Ee2 & De2); [lia|]. destruct (energy_matrix N (e_P N R)) as (eP & EeP & DeP); [lia|].
  destruct Fs as (_ & _ & _ & Fs). rewrite Z.mul_1_r in Fs.
  unfold run_job_with. rewrite RP, R1, R2, QP, Q1, Q2. cbn [bind]. unfold compute_with. rewrite GS. cbn [bind]. rewrite GP, EnP. cbn [bind]. rewrite EeP. cbn [bind].
  rewrite O1. cbn [bind]. rewrite G1, En1. cbn [bind]. rewrite Ee1. cbn [bind]. rewrite O2. cbn [bind]. rewrite G2, En2. cbn [bind]. rewrite Ee2. cbn [bind].
  rewrite CqP, Cq1, Cq2, EcP, Ec1, Ec2. cbn [bind]. rewrite Bq1, Bq2, BqP.
  assert (Sz : 2 * n <= INT_MAX).
  { destruct (Z.le_gt_cases 2 n) as [H|H]; [|unfold INT_MAX; lia]. transitivity (n * n); [|exact Fs]. nia. }
  destruct (C35_constructor (num N) (m_1 N R) (m_2 N R) (m_P N R) (MatrixModel.rows e1, h_1 N R) (MatrixModel.rows e2, h_2 N R) (m_S N R) eP (counterPoise p)) as [T _].
  + rewrite Kc1, Kc2. destruct (counterPoise p); unfold is_int, INT_MIN; lia.
  + rewrite T.
    * cbn [bind]. pose proof De1 as (_ & -> & _). pose proof De2 as (_ & -> & _). reflexivity.
    * rewrite Kc1, Kc2, KcP, KcS. split; [reflexivity|]. destruct (counterPoise p); lia.
Qed.

Lemma job_same {X} (F : bool -> num N -> num N -> num N -> num N -> X) disk disk' p p' d d' r1 r2 r1' r2' :
  counterPoise p' = counterPoise p -> contain N disk p d -> contain N disk' p' d' -> belong N (counterPoise p) d -> belong N (counterPoise p) d' ->
  rows_asked N p d r1 r2 -> rows_asked N p' d' r1' r2' -> same_content N (counterPoise p) d d' r1 r2 r1' r2' ->
  exists bound, forall fuel, (bound <= fuel)%nat -> run_job_with N A lab disk' (no_names F) fuel p' = run_job_with N A lab disk (no_names F) fuel p.
Proof.
  intros Hcp Hc Hc' Hb Hb' (Ro1 & Ro2) (Ro1' & Ro2') [S1 S2 (SP & SE) (Sn & SS) (SX1 & SX2 & SXP) (SB1 & SB2 & SBP)].
  destruct (files_hold N disk p d Hc Hb) as (bd & H). rewrite <- Hcp in Hb'. destruct (files_hold N disk' p' d' Hc' Hb') as (bd' & H').
  exists (bd + bd')%nat. intros fuel Hf.
  destruct (H fuel) as (R & Hr & Hag & T1 & T2 & TP & X1 & X2 & XP & G1 & G2 & GP & G3 & G4 & B1 & B2 & BP); [lia|].
  destruct (H' fuel) as (R' & Hr' & Hag' & T1' & T2' & TP' & X1' & X2' & XP' & G1' & G2' & GP' & G3' & G4' & B1' & B2' & BP'); [lia|]. clear H H'.
  rewrite (job_opens F disk fuel p R _ _ _ _ _ _ _ _ _ _ Hr Hag T1 T2 TP), (job_opens F disk' fuel p' R' _ _ _ _ _ _ _ _ _ _ Hr' Hag' T1' T2' TP').
  destruct Hag as [D1 D2 DP DS (Hh1 & Hh2) (P1 & P2 & P3 & P4) Hn]. destruct Hag' as [D1' D2' DP' DS' (Hh1' & Hh2') (P1' & P2' & P3' & P4') Hn'].
  destruct (coords_matrix N _ _ T1) as (c1 & Ec1 & C1). destruct (coords_matrix N _ _ T2) as (c2 & Ec2 & C2). destruct (coords_matrix N _ _ TP) as (cP & EcP & CP).
  destruct (coords_matrix N _ _ T1') as (c1' & Ec1' & C1'). destruct (coords_matrix N _ _ T2') as (c2' & Ec2' & C2'). destruct (coords_matrix N _ _ TP') as (cP' & EcP' & CP').
  rewrite SX1 in C1'. rewrite SX2 in C2'. rewrite SXP in CP'. rewrite X1', SX1, <- X1 in C1'. rewrite X2', SX2, <- X2 in C2'. rewrite XP', SXP, <- XP in CP'.
  rewrite Ec1, Ec2, EcP, Ec1', Ec2', EcP'. rewrite (denotes_inj _ _ _ _ _ _ C1' C1), (denotes_inj _ _ _ _ _ _ C2' C2), (denotes_inj _ _ _ _ _ _ CP' CP). clear c1' c2' cP' Ec1' Ec2' EcP' C1' C2' CP'.
  cbn [bind]. rewrite GP', SE, <- GP. apply bind_same. intros mE. cbn [bind].
  assert (EB : some_basis N R' = some_basis N R) by (unfold some_basis; rewrite B1', B2', BP', SB1, SB2, SBP, <- B1, <- B2, <- BP; reflexivity).
  rewrite EB, B2', BP', SB2, SBP, <- B2, <- BP.
  rewrite Sn in *. rewrite GP', SE, <- GP in DP'. rewrite SP in DP'.
  apply rest_same with (r1 := r1) (r2 := r2) (r1' := r1') (r2' := r2'); cbn [tc_1 tc_2 tc_P tc_S tc_OE tc_cp tc_orbs1 tc_orbs2 tc_unscrambled].
  { eapply denotes_inj; [exact DP'|exact DP]. }
  { destruct (denotes_dims _ _ _ _ _ DS) as (_ & _ & Hn0 & _). eapply denotes_inj; [exact DS'|]. eapply denotes_ext; [exact DS|]. intros i j s (Hi & Hj & _). cbn beta. unfold symmetric. symmetry. apply SS; lia. }
  { reflexivity. }
  { exact Hcp. }
  { reflexivity. }
  { intros m c0. apply select_row_eq; cbn [fst snd]; [destruct (denotes_dims _ _ _ _ _ D1) as (DD & _); unfold is_int, INT_MIN, INT_MAX in *; lia|lia|rewrite G1, G3; exact Ro1]. }
  { intros m c0. apply select_row_eq; cbn [fst snd]; [destruct (denotes_dims _ _ _ _ _ D2) as (DD & _); unfold is_int, INT_MIN, INT_MAX in *; lia|lia|rewrite G2, G4; exact Ro2]. }
  { intros m c0. apply select_row_eq; cbn [fst snd]; [destruct (denotes_dims _ _ _ _ _ D1') as (DD & _); unfold is_int, INT_MIN, INT_MAX in *; lia|lia|rewrite G1', G3'; exact Ro1']. }
  { intros m c0. apply select_row_eq; cbn [fst snd]; [destruct (denotes_dims _ _ _ _ _ D2') as (DD & _); unfold is_int, INT_MIN, INT_MAX in *; lia|lia|rewrite G2', G4'; exact Ro2']. }
  { destruct S1 as (W1 & S1). rewrite W1 in D1'. intros c0 g H0. rewrite <- G1, <- G3 in Ro1. rewrite <- G1', <- G3' in Ro1'.
    eapply (row_same A _ _ _ _ _ _ _ r1 r1' D1 D1'); eauto using orbital_row_range. }
  { destruct (counterPoise p).
    - destruct S2 as [S2 ->]. split; [|reflexivity]. rewrite S2 in D2'. rewrite G2', (be_e2 N _ _ Hb'), S2, <- (be_e2 N _ _ Hb), <- G2 in D2'. exact (denotes_inj _ _ _ _ _ _ D2' D2).
    - destruct S2 as (W2 & S2). rewrite W2 in D2'. intros c0 g H0. rewrite <- G2, <- G4 in Ro2. rewrite <- G2', <- G4' in Ro2'.
      eapply (row_same A _ _ _ _ _ _ _ r2 r2' D2 D2'); eauto using orbital_row_range. }
Qed.
End Job.
