(** * Facts for calc_J as a whole *)
From Verif Require Import MatrixCtor QcOrder QcFinal QcProps.
From Verif Require Import ParserWf ParserCheck ParserEffect ParserProps CatnipProps ReaderProps ReaderPunProps.
From Verif Require Export MainModel MainSpec.
From Verif Require Export StrSpec StrModel.
Open Scope Z_scope.

(** ** opening the files *)
Section Open.
Context (N : nums) (disk : str -> option str).

Lemma log_opens name k items en occ pts ba : log_says N disk name k items en occ pts ba ->
  exists bound, forall fuel, (bound <= fuel)%nat -> exists r, open_log N disk fuel name = Ok r /\
    getOE N r (pspin k) = Ok en /\ getHOMOLevel N r (pspin k) = Ok occ /\
    getCoords N r = [map (fun p => fst (fst p)) pts; map (fun p => snd (fst p)) pts; map snd pts] /\
    getBasisFuncCount N r = ba /\
    forall n v, overlap_says N items n v -> exists m, getOverlapMatrix N r = Ok m /\ denotes m n n 1 (fun i j _ => symmetric N v i j).
Proof.
  intros [(a & Hl & Na) (content & Hf & Hi) (ls & vals & He & Een & Eocc) (h & a1 & b1 & rows & e & Hc) Hb].
  destruct (reader_ext name a $".log" (or_introl eq_refl) Hl) as [Re _]. specialize (Re Na).
  destruct (proj2 (log_new_iff N name) Re) as (r0 & Hn).
  destruct (C66_energies_partial N name r0 disk content items Hn Hf Hi (is_beta k) ls vals He) as (b2 & H2).
  destruct (C68_coordinates N name r0 disk content items Hn Hf Hi) as (b3 & H3).
  assert (H4 : exists b4, forall fuel, (b4 <= fuel)%nat -> exists r', log_read N disk fuel r0 = Ok r' /\ getBasisFuncCount N r' = ba).
  { destruct Hb as [(h' & a' & ls' & e' & atoms & Ip & Hs & ->)|[Hno ->]].
    - exact (C69_counts_partial N name r0 disk content items Hn Hf Hi h' a' ls' e' atoms Ip Hs).
    - exists (length content + 2)%nat. intros fuel Hfuel. destruct (read_log N name r0 disk content items fuel Hn Hf Hi Hfuel) as (r' & Er & Ef).
      exists r'. split; [exact Er|]. unfold getBasisFuncCount. rewrite (keeps_orb N items _ _ Ef Hno). reflexivity. }
  destruct H4 as (b4 & H4). exists (length content + 2 + b2 + b3 + b4)%nat. intros fuel Hfuel.
  destruct (H2 fuel) as (r2 & E2 & G2 & G2'); [lia|]. destruct (H3 fuel) as (r3 & E3 & G3 & _); [lia|]. destruct (H4 fuel) as (r4 & E4 & G4); [lia|].
  rewrite E2 in E3, E4. injection E3 as <-. injection E4 as <-.
  exists r2. unfold open_log. rewrite Hn. cbn [bind]. split; [exact E2|].
  assert (Es : pspin k = spin_name (is_beta k)) by (destruct k; reflexivity). rewrite Es, Een, Eocc.
  split; [exact G2|]. split; [exact G2'|]. split; [exact (G3 _ _ _ _ _ _ Hc)|]. split; [exact G4|].
  intros n v (ho & lo & ao & Ho). assert (Hfu : (length content + 2 <= fuel)%nat) by lia.
  destruct (read_log N name r0 disk content items fuel Hn Hf Hi Hfu) as (r5 & E5 & Ef). rewrite E2 in E5. injection E5 as <-.
  destruct Ho as (u & w & Eit & _ & Hw). rewrite Eit in Ef. apply effects_app in Ef as (d1 & E1 & Ef2). inversion Ef2 as [|? ? ? d2 ? Eff Ef3]; subst.
  cbn [effect] in Eff. destruct Eff as (m & Dm & ->). exists m. split; [|exact Dm]. unfold getOverlapMatrix. rewrite (keeps_S N w _ _ Ef3 Hw). reflexivity.
Qed.

(** what a correct pun file guarantees about the sizes *)
Lemma pun_sizes tail items lines : pun_lines N tail items lines -> forall k h ls after rows, In (Coefs N k h ls after rows) items ->
  rows <> [] /\ 1 <= width N rows /\ Forall (fun r => Z.of_nat (length r) = width N rows) rows /\ count rows <= INT_MAX.
Proof.
  induction 1 as [|it items lines Hi H IH]; intros k h ls after rows I; [destruct I|]. destruct I as [->|I]; [|eapply IH; eauto].
  cbn [pitem_ok] in Hi. destruct Hi as (_ & _ & _ & (ls1 & row1 & ls2 & rows2 & _ & -> & (vss & Hv & Er & Ne) & Ho) & _ & _ & _ & HM).
  split; [discriminate|]. unfold width. cbn [hd]. split; [destruct row1; [congruence|cbn [length]; lia]|]. split; [|exact HM].
  constructor; [auto|]. clear - Ho. induction Ho as [|h ls row lines rows _ _ _ _ El _ IH]; constructor; auto.
Qed.
Lemma pun_opens name k rows : pun_says N disk name k rows ->
  (exists bound, forall fuel, (bound <= fuel)%nat -> exists r, open_pun N disk fuel name = Ok r /\
    exists m, getCoefsMatrix N r (pspin k) = Ok m /\ denotes m (count rows) (width N rows) 1 (fun i j _ => table N rows i j)) /\
  1 <= count rows <= INT_MAX /\ 1 <= width N rows.
Proof.
  intros [(a & Hl & Na) (content & items & Hf & Hi & Hc)].
  destruct (reader_ext name a $".pun" (or_intror eq_refl) Hl) as [Re _]. specialize (Re Na).
  destruct (proj2 (pun_new_iff N name) Re) as (r0 & Hn). split.
  - destruct (C70_round_trip_partial N name r0 disk content items Hn Hf Hi) as (b & H). exists b. intros fuel Hfuel. destruct (H fuel Hfuel) as (r & Er & G).
    destruct (G k rows Hc) as (m & Gm & Dm). exists r. unfold open_pun. rewrite Hn. cbn [bind]. split; [exact Er|]. exists m. split; [exact Gm|exact Dm].
  - destruct Hi as (lines & tail & _ & _ & _ & Hp). destruct Hc as (u & w & h & ls & after & -> & _).
    destruct (pun_sizes tail _ lines Hp k h ls after rows) as (Ne & W & _ & C); [apply in_or_app; right; left; reflexivity|].
    split; [|exact W]. split; [|exact C]. unfold count. destruct rows; [congruence|cbn [length]; lia].
Qed.
Lemma occ_le (vals : list (bool * list (num N))) : (length (concat (map snd (filter fst vals))) <= length (concat (map snd vals)))%nat.
Proof. induction vals as [|[[] v] t IH]; cbn [filter fst map snd concat]; rewrite ?app_length; lia. Qed.
Lemma log_occ name k items en occ pts ba : log_says N disk name k items en occ pts ba -> 0 <= occ <= count en.
Proof. intros [_ _ (ls & vals & _ & -> & ->) _ _]. pose proof (occ_le vals). unfold count. lia. Qed.
Lemma coords_matrix x n : three N x n -> exists m, Matrix_of_vecs x = Ok m /\ denotes m 3 n 1 (place N x).
Proof.
  intros (xs & ys & zs & -> & Hx & Hy & Hz & HM).
  destruct (Matrix_of_vecs_ok (n_zero N) xs [ys; zs] n) as (m & E & Dm).
  - cbn [length]. unfold INT_MAX. lia.
  - unfold count, INT_MAX in *. lia.
  - unfold count in *. cbn [length]. unfold INT_MAX in *. lia.
  - unfold count in *. repeat (constructor; [assumption|]). constructor.
  - exists m. split; [exact E|]. exact Dm.
Qed.
Lemma energy_matrix (en : list (num N)) : count en <= INT_MAX ->
  exists m, Matrix_of_vec en = Ok m /\ denotes m (count en) 1 1 (fun r _ _ => entry N en r).
Proof. exact (Matrix_of_vec_ok (n_zero N) en). Qed.
End Open.

(** ** the computation *)
Section Job.
Context (N : nums) (A : arith (num N)) (lab : num N -> str) (disk : str -> option str).
Context {X : Type} (finish : params -> bool -> num N -> num N -> num N -> num N -> X).
Notation zero := (a_zero A).

Definition otypes (p : params) : list (str * str) := [(sMon1, orb_type1 p); (sMon2, orb_type2 p)].
Definition onums (p : params) : list (str * Z) := [(sMon1, orb_num1 p); (sMon2, orb_num2 p)].
Definition some_basis (R : reading N) : bool :=
  negb (length (b_1 N R) =? 0)%nat && negb (length (b_2 N R) =? 0)%nat && negb (length (b_P N R) =? 0)%nat.

Lemma job_steps fuel p R n1 n2 n a b fP fS x1 x2 xP : readers_hold N disk fuel p R -> agree N (counterPoise p) R n1 n2 n a b fP fS ->
  three N (x_1 N R) x1 -> three N (x_2 N R) x2 -> three N (x_P N R) xP ->
  exists mE c1 c2 cP,
    let tc := mkTC (m_1 N R) (m_2 N R) (m_P N R) (count (e_1 N R), h_1 N R) (count (e_2 N R), h_2 N R) (m_S N R) mE false (counterPoise p) in
    fits_together tc (count (e_1 N R)) (count (e_2 N R)) n1 n2 n (count (e_P N R)) a b fP fS (entry N (e_P N R)) /\
    denotes c1 3 x1 1 (place N (x_1 N R)) /\ denotes c2 3 x2 1 (place N (x_2 N R)) /\ denotes cP 3 xP 1 (place N (x_P N R)) /\
    run_job_with N A lab disk finish fuel p =
      (tc' <- (if some_basis R then tc_unscramble A lab fuel tc c1 c2 cP (b_P N R) (b_2 N R) else Ok tc) ;; calcJ_with A (finish p (tc_unscrambled tc')) tc' (otypes p) (onums p)).
Proof.
  intros (pr1 & pr2 & prP & lr1 & lr2 & lrP & R1 & R2 & RP & Q1 & Q2 & QP & G1 & G2 & GP & GS & En1 & En2 & EnP & O1 & O2 & Cq1 & Cq2 & CqP & Bq1 & Bq2 & BqP)
    [Dm1 Dm2 DmP DS Hh (Hp1 & Hp2 & Hp3 & Hp4) Hn] T1 T2 TP.
  destruct (coords_matrix N _ _ T1) as (c1 & Ec1 & D1). destruct (coords_matrix N _ _ T2) as (c2 & Ec2 & D2). destruct (coords_matrix N _ _ TP) as (cP & EcP & DP).
  pose proof Dm1 as ((F1 & _) & Kr1 & Kc1 & _). pose proof Dm2 as ((F2 & _) & Kr2 & Kc2 & _). pose proof DmP as ((FP & _) & KrP & KcP & _). pose proof DS as ((Fs & _) & RS & KcS & SS & _).
  rewrite RS, KcS, SS in Fs. rewrite Kr1 in F1. rewrite Kr2 in F2. rewrite KrP in FP. destruct F1 as (F1 & _). destruct F2 as (F2 & _). destruct FP as (FP & _).
  destruct (energy_matrix N (e_1 N R)) as (e1 & Ee1 & De1); [lia|]. destruct (energy_matrix N (e_2 N R)) as (e2 & Ee2 & De2); [lia|]. destruct (energy_matrix N (e_P N R)) as (eP & EeP & DeP); [lia|].
  destruct Fs as (_ & _ & _ & Fs). rewrite Z.mul_1_r in Fs.
  exists eP, c1, c2, cP. cbv zeta. split; [|split; [exact D1|split; [exact D2|split; [exact DP|]]]].
  - constructor; cbn [tc_1 tc_2 tc_P tc_S tc_OE tc_orbs1 tc_orbs2 tc_cp fst snd]; auto; [left; exact DeP|tauto|tauto].
  - unfold run_job_with. rewrite RP, R1, R2, QP, Q1, Q2. cbn [bind]. unfold compute_with. rewrite GS. cbn [bind]. rewrite GP, EnP. cbn [bind]. rewrite EeP. cbn [bind].
    rewrite O1. cbn [bind]. rewrite G1, En1. cbn [bind]. rewrite Ee1. cbn [bind]. rewrite O2. cbn [bind]. rewrite G2, En2. cbn [bind]. rewrite Ee2. cbn [bind].
    rewrite CqP, Cq1, Cq2, EcP, Ec1, Ec2. cbn [bind]. rewrite Bq1, Bq2, BqP.
    assert (Sz : 2 * n <= INT_MAX).
    { destruct (Z.le_gt_cases 2 n) as [H|H]; [|unfold INT_MAX; lia]. transitivity (n * n); [|exact Fs]. nia. }
    destruct (C35_constructor (num N) (m_1 N R) (m_2 N R) (m_P N R) (MatrixModel.rows e1, h_1 N R) (MatrixModel.rows e2, h_2 N R) (m_S N R) eP (counterPoise p)) as [T _].
    + rewrite Kc1, Kc2. destruct (counterPoise p); unfold is_int, INT_MIN; lia.
    + rewrite T.
      * cbn [bind]. pose proof De1 as (_ & -> & _). pose proof De2 as (_ & -> & _). reflexivity.
      * rewrite Kc1, Kc2, KcP, KcS. split; [reflexivity|]. destruct (counterPoise p); lia.
Qed.

Lemma three_points (pts : list (num N * num N * num N)) : 3 * count pts <= INT_MAX ->
  three N [map (fun p => fst (fst p)) pts; map (fun p => snd (fst p)) pts; map snd pts] (count pts).
Proof. intros HM. eexists _, _, _. split; [reflexivity|]. unfold count in *. rewrite !map_length. auto. Qed.
(** correct files: the readers hold their data *)
Lemma files_hold p d : contain N disk p d -> belong N (counterPoise p) d ->
  exists bound, forall fuel, (bound <= fuel)%nat -> exists R, readers_hold N disk fuel p R /\
    agree N (counterPoise p) R (width N (coef1 N d)) (width N (coef2 N d)) (size N d) (table N (coef1 N d)) (table N (coef2 N d)) (table N (coefP N d)) (symmetric N (over N d)) /\
    three N (x_1 N R) (count (at1 N d)) /\ three N (x_2 N R) (count (at2 N d)) /\ three N (x_P N R) (count (atP N d)) /\
    place N (x_1 N R) = position N (at1 N d) /\ place N (x_2 N R) = position N (at2 N d) /\ place N (x_P N R) = position N (atP N d) /\
    e_1 N R = en1 N d /\ e_2 N R = en2 N d /\ e_P N R = enP N d /\ h_1 N R = occ1 N d /\ h_2 N R = occ2 N d /\
    b_1 N R = ba1 N d /\ b_2 N R = ba2 N d /\ b_P N R = baP N d.
Proof.
  intros (k1 & k2 & kP & i1 & i2 & iP & S1 & S2 & SP & U1 & U2 & UP & L1 & L2 & LP & Ov) [E1 E2 EP WP W (M0 & M1 & M2 & M3)].
  destruct (pun_opens N disk _ _ _ U1) as ((b1 & O1) & C1 & W1). destruct (pun_opens N disk _ _ _ U2) as ((b2 & O2) & C2 & W2).
  destruct (pun_opens N disk _ _ _ UP) as ((bP & OP) & CP & WP'). destruct (log_opens N disk _ _ _ _ _ _ _ L1) as (l1 & P1).
  destruct (log_opens N disk _ _ _ _ _ _ _ L2) as (l2 & P2). destruct (log_opens N disk _ _ _ _ _ _ _ LP) as (lP & PP).
  pose proof (log_occ N disk _ _ _ _ _ _ _ L1) as Oc1. pose proof (log_occ N disk _ _ _ _ _ _ _ L2) as Oc2.
  exists (b1 + b2 + bP + l1 + l2 + lP)%nat. intros fuel Hfuel.
  destruct (O1 fuel) as (r1 & R1 & m1 & G1 & Dm1); [lia|]. destruct (O2 fuel) as (r2 & R2 & m2 & G2 & Dm2); [lia|]. destruct (OP fuel) as (rP & RP & mP & GP & DmP); [lia|].
  destruct (P1 fuel) as (q1 & Q1 & En1 & Oq1 & Cq1 & Bq1 & _); [lia|]. destruct (P2 fuel) as (q2 & Q2 & En2 & Oq2 & Cq2 & Bq2 & _); [lia|].
  destruct (PP fuel) as (qP & QP & EnP & OqP & CqP & BqP & HS); [lia|]. destruct (HS _ _ Ov) as (mS & GS & DS).
  exists (mkReading N m1 m2 mP mS (en1 N d) (en2 N d) (enP N d) (occ1 N d) (occ2 N d) (getCoords N q1) (getCoords N q2) (getCoords N qP) (ba1 N d) (ba2 N d) (baP N d)).
  cbn [m_1 m_2 m_P m_S e_1 e_2 e_P h_1 h_2 x_1 x_2 x_P b_1 b_2 b_P].
  split.
  - exists r1, r2, rP, q1, q2, qP. cbn [m_1 m_2 m_P m_S e_1 e_2 e_P h_1 h_2 x_1 x_2 x_P b_1 b_2 b_P]. rewrite S1, S2, SP. repeat (split; [assumption || reflexivity|]). assumption.
  - split; [constructor; cbn [m_1 m_2 m_P m_S e_1 e_2 e_P h_1 h_2 x_1 x_2 x_P b_1 b_2 b_P]|].
    + rewrite E1. exact Dm1.
    + rewrite E2. exact Dm2.
    + rewrite EP, <- WP. exact DmP.
    + exact DS.
    + auto.
    + rewrite EP. repeat split; auto; lia.
    + exact W.
    + rewrite Cq1, Cq2, CqP. split; [apply three_points; auto|]. split; [apply three_points; auto|]. split; [apply three_points; auto|].
      repeat (split; [reflexivity|]). reflexivity.
Qed.
End Job.

(** ** the command line *)
Section Line.
Context (E : env).
Lemma value_unique f d l v v' : value_or f d l v -> value_or f d l v' -> v = v'.
Proof. intros [H|[H ->]] [H'|[H' ->]]; auto; [eapply last_unique; eauto|exfalso; eapply H', last_in; eauto|exfalso; eapply H, last_in; eauto]. Qed.
Lemma number_unique f d l v v' : number_or f d l v -> number_or f d l v' -> v = v'.
Proof.
  intros [(w & H & X)|[H ->]] [(w' & H' & X')|[H' ->]]; auto; [rewrite (last_unique _ _ _ _ H H') in X; congruence|exfalso; eapply H', last_in; eauto|exfalso; eapply H, last_in; eauto].
Qed.
Lemma given_no_notes (P : parser E) l f w : valid P l -> In (f, w) (given l) -> ~ all_notes (words l).
Proof.
  induction l as [|[x g v|x g|x] t IH]; intros V I An; [destruct I| | |]; cbn [valid] in V; unfold words, given in *; cbn [map concat item_words app] in *.
  - inversion An as [|? ? Hx _]; subst. apply (proj1 V). left; auto.
  - inversion An as [|? ? Hx An']; subst. apply (IH (proj2 (proj2 (proj2 (proj2 V)))) I An').
  - inversion An as [|? ? Hx An']; subst. apply (IH (proj2 V) I An').
Qed.
Lemma catnip_post : postParseCheck (catnip E) = Ok tt.
Proof.
  unfold catnip. assert (Ok' : match prepareParser E with Ok P => is_ok (postParseCheck P) | _ => false end = true) by (vm_compute; reflexivity).
  destruct (prepareParser E); try discriminate. destruct (postParseCheck _) as [[]| | | |]; try discriminate. reflexivity.
Qed.
(** the parameters of an accepted line *)
Lemma line_params prog l p : valid (catnip E) l ->
  (forall f w, In f file_flags -> In (f, w) (given l) -> no_white w) -> (forall f, In f file_flags -> once f l) -> asks E l p ->
  exists P p', parse (prog :: words l) (catnip E) = Ok P /\ prepareParameters P = Ok p' /\
    CatnipSpec.files p' = CatnipSpec.files p /\ spinP p' = spinP p /\ spin1 p' = spin1 p /\ spin2 p' = spin2 p /\
    orb_type1 p' = orb_type1 p /\ orb_type2 p' = orb_type2 p /\ orb_num1 p' = orb_num1 p /\ orb_num2 p' = orb_num2 p /\ counterPoise p' = counterPoise p.
Proof.
  intros V Nw On [Hf (Hs1 & Hs2 & Hs3) (Ht1 & Ht2) (Hn1 & Hn2) (Ho1 & Ho2) Hcp].
  assert (G : exists f w, In (f, w) (given l)).
  { destruct (Hf _ _ _ _ _ (or_introl eq_refl)) as ([[L _]|[_ (w & L & _)]] & _); eexists _, _; eapply last_in; exact L. }
  destruct G as (f0 & w0 & G). pose proof (given_no_notes (catnip E) l f0 w0 V G) as Nn.
  destruct (C53_command_line E (catnip E) prog l catnip_regular V Nn) as (P & Hp & _).
  { intros f Rf. left. destruct (post_iff (catnip E) catnip_wf) as [[_ Q]|[Q _]]; [exact (Q f Rf)|]. rewrite catnip_post in Q. discriminate. }
  exists P.
  destruct (C58_complete_partial E prog l P V Hp Nw On) as (p' & Hp').
  - intros own partner exts ext n0 I. unfold CatnipSpec.files in I. cbn [In] in I.
    destruct I as [I|[I|[I|[I|[I|[I|[]]]]]]]; inversion I; subst own partner exts ext n0; eexists; eapply Hf; unfold CatnipSpec.files; cbn [In]; eauto 10.
  - intros ty n Ty Nu. rewrite (value_unique _ _ _ _ _ Ty Ht1), (number_unique _ _ _ _ _ Nu Hn1). exact Ho1.
  - intros ty n Ty Nu. rewrite (value_unique _ _ _ _ _ Ty Ht2), (number_unique _ _ _ _ _ Nu Hn2). exact Ho2.
  - exists p'. split; [exact Hp|]. split; [exact Hp'|].
    destruct (C62_settings E prog l P p' V Hp Hp') as (_ & _ & (A1 & A2 & A3) & (A4 & A5) & (A6 & A7) & A8).
    rewrite (value_unique _ _ _ _ _ A1 Hs1), (value_unique _ _ _ _ _ A2 Hs2), (value_unique _ _ _ _ _ A3 Hs3), (value_unique _ _ _ _ _ A4 Ht1), (value_unique _ _ _ _ _ A5 Ht2), (number_unique _ _ _ _ _ A6 Hn1), (number_unique _ _ _ _ _ A7 Hn2).
    assert (Ecp : counterPoise p' = counterPoise p).
    { destruct (counterPoise p') eqn:X, (counterPoise p) eqn:Y; auto; [pose proof (proj2 Hcp (proj1 A8 eq_refl)); discriminate|pose proof (proj2 A8 (proj1 Hcp eq_refl)); discriminate]. }
    rewrite Ecp. split; [|repeat (split; [reflexivity|]); reflexivity].
    pose proof (C58_resolved_partial E prog l P p' V Hp Nw On Hp') as Hr.
    assert (Eq : forall own partner exts ext n n', In (own, partner, exts, ext, n') (CatnipSpec.files p') -> In (own, partner, exts, ext, n) (CatnipSpec.files p) -> n' = n).
    { intros own partner exts ext n n' I' I. destruct (Hr _ _ _ _ _ I') as (R' & _). destruct (Hf _ _ _ _ _ I) as (R & _). exact (C58_unique E l own partner exts n' n R' R). }
    unfold CatnipSpec.files in Eq |- *. 
    rewrite (Eq $"--pun_P" $"--log_P" pun_exts $".pun" (punP p) (punP p')), (Eq $"--pun_1" $"--log_1" pun_exts $".pun" (pun1 p) (pun1 p')), (Eq $"--pun_2" $"--log_2" pun_exts $".pun" (pun2 p) (pun2 p')),
      (Eq $"--log_P" $"--pun_P" log_exts $".log" (logP p) (logP p')), (Eq $"--log_1" $"--pun_1" log_exts $".log" (log1 p) (log1 p')), (Eq $"--log_2" $"--pun_2" log_exts $".log" (log2 p) (log2 p'));
      cbn [In]; tauto.
Qed.
(** the settings that reach the output *)
Definition same_request (p' p : params) : Prop :=
  CatnipSpec.files p' = CatnipSpec.files p /\ spinP p' = spinP p /\ spin1 p' = spin1 p /\ spin2 p' = spin2 p /\
  orb_type1 p' = orb_type1 p /\ orb_type2 p' = orb_type2 p /\ orb_num1 p' = orb_num1 p /\ orb_num2 p' = orb_num2 p /\ counterPoise p' = counterPoise p.
Lemma main_params {X} N A lab disk (finish : params -> bool -> num N -> num N -> num N -> num N -> X) fuel argv P p : parse argv (catnip E) = Ok P -> prepareParameters P = Ok p ->
  main_with E N A lab disk finish fuel argv = run_job_with N A lab disk finish fuel p.
Proof.
  intros Hp Hpp. unfold main_with.
  exact (eq_trans (f_equal (fun o => bind o (fun Q => bind (parse argv Q) (fun Q => bind (prepareParameters Q) (run_job_with N A lab disk finish fuel)))) catnip_ok)
    (eq_trans (f_equal (fun o => bind o (fun Q => bind (prepareParameters Q) (run_job_with N A lab disk finish fuel))) Hp)
      (f_equal (fun o => bind o (run_job_with N A lab disk finish fuel)) Hpp))).
Qed.
Lemma main_inv {X} N A lab disk (finish : params -> bool -> num N -> num N -> num N -> num N -> X) fuel argv J : main_with E N A lab disk finish fuel argv = Ok J ->
  exists P p, parse argv (catnip E) = Ok P /\ prepareParameters P = Ok p /\ run_job_with N A lab disk finish fuel p = Ok J.
Proof.
  pose proof (catnip_ok (E:=E)) as K. unfold main_with. revert K. generalize (catnip E) as C. generalize (prepareParser E) as Q. intros Q C -> H. cbn [bind] in H.
  apply bind_ok in H as (P & HP & H). apply bind_ok in H as (p & Hp & H). exists P, p. auto.
Qed.
End Line.
Lemma hold_same N disk fuel p p' R : CatnipSpec.files p' = CatnipSpec.files p -> spinP p' = spinP p -> spin1 p' = spin1 p -> spin2 p' = spin2 p ->
  readers_hold N disk fuel p R -> readers_hold N disk fuel p' R.
Proof.
  intros Ef B1 B2 B3 H.
  assert (F : punP p' = punP p /\ pun1 p' = pun1 p /\ pun2 p' = pun2 p /\ logP p' = logP p /\ log1 p' = log1 p /\ log2 p' = log2 p).
  { apply (f_equal (map snd)) in Ef. unfold CatnipSpec.files in Ef. cbn [map snd] in Ef. repeat split; congruence. }
  destruct F as (F1 & F2 & F3 & F4 & F5 & F6). unfold readers_hold. rewrite F1, F2, F3, F4, F5, F6, B1, B2, B3. exact H.
Qed.
