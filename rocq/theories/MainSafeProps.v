(** * Property C97: calc_J on any command line and any files *)
From Verif Require Export MainSafe MissingProps MainExample ReaderSafeProps MainProps.
From Verif Require Export StrSpec StrModel.
Import ReaderExample.
Open Scope Z_scope.

Lemma run_good E N A lab disk R (finish : params -> bool -> num N -> num N -> num N -> num N -> R) fuel argv : sound_double E -> sound_stod N ->
  good (fun u => exists par, requests E argv par /\ mishap N lab disk fuel par u) any (main_with E N A lab disk finish fuel argv).
Proof.
  intros HE HN. unfold main_with. pose proof (catnip_settled E) as K. unfold requests. pose proof (ex_intro (fun P => prepareParser E = Ok P) (catnip E) catnip_ok) as X. revert K X. generalize (prepareParser E). intros Q K (C & EC).
  assert (G : forall P0, Q = Ok P0 -> good (fun u => exists par, (exists P0 P, Q = Ok P0 /\ parse argv P0 = Ok P /\ prepareParameters P = Ok par) /\ mishap N lab disk fuel par u) any
    (bind (parse argv P0) (fun P => bind (prepareParameters P) (run_job_with N A lab disk finish fuel)))).
  { intros P0 E0. specialize (K P0 E0). pose proof (def_parse E HE argv P0 K) as DP. destruct (parse argv P0) as [P| | |u|] eqn:EP; cbn [bind good]; try exact I; [|destruct (DP u eq_refl)].
    pose proof (def_prepare E P) as Dp. destruct (prepareParameters P) as [par| | |u|] eqn:Ep; cbn [bind good]; try exact I; [|destruct (Dp u eq_refl)].
    pose proof (job_good N A lab disk R finish fuel par HN) as J. destruct (run_job_with _ _ _ _ _ _ _) as [x| | |u|]; cbn [good] in *; auto.
    exists par. split; [exists P0, P; auto|auto]. }
  subst Q. exact (G C eq_refl).
Qed.
Lemma good_undef {X} (U : ubkind -> Prop) (P : X -> Prop) o u : good U P o -> o = Undef u -> U u. Proof. intros G ->. exact G. Qed.
Lemma run_undef E N A lab disk R (finish : params -> bool -> num N -> num N -> num N -> num N -> R) fuel argv u : sound_double E -> sound_stod N ->
  main_with E N A lab disk finish fuel argv = Undef u -> exists par, requests E argv par /\ mishap N lab disk fuel par u.
Proof. intros HE HN H. exact (good_undef _ _ _ u (run_good E N A lab disk R finish fuel argv HE HN) H). Qed.
Lemma main_eq E N A lab disk fuel argv : main E N A lab disk fuel argv = main_with E N A lab disk (J_of_run A) fuel argv. Proof. reflexivity. Qed.
Lemma output_eq E N A lab disk fuel argv pr h version : main_output N A pr h version E lab disk fuel argv = main_with E N A lab disk (lines_of_run N A pr h version) fuel argv. Proof. reflexivity. Qed.
Lemma main_undef E N A lab disk fuel argv u : main E N A lab disk fuel argv = Undef u -> main_with E N A lab disk (J_of_run A) fuel argv = Undef u.
Proof. intros H. rewrite <- main_eq. exact H. Qed.
Lemma output_undef E N A lab disk fuel argv u pr h version : main_output N A pr h version E lab disk fuel argv = Undef u -> main_with E N A lab disk (lines_of_run N A pr h version) fuel argv = Undef u.
Proof. intros H. rewrite <- output_eq. exact H. Qed.
(** ** C97 *)
(** full property: calc_J is free of undefined behaviour; proved: of any but a dimer's log file that is read but has no
    overlap matrix, log files that are read but do not line up, and files that are too large *)
Theorem C97_run_partial : forall E N A lab disk fuel argv u, sound_double E -> sound_stod N ->
  main E N A lab disk fuel argv = Undef u \/ (exists pr h version, main_output N A pr h version E lab disk fuel argv = Undef u) ->
  exists par, requests E argv par /\ mishap N lab disk fuel par u.
Proof.
  intros E N A lab disk fuel argv u HE HN [H|H].
  - exact (run_undef E N A lab disk _ _ fuel argv u HE HN (main_undef E N A lab disk fuel argv u H)).
  - destruct H as (pr & h & version & H). exact (run_undef E N A lab disk _ _ fuel argv u HE HN (output_undef E N A lab disk fuel argv u pr h version H)).
Qed.
Print Assumptions C97_run_partial.
(** nothing is accessed out of bounds, on no command line and for no files *)
Theorem C97_never : forall E N A lab disk fuel argv u, sound_double E -> sound_stod N -> main E N A lab disk fuel argv = Undef u ->
  u = SignedOverflow \/ u = Uninitialised \/ u = BadIterator.
Proof.
  intros E N A lab disk fuel argv u HE HN H. destruct (C97_run_partial E N A lab disk fuel argv u HE HN (or_introl H)) as (par & _ & [[-> _]|[[-> _]|[-> _]]]); auto.
Qed.
Print Assumptions C97_never.
Lemma same_request E argv par par' : requests E argv par -> requests E argv par' -> par = par'.
Proof.
  unfold requests. generalize (prepareParser E). intros Q (P0 & P & E0 & EP & Ep) (P0' & P' & E0' & EP' & Ep').
  rewrite E0 in E0'. assert (P0 = P0') by (clear -E0'; congruence). subst P0'. rewrite EP in EP'. assert (P = P') by (clear -EP'; congruence). subst P'. rewrite Ep in Ep'. clear -Ep'. congruence.
Qed.
(** the request decides: with an overlap matrix and log files that line up, or one of them without populations, memory is safe *)
Theorem C97_safe : forall E N A lab disk fuel argv par l1 l2 lP m, sound_double E -> sound_stod N -> requests E argv par ->
  open_log N disk fuel (log1 par) = Ok l1 -> open_log N disk fuel (log2 par) = Ok l2 -> open_log N disk fuel (logP par) = Ok lP -> getOverlapMatrix N lP = Ok m ->
  lined_up N lab (counterPoise par) l1 l2 lP \/ getBasisFuncCount N l1 = [] \/ getBasisFuncCount N l2 = [] \/ getBasisFuncCount N lP = [] ->
  memory_safe (main E N A lab disk fuel argv).
Proof.
  intros E N A lab disk fuel argv par l1 l2 lP m HE HN Hr E1 E2 E3 Em Hl u H.
  destruct (C97_run_partial E N A lab disk fuel argv u HE HN (or_introl H)) as (par' & Hr' & M). clear H. pose proof (same_request _ _ _ _ Hr Hr') as <-. clear Hr Hr'.
  destruct M as [(_ & lP' & E3' & B)|[(_ & l1' & l2' & lP' & E1' & E2' & E3' & B1 & B2 & B3 & B)|(-> & _)]]; [exfalso..|reflexivity].
  - rewrite E3 in E3'. assert (lP = lP') by (clear -E3'; congruence). subst lP'. rewrite Em in B. discriminate.
  - assert (lP = lP') by (clear -E3 E3'; congruence). assert (l1 = l1') by (clear -E1 E1'; congruence). assert (l2 = l2') by (clear -E2 E2'; congruence). subst. tauto.
Qed.
Print Assumptions C97_safe.
(** and if moreover the files are not too large, nothing undefined happens at all *)
Theorem C97_defined : forall E N A lab disk fuel argv par p1 p2 pP l1 l2 lP m, sound_double E -> sound_stod N -> requests E argv par ->
  open_pun N disk fuel (pun1 par) = Ok p1 -> open_pun N disk fuel (pun2 par) = Ok p2 -> open_pun N disk fuel (punP par) = Ok pP ->
  open_log N disk fuel (log1 par) = Ok l1 -> open_log N disk fuel (log2 par) = Ok l2 -> open_log N disk fuel (logP par) = Ok lP -> getOverlapMatrix N lP = Ok m ->
  lined_up N lab (counterPoise par) l1 l2 lP \/ getBasisFuncCount N l1 = [] \/ getBasisFuncCount N l2 = [] \/ getBasisFuncCount N lP = [] ->
  moderate N par p1 p2 pP l1 l2 lP ->
  forall u, main E N A lab disk fuel argv <> Undef u.
Proof.
  intros E N A lab disk fuel argv par p1 p2 pP l1 l2 lP m HE HN Hr F1 F2 F3 E1 E2 E3 Em Hl Hm u H.
  pose proof (C97_safe E N A lab disk fuel argv par l1 l2 lP m HE HN Hr E1 E2 E3 Em Hl u H) as ->.
  destruct (C97_run_partial E N A lab disk fuel argv _ HE HN (or_introl H)) as (par' & Hr' & M). clear H. pose proof (same_request _ _ _ _ Hr Hr') as <-. clear Hr Hr'.
  destruct M as [(K & _)|[(K & _)|(_ & M)]]; [discriminate K..|]. destruct M as [(name & [<-|[<-|[<-|[]]]] & M)|[(name & [<-|[<-|[<-|[]]]] & M)|(p1' & p2' & pP' & l1' & l2' & lP' & M1 & M2 & M3 & M4 & M5 & M6 & M)]];
    [rewrite E1 in M; discriminate M|rewrite E2 in M; discriminate M|rewrite E3 in M; discriminate M|rewrite F1 in M; discriminate M|rewrite F2 in M; discriminate M|rewrite F3 in M; discriminate M|].
  assert (p1 = p1') by (clear -F1 M1; congruence). assert (p2 = p2') by (clear -F2 M2; congruence). assert (pP = pP') by (clear -F3 M3; congruence).
  assert (lP = lP') by (clear -E3 M6; congruence). assert (l1 = l1') by (clear -E1 M4; congruence). assert (l2 = l2') by (clear -E2 M5; congruence). subst. exact (M Hm).
Qed.
Print Assumptions C97_defined.

(** ** the three ways out are taken by actual files *)
(** monomer 1 with an atom that is not in the dimer *)
Definition carbon_3 : str := $"      1          6           0        0.000000    0.000000    9.670000".
Definition pt3 : num D * num D * num D := ((0, -6), (0, -6), (9670000, -6)).
Definition elsewhere : str := file_of (mono_items carbon_3 pt3).
Theorem C97_run_refuted :
  the_result (without $"m1.log" elsewhere) the_line = Undef BadIterator /\ the_result (without $"runs/dimer.log" no_overlap) the_line = Undef Uninitialised.
Proof. vm_compute. repeat split. Qed.
Print Assumptions C97_run_refuted.
(** the dimer with an overlap matrix of 46341 rows *)
Definition big_disk (n : str) : option str := if str_eqb n $"runs/dimer.log" then Some (text ([] ++ $" *** Overlap ***" :: zeros 46341 ++ []) ++ []) else the_disk n.
Lemma pun_same_disk N d d' name k rows : d' name = d name -> pun_says N d name k rows -> pun_says N d' name k rows.
Proof. intros Hd [H1 (c & items & Hf & H)]. split; [exact H1|]. exists c, items. rewrite Hd. auto. Qed.
Theorem C97_overflow_refuted : exists bound, forall fuel, (bound <= fuel)%nat -> main disk1 D d_arith d_lab big_disk fuel ($"calc_J" :: words the_line) = Undef SignedOverflow.
Proof.
  destruct the_request as (P & p & HP & Hp & _ & Hn & _). destruct the_contain as (k1 & k2 & kP & i1 & i2 & iP & _ & _ & _ & S1 & S2 & SP & _).
  cbn [the_params pun1 pun2 punP] in S1, S2, SP.
  destruct (pun_opens D big_disk _ _ _ (pun_same_disk D the_disk big_disk $"m1.pun" _ _ eq_refl S1)) as [(b1 & O1) _]. destruct (pun_opens D big_disk _ _ _ (pun_same_disk D the_disk big_disk $"m2.pun" _ _ eq_refl S2)) as [(b2 & O2) _].
  destruct (pun_opens D big_disk _ _ _ (pun_same_disk D the_disk big_disk $"runs/dimer.pun" _ _ eq_refl SP)) as [(bP & OP) _].
  assert (Hr : exists r, LogReader_new D $"runs/dimer.log" = Ok r) by (eexists; reflexivity). destruct Hr as (r & Hr).
  destruct (C96_overflow_refuted D $"runs/dimer.log" r big_disk Hr [] $" *** Overlap ***" (zeros 46341) 46341 (fun _ _ => n_mul D (0, -6) (n_pow10 D (0, 0))) [] []) as (b0 & O0);
    [constructor|apply line_b; reflexivity|apply begins_b; reflexivity|split; [lia|change INT_MAX with 2147483647; lia]|apply zeros_table; lia|reflexivity|].
  exists (b0 + b1 + b2 + bP)%nat. intros fuel Hfuel. rewrite main_eq. rewrite (main_params disk1 D d_arith d_lab big_disk (J_of_run d_arith) fuel _ P p HP Hp). clear HP Hp P. unfold run_job_with.
  assert (En : punP p = $"runs/dimer.pun" /\ pun1 p = $"m1.pun" /\ pun2 p = $"m2.pun" /\ logP p = $"runs/dimer.log").
  { unfold names in Hn. pose proof (f_equal (fun l => nth 2 l []) Hn) as A1. pose proof (f_equal (fun l => nth 3 l []) Hn) as A2. pose proof (f_equal (fun l => nth 4 l []) Hn) as A3. pose proof (f_equal (fun l => nth 5 l []) Hn) as A4. cbn [nth] in A1, A2, A3, A4. auto. }
  destruct En as (-> & -> & -> & ->). destruct (OP fuel ltac:(lia)) as (rP & -> & _). destruct (O1 fuel ltac:(lia)) as (r1 & -> & _). destruct (O2 fuel ltac:(lia)) as (r2 & -> & _). cbn [bind].
  unfold open_log at 1. rewrite Hr. cbn [bind]. rewrite (O0 fuel ltac:(lia)). reflexivity.
Qed.
Print Assumptions C97_overflow_refuted.

(** the files of MainExample.v meet the hypotheses of C97_safe *)
Definition among_b {T} (lab : T -> str) (c c' : list (list T)) : bool :=
  forallb (fun i => existsb (fun k => forallb (fun q => match q with (Some x, Some y) => str_eqb x y | _ => false end) (combine (place_of lab c i) (place_of lab c' k)) && (length c =? length c')%nat) (seq 0 (atoms c'))) (seq 0 (atoms c)).
Lemma among_ok {T} (lab : T -> str) c c' : among_b lab c c' = true -> among lab c c'.
Proof.
  intros H i Hi. unfold among_b in H. rewrite forallb_forall in H. specialize (H i ltac:(apply in_seq; lia)). apply existsb_exists in H as (k & Ik & H). apply in_seq in Ik. apply andb_prop in H as [H L]. apply Nat.eqb_eq in L.
  exists k. split; [lia|]. assert (Lp : length (place_of lab c i) = length (place_of lab c' k)) by (unfold place_of; rewrite !map_length; auto). revert H Lp. generalize (place_of lab c i), (place_of lab c' k). clear.
  induction l as [|x l IH]; intros [|y l'] H L; cbn [length combine forallb] in *; try discriminate; [reflexivity|]. apply andb_prop in H as [Hx H]. destruct x as [x|]; [|discriminate]. destruct y as [y|]; [|discriminate].
  apply str_eqb_eq in Hx. rewrite Hx. f_equal. apply IH; auto.
Qed.
Definition opened (name : str) : LogReader D := match open_log D the_disk 3000 name with Ok r => r | _ => mkLogReader D [] None (mkLog D [] [] None [] []) end.
Definition is_ok {X} (o : outcome X) : bool := match o with Ok _ => true | _ => false end.
Lemma opened_ok name : is_ok (open_log D the_disk 3000 name) = true -> open_log D the_disk 3000 name = Ok (opened name).
Proof. unfold opened. destruct (open_log D the_disk 3000 name); [reflexivity|discriminate..]. Qed.
Lemma is_ok_some {X} (o : outcome X) : is_ok o = true -> exists x, o = Ok x. Proof. destruct o; [eauto|discriminate..]. Qed.
Definition opened_p (name : str) : PunReader D := match open_pun D the_disk 3000 name with Ok r => r | _ => mkPunReader D [] None [] end.
Lemma opened_p_ok name : is_ok (open_pun D the_disk 3000 name) = true -> open_pun D the_disk 3000 name = Ok (opened_p name).
Proof. unfold opened_p. destruct (open_pun D the_disk 3000 name); [reflexivity|discriminate..]. Qed.
Definition moderate_b (a b c : str) (p1 p2 pP : PunReader D) (l1 l2 lP : LogReader D) : bool :=
  forallb (fun o => match o with Ok m => (MatrixModel.rows m <=? 46340) && (MatrixModel.cols m <=? 46340) | _ => true end) [getOverlapMatrix D lP; getCoefsMatrix D p1 a; getCoefsMatrix D p2 b; getCoefsMatrix D pP c] &&
  forallb (fun o => match o with Ok e => Z.of_nat (length e) <=? 46340 | _ => true end) [getOE D l1 a; getOE D l2 b; getOE D lP c] &&
  forallb (fun l => Z.of_nat (atoms (getCoords D l)) <=? 46340) [l1; l2; lP] &&
  forallb (fun l => (Z.of_nat (length (getBasisFuncCount D l)) <=? 46340) && forallb (fun k => k <=? 46340) (getBasisFuncCount D l)) [l2; lP].
Lemma moderate_ok par p1 p2 pP l1 l2 lP : moderate_b (spin1 par) (spin2 par) (spinP par) p1 p2 pP l1 l2 lP = true -> moderate D par p1 p2 pP l1 l2 lP.
Proof.
  unfold moderate_b, moderate. intros H. apply andb_prop in H as [H H4]. apply andb_prop in H as [H H3]. apply andb_prop in H as [H1 H2]. rewrite forallb_forall in H1, H2, H3, H4.
  repeat split; apply Forall_forall.
  - intros o Io m ->. specialize (H1 _ Io). cbv beta iota in H1. apply andb_prop in H1 as [Ha Hb]. apply Z.leb_le in Ha, Hb. auto.
  - intros o Io m ->. specialize (H2 _ Io). cbv beta iota in H2. apply Z.leb_le in H2. exact H2.
  - intros l Il. apply Z.leb_le. exact (H3 l Il).
  - intros l Il. specialize (H4 l Il). apply andb_prop in H4 as [Ha Hb]. apply Z.leb_le in Ha. split; [exact Ha|]. apply Forall_forall. intros k Ik. rewrite forallb_forall in Hb. apply Z.leb_le, Hb, Ik.
Qed.
Example C97_example : sound_double disk1 /\ sound_stod D /\
  open_log D the_disk 3000 $"m1.log" = Ok (opened $"m1.log") /\ open_log D the_disk 3000 $"m2.log" = Ok (opened $"m2.log") /\ open_log D the_disk 3000 $"runs/dimer.log" = Ok (opened $"runs/dimer.log") /\
  (exists m, getOverlapMatrix D (opened $"runs/dimer.log") = Ok m) /\ lined_up D d_lab false (opened $"m1.log") (opened $"m2.log") (opened $"runs/dimer.log") /\
  open_pun D the_disk 3000 $"m1.pun" = Ok (opened_p $"m1.pun") /\ open_pun D the_disk 3000 $"m2.pun" = Ok (opened_p $"m2.pun") /\ open_pun D the_disk 3000 $"runs/dimer.pun" = Ok (opened_p $"runs/dimer.pun") /\
  (exists par, requests disk1 ($"calc_J" :: words the_line) par /\ log1 par = $"m1.log" /\ log2 par = $"m2.log" /\ logP par = $"runs/dimer.log" /\
     pun1 par = $"m1.pun" /\ pun2 par = $"m2.pun" /\ punP par = $"runs/dimer.pun" /\ counterPoise par = false /\
     moderate D par (opened_p $"m1.pun") (opened_p $"m2.pun") (opened_p $"runs/dimer.pun") (opened $"m1.log") (opened $"m2.log") (opened $"runs/dimer.log")).
Proof.
  split; [intros s u; cbn [e_stod disk1 CatnipProps.disk]; apply def_stoi|]. split; [intros s u; cbn [n_stod D decimals]; destruct (parse_decimal s); discriminate|].
  do 3 (split; [apply opened_ok; vm_compute; reflexivity|]). split; [|split; [|do 3 (split; [apply opened_p_ok; vm_compute; reflexivity|])]].
  - apply is_ok_some. vm_compute. reflexivity.
  - unfold lined_up. split; [apply among_ok; vm_compute; reflexivity|]. split; [apply among_ok; vm_compute; reflexivity|]. split; apply Nat.leb_le; vm_compute; reflexivity.
  - destruct the_request as (P & p & HP & Hp & _ & Hn & Hs). exists p. split; [exists (catnip disk1), P; split; [exact catnip_ok|split; [exact HP|exact Hp]]|]. clear HP Hp. unfold names in Hn. unfold settings in Hs.
    pose proof (f_equal (fun l => nth 0 l []) Hn) as A1. pose proof (f_equal (fun l => nth 1 l []) Hn) as A2. pose proof (f_equal (fun l => nth 2 l []) Hn) as A3. pose proof (f_equal snd Hs) as A4.
    pose proof (f_equal (fun l => nth 3 l []) Hn) as A5. pose proof (f_equal (fun l => nth 4 l []) Hn) as A6. pose proof (f_equal (fun l => nth 5 l []) Hn) as A7. pose proof (f_equal (fun q => nth 0 (fst (fst (fst q))) []) Hs) as S3.
    pose proof (f_equal (fun q => nth 1 (fst (fst (fst q))) []) Hs) as S1. pose proof (f_equal (fun q => nth 2 (fst (fst (fst q))) []) Hs) as S2. cbn [nth fst snd] in A1, A2, A3, A4, A5, A6, A7, S1, S2, S3.
    do 7 (split; [assumption|]). apply moderate_ok. rewrite S1, S2, S3. vm_compute. reflexivity.
Qed.
