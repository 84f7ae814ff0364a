(** * Properties C52-C57, C76, C78: the argument parser *)
From Verif Require Export ParserMore.
Open Scope Z_scope.

(** ** examples share a small world: doubles are integers, one file exists *)
Definition world : env :=
  {| D := Z; d_lt := Z.ltb; d_lowest := -1000; d_max := 1000; d_text := dec; e_stod := stoi;
     file_exists := fun p => str_eqb p $"runs/dimer.pun" |}.

(** ** C52 *)
Lemma vec_eqb_iff a : forall b, vec_eqb a b = true <-> a = b.
Proof.
  induction a as [|x a IH]; intros [|y b]; cbn [vec_eqb]; try (split; congruence).
  rewrite andb_true_iff, IH, str_eqb_eq. split; [intros [-> ->]; auto|intros H; inversion H; auto].
Qed.
Lemma in_vs_insert k s : forall x, In x (vs_insert k s) <-> x = k \/ In x s.
Proof.
  induction s as [|h t IH]; intros x; cbn [vs_insert]; [cbn; intuition|].
  destruct (vec_eqb k h) eqn:Q; [apply vec_eqb_iff in Q; subst; cbn; intuition|].
  destruct (vec_ltb k h); cbn [In]; [intuition|]. rewrite IH. intuition.
Qed.
Lemma entry_of q e : read q e -> flag_name e = true ->
  In (full_flag e) q /\ is_full (full_flag e) = true /\
  ((In (short_flag e) q /\ is_short (short_flag e) = true) \/ (how_many is_short q = O /\ short_flag e = NO_SHORT)) /\
  ((In (desc e) q /\ is_text (desc e) = true) \/ (how_many is_text q = O /\ desc e = NO_DESC)).
Proof.
  intros (H1 & H2 & H3 & H4 & H5 & H6) F. rewrite F in H4. split; [tauto|]. split; [tauto|]. split.
  - destruct (abbreviation e); auto.
  - destruct (description e); auto.
Qed.
Lemma ctor_spec E (l : list (list str)) : forall P : parser E,
  (Forall good_entry l -> exists P', for_each l read_entry P = Ok P' /\
     (forall f a d, m_find f (flags P') = Some (a, d) -> m_find f (flags P) = Some (a, d) \/ exists items, In items l /\ entry_is items f a d) /\
     (forall f v, m_find f (flags P) = Some v -> exists v', m_find f (flags P') = Some v') /\
     (forall items, In items l -> exists f a d, entry_is items f a d /\ exists v, m_find f (flags P') = Some v)) /\
  (~ Forall good_entry l -> for_each l read_entry P = Throw InvalidArgument).
Proof.
  induction l as [|x t IH]; intros P; cbn [for_each].
  - split; [|intros N; exfalso; auto]. intros _. exists P. split; [auto|]. split; [auto|]. split; [eauto|intros ? []].
  - destruct (read_entry_ok x P) as [G1 G2]. destruct (good_dec x) as [G|G].
    + destruct (G1 G) as (e & R & Fn & P1 & E1 & F1 & _). rewrite E1. cbn [bind]. destruct (IH P1) as [I1 I2]. 
      pose proof (entry_of _ _ R Fn) as En. split.
      * intros Fa. inversion Fa; subst. destruct (I1 H2) as (P' & E2 & A & B & C). exists P'. split; [auto|]. split; [|split].
        -- intros f a d Hf. apply A in Hf as [Hf|(it & I & Hit)]; [|right; exists it; split; [right|]; auto].
           rewrite F1, find_set in Hf. destruct (str_dec f (full_flag e)) as [->|N]; auto.
           right. exists x. split; [left; auto|]. inversion Hf; subst. exact En.
        -- intros f v Hf. destruct (str_dec f (full_flag e)) as [->|N].
           ++ apply (B _ (short_flag e, desc e)). rewrite F1. apply find_set_eq.
           ++ apply (B _ v). rewrite F1, find_set_ne; auto.
        -- intros it [->|I]; auto. exists (full_flag e), (short_flag e), (desc e). split; [exact En|].
           apply (B _ (short_flag e, desc e)). rewrite F1. apply find_set_eq.
      * intros N. apply I2. intros Fa. apply N. constructor; auto.
    + rewrite G2 by auto. cbn [bind]. split; auto. intros Fa. inversion Fa; contradiction.
Qed.
Lemma how_many_in Q l x y : how_many Q l = 1%nat -> In x l -> In y l -> Q x = true -> Q y = true -> x = y.
Proof.
  unfold how_many. intros H Hx Hy Qx Qy.
  assert (Ix : In x (filter Q l)) by (apply filter_In; auto). assert (Iy : In y (filter Q l)) by (apply filter_In; auto).
  destruct (filter Q l) as [|z [|]]; try discriminate. destruct Ix as [->|[]], Iy as [->|[]]. auto.
Qed.
Lemma how_many_0 Q l x : how_many Q l = O -> In x l -> Q x = true -> False.
Proof.
  unfold how_many. intros H I Hq. assert (In x (filter Q l)) by (apply filter_In; auto). destruct (filter Q l); [auto|discriminate].
Qed.
Lemma entry_unique items f a d f' a' d' : good_entry items -> entry_is items f a d -> entry_is items f' a' d' -> f = f' /\ a = a' /\ d = d'.
Proof.
  unfold good_entry, entry_is. set (q := map trim items). intros (G1 & G2 & G3) (A1 & A2 & A3 & A4) (B1 & B2 & B3 & B4).
  split; [apply (how_many_in is_full q); auto|]. split.
  - destruct A3 as [[A5 A6]|[A5 A6]], B3 as [[B5 B6]|[B5 B6]]; try congruence; try (exfalso; exact (how_many_0 is_short q _ B5 A5 A6)); try (exfalso; exact (how_many_0 is_short q _ A5 B5 B6)).
    apply (how_many_in is_short q); auto. destruct (how_many is_short q) as [|[|]] eqn:Hq; auto; [exfalso; exact (how_many_0 is_short q _ Hq A5 A6)|lia].
  - destruct A4 as [[A5 A6]|[A5 A6]], B4 as [[B5 B6]|[B5 B6]]; try congruence; try (exfalso; exact (how_many_0 is_text q _ B5 A5 A6)); try (exfalso; exact (how_many_0 is_text q _ A5 B5 B6)).
    apply (how_many_in is_text q); auto. destruct (how_many is_text q) as [|[|]] eqn:Hq; auto; [exfalso; exact (how_many_0 is_text q _ Hq A5 A6)|lia].
Qed.
Lemma help_good : good_entry [$"--help"; $"-h"; $"Display help message"].
Proof. vm_compute. auto 10. Qed.

(** the constructor accepts exactly the sets of good entries ... *)
Theorem C52_accepts : forall E fl,
  (Forall good_entry fl -> exists P, ArgumentParser E fl = Ok P) /\
  (~ Forall good_entry fl -> ArgumentParser E fl = Throw InvalidArgument).
Proof.
  intros E fl. unfold ArgumentParser. destruct (ctor_spec E (vs_insert help_entry fl) (empty_parser E)) as [A B].
  assert (Q : Forall good_entry (vs_insert help_entry fl) <-> Forall good_entry fl).
  { rewrite !Forall_forall. split; intros H x I; [apply H, in_vs_insert; auto|]. apply in_vs_insert in I as [->|I]; auto. apply help_good. }
  rewrite Q in A, B. split; auto. intros F. destruct (A F) as (P & H & _). eauto.
Qed.
Print Assumptions C52_accepts.
(** ... the flags are those of the entries, with their abbreviations and descriptions, and --help *)
Theorem C52_registers : forall E fl P, ArgumentParser E fl = Ok P ->
  let all := [$"--help"; $"-h"; $"Display help message"] :: fl in
  (forall f a, registered P f a -> exists items d, In items all /\ entry_is items f a d) /\
  (forall items f a d, In items all -> entry_is items f a d ->
     (exists a', registered P f a') /\
     ((forall items' a' d', In items' all -> entry_is items' f a' d' -> items' = items) -> registered P f a)).
Proof.
  intros E fl P H all. unfold ArgumentParser in H.
  assert (M : forall x, In x (vs_insert help_entry fl) <-> In x all).
  { intros x. rewrite in_vs_insert. unfold all, help_entry. cbn [In]. intuition. }
  destruct (ctor_spec E (vs_insert help_entry fl) (empty_parser E)) as [A B].
  assert (G : Forall good_entry (vs_insert help_entry fl)).
  { destruct (Forall_Exists_dec good_entry) with (l := vs_insert help_entry fl) as [F|F]; auto.
    - intros x. unfold good_entry. destruct (Nat.eq_dec (how_many is_full (map trim x)) 1), (le_dec (how_many is_short (map trim x)) 1), (le_dec (how_many is_text (map trim x)) 1);
        try (left; auto; fail); right; intros (? & ? & ?); contradiction.
    - rewrite B in H; [discriminate|]. intros C. apply Exists_exists in F as (x & I & N). rewrite Forall_forall in C. apply N, C; auto. }
  destruct (A G) as (P' & H' & C1 & _ & C2). rewrite H in H'. inversion H'; subst P'. clear A B H'.
  assert (Fw : forall f a d, m_find f (flags P) = Some (a, d) -> exists items, In items all /\ entry_is items f a d).
  { intros f a d F. destruct (C1 f a d F) as [C|(it & I & Hi)]; [discriminate|]. exists it. split; auto. apply M; auto. }
  split.
  - intros f a (d & F). destruct (Fw f a d F) as (it & I & Hi). eauto.
  - intros items f a d I Hi. rewrite Forall_forall in G. assert (Gi : good_entry items) by (apply G, M; auto).
    apply M in I. destruct (C2 _ I) as (f' & a' & d' & Hi' & [a2 d2] & F).
    destruct (entry_unique _ _ _ _ _ _ _ Gi Hi Hi') as (<- & <- & <-). split; [exists a2, d2; auto|].
    intros U. destruct (Fw _ _ _ F) as (it & I2 & Hi2). pose proof (U _ _ _ I2 Hi2). subst it.
    destruct (entry_unique _ _ _ _ _ _ _ Gi Hi Hi2) as (_ & -> & ->). exists d2; auto.
Qed.
Print Assumptions C52_registers.
Example C52_example :
  good_entry [$" --pun_P "; $"-p_P"; $"The dimer"] /\ entry_is [$" --pun_P "; $"-p_P"; $"The dimer"] $"--pun_P" $"-p_P" $"The dimer" /\
  ~ good_entry [$"--a"; $"--b"] /\ ~ good_entry [$"-a"; $"text"] /\ ~ good_entry [$"--a"; $"x"; $"-b"; $"y"].
Proof.
  split; [vm_compute; auto|]. split.
  { unfold entry_is. cbv zeta. split; [vm_compute; auto|]. split; [auto|]. split; left; vm_compute; auto. }
  repeat split; vm_compute; intros (A & B & C); lia.
Qed.

(** ** C53 *)
Theorem C53_command_line : forall E (P : parser E) prog l, regular P -> valid P l -> ~ all_notes (words l) ->
  (forall f, required P f -> found P f \/ exists w, In (f, w) (given l)) ->
  exists P', parse (prog :: words l) P = Ok P' /\
    (forall f w, has_kind P f KStr \/ has_kind P f KFile -> last_value f l w -> getStr P' f = Ok w) /\
    (forall f w v, has_kind P f KInt -> last_value f l w -> stoi w = Ok v -> getInt P' f = Ok v) /\
    (forall f w v, has_kind P f KDouble -> last_value f l w -> e_stod E w = Ok v -> getDouble P' f = Ok v) /\
    (forall f, not_given f l -> getStr P' f = getStr P f /\ getInt P' f = getInt P f /\ getDouble P' f = getDouble P f) /\
    (forall f, getSize_t P' f = getSize_t P f).
Proof.
  intros E P prog l R0 V N Q. pose proof (regular_reg _ R0) as R. destruct (parse_valid P prog l R V N) as (P' & Rn & L & W & Pe).
  exists P'. rewrite Pe. split; [|split; [|split; [|split; [|split]]]].
  - destruct (post_iff P' W) as [[-> _]|[_ (f & Rf & Nf)]]; auto. exfalso. apply Nf.
    destruct (run_required _ _ _ f Rn R W L V) as (A & B & C). apply A in Rf. apply B. destruct (Q f Rf) as [F|(w & I)]; auto.
    right. split; [|exists w; split; auto]. intros F. destruct Rf as (t & Rf & _). rewrite (file_none _ _ _ _ (g_wf _ R) F) in Rf. discriminate.
  - intros f w [K|K] Lw; pose proof (run_value _ _ _ _ _ _ Rn R K V Lw) as S; cbn [stored] in S; unfold getStr; now rewrite S.
  - intros f w v K Lw Sv. pose proof (run_value _ _ _ _ _ _ Rn R K V Lw) as (u & S1 & S2). unfold getInt. rewrite S2. congruence.
  - intros f w v K Lw Sv. pose proof (run_value _ _ _ _ _ _ Rn R K V Lw) as (u & S1 & S2). unfold getDouble. rewrite S2. congruence.
  - intros f Ng. destruct (run_same _ _ _ f Rn Ng) as (A & B & C & D). unfold getStr, getInt, getDouble. rewrite A, B, C.
    change (m_find f (switch_arg P')) with (m_find f (args_of P' KSwitch)). rewrite (D KSwitch). auto.
  - intros f. destruct (run_sizes _ _ _ Rn) as (A & _). unfold getSize_t. now rewrite A.
Qed.
Print Assumptions C53_command_line.
(** conversely only such command lines are accepted, and required files must be given *)
Theorem C53_only_valid : forall E (P : parser E) args P', regular P -> parse args P = Ok P' ->
  exists prog l, args = prog :: words l /\ valid P l /\ ~ all_notes (words l) /\
    forall f, required P f -> found P f \/ exists w, In (f, w) (given l) /\ file_exists E w = true.
Proof.
  intros E P args P' R0 H. pose proof (regular_reg _ R0) as R. destruct (parse_ok _ _ _ R H) as (prog & l & -> & V & N & Rn & Pc).
  exists prog, l. split; [auto|]. split; [auto|]. split; [auto|]. intros f Rf.
  destruct (parse_valid P prog l R V N) as (P2 & Rn2 & L & W & Pe). rewrite Pe in H.
  destruct (post_iff P2 W) as [[Hp Q]|[Hp _]]; rewrite Hp in H; [|discriminate]. cbn [bind] in H. inversion H; subst P2.
  destruct (run_required _ _ _ f Rn2 R W L V) as (A & B & C). pose proof (Q f (proj2 A Rf)) as F. apply B in F as [F|(_ & F)]; auto.
Qed.
Print Assumptions C53_only_valid.
(** a required file that was never given is reported *)
Theorem C53_missing_file : forall E (P : parser E) prog l f, regular P -> valid P l -> ~ all_notes (words l) ->
  required P f -> ~ found P f -> (forall w, ~ In (f, w) (given l)) -> parse (prog :: words l) P = Throw RuntimeError.
Proof.
  intros E P prog l f R0 V N Rf Nf Ng. pose proof (regular_reg _ R0) as R. destruct (parse_valid P prog l R V N) as (P' & Rn & L & W & Pe).
  rewrite Pe. destruct (post_iff P' W) as [[_ Q]|[-> _]]; auto. exfalso.
  destruct (run_required _ _ _ f Rn R W L V) as (A & B & C). pose proof (Q f (proj2 A Rf)) as F. apply B in F as [F|(_ & w & I & _)]; auto. eapply Ng; eauto.
Qed.
Print Assumptions C53_missing_file.
(** a default value is what a flag that is not on the command line returns, and has no other effect *)
Theorem C53_defaults : forall E (P0 : parser E) f prog l, regular P0 -> ~ all_notes (words l) -> not_given f l ->
  (forall v P', let P := setFlagDefaultValue_int f v P0 in valid P l -> parse (prog :: words l) P = Ok P' -> getInt P' f = Ok v) /\
  (forall v P', let P := setFlagDefaultValue_str f v P0 in valid P l -> parse (prog :: words l) P = Ok P' -> getStr P' f = Ok v) /\
  (forall v P', let P := setFlagDefaultValue_dbl f v P0 in valid P l -> parse (prog :: words l) P = Ok P' -> getDouble P' f = Ok v) /\
  (forall v P', let P := setFlagDefaultValue_size f v P0 in valid P l -> parse (prog :: words l) P = Ok P' -> getSize_t P' f = Ok v).
Proof.
  intros E P0 f prog l R N Ng.
  assert (K : forall P : parser E, regular P -> valid P l -> forall P', parse (prog :: words l) P = Ok P' ->
    getStr P' f = getStr P f /\ getInt P' f = getInt P f /\ getDouble P' f = getDouble P f /\ getSize_t P' f = getSize_t P f).
  { intros P R1 V P' H. destruct (parse_valid P prog l (regular_reg _ R1) V N) as (P2 & Rn & _ & W & Pe). rewrite Pe in H.
    assert (P2 = P') by (destruct (post_iff P2 W) as [[Hp _]|[Hp _]]; rewrite Hp in H; cbn [bind] in H; congruence). subst P2.
    destruct (run_same _ _ _ f Rn Ng) as (A & B & C & D). destruct (run_sizes _ _ _ Rn) as (A' & _). unfold getStr, getInt, getDouble, getSize_t. rewrite A, B, C, A'.
    change (m_find f (switch_arg P')) with (m_find f (args_of P' KSwitch)). rewrite (D KSwitch). auto. }
  assert (D : forall P : parser E, built E P -> flags P = flags P0 -> (forall k, args_of P k = args_of P0 k) -> regular P).
  { intros P B Ef Ea. destruct R as [_ R1 R2 R3]. constructor; [exact B| | |].
    - intros w g g'. specialize (R1 w g g'). unfold stands_for, first_with, registered in *. rewrite Ef. exact R1.
    - intros g k k' (a & F) (a' & F'). rewrite Ea in F, F'. apply (R2 g); eexists; eassumption.
    - intros g k (a & F). rewrite Ea in F. destruct (R3 g k (ex_intro _ a F)) as (b & d & Hb). exists b, d. rewrite Ef. exact Hb. }
  pose proof (r_built _ R) as B. split; [|split; [|split]]; intros v P' P V H.
  - destruct (K P (D P (B_def_int f v P0 B) eq_refl ltac:(intros []; reflexivity)) V P' H) as (_ & -> & _ & _). unfold getInt, P. cbn [setFlagDefaultValue_int with_defaults with_ints int_values]. rewrite find_set_eq. reflexivity.
  - destruct (K P (D P (B_def_str f v P0 B) eq_refl ltac:(intros []; reflexivity)) V P' H) as (-> & _ & _ & _). unfold getStr, P. cbn [setFlagDefaultValue_str with_defaults with_strs string_values]. rewrite find_set_eq. reflexivity.
  - destruct (K P (D P (B_def_dbl f v P0 B) eq_refl ltac:(intros []; reflexivity)) V P' H) as (_ & _ & -> & _). unfold getDouble, P. cbn [setFlagDefaultValue_dbl with_defaults with_dbls double_values]. rewrite find_set_eq. reflexivity.
  - destruct (K P (D P (B_def_size f v P0 B) eq_refl ltac:(intros []; reflexivity)) V P' H) as (_ & _ & _ & ->). unfold getSize_t, P. cbn [setFlagDefaultValue_size with_defaults with_sizes size_t_values]. rewrite find_set_eq. reflexivity.
Qed.
Print Assumptions C53_defaults.

(** the hypotheses are met by CATNIP's own parser *)
Definition line1 : list item :=
  [IVal $"-p_P" $"--pun_P" $"runs/dimer.pun"; INote $"-h"; IVal $"--spin_1" $"--spin_1" $"Beta";
   ISw $"-cp" $"--counter_poise"; IVal $"-orb_num_1" $"--orbital_num_1" $"-2"; IVal $"-s_1" $"--spin_1" $"Alpha"].
Lemma line1_valid : valid (catnip world) line1.
Proof. apply validb_ok; [apply catnip_wf|vm_compute; reflexivity]. Qed.
Lemma line1_other : ~ all_notes (words line1).
Proof. intros H. inversion H as [|x l H1 H2]. vm_compute in H1. repeat (destruct H1 as [H1|H1]; [discriminate|]). exact H1. Qed.
Example C53_example : regular (catnip world) /\ valid (catnip world) line1 /\ ~ all_notes (words line1) /\
  last_value $"--spin_1" line1 $"Alpha" /\ not_given $"--spin_2" line1 /\
  (forall P', parse ($"calc_J" :: words line1) (catnip world) = Ok P' ->
     getStr P' $"--spin_1" = Ok $"Alpha" /\ getStr P' $"--spin_2" = Ok $"Alpha" /\ getInt P' $"--orbital_num_1" = Ok (-2) /\ getStr P' $"--pun_P" = Ok $"runs/dimer.pun").
Proof.
  split; [apply catnip_regular|]. split; [apply line1_valid|]. split; [apply line1_other|]. split; [|split].
  - exists [($"--pun_P", $"runs/dimer.pun"); ($"--spin_1", $"Beta"); ($"--orbital_num_1", $"-2")], []. split; [reflexivity|intros w []].
  - split; vm_compute; intuition discriminate.
  - intros P' H. assert (Q : match parse ($"calc_J" :: words line1) (catnip world) with Ok P' => getStr P' $"--spin_1" = Ok $"Alpha" /\ getStr P' $"--spin_2" = Ok $"Alpha" /\ getInt P' $"--orbital_num_1" = Ok (-2) /\ getStr P' $"--pun_P" = Ok $"runs/dimer.pun" | _ => False end) by (vm_compute; auto).
    rewrite H in Q. exact Q.
Qed.

Example C53_defaults_example : let P := setFlagDefaultValue_int $"--orbital_num_2" 3 (catnip world) in
  valid P line1 /\ not_given $"--orbital_num_2" line1 /\
  match parse ($"calc_J" :: words line1) P with Ok P' => getInt P' $"--orbital_num_2" = Ok 3 /\ getInt P' $"--orbital_num_1" = Ok (-2) | _ => False end.
Proof.
  intros P. split; [apply validb_ok; [apply wf_with_defaults, wf_with_ints, catnip_wf|vm_compute; reflexivity]|].
  split; [split; vm_compute; intuition discriminate|]. vm_compute. split; reflexivity.
Qed.

(** ** C54: flags may be spelled either way, whatever follows.
    (The full flag --version and its abbreviation are not interchangeable:
    [respelled] excludes informational words, see C57_v_refuted.) *)
Theorem C54_spelling_partial : forall E (P : parser E) prog l l' rest, regular P -> valid P l -> respelled P l l' ->
  parse (prog :: words l ++ rest) P = parse (prog :: words l' ++ rest) P.
Proof. intros E P prog l l' rest R. apply respell. apply regular_reg; auto. Qed.
Print Assumptions C54_spelling_partial.
(** also at the place where the line goes wrong *)
Theorem C54_at_flag_partial : forall E (P : parser E) prog l x x' f rest, regular P -> valid P l ->
  ~ informational x -> ~ informational x' -> stands_for P x f -> stands_for P x' f ->
  parse (prog :: words l ++ x :: rest) P = parse (prog :: words l ++ x' :: rest) P.
Proof.
  intros E P prog l x x' f rest R0 V N N' Sx Sx'. pose proof (regular_reg _ R0) as R.
  destruct (parse_prefix P prog l x rest R V) as (P1 & f1 & R1 & L & W & F1 & F2 & ->). { intros; exists f; auto. }
  destruct (parse_prefix P prog l x' rest R V) as (P2 & f2 & R2 & _ & _ & _ & F3 & ->). { intros; exists f; auto. }
  assert (P1 = P2).
  { clear - R R1 R2. revert P1 P2 R1 R2 R. revert P. induction l as [|i t IH]; intros P P1 P2 R1 R2 R; inversion R1; subst; inversion R2; subst; auto.
    - match goal with T1 : take ?a _ _ P = Ok _, T2 : take ?b _ _ P = Ok _, _ : run ?q1 t P1, _ : run ?q2 t P2 |- _ =>
        assert (a = b) by (eapply (g_kind _ R); eauto); subst b; assert (q1 = q2) by congruence; subst q2;
        destruct (take_alike _ _ _ _ _ T1 (g_wf _ R)) as [L W] end.
      eapply IH; eauto. eapply alike_reg; eauto.
    - destruct (flip_alike f P (g_wf _ R)) as [L W]. eapply IH; eauto. eapply alike_reg; eauto.
    - eapply IH; eauto. }
  subst P2 f1 f2. assert (R' : reg P1) by (eapply alike_reg; eauto).
  destruct (2 + length (words l) + length rest - length l)%nat as [|n]; [lia|]. rewrite !step_word by auto.
  assert (Q : parseArg_ (length (prog :: words l)) ((prog :: words l) ++ x :: rest) P1 = parseArg_ (length (prog :: words l)) ((prog :: words l) ++ x' :: rest) P1).
  { unfold parseArg_. rewrite !nth_here. rewrite (stands_resolve P1 x f), (stands_resolve P1 x' f) by (auto; apply (alike_stands _ _ _ _ L); auto).
    assert (G : forall i, (length (prog :: words l) <= i)%nat -> nth_error ((prog :: words l) ++ x :: rest) (i + 1) = nth_error ((prog :: words l) ++ x' :: rest) (i + 1)).
    { intros i Hi. rewrite !nth_error_app2 by lia. replace (i + 1 - length (prog :: words l))%nat with (S (i - length (prog :: words l))) by lia. reflexivity. }
    assert (St : forall s : @pstate E, (length (prog :: words l) <= fst (fst s))%nat ->
       parse_str f ((prog :: words l) ++ x :: rest) s = parse_str f ((prog :: words l) ++ x' :: rest) s /\
       parse_switch f ((prog :: words l) ++ x :: rest) s = parse_switch f ((prog :: words l) ++ x' :: rest) s /\
       parse_int f ((prog :: words l) ++ x :: rest) s = parse_int f ((prog :: words l) ++ x' :: rest) s /\
       parse_double f ((prog :: words l) ++ x :: rest) s = parse_double f ((prog :: words l) ++ x' :: rest) s /\
       parse_file f ((prog :: words l) ++ x :: rest) s = parse_file f ((prog :: words l) ++ x' :: rest) s).
    { intros [[j Q] u] Hj. cbn [fst] in Hj. unfold parse_str, parse_switch, parse_int, parse_double, parse_file, nextParameterIsAFlag_, next_word.
      rewrite !G by auto. auto. }
    set (A := (prog :: words l) ++ x :: rest) in *. set (B := (prog :: words l) ++ x' :: rest) in *.
    destruct (St (length (prog :: words l), P1, true) (le_n _)) as (-> & _). destruct (parse_str f B _) as [s1| | | |] eqn:E1; auto. cbn [bind].
    assert (H1 := stage_mono f _ _ _ (or_introl E1)). cbn [fst] in H1.
    destruct (St s1 H1) as (_ & -> & _). destruct (parse_switch f B s1) as [s2| | | |] eqn:E2; auto. cbn [bind].
    assert (H2 := stage_mono f _ _ _ (or_intror (or_introl E2))).
    destruct (St s2 ltac:(lia)) as (_ & _ & -> & _). destruct (parse_int f B s2) as [s3| | | |] eqn:E3; auto. cbn [bind].
    assert (H3 := stage_mono f _ _ _ (or_intror (or_intror (or_introl E3)))).
    destruct (St s3 ltac:(lia)) as (_ & _ & _ & -> & _). destruct (parse_double f B s3) as [s4| | | |] eqn:E4; auto. cbn [bind].
    assert (H4 := stage_mono f _ _ _ (or_intror (or_intror (or_intror (or_introl E4))))).
    destruct (St s4 ltac:(lia)) as (_ & _ & _ & _ & ->). auto. }
  rewrite Q. clear Q. destruct (parseArg_ (length (prog :: words l)) ((prog :: words l) ++ x' :: rest) P1) as [s| | | |] eqn:Pe; auto. cbn [bind]. apply parseArg_mono in Pe.
  replace ((prog :: words l) ++ x :: rest) with (((prog :: words l) ++ [x]) ++ rest) by (rewrite <- app_assoc; reflexivity).
  replace ((prog :: words l) ++ x' :: rest) with (((prog :: words l) ++ [x']) ++ rest) by (rewrite <- app_assoc; reflexivity).
  rewrite (loop_tail n ((prog :: words l) ++ [x]) ((prog :: words l) ++ [x'])); auto; rewrite !app_length; cbn [length] in *; lia.
Qed.
Print Assumptions C54_at_flag_partial.
Example C54_example : exists l', respelled (catnip world) line1 l' /\ l' <> line1 /\ stands_for (catnip world) $"-cp" $"--counter_poise".
Proof.
  exists [IVal $"--pun_P" $"--pun_P" $"runs/dimer.pun"; INote $"-h"; IVal $"-s_1" $"--spin_1" $"Beta";
   ISw $"--counter_poise" $"--counter_poise"; IVal $"-orb_num_1" $"--orbital_num_1" $"-2"; IVal $"-s_1" $"--spin_1" $"Alpha"].
  split; [|split; [intros H; apply (f_equal words) in H; vm_compute in H; discriminate|apply standsb_ok; [apply catnip_wf|vm_compute; reflexivity]]].
  unfold line1.
  constructor; [apply infob_ok; reflexivity|apply standsb_ok; [apply catnip_wf|vm_compute; reflexivity]|].
  constructor.
  constructor; [apply infob_ok; reflexivity|apply standsb_ok; [apply catnip_wf|vm_compute; reflexivity]|].
  constructor; [apply infob_ok; reflexivity|apply standsb_ok; [apply catnip_wf|vm_compute; reflexivity]|].
  constructor; [apply infob_ok; reflexivity|apply standsb_ok; [apply catnip_wf|vm_compute; reflexivity]|].
  constructor; [apply infob_ok; reflexivity|apply standsb_ok; [apply catnip_wf|vm_compute; reflexivity]|].
  constructor.
Qed.

(** ** C55 *)
Theorem C55_unknown_word : forall E (P : parser E) prog l x rest, regular P -> valid P l ->
  ~ informational x -> ~ a_flag P x -> parse (prog :: words l ++ x :: rest) P = Throw InvalidArgument.
Proof. intros E P prog l x rest R V N F. apply unknown_word; auto; [apply regular_reg; auto|]. intros f k S. exfalso. apply F. exists f; auto. Qed.
Print Assumptions C55_unknown_word.
(** a registered flag that never got an argument is as good as unknown *)
Theorem C55_flag_without_argument : forall E (P : parser E) prog l x rest, regular P -> valid P l ->
  ~ informational x -> (forall f k, stands_for P x f -> ~ has_kind P f k) -> parse (prog :: words l ++ x :: rest) P = Throw InvalidArgument.
Proof. intros E P prog l x rest R V N F. apply unknown_word; auto. apply regular_reg; auto. Qed.
Print Assumptions C55_flag_without_argument.
Theorem C55_value_missing : forall E (P : parser E) prog l x f k, regular P -> valid P l ->
  ~ informational x -> stands_for P x f -> has_kind P f k -> k <> KSwitch -> parse (prog :: words l ++ [x]) P = Throw RuntimeError.
Proof. intros E P prog l x f k R. apply value_missing. apply regular_reg; auto. Qed.
Print Assumptions C55_value_missing.
Theorem C55_value_rejected : forall E (P : parser E) prog l x f k w rest, regular P -> valid P l ->
  ~ informational x -> stands_for P x f -> has_kind P f k -> k <> KSwitch -> ~ admissible P f w ->
  forall P', parse (prog :: words l ++ x :: w :: rest) P <> Ok P'.
Proof. intros E P prog l x f k w rest R. apply value_bad. apply regular_reg; auto. Qed.
Print Assumptions C55_value_rejected.
Theorem C55_empty_line : forall E (P : parser E) prog, parse [prog] P = Throw RuntimeError.
Proof. reflexivity. Qed.
Print Assumptions C55_empty_line.
Example C55_example : ~ informational $"--spin_3" /\ ~ a_flag (catnip world) $"--spin_3" /\
  parse [$"calc_J"; $"-s_1"; $"Beta"; $"--spin_3"; $"Alpha"] (catnip world) = Throw InvalidArgument /\
  parse [$"calc_J"; $"-s_1"] (catnip world) = Throw RuntimeError /\
  ~ admissible (catnip world) $"--spin_1" $"Gamma".
Proof.
  split; [apply infob_ok; reflexivity|]. split.
  { intros F. apply is_a_flag_iff in F; [|apply catnip_wf]. vm_compute in F. discriminate. }
  split; [apply throws_ok; vm_compute; reflexivity|]. split; [apply throws_ok; vm_compute; reflexivity|].
  apply admissibleb_no. vm_compute. reflexivity.
Qed.

(** ** C56 *)
(** proved: a switch given without value is on *)
Theorem C56_switch_on_partial : forall E (P : parser E) prog l f P', regular P -> valid P l -> parse (prog :: words l) P = Ok P' ->
  has_kind P f KSwitch -> (In f (switched l) -> getInt P' f = Ok 1) /\ (~ In f (switched l) -> getInt P' f = getInt P f).
Proof.
  intros E P prog l f P' R0 V H K. pose proof (regular_reg _ R0) as R.
  assert (Dn : ~ all_notes (words l)).
  { intros C. destruct (words l) as [|x ws] eqn:Ew; [discriminate|]. rewrite (only_notes P prog (x :: ws)) in H by (auto; discriminate). discriminate. }
  destruct (parse_valid P prog l R V Dn) as (P2 & Rn & L & W & Pe). rewrite Pe in H. apply bind_ok in H as (u & _ & H). inversion H; subst P2.
  destruct (run_switch _ _ _ f Rn R K V) as (A & B & C). unfold getInt. split.
  - intros I. now rewrite B.
  - intros I. rewrite C, A by auto. destruct (run_sizes _ _ _ Rn) as (_ & _ & _ & _ & _ & ->). reflexivity.
Qed.
Print Assumptions C56_switch_on_partial.
(** refuted: a switch followed by a value is never accepted, whatever the parser and the rest of the line *)
Theorem C56_switch_value_refuted : forall E (P : parser E) prog l x f w rest, regular P -> valid P l ->
  ~ informational x -> stands_for P x f -> has_kind P f KSwitch -> bool_word w -> ~ a_flag P w ->
  parse (prog :: words l ++ x :: w :: rest) P = Throw InvalidArgument.
Proof.
  intros E P prog l x f w rest R V N S K B F.
  replace (words l ++ x :: w :: rest) with (words (l ++ [ISw x f]) ++ w :: rest) by (rewrite words_app, <- app_assoc; reflexivity).
  apply C55_unknown_word; auto; [apply valid_snoc; auto|apply bool_not_info; auto].
Qed.
Print Assumptions C56_switch_value_refuted.
Example C56_example : has_kind (catnip world) $"--counter_poise" KSwitch /\ In $"--counter_poise" (switched line1) /\ bool_word $"ON" /\ ~ a_flag (catnip world) $"ON".
Proof.
  split; [apply has_keys; [apply catnip_wf|vm_compute; auto 10]|]. split; [vm_compute; auto|]. split; [left; auto|].
  intros F. apply is_a_flag_iff in F; [|apply catnip_wf]. vm_compute in F. discriminate.
Qed.

(** ** C57 *)
Theorem C57_only_notes_partial : forall E (P : parser E) prog ws, regular P -> all_notes ws -> ws <> [] -> parse (prog :: ws) P = Exit 0.
Proof. intros E P prog ws R. apply only_notes. apply regular_reg; auto. Qed.
Print Assumptions C57_only_notes_partial.
Theorem C57_version_partial : forall E (P : parser E) prog l x rest, regular P -> valid P l -> version x ->
  (forall y f t, l = t ++ [ISw y f] -> a_flag P x) -> parse (prog :: words l ++ x :: rest) P = Exit 0.
Proof. intros E P prog l x rest R. apply version_exits. apply regular_reg; auto. Qed.
Print Assumptions C57_version_partial.
(** refuted: CATNIP advertises -v for --version, but it does not stop the process *)
Theorem C57_v_refuted : forall E prog, registered (catnip E) $"--version" $"-v" /\
  exists P', parse [prog; $"-v"] (catnip E) = Ok P' /\ getInt P' $"--version" = Ok 1.
Proof.
  intros E prog. split; [eexists; vm_compute; reflexivity|].
  assert (Q : match parse [prog; $"-v"] (catnip E) with Ok P' => getInt P' $"--version" = Ok 1 | _ => False end) by (vm_compute; reflexivity).
  destruct (parse [prog; $"-v"] (catnip E)); try contradiction. eauto.
Qed.
Print Assumptions C57_v_refuted.
Example C57_example : all_notes [$"-h"; $"--citation"] /\ version $"--version" /\ a_flag (catnip world) $"--version".
Proof.
  split; [constructor; [vm_compute; auto|constructor; [vm_compute; auto|constructor]]|]. split; [left; auto|].
  apply is_a_flag_iff; [apply catnip_wf|vm_compute; reflexivity].
Qed.

(** ** C76 *)
(** proved: when no text was configured for the switch the two views agree *)
Theorem C76_views_partial : forall E (P : parser E) prog l f P', regular P -> valid P l -> parse (prog :: words l) P = Ok P' ->
  has_kind P f KSwitch -> getStr P f = Throw InvalidArgument ->
  (In f (switched l) -> getInt P' f = Ok 1 /\ getStr P' f = Ok $"ON") /\
  (~ In f (switched l) -> getInt P' f = Throw InvalidArgument /\ getStr P' f = Throw InvalidArgument).
Proof.
  intros E P prog l f P' R0 V H K G. pose proof (regular_reg _ R0) as R.
  assert (Dn : ~ all_notes (words l)).
  { intros C. destruct (words l) as [|x ws] eqn:Ew; [discriminate|]. rewrite (only_notes P prog (x :: ws)) in H by (auto; discriminate). discriminate. }
  destruct (parse_valid P prog l R V Dn) as (P2 & Rn & L & W & Pe). rewrite Pe in H. apply bind_ok in H as (u & _ & H). inversion H; subst P2.
  destruct (run_switch _ _ _ f Rn R K V) as (A & B & C). destruct (run_sizes _ _ _ Rn) as (_ & _ & _ & _ & _ & Sw).
  destruct K as (a & F). cbn [args_of] in F. unfold getStr in G. rewrite F in G.
  destruct (m_find f (string_values P)) eqn:E1; [discriminate|]. destruct (m_find f (int_values P)) eqn:E2; [discriminate|].
  unfold getInt, getStr. rewrite A, Sw, F. split; intros I; [rewrite B by auto|rewrite C by auto]; auto.
Qed.
Print Assumptions C76_views_partial.
(** a switch that is not given keeps both views *)
Theorem C76_not_given : forall E (P : parser E) prog l f P', regular P -> valid P l -> parse (prog :: words l) P = Ok P' ->
  has_kind P f KSwitch -> ~ In f (switched l) -> getInt P' f = getInt P f /\ getStr P' f = getStr P f.
Proof.
  intros E P prog l f P' R0 V H K I. pose proof (regular_reg _ R0) as R.
  assert (Dn : ~ all_notes (words l)).
  { intros C. destruct (words l) as [|x ws] eqn:Ew; [discriminate|]. rewrite (only_notes P prog (x :: ws)) in H by (auto; discriminate). discriminate. }
  destruct (parse_valid P prog l R V Dn) as (P2 & Rn & L & W & Pe). rewrite Pe in H. apply bind_ok in H as (u & _ & H). inversion H; subst P2.
  destruct (run_switch _ _ _ f Rn R K V) as (A & B & C). destruct (run_sizes _ _ _ Rn) as (_ & _ & _ & _ & _ & Sw).
  unfold getInt, getStr. rewrite A, Sw, C by auto. auto.
Qed.
Print Assumptions C76_not_given.
(** proved: with a default number they agree *)
Theorem C76_number_partial : forall E (P0 : parser E) prog l f v P', let P := setFlagDefaultValue_int f v P0 in
  getStr P0 f = Throw InvalidArgument -> regular P -> valid P l -> parse (prog :: words l) P = Ok P' -> has_kind P f KSwitch ->
  (In f (switched l) -> getInt P' f = Ok 1 /\ getStr P' f = Ok $"ON") /\
  (~ In f (switched l) -> getInt P' f = Ok v /\ getStr P' f = Ok (if v =? 1 then $"ON" else $"OFF")).
Proof.
  intros E P0 prog l f v P' P G R0 V H K. pose proof (regular_reg _ R0) as R.
  assert (Dn : ~ all_notes (words l)).
  { intros C. destruct (words l) as [|x ws] eqn:Ew; [discriminate|]. rewrite (only_notes P prog (x :: ws)) in H by (auto; discriminate). discriminate. }
  destruct (parse_valid P prog l R V Dn) as (P2 & Rn & L & W & Pe). rewrite Pe in H. apply bind_ok in H as (u & _ & H). inversion H; subst P2.
  destruct (run_switch _ _ _ f Rn R K V) as (A & B & C). destruct (run_sizes _ _ _ Rn) as (_ & _ & _ & _ & _ & Sw).
  destruct K as (a & F). cbn [args_of] in F.
  assert (T : m_find f (int_values P) = Some v) by apply find_set_eq. assert (T2 : m_find f (string_values P) = None).
  { change (string_values P) with (string_values P0). unfold getStr in G. destruct (m_find f (string_values P0)); [discriminate|auto]. }
  unfold getInt, getStr. rewrite A, Sw, F, T2. split; intros I; [rewrite B by auto|rewrite C, T by auto]; auto.
Qed.
Print Assumptions C76_number_partial.
(** refuted: a default text t always wins over the command line, so the views contradict each other whenever the switch is given and t is not ON *)
Theorem C76_views_refuted : forall E (P0 : parser E) prog l f t P', let P := setFlagDefaultValue_str f t P0 in
  regular P -> valid P l -> parse (prog :: words l) P = Ok P' -> has_kind P f KSwitch ->
  getStr P' f = Ok t /\ (In f (switched l) -> getInt P' f = Ok 1).
Proof.
  intros E P0 prog l f t P' P R0 V H K. pose proof (regular_reg _ R0) as R.
  assert (Dn : ~ all_notes (words l)).
  { intros C. destruct (words l) as [|x ws] eqn:Ew; [discriminate|]. rewrite (only_notes P prog (x :: ws)) in H by (auto; discriminate). discriminate. }
  destruct (parse_valid P prog l R V Dn) as (P2 & Rn & L & W & Pe). rewrite Pe in H. apply bind_ok in H as (u & _ & H). inversion H; subst P2.
  destruct (run_switch _ _ _ f Rn R K V) as (A & B & C).
  assert (T : m_find f (string_values P) = Some t) by apply find_set_eq.
  unfold getInt, getStr. rewrite A, T. split; [auto|]. intros I. rewrite B by auto. auto.
Qed.
Print Assumptions C76_views_refuted.
(** a default text is also read as a number: 1 for ON, TRUE and 1, 0 for OFF, FALSE and 0, an exception for any other text *)
Theorem C76_text : forall E (P0 : parser E) prog l f t P', let P := setFlagDefaultValue_str f t P0 in
  getStr P0 f = Throw InvalidArgument -> regular P -> valid P l -> parse (prog :: words l) P = Ok P' -> has_kind P f KSwitch -> ~ In f (switched l) ->
  getStr P' f = Ok t /\
  (In t [$"ON"; $"TRUE"; $"1"] -> getInt P' f = Ok 1) /\ (In t [$"OFF"; $"FALSE"; $"0"] -> getInt P' f = Ok 0) /\ (~ bool_word t -> getInt P' f = Throw InvalidArgument).
Proof.
  intros E P0 prog l f t P' P G R V H K N. destruct (C76_not_given E P prog l f P' R V H K N) as [A B].
  assert (T : m_find f (string_values P) = Some t) by apply find_set_eq. destruct K as (a & K). cbn [args_of] in K.
  assert (I : m_find f (int_values P) = None).
  { change (int_values P) with (int_values P0). unfold getStr in G. destruct (m_find f (string_values P0)); [discriminate|]. change (switch_arg P) with (switch_arg P0) in K. rewrite K in G. destruct (m_find f (int_values P0)); [discriminate|reflexivity]. }
  assert (Gi : getInt P f = (b <- positive_str t ;; Ok (if b : bool then 1 else 0))) by (unfold getInt; rewrite I, K, T; reflexivity).
  rewrite A, B, Gi. split; [unfold getStr; rewrite T; reflexivity|]. split; [|split].
  - cbn [In]. intros [<-|[<-|[<-|[]]]]; reflexivity.
  - cbn [In]. intros [<-|[<-|[<-|[]]]]; reflexivity.
  - intros Nb. unfold positive_str. destruct (existsb (str_eqb t) [$"ON"; $"TRUE"; $"1"]) eqn:E1; [exfalso; apply Nb, (positive_bool t true); unfold positive_str; rewrite E1; reflexivity|].
    destruct (existsb (str_eqb t) [$"OFF"; $"FALSE"; $"0"]) eqn:E2; [exfalso; apply Nb, (positive_bool t false); unfold positive_str; rewrite E1, E2; reflexivity|reflexivity].
Qed.
Print Assumptions C76_text.
(** in CATNIP's own parser *)
Theorem C76_counter_poise_refuted : forall E prog, exists P', parse [prog; $"-cp"] (catnip E) = Ok P' /\
  getInt P' $"--counter_poise" = Ok 1 /\ getStr P' $"--counter_poise" = Ok $"OFF".
Proof.
  intros E prog.
  assert (Q : match parse [prog; $"-cp"] (catnip E) with Ok P' => getInt P' $"--counter_poise" = Ok 1 /\ getStr P' $"--counter_poise" = Ok $"OFF" | _ => False end) by (vm_compute; auto).
  destruct (parse [prog; $"-cp"] (catnip E)); try contradiction. eauto.
Qed.
Print Assumptions C76_counter_poise_refuted.

(** a parser with one switch, without text, with a number, with a text *)
Definition loud_made : outcome (parser world) := P <- ArgumentParser world [[$"--loud"; $"-l"; $"say more"]] ;; addFlagArg $"--loud" $"ARGUMENT_SWITCH" P.
Definition loud : parser world := match loud_made with Ok P => P | _ => empty_parser world end.
Lemma loud_built : built world loud.
Proof.
  assert (H : loud_made = Ok loud). { unfold loud. assert (Ok' : is_ok loud_made = true) by (vm_compute; reflexivity). destruct loud_made; try discriminate. reflexivity. }
  unfold loud_made in H. apply bind_ok in H as (P & H1 & H2). eapply B_add; [|exact H2]. eapply B_new. exact H1.
Qed.
Example C76_example : let l := [ISw $"-l" $"--loud"] in
  getStr loud $"--loud" = Throw InvalidArgument /\ has_kind loud $"--loud" KSwitch /\
  forall P, P = loud \/ P = setFlagDefaultValue_int $"--loud" 0 loud \/ P = setFlagDefaultValue_str $"--loud" $"OFF" loud ->
  regular P /\ valid P l /\ is_ok (parse ($"prog" :: words l) P) = true.
Proof.
  cbv zeta. split; [vm_compute; reflexivity|]. split; [apply has_keys; [apply built_wf, loud_built|apply existsb_str; vm_compute; reflexivity]|].
  assert (G : forall P, built world P -> regularb P && validb P [ISw $"-l" $"--loud"] && is_ok (parse [$"prog"; $"-l"] P) = true ->
    regular P /\ valid P [ISw $"-l" $"--loud"] /\ is_ok (parse ($"prog" :: words [ISw $"-l" $"--loud"]) P) = true).
  { intros P B H. apply andb_true_iff in H as [H H3]. apply andb_true_iff in H as [H1 H2]. split; [apply regularb_ok; auto|]. split; [apply validb_ok; [apply built_wf|]; auto|exact H3]. }
  intros P [->|[->| ->]]; (apply G; [first [apply loud_built|apply B_def_int, loud_built|apply B_def_str, loud_built]|vm_compute; reflexivity]).
Qed.

(** ** C78 *)
(** refuted: on a parser built in any way, no configuration call reaches the length limits *)
Theorem C78_limits_refuted : forall E (P : parser E) f property opt, built E P ->
  (forall v, setFlagArgOpt_int f $"ARGUMENT_STRING" property opt v P = Throw InvalidArgument) /\
  (forall v, setFlagArgOpt_dbl f $"ARGUMENT_STRING" property opt v P = Throw InvalidArgument) /\
  (forall v, setFlagArgOpt_str f $"ARGUMENT_STRING" $"PROPERTY_STRING" opt v P = Throw InvalidArgument) /\
  (forall v, setFlagArgOpt_set f $"ARGUMENT_STRING" $"PROPERTY_STRING" opt v P = Throw InvalidArgument) /\
  (forall v, setFlagArgOpt_vec f $"ARGUMENT_STRING" property opt v P = Throw InvalidArgument).
Proof.
  intros E P f pr o B. pose proof (built_wf _ B) as W.
  set (a := match m_find f (str_arg P) with Some a => a | None => ArgumentString E end).
  assert (Sh : shape a /\ a_kind E a = AString).
  { unfold a. destruct (m_find f (str_arg P)) as [b|] eqn:F; [destruct (wf_find _ _ _ _ (w_str _ W) F); auto|split; [apply new_string|reflexivity]]. }
  destruct Sh as [[S1 S2 S3 S4 S5 S6] K]. rewrite K in *. cbn [ki kd kz ks kset kv] in *.
  destruct S1 as [S1 _], S2 as [S2 _], S5 as [S5 _]. apply map_eq_nil in S1, S2.
  destruct (a_set E a) as [|p [|q t]] eqn:Ea; try discriminate. inversion S5 as [Kp].
  assert (U : forall g : arg E -> outcome (arg E), g a = Throw InvalidArgument -> update_arg (ArgumentString E) f g (str_arg P) = Throw InvalidArgument).
  { intros g Hg. unfold update_arg. fold a. rewrite Hg. reflexivity. }
  split; [|split; [|split; [|split]]]; intros v.
  - change (setFlagArgOpt_int f $"ARGUMENT_STRING" pr o v P) with
      (m <- update_arg (ArgumentString E) f (setArgPropertyOpt_int E pr o v) (str_arg P) ;; Ok (with_str m P)).
    rewrite U; auto. unfold setArgPropertyOpt_int. rewrite S1. reflexivity.
  - change (setFlagArgOpt_dbl f $"ARGUMENT_STRING" pr o v P) with
      (m <- update_arg (ArgumentString E) f (setArgPropertyOpt_dbl E pr o v) (str_arg P) ;; Ok (with_str m P)).
    rewrite U; auto. unfold setArgPropertyOpt_dbl. rewrite S2. reflexivity.
  - change (setFlagArgOpt_str f $"ARGUMENT_STRING" $"PROPERTY_STRING" o v P) with
      (m <- update_arg (ArgumentString E) f (setArgPropertyOpt_set E $"PROPERTY_STRING" o [v]) (str_arg P) ;; Ok (with_str m P)).
    rewrite U; auto. unfold setArgPropertyOpt_set. rewrite Ea. cbn [set_in]. rewrite Kp. reflexivity.
  - change (setFlagArgOpt_set f $"ARGUMENT_STRING" $"PROPERTY_STRING" o v P) with
      (m <- update_arg (ArgumentString E) f (setArgPropertyOpt_set E $"PROPERTY_STRING" o v) (str_arg P) ;; Ok (with_str m P)).
    rewrite U; auto. unfold setArgPropertyOpt_set. rewrite Ea. cbn [set_in]. rewrite Kp. reflexivity.
  - reflexivity.
Qed.
Print Assumptions C78_limits_refuted.
Example C78_example : built world (catnip world).
Proof. apply built_prepare, catnip_ok. Qed.
