(** * From the computed names to the specification *)
From Verif Require Export CatnipParams.
Open Scope Z_scope.

Lemma path_is_unique w dir core ext dir' core' ext' : path_is w dir core ext -> path_is w dir' core' ext' -> dir' = dir /\ core' = core /\ ext' = ext.
Proof.
  intros (n & Hn & D1 & D2 & Sn & D3) (n' & Hn' & D1' & D2' & Sn' & D3'). rewrite Hn in Hn'.
  assert (Q : dir' = dir /\ n' = n).
  { pose proof (getPath_ok dir n D2 D1) as G1. pose proof (getPath_ok dir' n' D2' D1') as G2. rewrite Hn' in G1. rewrite G1 in G2. inversion G2; subst. split; auto. apply app_inv_head in Hn'. auto. }
  destruct Q as [-> ->]. split; [auto|].
  assert (T1 : splits_ext n core ext) by (split; auto). assert (T2 : splits_ext n core' ext') by (split; auto).
  destruct (dot_last _ _ _ T1) as [_ E1]. destruct (dot_last _ _ _ T2) as [_ E2]. rewrite E1 in E2. inversion E2; subst ext'.
  split; auto. rewrite Sn in Sn'. apply app_inv_tail in Sn'. auto.
Qed.
Section More.
Context {E : env}.
Lemma last_existing_iff (g : str -> str) exts : forall n,
  last_existing (E:=E) (map g exts) = Some n <->
  exists a e b, exts = a ++ e :: b /\ g e = n /\ file_exists E n = true /\ forall e', In e' b -> file_exists E (g e') = false.
Proof.
  assert (None_iff : forall ex, last_existing (E:=E) (map g ex) = None <-> forall e, In e ex -> file_exists E (g e) = false).
  { induction ex as [|e t IH]; cbn [map last_existing]; [split; [intros _ e []|auto]|].
    destruct (last_existing (map g t)) as [q|] eqn:L; cbn [orelse].
    - split; [discriminate|]. intros H. apply IH. intros; apply H; right; auto.
    - destruct (file_exists E (g e)) eqn:F; [split; [discriminate|intros H; rewrite H in F by (left; auto); discriminate]|].
      split; [|auto]. intros _ e' [<-|I]; [auto|]. apply IH; auto. }
  induction exts as [|e t IH]; intros n; cbn [map last_existing].
  - split; [discriminate|]. intros (a & e & b & H & _). destruct a; discriminate.
  - destruct (last_existing (map g t)) as [q|] eqn:L; cbn [orelse].
    + rewrite IH. split; intros (a & e' & b & H & G1 & G2 & G3).
      * exists (e :: a), e', b. rewrite H. auto.
      * destruct a as [|x a]; inversion H; subst.
        -- exfalso. rewrite (proj2 (None_iff b)) in L by auto. discriminate.
        -- exists a, e', b. auto.
    + split.
      * destruct (file_exists E (g e)) eqn:F; [|discriminate]. intros H; inversion H; subst. exists [], e, t. split; [auto|]. split; [auto|]. split; [auto|]. apply None_iff; auto.
      * intros (a & e' & b & H & G1 & G2 & G3). destruct a as [|x a]; inversion H; subst.
        -- rewrite G2. auto.
        -- exfalso. rewrite (proj1 (None_iff _) L e') in G2; [discriminate|]. apply in_or_app. right. left. auto.
Qed.
Lemma best_sister_iff w dir core ext exts n : path_is w dir core ext ->
  (best_sister E w exts n <-> last_existing (E:=E) (map (fun e => dir ++ core ++ e) exts) = Some n).
Proof.
  intros Hp. rewrite last_existing_iff. unfold best_sister. split; intros (a & e & b & H & S & F & G); exists a, e, b; (split; [auto|]).
  - destruct S as (dir' & core' & ext' & Hp' & ->). destruct (path_is_unique _ _ _ _ _ _ _ Hp Hp') as (-> & -> & ->).
    split; [auto|]. split; [auto|]. intros e' I. apply (G e'); auto. exists dir, core, ext. auto.
  - split; [exists dir, core, ext; auto|]. split; [auto|]. intros e' q I (dir' & core' & ext' & Hp' & ->).
    destruct (path_is_unique _ _ _ _ _ _ _ Hp Hp') as (-> & -> & ->). auto.
Qed.
Lemma own_name_iff l f : once f l ->
  (forall n, own_name (E:=E) l f = Some n <-> last_value f l n /\ file_exists E n = true) /\
  (own_name (E:=E) l f = None <-> forall w, last_value f l w -> file_exists E w = false).
Proof.
  intros On. unfold own_name. destruct (last_or_none f l) as [(w & Lw)|Nn].
  - pose proof Lw as Lw2. apply vals_last in Lw2 as (r & Hr).
    assert (X : existsb (file_exists E) (vals f l) = file_exists E w).
    { destruct (file_exists E w) eqn:F.
      - apply existsb_exists. exists w. split; auto. rewrite Hr. apply in_or_app. right; left; auto.
      - destruct (existsb (file_exists E) (vals f l)) eqn:X; auto. apply existsb_exists in X as (v & I & Fv). apply in_vals in I.
        rewrite (On v w I (last_in _ _ _ Lw)) in Fv. congruence. }
    rewrite X, Hr, last_last. split.
    + intros n. destruct (file_exists E w) eqn:F; split.
      * intros H; inversion H; subst; auto.
      * intros [L _]. f_equal. eapply last_unique; eauto.
      * discriminate.
      * intros [L Fn]. rewrite (last_unique _ _ _ _ L Lw) in Fn. congruence.
    + destruct (file_exists E w) eqn:F; split; try discriminate; auto.
      * intros H. rewrite (H w Lw) in F. discriminate.
      * intros _ w' L. rewrite (last_unique _ _ _ _ L Lw). auto.
  - pose proof (proj1 (vals_none f l) Nn) as Vn. rewrite Vn. cbn [existsb]. split.
    + intros n. split; [discriminate|]. intros [L _]. exfalso. eapply Nn, last_in; eauto.
    + split; auto. intros _ w L. exfalso. eapply Nn, last_in; eauto.
Qed.
Lemma picked_iff l own partner exts sis n : once own l -> sis_name (E:=E) l partner exts sis ->
  (picked (own_name (E:=E) l own) sis = Ok n <-> resolves E l own partner exts n).
Proof.
  intros On [S0 S1]. destruct (own_name_iff l own On) as [O1 O2]. unfold picked, resolves.
  destruct (own_name l own) as [v|] eqn:Ov; cbn [orelse].
  - destruct (proj1 (O1 v) eq_refl) as [Lv Fv]. split.
    + intros H; inversion H; subst. left; auto.
    + intros [[L F]|[N _]]; [f_equal; eapply last_unique; eauto|]. rewrite (N v Lv) in Fv. discriminate.
  - split.
    + destruct sis as [q|] eqn:Q; [|discriminate]. intros H; inversion H; subst. right. split; [apply O2; auto|].
      destruct (last_or_none partner l) as [(w & Lw)|Nn].
      * exists w. split; auto. destruct (path_is_exists w) as (dir & core & ext & Hp). apply (best_sister_iff _ _ _ _ _ _ Hp). rewrite <- (S1 _ _ _ _ Lw Hp). auto.
      * exfalso. apply vals_none in Nn. specialize (S0 Nn). discriminate.
    + intros [[L F]|[_ (w & Lw & B)]]; [exfalso; rewrite (proj1 O2 eq_refl _ L) in F; discriminate|].
      destruct (path_is_exists w) as (dir & core & ext & Hp). apply (best_sister_iff _ _ _ _ _ _ Hp) in B. rewrite <- (S1 _ _ _ _ Lw Hp) in B. rewrite B. auto.
Qed.

(** ** lines accepted by the parser *)
Lemma parsed prog l P : valid (catnip E) l -> parse (prog :: words l) (catnip E) = Ok P ->
  run (catnip E) l P /\ alike (catnip E) P /\ wf P.
Proof.
  intros V H.
  assert (Dn : ~ all_notes (words l)).
  { intros C. destruct (words l) as [|x ws] eqn:Ew; [discriminate|]. rewrite (only_notes (catnip E) prog (x :: ws) reg_catnip) in H by (auto; discriminate). discriminate. }
  destruct (parse_valid (catnip E) prog l reg_catnip V Dn) as (P2 & Rn & L & W & Pe). rewrite Pe in H. apply bind_ok in H as (u & _ & H). inversion H; subst P2. auto.
Qed.

(** ** spins and orbitals *)
Lemma choice_in cs w a' : argValid_str E w (choice_obj E cs) = Ok a' -> In w cs.
Proof.
  unfold argValid_str. cbn [a_int a_size a_str a_set a_vec choice_obj each bind]. intros H.
  apply bind_ok in H as (z & _ & H). apply bind_ok in H as (st & H & _). apply bind_ok in H as (q & H & _).
  change (v_set w (setPropOption_ $"STRING_CHOICES" (set_of cs) (setPropOption_ $"STRING_CHOICE_ENFORCED" [s_true] PropertyStringChoice)))
    with (choice_propValid w (setPropOption_ $"STRING_CHOICES" (set_of cs) (setPropOption_ $"STRING_CHOICE_ENFORCED" [s_true] PropertyStringChoice))) in H.
  unfold choice_propValid in H. rewrite get_set_ne in H by (apply str_eqb_neq; reflexivity). rewrite get_set in H. cbn [bind] in H.
  change (str_eqb s_true s_true) with true in H. cbv iota in H. rewrite get_set in H. cbn [bind] in H.
  destruct (existsb (str_eqb w) (set_of cs)) eqn:X; [|discriminate]. apply existsb_str in X. apply (proj1 (in_set_of w cs)) in X. exact X.
Qed.
Lemma kind_find (P : parser E) f k a k' b : reg P -> m_find f (args_of P k) = Some a -> m_find f (args_of P k') = Some b -> k = k'.
Proof. intros R F F'. eapply (g_kind _ R); eexists; eauto. Qed.
Lemma choice_value l P f cs d : valid (catnip E) l -> run (catnip E) l P -> m_find f (str_arg (catnip E)) = Some (choice_obj E cs) ->
  m_find f (string_values (catnip E)) = Some d -> In d cs ->
  exists v, getStr P f = Ok v /\ value_or f d l v /\ In v cs.
Proof.
  intros V R F Dv Id. destruct (last_or_none f l) as [(w & Lw)|Nn].
  - exists w. pose proof (run_value _ _ _ _ KStr _ R reg_catnip (ex_intro _ _ F) V Lw) as S. cbn [stored] in S. unfold getStr. rewrite S.
    split; [auto|]. split; [left; auto|]. destruct (given_admissible _ _ _ _ V (last_in _ _ _ Lw)) as (k & a & Fk & A).
    assert (k = KStr) by (eapply kind_find; [apply reg_catnip|exact Fk|exact F]). subst k. cbn [args_of] in Fk. rewrite F in Fk. inversion Fk; subst a.
    destruct A as (a' & A). eapply choice_in; eauto.
  - exists d. assert (Ng : not_given f l).
    { split; auto. intros I. assert (K : has_kind (catnip E) f KSwitch).
      { clear - V I. induction l as [|[x g v|x g|x] t IH]; cbn [valid] in V; [destruct I|destruct V as (_ & _ & _ & V); auto| |destruct V as (_ & V); auto].
        destruct V as (_ & _ & K & _ & V). cbn [switched map concat app] in I. destruct I as [->|I]; auto. }
      destruct K as (a & Fa). pose proof (kind_find _ _ KStr _ _ _ reg_catnip F Fa). discriminate. }
    destruct (run_same _ _ _ f R Ng) as (_ & B & _ & _). split; [|split; [right; auto|auto]].
    destruct (run_same _ _ _ f R Ng) as (A1 & B1 & C1 & _). unfold getStr. 
    assert (X : m_find f (string_values P) = Some d) by congruence. rewrite X. auto.
Qed.
Lemma num_value l P f : valid (catnip E) l -> run (catnip E) l P -> m_find f (int_arg (catnip E)) = Some (ArgumentInt E) ->
  m_find f (int_values (catnip E)) = Some 0 -> exists v, getInt P f = Ok v /\ number_or f 0 l v.
Proof.
  intros V R F Dv. destruct (last_or_none f l) as [(w & Lw)|Nn].
  - pose proof (run_value _ _ _ _ KInt _ R reg_catnip (ex_intro _ _ F) V Lw) as (v & S1 & S2). exists v. unfold getInt. rewrite S2. split; [auto|]. left. eauto.
  - exists 0. assert (Ng : not_given f l).
    { split; auto. intros I. assert (K : has_kind (catnip E) f KSwitch).
      { clear - V I. induction l as [|[x g v|x g|x] t IH]; cbn [valid] in V; [destruct I|destruct V as (_ & _ & _ & V); auto| |destruct V as (_ & V); auto].
        destruct V as (_ & _ & K & _ & V). cbn [switched map concat app] in I. destruct I as [->|I]; auto. }
      destruct K as (a & Fa). pose proof (kind_find _ _ KInt _ _ _ reg_catnip F Fa). discriminate. }
    destruct (run_same _ _ _ f R Ng) as (A1 & B1 & C1 & _). split; [|right; auto]. unfold getInt.
    assert (X : m_find f (int_values P) = Some 0) by congruence. rewrite X. auto.
Qed.
Lemma switch_value l P f : valid (catnip E) l -> run (catnip E) l P -> has_kind (catnip E) f KSwitch ->
  m_find f (string_values (catnip E)) = Some $"OFF" -> m_find f (int_values (catnip E)) = None ->
  getInt P f = Ok (if in_dec str_dec f (switched l) then 1 else 0).
Proof.
  intros V R K Dv Dn. destruct (run_switch _ _ _ f R reg_catnip K V) as (A & B & C). unfold getInt.
  destruct (in_dec str_dec f (switched l)) as [I|I]; [rewrite B by auto; auto|]. rewrite C, Dn by auto.
  destruct (run_sizes _ _ _ R) as (_ & _ & _ & _ & _ & ->). destruct K as (a & F). cbn [args_of] in F. rewrite F, A, Dv. reflexivity.
Qed.
Lemma orbital_iff (P : parser E) tf nf ty v n0 t0 : getStr P tf = Ok ty -> In ty [$"HOMO"; $"LUMO"] -> getInt P nf = Ok v ->
  (orbital P tf nf = Ok (t0, n0) <-> t0 = ty /\ n0 = v /\ consistent ty v).
Proof.
  intros G I N. unfold orbital, consistent. rewrite G. cbn [bind]. rewrite N. cbn [bind]. destruct I as [<-|[<-|[]]].
  - change (str_eqb $"HOMO" $"HOMO") with true. cbv iota. destruct (Z.ltb_spec 0 v).
    + split; [discriminate|]. intros (_ & _ & [[_ H0]|[H0 _]]); [lia|discriminate].
    + split; [intros H0; inversion H0; subst; auto|]. intros (-> & -> & _). auto.
  - change (str_eqb $"LUMO" $"HOMO") with false. change (str_eqb $"LUMO" $"LUMO") with true. cbv iota. destruct (Z.ltb_spec v 0).
    + split; [discriminate|]. intros (_ & _ & [[H0 _]|[_ H0]]); [discriminate|lia].
    + split; [intros H0; inversion H0; subst; auto|]. intros (-> & -> & _). auto.
Qed.
End More.
