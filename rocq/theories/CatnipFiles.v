(** * File resolution in prepareParameters *)
From Verif Require Export CatnipFacts.
Open Scope Z_scope.

Section Files.
Context {E : env}.

(** a file argument object as CATNIP configures it, with sister extensions [exts] *)
Definition file_obj (a : arg E) (exts : list str) : Prop :=
  a_kind E a = AFile /\ a_int E a = [PropertyFileExist] /\
  a_vec E a = [setPropOption_ $"ALLOWED_SISTER_FILE_EXT" exts PropertySisterFile] /\ exts <> [] /\
  filter (fun e => negb (str_eqb e NOT_DEFINED)) exts = exts.
Lemma pun_obj_ok f : In f pun_flags -> exists a, m_find f (file_arg (catnip E)) = Some a /\ file_obj a log_exts.
Proof. intros I. exists (pun_obj E). split; [apply pun_find; auto|]. repeat (split; [reflexivity|]). split; [discriminate|reflexivity]. Qed.
Lemma log_obj_ok f : In f [$"--log_P"; $"--log_1"; $"--log_2"] -> exists a, m_find f (file_arg (catnip E)) = Some a /\ file_obj a pun_exts.
Proof. intros I. exists (log_obj E). split; [apply log_find; auto|]. repeat (split; [reflexivity|]). split; [discriminate|reflexivity]. Qed.

Lemma sister_opt (P : parser E) f a p o v : wf P -> m_find f (file_arg P) = Some a -> a_vec E a = [p] -> p_kind p = PSister ->
  In o (prop_opts PSister) -> getPropOption p o = Ok v ->
  getFlagArgOptValue P f $"ARGUMENT_FILE" $"PROPERTY_SISTER_FILE" o = Ok (join v).
Proof.
  intros W F A K I G. rewrite (file_some _ _ _ _ _ W F). unfold getPropertyValues.
  destruct (wf_find _ _ _ _ (w_file _ W) F) as [Ka [[S1 _] [S2 _] [S3 _] [S4 _] [S5 _] _]]. rewrite Ka in *. cbn [ki kd kz ks kset] in *.
  apply map_eq_nil in S2, S3, S4. rewrite S2, S3, S4.
  destruct (a_int E a) as [|q [|]]; try discriminate. inversion S1 as [Q]. destruct (a_set E a) as [|q2 [|]]; try discriminate. inversion S5 as [Q2].
  cbn [prop_value]. rewrite Q, Q2, A. cbn [prop_value]. rewrite K.
  assert (X : existsb (str_eqb o) (prop_opts PSister) = true) by (apply existsb_str; exact I). rewrite X.
  change (str_eqb $"PROPERTY_SISTER_FILE" (prop_name PSister)) with true.
  change (str_eqb $"PROPERTY_SISTER_FILE" (prop_name PFileExist)) with false.
  change (str_eqb $"PROPERTY_SISTER_FILE" (prop_name PFileExt)) with false. cbn [andb orelse]. rewrite G. reflexivity.
Qed.

Definition bits (E : env) (paths : list str) : list str := map (fun q => if file_exists E q then s_true else s_false) paths.
(** what the flag [f] says after the line [l] *)
Definition says (P : parser E) (l : list item) (f : str) (exts : list str) : Prop :=
  let get pr o := getFlagArgOptValue P f $"ARGUMENT_FILE" pr o in
  get $"PROPERTY_FILE_EXIST" $"FILE_DOES_EXIST" = Ok (if existsb (file_exists E) (vals f l) then $"1" else $"0") /\
  (vals f l = [] -> get $"PROPERTY_SISTER_FILE" $"SISTER_FILE_EXISTS" = Ok $"false" /\ get $"PROPERTY_SISTER_FILE" $"SISTER_FILE_PATH_NAME" = Ok $"NOT_DEFINED") /\
  (forall w, last_value f l w -> getStr P f = Ok w) /\
  (forall w dir core ext, last_value f l w -> path_is w dir core ext -> let paths := map (fun e => dir ++ core ++ e) exts in
     get $"PROPERTY_SISTER_FILE" $"SISTER_FILE_EXISTS" = Ok (join (bits E paths)) /\
     get $"PROPERTY_SISTER_FILE" $"SISTER_FILE_PATH_NAME" = Ok (join paths)).
Lemma file_says l P f exts a : valid (catnip E) l -> run (catnip E) l P -> alike (catnip E) P -> wf P ->
  m_find f (file_arg (catnip E)) = Some a -> file_obj a exts -> says P l f exts.
Proof.
  intros V R L W F (Ka & Ai & Av & Ne & Fe).
  destruct (run_file _ _ _ _ _ R reg_catnip V F) as (a' & F' & C).
  destruct (chain_exist _ _ _ _ 0 0 Ka C Ai eq_refl eq_refl eq_refl) as (p' & A' & K' & M' & D' & _).
  destruct (chain_sister exts _ _ _ _ C Av eq_refl (get_set _ _ _)) as (q & Q1 & Q2 & Q3 & Q4 & Q5). rewrite Fe in Q5.
  unfold says. cbv zeta. split; [|split; [|split]].
  - rewrite (exist_opt _ _ _ _ $"FILE_DOES_EXIST" _ W F' A' K' (or_intror (or_introl eq_refl)) D'). destruct (existsb _ _); reflexivity.
  - intros Ev. specialize (Q4 Ev). subst q. split.
    + change $"false" with (join [s_false]). apply (sister_opt _ _ _ _ _ [s_false] W F' Q1 Q2); [vm_compute; auto 10|reflexivity].
    + change (Ok $"NOT_DEFINED") with (Ok (join [NOT_DEFINED])). apply (sister_opt _ _ _ _ _ [NOT_DEFINED] W F' Q1 Q2); [vm_compute; auto 10|reflexivity].
  - intros w Lw. pose proof (run_value _ _ _ _ KFile _ R reg_catnip (ex_intro _ a F) V Lw) as S. cbn [stored] in S. unfold getStr. now rewrite S.
  - intros w dir core ext Lw Hp. apply vals_last in Lw as (r & Lw). destruct (Q5 _ _ _ _ _ Lw Hp) as [B1 B2]. unfold bits. rewrite map_map.
    split; eapply sister_opt; eauto; vm_compute; auto 10.
Qed.

(** ** the loop over the sisters *)
Definition upd {V} (o : option V) (k : str) (m : smap V) : smap V := match o with Some v => m_set k v m | None => m end.
Lemma find_upd {V} (o : option V) k k' m : m_find k (upd o k' m) = if str_eqb k k' then orelse o (m_find k m) else m_find k m.
Proof.
  destruct o as [v|]; cbn [upd orelse]; [|destruct (str_eqb k k'); auto].
  destruct (str_eqb_spec k k') as [->|N]; [apply find_set_eq|apply find_set_ne; auto].
Qed.
Definition sis_step (paths : list str) (g : str) (se : str) (st : Z * smap str) : outcome (Z * smap str) :=
  fs <- (if str_eqb se s_true then v <- vat paths (fst st) ;; Ok (m_set g v (snd st)) else Ok (snd st)) ;; Ok (fst st + 1, fs).
(** the last existing one *)
Fixpoint last_existing (ps : list str) : option str :=
  match ps with [] => None | q :: t => orelse (last_existing t) (if file_exists E q then Some q else None) end.
Lemma m_set_twice {V} k (v w : V) m : m_set k v (m_set k w m) = m_set k v m.
Proof.
  induction m as [|[k' v'] t IH]; cbn [m_set]; [rewrite str_eqb_refl; auto|].
  destruct (str_eqb k k') eqn:Q; cbn [m_set]; [rewrite str_eqb_refl; auto|].
  destruct (str_ltb k k') eqn:Lt; cbn [m_set]; [rewrite str_eqb_refl; auto|]. rewrite Q, Lt, IH. auto.
Qed.
Lemma upd_orelse {V} (o o' : option V) k m : upd (orelse o o') k m = upd o k (upd o' k m).
Proof. destruct o as [v|]; cbn [orelse upd]; auto. destruct o' as [w|]; cbn [upd]; auto. now rewrite m_set_twice. Qed.
Lemma sis_loop g ps : forall pre m, for_each (bits E ps) (sis_step (pre ++ ps) g) (Z.of_nat (length pre), m) =
  Ok (Z.of_nat (length (pre ++ ps)), upd (last_existing ps) g m).
Proof.
  induction ps as [|q t IH]; intros pre m; cbn [bits map for_each]; [rewrite app_nil_r; reflexivity|].
  fold (bits E t).
  assert (St : sis_step (pre ++ q :: t) g (if file_exists E q then s_true else s_false) (Z.of_nat (length pre), m) =
    Ok (Z.of_nat (length (pre ++ [q])), upd (if file_exists E q then Some q else None) g m)).
  { unfold sis_step. cbn [fst snd]. rewrite app_length. cbn [length]. replace (Z.of_nat (length pre + 1)) with (Z.of_nat (length pre) + 1) by lia.
    destruct (file_exists E q); [|reflexivity]. change (str_eqb s_true s_true) with true. cbv iota.
    unfold vat. destruct (Z.ltb_spec (Z.of_nat (length pre)) 0); [lia|]. rewrite Nat2Z.id, nth_error_app2, Nat.sub_diag by lia. reflexivity. }
  rewrite St. cbn [bind]. replace (pre ++ q :: t) with ((pre ++ [q]) ++ t) by (rewrite <- app_assoc; reflexivity). rewrite IH.
  cbn [last_existing]. now rewrite upd_orelse.
Qed.
(** in any case the name is one of the words *)
Lemma sis_loop_any g ws bs : forall st st', for_each bs (sis_step ws g) st = Ok st' ->
  exists o, snd st' = upd o g (snd st) /\ forall q, o = Some q -> In q ws.
Proof.
  induction bs as [|b t IH]; intros st st' H; cbn [for_each] in H; [inversion H; subst; exists None; split; [auto|discriminate]|].
  apply bind_ok in H as (s1 & H1 & H). destruct (IH _ _ H) as (o & Ho & Io).
  unfold sis_step in H1. destruct (str_eqb b s_true).
  - apply bind_ok in H1 as (fs & H2 & H1). apply bind_ok in H2 as (v & H3 & H2). inversion H2; subst fs. inversion H1; subst s1. cbn [snd] in Ho.
    exists (orelse o (Some v)). rewrite upd_orelse. split; [exact Ho|]. intros q Hq. destruct o as [u|]; cbn [orelse] in Hq; auto. inversion Hq; subst.
    unfold vat in H3. destruct (_ <? 0); [discriminate|]. destruct (nth_error ws _) eqn:Nt; [|discriminate]. inversion H3; subst. eapply nth_error_In; eauto.
  - inversion H1; subst s1. cbn [snd] in Ho. eauto.
Qed.
Lemma bits_words ps : Forall word (bits E ps).
Proof.
  unfold bits. apply Forall_map, Forall_forall. intros q _. assert (W : forall s, str_eqb s [] = false -> forallb (fun c => negb (is_space c)) s = true -> word s).
  { intros s H1 H2. split; [apply str_eqb_neq in H1; auto|]. intros c I. rewrite forallb_forall in H2. specialize (H2 c I). apply negb_true_iff in H2. now apply is_space_nin. }
  destruct (file_exists E q); apply W; reflexivity.
Qed.
(** ** one pair of flags *)
Definition own_name (l : list item) (f : str) : option str :=
  if existsb (file_exists E) (vals f l) then Some (last (vals f l) []) else None.
(** (the name found for the flag, the name found for its partner) *)
Lemma resolve_says P l f g exts : says P l f exts -> exts <> [] -> (forall w, In (f, w) (given l) -> no_white w) ->
  Forall no_white exts -> Forall (fun e => e <> []) exts ->
  exists sis, (forall m, resolve_flag P (f, g) m = Ok (upd (own_name l f) f (fst m), upd sis g (snd m))) /\
    (vals f l = [] -> sis = None) /\
    (forall w dir core ext, last_value f l w -> path_is w dir core ext -> sis = last_existing (map (fun e => dir ++ core ++ e) exts)).
Proof.
  intros (S1 & S2 & S3 & S4) Ne Nw We We2. unfold resolve_flag.
  assert (Own : forall m : smap str, (if str_eqb (if existsb (file_exists E) (vals f l) then $"1" else $"0") $"1" then s <- getStr P f ;; Ok (m_set f s m) else Ok m) = Ok (upd (own_name l f) f m)).
  { intros m. unfold own_name. destruct (existsb (file_exists E) (vals f l)) eqn:X; [|reflexivity]. cbv iota.
    assert (Nv : vals f l <> []) by (intros C; rewrite C in X; discriminate). destruct (exists_last Nv) as (r & w & Hw).
    rewrite (S3 w) by (apply vals_last; eauto). rewrite Hw, last_last. reflexivity. }
  destruct (last_or_none f l) as [(w & Lw)|Nn].
  - destruct (path_is_exists w) as (dir & core & ext & Hp). exists (last_existing (map (fun e => dir ++ core ++ e) exts)).
    destruct (S4 _ _ _ _ Lw Hp) as [B1 B2]. split; [|split].
    + intros m. rewrite S1. cbn [bind]. rewrite Own. cbn [bind]. rewrite B1, B2. cbn [bind].
      assert (Wd : no_white dir /\ no_white core).
      { assert (no_white w) by (apply Nw, last_in; auto). destruct Hp as (n & -> & _ & _ & -> & _). split; intros c I; apply H; rewrite !in_app_iff; auto. }
      assert (Wp : Forall word (map (fun e => dir ++ core ++ e) exts)).
      { apply Forall_map, Forall_forall. intros e I. rewrite Forall_forall in We, We2. split.
        - intros C. apply app_eq_nil in C as [_ C]. apply app_eq_nil in C as [_ C]. eapply We2; eauto.
        - intros c Hc. rewrite !in_app_iff in Hc. destruct Wd as [W1 W2]. destruct Hc as [Hc|[Hc|Hc]]; [apply W1|apply W2|apply (We e)]; auto. }
      assert (Nm : map (fun e => dir ++ core ++ e) exts <> []) by (intros C; apply map_eq_nil in C; auto).
      rewrite split_join; [|intros C; unfold bits in C; apply map_eq_nil in C; auto|apply bits_words].
      rewrite split_join by auto. pose proof (sis_loop g (map (fun e => dir ++ core ++ e) exts) [] (snd m)) as Lp.
      unfold sis_step in Lp. cbn [app length Z.of_nat] in Lp. rewrite Lp. reflexivity.
    + intros C. apply vals_last in Lw as (r & Lw). rewrite Lw in C. destruct r; discriminate.
    + intros w' dir' core' ext' Lw' Hp'. rewrite (last_unique _ _ _ _ Lw' Lw) in Hp'.
      destruct (S4 _ _ _ _ Lw Hp') as [B1' B2']. rewrite B1 in B1'. rewrite B2 in B2'.
      assert (Same : dir' = dir /\ core' ++ ext' = core ++ ext /\ ext' = ext).
      { destruct Hp as (n & Hn & D1 & D2 & Sn & D3), Hp' as (n' & Hn' & D1' & D2' & Sn' & D3'). rewrite Hn in Hn'.
        assert (Q : dir' = dir /\ n' = n). { pose proof (getPath_ok dir n D2 D1) as G1. pose proof (getPath_ok dir' n' D2' D1') as G2. rewrite Hn' in G1. rewrite G1 in G2. inversion G2; subst. split; auto. apply app_inv_head in Hn'. auto. }
        destruct Q as [-> ->]. split; [auto|]. split; [congruence|].
        assert (T1 : splits_ext n core ext) by (split; auto). assert (T2 : splits_ext n core' ext') by (split; auto).
        destruct (dot_last _ _ _ T1) as [_ E1]. destruct (dot_last _ _ _ T2) as [_ E2]. rewrite E1 in E2. inversion E2; auto. }
      destruct Same as (-> & H & ->). apply app_inv_tail in H. now subst.
  - exists None. pose proof (proj1 (vals_none f l) Nn) as Vn. destruct (S2 Vn) as [B1 B2]. split; [|split; [auto|]].
    + intros m. rewrite S1. cbn [bind]. rewrite Own. cbn [bind]. rewrite B1, B2. reflexivity.
    + intros w dir core ext Lw. exfalso. eapply Nn, last_in; eauto.
Qed.
End Files.
