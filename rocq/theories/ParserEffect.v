(** * What a valid command line does to the getters *)
From Verif Require Export ParserLine.
Open Scope Z_scope.

Section Effect.
Context {E : env}.
Implicit Types (P : parser E) (a : arg E).
Ltac bk H x := apply bind_ok in H as (x & ?H & H).

(** ** the check after parsing *)
Lemma checks_two {A} (l : list A) (g : A -> outcome unit) e : (forall x, In x l -> g x = Ok tt \/ g x = Throw e) ->
  (for_each l (fun x _ => g x) tt = Ok tt /\ forall x, In x l -> g x = Ok tt) \/
  (for_each l (fun x _ => g x) tt = Throw e /\ exists x, In x l /\ g x <> Ok tt).
Proof.
  induction l as [|x t IH]; intros H; [left; split; [reflexivity|intros ? []]|]. cbn [for_each].
  destruct (H x (or_introl eq_refl)) as [Hx|Hx]; rewrite Hx; cbn [bind].
  - destruct IH as [[A1 A2]|[A1 (y & A2 & A3)]]; [intros; apply H; right; auto| |].
    + left. split; auto. intros z [->|Z]; auto.
    + right. split; auto. exists y. split; [right|]; auto.
  - right. split; auto. exists x. split; [left; auto|congruence].
Qed.
Lemma file_props P f a : wf P -> m_find f (file_arg P) = Some a ->
  exists p must does, a_int E a = [p] /\ p_kind p = PFileExist /\
    getPropOption p $"FILE_MUST_EXIST" = Ok must /\ getPropOption p $"FILE_DOES_EXIST" = Ok does.
Proof.
  intros W F. destruct (wf_find _ _ _ _ (w_file _ W) F) as [K [[S1 S2] _ _ _ _ _]]. rewrite K in S1. cbn [ki] in S1.
  destruct (a_int E a) as [|p [|q t]]; try discriminate. cbn [map] in S1. inversion S1. inversion S2; subst.
  assert (G : forall o, In o [$"FILE_MUST_EXIST"; $"FILE_DOES_EXIST"] -> exists v, getPropOption p o = Ok v).
  { intros o Ho. apply (proj1 H2 o). rewrite H0. exact Ho. }
  destruct (G $"FILE_MUST_EXIST") as (m & Hm); [left; auto|]. destruct (G $"FILE_DOES_EXIST") as (d & Hd); [right; left; auto|].
  exists p, m, d. auto.
Qed.
Lemma file_none P f pr o : wf P -> m_find f (file_arg P) = None -> getFlagArgOptValue P f $"ARGUMENT_FILE" pr o = Throw InvalidArgument.
Proof.
  intros W F. unfold getFlagArgOptValue, flag_value. rewrite F.
  destruct (m_find f (str_arg P)) as [b|] eqn:F1; [destruct (wf_find _ _ _ _ (w_str _ W) F1) as [-> _]|]; cbn [arg_name];
  (destruct (m_find f (switch_arg P)) as [c|] eqn:F2; [destruct (wf_find _ _ _ _ (w_switch _ W) F2) as [-> _]|]); cbn [arg_name];
  (destruct (m_find f (int_arg P)) as [d|] eqn:F3; [destruct (wf_find _ _ _ _ (w_int _ W) F3) as [-> _]|]); reflexivity.
Qed.
Lemma file_some P f a pr o : wf P -> m_find f (file_arg P) = Some a -> getFlagArgOptValue P f $"ARGUMENT_FILE" pr o = getPropertyValues E a pr o.
Proof.
  intros W F. unfold getFlagArgOptValue, flag_value. rewrite F. destruct (wf_find _ _ _ _ (w_file _ W) F) as [-> _].
  destruct (m_find f (str_arg P)) as [b|] eqn:F1; [destruct (wf_find _ _ _ _ (w_str _ W) F1) as [-> _]|]; cbn [arg_name];
  (destruct (m_find f (switch_arg P)) as [c|] eqn:F2; [destruct (wf_find _ _ _ _ (w_switch _ W) F2) as [-> _]|]); reflexivity.
Qed.
Lemma exist_opt P f a p o v : wf P -> m_find f (file_arg P) = Some a -> a_int E a = [p] -> p_kind p = PFileExist ->
  In o [$"FILE_MUST_EXIST"; $"FILE_DOES_EXIST"] -> getPropOption p o = Ok v ->
  getFlagArgOptValue P f $"ARGUMENT_FILE" $"PROPERTY_FILE_EXIST" o = Ok (dec v).
Proof.
  intros W F A K I G. rewrite (file_some _ _ _ _ _ W F). unfold getPropertyValues. rewrite A. cbn [prop_value]. rewrite K.
  assert (X : existsb (str_eqb o) (prop_opts PFileExist) = true) by (apply existsb_str; exact I). rewrite X.
  change (str_eqb $"PROPERTY_FILE_EXIST" (prop_name PFileExist)) with true. cbn [andb orelse]. rewrite G. reflexivity.
Qed.
Lemma required_iff P f a p must does : wf P -> m_find f (file_arg P) = Some a -> a_int E a = [p] -> p_kind p = PFileExist ->
  getPropOption p $"FILE_MUST_EXIST" = Ok must -> getPropOption p $"FILE_DOES_EXIST" = Ok does ->
  (required P f <-> must <> 0) /\ (found P f <-> does <> 0).
Proof.
  intros W F A K M D. unfold required, found.
  rewrite (exist_opt _ _ _ _ $"FILE_MUST_EXIST" _ W F A K (or_introl eq_refl) M), (exist_opt _ _ _ _ $"FILE_DOES_EXIST" _ W F A K (or_intror (or_introl eq_refl)) D).
  split; (split; [intros (t & H & N) Z; apply N; inversion H; subst; reflexivity|intros N; eexists; split; [reflexivity|intros Z; apply N, dec_zero; auto]]).
Qed.
Lemma post_iff P : wf P ->
  (postParseCheck P = Ok tt /\ forall f, required P f -> found P f) \/
  (postParseCheck P = Throw RuntimeError /\ exists f, required P f /\ ~ found P f).
Proof.
  intros W. unfold postParseCheck.
  assert (Triv : forall k (m : smap (arg E)), wf_map k m -> k <> AFile -> for_each m (fun it _ => postArgCheck E (snd it)) tt = Ok tt).
  { intros k m [Hs Hm] N. destruct (checks_two m (fun it => postArgCheck E (snd it)) RuntimeError) as [[-> _]|[_ (it & I & C)]]; auto.
    - intros [f a] I. left. destruct (Hm (f, a) I) as [Ka [[S1 S2] _ _ _ _ _]]. cbn [snd] in *. unfold postArgCheck.
      rewrite Ka in S1. destruct k; cbn [ki] in S1; try (apply map_eq_nil in S1; rewrite S1; reflexivity); [|congruence].
      destruct (a_int E a) as [|p [|q t]]; try discriminate. inversion S1 as [S3]. cbn [for_each]. rewrite S3. reflexivity.
    - exfalso. apply C. destruct it as [f a]. destruct (Hm (f, a) I) as [Ka [[S1 S2] _ _ _ _ _]]. cbn [snd] in *. unfold postArgCheck.
      rewrite Ka in S1. destruct k; cbn [ki] in S1; try (apply map_eq_nil in S1; rewrite S1; reflexivity); [|congruence].
      destruct (a_int E a) as [|p [|q t]]; try discriminate. inversion S1 as [S3]. cbn [for_each]. rewrite S3. reflexivity. }
  rewrite (Triv AString) by (try apply W; discriminate). cbn [bind]. rewrite (Triv ASwitch) by (try apply W; discriminate). cbn [bind].
  rewrite (Triv AInt) by (try apply W; discriminate). cbn [bind]. rewrite (Triv ADouble) by (try apply W; discriminate). cbn [bind].
  assert (One : forall f a, m_find f (file_arg P) = Some a ->
     (postArgCheck E a = Ok tt /\ (required P f -> found P f)) \/ (postArgCheck E a = Throw RuntimeError /\ required P f /\ ~ found P f)).
  { intros f a F. destruct (file_props _ _ _ W F) as (p & m & d & A & K & M & D). destruct (required_iff _ _ _ _ _ _ W F A K M D) as [Q1 Q2].
    unfold postArgCheck. rewrite A. cbn [for_each]. rewrite K. unfold exist_postCheck. rewrite M, D. cbn [bind].
    rewrite Q1, Q2. destruct (Z.eqb_spec m 0), (Z.eqb_spec d 0); cbn [negb andb bind]; [left|left|right|left]; split; auto; try lia. }
  assert (S : sorted (file_arg P)) by apply W.
  destruct (checks_two (file_arg P) (fun it => postArgCheck E (snd it)) RuntimeError) as [[H1 H2]|[H1 ([f a] & H2 & H3)]].
  - intros [f a] I. apply find_in in I; auto. destruct (One f a I) as [[H _]|[H _]]; auto.
  - left. split; auto. intros f R. destruct (m_find f (file_arg P)) as [a|] eqn:F.
    + pose proof F as I. apply find_in in I; auto. apply H2 in I. cbn [snd] in I. destruct (One f a F) as [[_ H]|[H _]]; auto. congruence.
    + exfalso. destruct R as (t & R & _). rewrite file_none in R; auto. discriminate.
  - right. split; auto. apply find_in in H2; auto. cbn [snd] in H3. destruct (One f a H2) as [[H _]|[_ H]]; [congruence|]. eauto.
Qed.

(** ** effects of a run *)
Definition vals (f : str) (l : list item) : list str := map snd (filter (fun p => str_eqb (fst p) f) (given l)).
Lemma given_cons i t : given (i :: t) = match i with IVal _ f w => [(f, w)] | _ => [] end ++ given t. Proof. reflexivity. Qed.
Lemma vals_cons i t f : vals f (i :: t) = match i with IVal _ g w => if str_eqb g f then [w] else [] | _ => [] end ++ vals f t.
Proof. unfold vals. rewrite given_cons. destruct i as [x g w|x g|x]; auto. cbn [app filter fst]. destruct (str_eqb g f); reflexivity. Qed.
Lemma vals_last f l w : last_value f l w <-> exists r, vals f l = r ++ [w].
Proof.
  unfold last_value, vals. generalize (given l). intros g. induction g as [|[h v] t IH].
  - split; [intros (b & c & H & _); destruct b; discriminate|intros (r & H); destruct r; discriminate].
  - cbn [filter fst]. split.
    + intros (b & c & H & N). destruct b as [|q b]; inversion H; subst.
      * rewrite str_eqb_refl. exists []. cbn [map snd app]. f_equal.
        destruct (filter _ c) as [|[h2 v2] c2] eqn:Fc; auto. exfalso.
        assert (I : In (h2, v2) (filter (fun p => str_eqb (fst p) f) c)) by (rewrite Fc; left; auto).
        apply filter_In in I as [I1 I2]. apply str_eqb_eq in I2. cbn [fst] in I2. subst. eapply N; eauto.
      * destruct IH as [IH _]. destruct IH as (r & Hr); [exists b, c; auto|].
        destruct (str_eqb h f); [exists (v :: r); cbn [map snd app]; now rewrite Hr|exists r; auto].
    + intros (r & H). destruct (str_eqb_spec h f) as [->|N].
      * cbn [map snd] in H. destruct r as [|u r].
        -- inversion H; subst. exists [], t. split; auto. intros w' I. apply map_eq_nil in H2.
           assert (C : In (f, w') (filter (fun p => str_eqb (fst p) f) t)) by (apply filter_In; split; auto; apply str_eqb_refl).
           rewrite H2 in C. destruct C.
        -- inversion H; subst. destruct IH as [_ IH]. destruct IH as (b & c & Hb & Hc); [exists r; auto|].
           exists ((f, u) :: b), c. rewrite Hb. auto.
      * destruct IH as [_ IH]. destruct IH as (b & c & Hb & Hc); [exists r; auto|].
        exists ((h, v) :: b), c. rewrite Hb. auto.
Qed.
Lemma vals_none f l : (forall w, ~ In (f, w) (given l)) <-> vals f l = [].
Proof.
  unfold vals. split.
  - intros H. destruct (filter _ (given l)) as [|[h v] t] eqn:F; auto. exfalso.
    assert (I : In (h, v) (filter (fun p => str_eqb (fst p) f) (given l))) by (rewrite F; left; auto).
    apply filter_In in I as [I1 I2]. apply str_eqb_eq in I2. cbn [fst] in I2. subst. eapply H; eauto.
  - intros H w I. apply map_eq_nil in H.
    assert (C : In (f, w) (filter (fun p => str_eqb (fst p) f) (given l))) by (apply filter_In; split; auto; apply str_eqb_refl).
    rewrite H in C. destruct C.
Qed.
Lemma take_other k f w P P' g : take k f w P = Ok P' -> g <> f ->
  m_find g (string_values P') = m_find g (string_values P) /\ m_find g (int_values P') = m_find g (int_values P) /\
  m_find g (double_values P') = m_find g (double_values P) /\ (forall k', m_find g (args_of P' k') = m_find g (args_of P k')).
Proof.
  unfold take. intros H N. destruct (m_find f (args_of P k)) as [a|]; [|discriminate].
  destruct k; try discriminate; [bk H a'|bk H v; bk H a'|bk H v; bk H a'|bk H a']; inversion H; subst; cbn;
   rewrite ?find_set_ne by auto; repeat split; auto; intros []; cbn; rewrite ?find_set_ne by auto; auto.
Qed.
Lemma take_sizes k f w P P' : take k f w P = Ok P' -> size_t_values P' = size_t_values P /\ defaults_set P' = defaults_set P /\
   maxShort P' = maxShort P /\ maxFull P' = maxFull P /\ maxDesc P' = maxDesc P /\ switch_arg P' = switch_arg P.
Proof.
  unfold take. intros H. destruct (m_find f (args_of P k)) as [a|]; [|discriminate].
  destruct k; try discriminate; [bk H a'|bk H v; bk H a'|bk H v; bk H a'|bk H a']; inversion H; subst; cbn; auto 10.
Qed.
Lemma run_same P l P' f : run P l P' -> not_given f l ->
  m_find f (string_values P') = m_find f (string_values P) /\ m_find f (int_values P') = m_find f (int_values P) /\
  m_find f (double_values P') = m_find f (double_values P) /\ (forall k', m_find f (args_of P' k') = m_find f (args_of P k')).
Proof.
  induction 1 as [P|P x g w k t P1 P2 K T R IH|P x g t P2 R IH|P x t P2 R IH]; intros [G S].
  - auto.
  - assert (N : f <> g). { intros ->. apply (G w). rewrite given_cons. left; auto. }
    destruct (take_other _ _ _ _ _ f T N) as (A & B & C & D). 
    destruct IH as (A' & B' & C' & D'). { split; [intros v I; apply (G v); rewrite given_cons; right; auto|exact S]. }
    rewrite A', B', C'. repeat split; auto. intros k'. rewrite D'. auto.
  - assert (N : f <> g). { intros ->. apply S. left; auto. }
    destruct IH as (A' & B' & C' & D'). { split; [exact G|intros I; apply S; right; auto]. }
    rewrite A', B', C'. cbn. rewrite find_set_ne by auto. split; [auto|]. split; [auto|]. split; [auto|]. intros k'. rewrite D'. destruct k'; auto.
  - apply IH. split; auto.
Qed.
Lemma run_sizes P l P' : run P l P' -> size_t_values P' = size_t_values P /\ defaults_set P' = defaults_set P /\
   maxShort P' = maxShort P /\ maxFull P' = maxFull P /\ maxDesc P' = maxDesc P /\ switch_arg P' = switch_arg P.
Proof.
  induction 1 as [P|P x g w k t P1 P2 K T R IH|P x g t P2 R IH|P x t P2 R IH]; auto 10.
  apply take_sizes in T. destruct T as (A & B & C & D & F & G). rewrite <- A, <- B, <- C, <- D, <- F, <- G. exact IH.
Qed.
(** a switch turned on keeps its text and has value 1 *)
Lemma run_switch P l P' f : run P l P' -> reg P -> has_kind P f KSwitch -> valid P l ->
  m_find f (string_values P') = m_find f (string_values P) /\
  (In f (switched l) -> m_find f (int_values P') = Some 1) /\
  (~ In f (switched l) -> m_find f (int_values P') = m_find f (int_values P)).
Proof.
  induction 1 as [P|P x g w k t P1 P2 K T R IH|P x g t P2 R IH|P x t P2 R IH]; intros Rg Kf V; cbn [valid] in V.
  - split; [auto|]. split; [intros []|auto].
  - destruct V as (_ & _ & A & V). destruct (take_alike _ _ _ _ _ T (g_wf _ Rg)) as [L W].
    assert (N : f <> g).
    { intros ->. assert (k = KSwitch) by (eapply (g_kind _ Rg); eauto). subst k. unfold take in T. destruct Kf as (a & F). rewrite F in T. discriminate. }
    destruct (take_other _ _ _ _ _ f T N) as (A1 & B1 & C1 & D1).
    destruct IH as (A2 & B2 & C2). { eapply alike_reg; eauto. } { apply (l_kind _ _ L); auto. } { apply (alike_valid _ _ _ L); auto. }
    rewrite A2, A1. split; [auto|]. split; [exact B2|]. intros H. rewrite C2 by exact H. auto.
  - destruct V as (_ & _ & A & _ & V). destruct (flip_alike g P (g_wf _ Rg)) as [L W].
    destruct IH as (A2 & B2 & C2). { eapply alike_reg; eauto. } { apply (l_kind _ _ L); auto. } { apply (alike_valid _ _ _ L); auto. }
    split; [rewrite A2; auto|]. cbn [switched map concat app]. fold (switched t). split.
    + intros H. destruct (in_dec str_dec f (switched t)) as [I|I]; auto. rewrite C2 by auto. cbn.
      destruct H as [->|H]; [apply find_set_eq|contradiction].
    + intros H. rewrite C2 by (intros I; apply H; right; auto). cbn. apply find_set_ne. intros ->. apply H. left; auto.
  - destruct V as (_ & V). apply IH; auto.
Qed.

(** the value stored for the text [w] by a flag of kind [k] *)
Definition stored P (k : fkind) (f w : str) : Prop :=
  match k with
  | KStr | KFile => m_find f (string_values P) = Some w
  | KInt => exists v, stoi w = Ok v /\ m_find f (int_values P) = Some v
  | KDouble => exists v, e_stod E w = Ok v /\ m_find f (double_values P) = Some v
  | KSwitch => False
  end.
Lemma take_stored k f w P P' : take k f w P = Ok P' -> stored P' k f w.
Proof.
  unfold take. intros H. destruct (m_find f (args_of P k)) as [a|]; [|discriminate].
  destruct k; try discriminate; [bk H a'|bk H v; bk H a'|bk H v; bk H a'|bk H a']; inversion H; subst; cbn;
    try apply find_set_eq; exists v; split; auto; apply find_set_eq.
Qed.
Lemma run_value P l P' f k w : run P l P' -> reg P -> has_kind P f k -> valid P l -> last_value f l w -> stored P' k f w.
Proof.
  rewrite vals_last.
  induction 1 as [P|P x g v k' t P1 P2 K T R IH|P x g t P2 R IH|P x t P2 R IH]; intros Rg Kf V L; cbn [valid] in V; rewrite ?vals_cons in L.
  - destruct L as ([|] & L); discriminate.
  - destruct V as (_ & _ & A & V). destruct (take_alike _ _ _ _ _ T (g_wf _ Rg)) as [La W].
    assert (Rg1 : reg P1) by (eapply alike_reg; eauto). assert (Kf1 : has_kind P1 f k) by (apply (l_kind _ _ La); auto).
    assert (V1 : valid P1 t) by (apply (alike_valid _ _ _ La); auto).
    destruct (str_eqb_spec g f) as [->|N]; [|apply IH; auto].
    assert (k' = k) by (eapply (g_kind _ Rg); eauto). subst k'.
    destruct L as (r & L). destruct r as [|u r]; cbn [app] in L; inversion L; subst.
    + apply take_stored in T. assert (Ng : (forall w', ~ In (f, w') (given t))) by (apply vals_none; auto).
      assert (Ns : ~ In f (switched t)).
      { assert (Nk : k <> KSwitch) by (intros ->; exact T). clear - V Kf Rg Nk. induction t as [|[x g v|x g|x] t IH]; cbn [valid] in V.
        - intros [].
        - destruct V as (_ & _ & _ & V). exact (IH V).
        - destruct V as (_ & _ & K & _ & V). cbn [switched map concat app]. intros [->|I]; [|exact (IH V I)]. apply Nk. eapply (g_kind _ Rg); eauto.
        - destruct V as (_ & V). exact (IH V). }
      destruct (run_same _ _ _ f R (conj Ng Ns)) as (A1 & B1 & C1 & _).
      destruct k; cbn [stored] in *; rewrite ?A1, ?B1, ?C1; auto.
    + apply IH; auto. exists r; auto.
  - destruct V as (_ & _ & A & _ & V). destruct (flip_alike g P (g_wf _ Rg)) as [La W].
    apply IH; [eapply alike_reg; eauto|apply (l_kind _ _ La); auto|apply (alike_valid _ _ _ La); auto|auto].
  - destruct V as (_ & V). apply IH; auto.
Qed.
(** the argument object of a file flag has seen all values *)
Lemma run_file P l P' f a : run P l P' -> reg P -> valid P l -> m_find f (file_arg P) = Some a ->
  exists a', m_find f (file_arg P') = Some a' /\ for_each (vals f l) (argValid_str E) a = Ok a'.
Proof.
  intros R. revert a. induction R as [P|P x g v k' t P1 P2 K T R IH|P x g t P2 R IH|P x t P2 R IH]; intros a Rg V F; cbn [valid] in V; rewrite ?vals_cons.
  - exists a. auto.
  - destruct V as (_ & _ & A & V). destruct (take_alike _ _ _ _ _ T (g_wf _ Rg)) as [La W].
    assert (Rg1 : reg P1) by (eapply alike_reg; eauto). 
    assert (V1 : valid P1 t) by (apply (alike_valid _ _ _ La); auto).
    destruct (str_eqb_spec g f) as [->|N].
    + assert (k' = KFile) by (eapply (g_kind _ Rg); eauto; exists a; auto). subst k'. unfold take in T. cbn [args_of] in T. rewrite F in T.
      apply bind_ok in T as (a1 & Ha & T). inversion T; subst. cbn [app for_each]. rewrite Ha. cbn [bind]. apply IH; auto. cbn. apply find_set_eq.
    + apply IH; auto. destruct (take_other _ _ _ _ _ f T ltac:(congruence)) as (_ & _ & _ & D). exact (eq_trans (D KFile) F).
  - destruct V as (_ & _ & A & _ & V). destruct (flip_alike g P (g_wf _ Rg)) as [La W].
    apply IH; [eapply alike_reg; eauto|apply (alike_valid _ _ _ La); auto|auto].
  - destruct V as (_ & V). apply IH; auto.
Qed.

(** the existence record of a file argument *)
Lemma chain_exist vs : forall a a' p must does, a_kind E a = AFile -> for_each vs (argValid_str E) a = Ok a' ->
  a_int E a = [p] -> p_kind p = PFileExist -> getPropOption p $"FILE_MUST_EXIST" = Ok must -> getPropOption p $"FILE_DOES_EXIST" = Ok does ->
  exists p', a_int E a' = [p'] /\ p_kind p' = PFileExist /\ getPropOption p' $"FILE_MUST_EXIST" = Ok must /\
   getPropOption p' $"FILE_DOES_EXIST" = Ok (if existsb (file_exists E) vs then 1 else does) /\
   (must <> 0 -> forall w, In w vs -> file_exists E w = true).
Proof.
  induction vs as [|w t IH]; intros a a' p must does Ka H A K M D; cbn [for_each] in H.
  - inversion H; subst. exists p. repeat (split; [auto|]). intros _ w [].
  - bk H a1. unfold argValid_str in H0. rewrite A in H0. cbn [each] in H0. unfold v_int in H0 at 1. rewrite K in H0.
    destruct (exist_valid E p must does w M D) as [X1 X2].
    assert (C : (must = 0 \/ file_exists E w = true) \/ (must <> 0 /\ file_exists E w = false)).
    { destruct (Z.eq_dec must 0), (file_exists E w); auto. }
    destruct C as [C|C]; [|rewrite X2 in H0 by auto; discriminate].
    destruct (X1 C) as (p1 & E1 & K1 & M1 & D1). rewrite E1 in H0. cbn [bind] in H0.
    bk H0 z. bk H0 s. bk H0 st. bk H0 v. inversion H0; subst a1.
    edestruct IH as (p' & A' & K' & M' & D' & F'); [|exact H|reflexivity|congruence|exact M1|exact D1|]; [exact Ka|].
    exists p'. split; [auto|]. split; [auto|]. split; [auto|]. split.
    + rewrite D'. cbn [existsb]. destruct (file_exists E w), (existsb (file_exists E) t); auto.
    + intros N u [->|U]; [destruct C as [C|C]; [congruence|auto]|auto].
Qed.
Lemma in_vals f l w : In w (vals f l) <-> In (f, w) (given l).
Proof.
  unfold vals. rewrite in_map_iff. split.
  - intros ([g v] & <- & I). apply filter_In in I as [I1 I2]. apply str_eqb_eq in I2. cbn [fst snd] in *. now subst.
  - intros I. exists (f, w). split; auto. apply filter_In. split; auto. apply str_eqb_refl.
Qed.
Lemma run_required P l P' f : run P l P' -> reg P -> wf P' -> alike P P' -> valid P l ->
  (required P' f <-> required P f) /\
  (found P' f <-> found P f \/ (m_find f (file_arg P) <> None /\ exists w, In (f, w) (given l) /\ file_exists E w = true)) /\
  (required P f -> forall w, In (f, w) (given l) -> file_exists E w = true).
Proof.
  intros R Rg W' L V. pose proof (g_wf _ Rg) as W.
  destruct (m_find f (file_arg P)) as [a|] eqn:F.
  - destruct (run_file _ _ _ _ _ R Rg V F) as (a' & F' & C).
    destruct (file_props _ _ _ W F) as (p & m & d & A & K & M & D). destruct (required_iff _ _ _ _ _ _ W F A K M D) as [Q1 Q2].
    destruct (wf_find _ _ _ _ (w_file _ W) F) as [Ka _].
    destruct (chain_exist _ _ _ _ _ _ Ka C A K M D) as (p' & A' & K' & M' & D' & X).
    destruct (required_iff _ _ _ _ _ _ W' F' A' K' M' D') as [Q1' Q2'].
    rewrite Q1, Q1', Q2, Q2'. split; [tauto|]. split.
    + destruct (existsb (file_exists E) (vals f l)) eqn:Ex.
      * apply existsb_exists in Ex as (w & I & Hw). apply in_vals in I. split; [intros _; right; split; [discriminate|eauto]|intros _; lia].
      * split; auto. intros [H|[_ (w & I & Hw)]]; auto. exfalso. apply in_vals in I.
        assert (existsb (file_exists E) (vals f l) = true) by (apply existsb_exists; eauto). congruence.
    + intros N w I. apply X; auto. apply in_vals; auto.
  - assert (F' : m_find f (file_arg P') = None).
    { destruct (m_find f (file_arg P')) as [b|] eqn:F'; auto. destruct (proj1 (l_kind _ _ L f KFile) (ex_intro _ b F')) as (c & C). cbn [args_of] in C. congruence. }
    unfold required, found. rewrite !(file_none _ _ _ _ W F), !(file_none _ _ _ _ W' F').
    split; [split; intros (t & H & _); discriminate|]. split; [|intros (t & H & _); discriminate].
    split; [intros (t & H & _); discriminate|intros [(t & H & _)|[H _]]; [discriminate|congruence]].
Qed.

(** ** running valid lines *)
Lemma parse_valid P prog l : reg P -> valid P l -> ~ all_notes (words l) ->
  exists P', run P l P' /\ alike P P' /\ wf P' /\ parse (prog :: words l) P = (postParseCheck P' ;;; Ok P').
Proof.
  intros R V N.
  assert (Ln : (notes l < length (words l))%nat).
  { pose proof (notes_le l). assert (notes l <> length (words l)) by (intros C; apply N; eapply notes_all; eauto). lia. }
  destruct (loop_items l [prog] P 2 (length (prog :: words l)) [] R V) as (P' & fu & Rn & L & W & Ef & El & Eq).
  { simpl; lia. } { congruence. } { rewrite app_nil_r. cbn [app length]. lia. }
  exists P'. split; [auto|]. split; [auto|]. split; [auto|]. rewrite app_nil_r in Eq. cbn [app length] in Eq, Ef.
  unfold parse. destruct (words l) as [|x r] eqn:Ew; [simpl in Ln; lia|].
  transitivity (P2 <- parse_loop (S (length (x :: r))) (prog :: x :: r) 1 2 P ;; postParseCheck P2 ;;; Ok P2); [reflexivity|]. rewrite Eq.
  destruct fu as [|fu]; [cbn [length] in *; lia|]. cbn [parse_loop].
  destruct (nth_error _ _) eqn:Nt; [|reflexivity]. exfalso.
  assert (C : nth_error (prog :: x :: r) (S (length (x :: r))) <> None) by (cbn [length] in *; congruence).
  apply nth_error_Some in C. cbn [length] in C. lia.
Qed.
Lemma parse_ok P args P' : reg P -> parse args P = Ok P' ->
  exists prog l, args = prog :: words l /\ valid P l /\ ~ all_notes (words l) /\ run P l P' /\ postParseCheck P' = Ok tt.
Proof.
  unfold parse. intros R H. destruct args as [|prog [|x r]]; try discriminate.
  bk H P1. bk H u. inversion H; subst. destruct u.
  destruct (loop_ok _ [prog] (x :: r) 2 P P' R ltac:(simpl; lia) H0) as (l & Ew & V & Rn & Ln).
  exists prog, l. rewrite Ew. split; [auto|]. split; [auto|]. split; [|auto].
  intros C. rewrite Ew in Ln. cbn [app length] in Ln.
  assert (notes l = length (words l)); [|lia]. clear - V C.
  induction l as [|[y f w|y f|y] t IH]; unfold all_notes, notes in *; rewrite ?words_cons in *; cbn [filter length item_words app valid] in *; auto.
  - exfalso. destruct V as (N & _). inversion C; subst. apply N. left; auto.
  - exfalso. destruct V as (N & _). inversion C; subst. apply N. left; auto.
  - destruct V as (_ & V). inversion C; subst. rewrite IH; auto.
Qed.
Lemma sw_end (l : list item) : (exists x f t, l = t ++ [ISw x f]) \/ (forall x f t, l <> t ++ [ISw x f]).
Proof.
  destruct l as [|i l'] using rev_ind; [right; intros x f t H; destruct t; discriminate|].
  destruct i as [x f w|x f|x]; [right|left|right].
  - intros y g t H. apply app_inj_tail in H as [_ H]. discriminate.
  - eauto.
  - intros y g t H. apply app_inj_tail in H as [_ H]. discriminate.
Qed.
Lemma valid_app P l t : valid P (l ++ t) -> valid P l.
Proof.
  induction l as [|[x f w|x f|x] r IH]; cbn [app valid]; auto.
  - intros (A & B & C & D). auto.
  - intros (A & B & C & D & F). repeat split; auto. intros y q Hq. eapply D. unfold words in *. rewrite map_app, concat_app, Hq. reflexivity.
  - intros (A & B). auto.
Qed.
Lemma words_app l t : words (l ++ t) = words l ++ words t. Proof. unfold words. rewrite map_app, concat_app. auto. Qed.
(** a valid prefix followed by something else *)
Lemma parse_prefix P prog l x rest : reg P -> valid P l -> (forall y f t, l = t ++ [ISw y f] -> a_flag P x) ->
  exists P' fu, run P l P' /\ alike P P' /\ wf P' /\ (S (length rest) < fu)%nat /\ fu = (2 + length (words l) + length rest - length l)%nat /\
   parse (prog :: words l ++ x :: rest) P =
   (P2 <- parse_loop fu ((prog :: words l) ++ x :: rest) (length (prog :: words l)) (2 + notes l) P' ;; postParseCheck P2 ;;; Ok P2).
Proof.
  intros R V H. pose proof (notes_le l) as Ln.
  destruct (loop_items l [prog] P 2 (length (prog :: words l ++ x :: rest)) (x :: rest) R V) as (P' & fu & Rn & L & W & Ef & El & Eq).
  { cbn [length]. rewrite app_length. simpl; lia. } { intros _ y f t Ht. cbn [hd]. eapply H; eauto. }
  { cbn [app length]. rewrite app_length. simpl. lia. }
  exists P', fu. split; [auto|]. split; [auto|]. split; [auto|]. cbn [app length] in Ef. rewrite app_length in Ef. cbn [length] in Ef.
  split; [lia|]. split; [lia|]. unfold parse. cbn [app length] in Eq |- *.
  destruct (words l ++ x :: rest) as [|q r] eqn:Ew; [destruct (words l); discriminate|].
  transitivity (P2 <- parse_loop (S (length (q :: r))) (prog :: q :: r) 1 2 P ;; postParseCheck P2 ;;; Ok P2); [reflexivity|]. rewrite Eq. reflexivity.
Qed.
End Effect.
