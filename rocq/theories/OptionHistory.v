(** * The options of flags through all histories of calls *)
From Verif Require Import StrFacts ArgsFacts ParserWf ParserFacts ParserStateWf OptionFacts.
From Verif Require Export OptionSpec.
Open Scope Z_scope.

Definition akind_dec (k k' : akind) : {k = k'} + {k <> k'}.
Proof. decide equality. Defined.

Section History.
Context {E : env}.
Implicit Types (P : parser E) (a : arg E).
Ltac bk H x := let F := fresh "B" in apply bind_ok in H as (x & F & H).

Definition margs (k : akind) P : smap (arg E) :=
  match k with AString => str_arg P | ASwitch => switch_arg P | AInt => int_arg P | ADouble => double_arg P | AFile => file_arg P end.
Definition fresh_arg (k : akind) : arg E :=
  match k with AString => ArgumentString E | ASwitch => ArgumentSwitch E | AInt => ArgumentInt E | ADouble => ArgumentDouble E | AFile => ArgumentFile E end.
Lemma wf_margs k P : wf P -> wf_map k (margs k P).
Proof. intros []; destruct k; auto. Qed.
Lemma fresh_shape k : shape (fresh_arg k) /\ a_kind E (fresh_arg k) = k.
Proof. destruct k; (split; [|reflexivity]); [apply new_int|apply new_double|apply new_string|apply new_switch|apply new_file]. Qed.
Definition the_arg (k : akind) f P : arg E := match m_find f (margs k P) with Some a => a | None => fresh_arg k end.
Lemma the_arg_shape k f P : wf P -> shape (the_arg k f P) /\ a_kind E (the_arg k f P) = k.
Proof.
  intros W. unfold the_arg. destruct (m_find f (margs k P)) as [a|] eqn:F; [|apply fresh_shape].
  destruct (wf_find _ _ _ _ (wf_margs k P W) F); auto.
Qed.

(** ** reading *)
Lemma read_eq P f k pr o : wf P -> k <> ADouble ->
  getFlagArgOptValue P f (arg_name k) pr o =
  match m_find f (margs k P) with Some a => getPropertyValues E a pr o | None => Throw InvalidArgument end.
Proof.
  intros W N. unfold getFlagArgOptValue, flag_value.
  destruct (m_find f (str_arg P)) as [b1|] eqn:F1; [rewrite (proj1 (wf_find _ _ _ _ (w_str _ W) F1))|];
  (destruct (m_find f (switch_arg P)) as [b2|] eqn:F2; [rewrite (proj1 (wf_find _ _ _ _ (w_switch _ W) F2))|]);
  (destruct (m_find f (file_arg P)) as [b3|] eqn:F3; [rewrite (proj1 (wf_find _ _ _ _ (w_file _ W) F3))|]);
  (destruct (m_find f (int_arg P)) as [b4|] eqn:F4; [rewrite (proj1 (wf_find _ _ _ _ (w_int _ W) F4))|]);
  (destruct k; [ | contradiction | | | ]); cbn [margs]; rewrite ?F1, ?F2, ?F3, ?F4; reflexivity.
Qed.
Lemma read_none P f n pr o : wf P -> (forall k, k <> ADouble -> n <> arg_name k) -> getFlagArgOptValue P f n pr o = Throw InvalidArgument.
Proof.
  intros W N. unfold getFlagArgOptValue, flag_value.
  assert (Q : forall k, k <> ADouble -> str_eqb (arg_name k) n = false).
  { intros k Hk. destruct (str_eqb_spec (arg_name k) n); auto. exfalso. apply (N k); auto. }
  destruct (m_find f (str_arg P)) as [b1|] eqn:F1; [rewrite (proj1 (wf_find _ _ _ _ (w_str _ W) F1)), Q by discriminate|];
  (destruct (m_find f (switch_arg P)) as [b2|] eqn:F2; [rewrite (proj1 (wf_find _ _ _ _ (w_switch _ W) F2)), Q by discriminate|]);
  (destruct (m_find f (file_arg P)) as [b3|] eqn:F3; [rewrite (proj1 (wf_find _ _ _ _ (w_file _ W) F3)), Q by discriminate|]);
  (destruct (m_find f (int_arg P)) as [b4|] eqn:F4; [rewrite (proj1 (wf_find _ _ _ _ (w_int _ W) F4)), Q by discriminate|]); reflexivity.
Qed.
Lemma name_kind n : {k | n = arg_name k} + {forall k, n <> arg_name k}.
Proof.
  destruct (str_dec n (arg_name AInt)) as [->|]; [left; exists AInt; reflexivity|].
  destruct (str_dec n (arg_name ADouble)) as [->|]; [left; exists ADouble; reflexivity|].
  destruct (str_dec n (arg_name AString)) as [->|]; [left; exists AString; reflexivity|].
  destruct (str_dec n (arg_name ASwitch)) as [->|]; [left; exists ASwitch; reflexivity|].
  destruct (str_dec n (arg_name AFile)) as [->|]; [left; exists AFile; reflexivity|].
  right. intros []; auto.
Qed.
Lemma name_inj k k' : arg_name k = arg_name k' -> k = k'.
Proof. destruct k, k'; intros H; try reflexivity; vm_compute in H; discriminate. Qed.

(** ** joining *)
Lemma trim_blank s : trim (s ++ $" ") = trim s.
Proof.
  destruct (trim_spec s) as (x & y & Hx & Hy & Es & Bs & Ends). rewrite Es at 1. rewrite <- !app_assoc.
  apply trim_unique; auto. intros c Hc. apply in_app_or in Hc as [Hc|[<-|[]]]; [auto|]. vm_compute. tauto.
Qed.
Lemma join_spaced l : join l = trim (spaced l).
Proof.
  unfold join. assert (G : l <> [] -> concat (map (fun v => v ++ $" ") l) = spaced l ++ $" ").
  { induction l as [|v [|w t] IH]; intros N; [contradiction| |].
    - cbn [map concat spaced]. now rewrite app_nil_r.
    - cbn [map concat]. cbn [map concat] in IH. rewrite IH by discriminate.
      change (spaced (v :: w :: t)) with (v ++ $" " ++ spaced (w :: t)). now rewrite <- !app_assoc. }
  destruct l as [|v t]; [reflexivity|]. rewrite G by discriminate. apply trim_blank.
Qed.

(** ** setting *)
Lemma upd_eq k f g m m' P : margs k P = m -> update_arg (fresh_arg k) f g m = Ok m' ->
  exists a', g (the_arg k f P) = Ok a' /\ m' = m_set f a' (margs k P).
Proof.
  intros <- H. unfold update_arg in H. bk H a'. inversion H; subst. exists a'. split; auto.
Qed.
Definition effect (f n pr o : str) (s : setting E) P P' : Prop :=
  exists k a', n = arg_name k /\ margs k P' = m_set f a' (margs k P) /\
    (forall k', k' <> k -> margs k' P' = margs k' P) /\
    (k <> ADouble ->
      getPropertyValues E a' pr o = Ok (shown n s) /\
      (forall pr' o', (pr', o') <> (pr, o) -> getPropertyValues E a' pr' o' = getPropertyValues E (the_arg k f P) pr' o')).
Ltac others := let k' := fresh in let N := fresh in intros k' N; destruct k'; try reflexivity; contradiction.
Lemma set_effect f n pr o s P P' : wf P -> set_option f n pr o s P = Ok P' -> effect f n pr o s P P'.
Proof.
  intros W H. destruct s as [v|v|v|l|l]; cbn [set_option] in H.
  - unfold setFlagArgOpt_int in H.
    destruct (str_eqb_spec n $"ARGUMENT_INT") as [->|_].
    { bk H m. inversion H; subst. destruct (upd_eq AInt _ _ _ _ P eq_refl B) as (a' & G & ->). exists AInt, a'.
      split; [reflexivity|]. split; [reflexivity|]. split; [others|]. intros _. destruct (the_arg_shape AInt f P W) as [Sh _].
      split; [exact (int_reads _ _ _ _ Sh _ G)|]. intros pr' o' D. exact (int_other _ _ _ _ _ _ D _ G). }
    destruct (str_eqb_spec n $"ARGUMENT_STRING") as [->|_].
    { bk H m. inversion H; subst. destruct (upd_eq AString _ _ _ _ P eq_refl B) as (a' & G & ->). exists AString, a'.
      split; [reflexivity|]. split; [reflexivity|]. split; [others|]. intros _. destruct (the_arg_shape AString f P W) as [Sh _].
      split; [exact (int_reads _ _ _ _ Sh _ G)|]. intros pr' o' D. exact (int_other _ _ _ _ _ _ D _ G). }
    destruct (str_eqb_spec n $"ARGUMENT_SWITCH") as [->|_].
    { assert (Q : exists t m, update_arg (fresh_arg ASwitch) f (setArgPropertyOpt_str E pr o t) (switch_arg P) = Ok m /\ P' = with_switch m P /\
                t = shown $"ARGUMENT_SWITCH" (@SInt E v)).
      { cbn [shown]. change (str_eqb $"ARGUMENT_SWITCH" $"ARGUMENT_SWITCH") with true. cbv iota.
        destruct (v =? 0). { bk H m. inversion H. exists $"OFF", m. auto. }
        destruct (v =? 1); [|discriminate]. bk H m. inversion H. exists $"ON", m. auto. }
      destruct Q as (t & m & B & -> & Et). destruct (upd_eq ASwitch _ _ _ _ P eq_refl B) as (a' & G & ->). exists ASwitch, a'.
      split; [reflexivity|]. split; [reflexivity|]. split; [others|]. intros _. destruct (the_arg_shape ASwitch f P W) as [Sh Ka].
      pose proof (str_reads _ _ _ _ Sh _ G) as Rd. rewrite Ka in Rd. rewrite <- Et.
      split; [exact Rd|]. intros pr' o' D. exact (str_other _ _ _ _ _ _ D _ G). }
    destruct (str_eqb_spec n $"ARGUMENT_FILE") as [->|_]; [|discriminate].
    { bk H m. inversion H; subst. destruct (upd_eq AFile _ _ _ _ P eq_refl B) as (a' & G & ->). exists AFile, a'.
      split; [reflexivity|]. split; [reflexivity|]. split; [others|]. intros _. destruct (the_arg_shape AFile f P W) as [Sh _].
      split; [exact (int_reads _ _ _ _ Sh _ G)|]. intros pr' o' D. exact (int_other _ _ _ _ _ _ D _ G). }
  - unfold setFlagArgOpt_dbl in H.
    destruct (str_eqb_spec n $"ARGUMENT_DOUBLE") as [->|_].
    { bk H m. inversion H; subst. destruct (upd_eq ADouble _ _ _ _ P eq_refl B) as (a' & G & ->). exists ADouble, a'.
      split; [reflexivity|]. split; [reflexivity|]. split; [others|]. contradiction. }
    destruct (str_eqb_spec n $"ARGUMENT_STRING") as [->|_]; [|discriminate].
    { bk H m. inversion H; subst. destruct (upd_eq AString _ _ _ _ P eq_refl B) as (a' & G & ->). exfalso.
      destruct (the_arg_shape AString f P W) as [Sh Ka]. destruct Sh as [_ [S2 _] _ _ _ _]. rewrite Ka in S2.
      apply map_eq_nil in S2. unfold setArgPropertyOpt_dbl in G. rewrite S2 in G. discriminate. }
  - unfold setFlagArgOpt_str in H.
    destruct (str_eqb_spec n $"ARGUMENT_FILE") as [->|_].
    { cbv zeta in H. bk H m. inversion H; subst. destruct (upd_eq AFile _ _ _ _ P eq_refl B) as (a' & G & ->). exists AFile, a'.
      split; [reflexivity|]. split; [reflexivity|]. split; [others|]. intros _. destruct (the_arg_shape AFile f P W) as [Sh Ka].
      cbn [shown]. change (str_eqb $"ARGUMENT_FILE" $"ARGUMENT_SWITCH") with false. cbv iota. change v with (spaced [v]) at 1. rewrite <- join_spaced.
      destruct (str_eqb pr $"PROPERTY_FILE_EXT").
      { split; [exact (set_reads _ _ _ _ Sh _ G)|]. intros pr' o' D. exact (set_other _ _ _ _ _ _ D _ G). }
      destruct (negb (m_has f (file_arg P)) && str_eqb pr $"PROPERTY_SISTER_FILE_EXT").
      { split; [exact (vec_reads _ _ _ _ Sh _ G)|]. intros pr' o' D. exact (vec_other _ _ _ _ _ _ D _ G). }
      pose proof (str_reads _ _ _ _ Sh _ G) as Rd. rewrite Ka in Rd.
      split; [exact Rd|]. intros pr' o' D. exact (str_other _ _ _ _ _ _ D _ G). }
    destruct (str_eqb_spec n $"ARGUMENT_SWITCH") as [->|_].
    { destruct (negb (str_eqb v $"OFF") && negb (str_eqb v $"ON")); [discriminate|]. bk H m. inversion H; subst.
      destruct (upd_eq ASwitch _ _ _ _ P eq_refl B) as (a' & G & ->). exists ASwitch, a'.
      split; [reflexivity|]. split; [reflexivity|]. split; [others|]. intros _. destruct (the_arg_shape ASwitch f P W) as [Sh Ka].
      pose proof (str_reads _ _ _ _ Sh _ G) as Rd. rewrite Ka in Rd.
      split; [exact Rd|]. intros pr' o' D. exact (str_other _ _ _ _ _ _ D _ G). }
    destruct (str_eqb_spec n $"ARGUMENT_STRING") as [->|_]; [|discriminate].
    { bk H m. inversion H; subst. destruct (upd_eq AString _ _ _ _ P eq_refl B) as (a' & G & ->). exists AString, a'.
      split; [reflexivity|]. split; [reflexivity|]. split; [others|]. intros _. destruct (the_arg_shape AString f P W) as [Sh Ka].
      cbn [shown]. change (str_eqb $"ARGUMENT_STRING" $"ARGUMENT_SWITCH") with false. cbv iota. change v with (spaced [v]) at 1. rewrite <- join_spaced.
      split; [exact (set_reads _ _ _ _ Sh _ G)|]. intros pr' o' D. exact (set_other _ _ _ _ _ _ D _ G). }
  - unfold setFlagArgOpt_set in H.
    destruct (str_eqb_spec n $"ARGUMENT_FILE") as [->|_].
    { bk H m. inversion H; subst. destruct (upd_eq AFile _ _ _ _ P eq_refl B) as (a' & G & ->). exists AFile, a'.
      split; [reflexivity|]. split; [reflexivity|]. split; [others|]. intros _. destruct (the_arg_shape AFile f P W) as [Sh Ka].
      cbn [shown]. rewrite <- join_spaced.
      split; [exact (set_reads _ _ _ _ Sh _ G)|]. intros pr' o' D. exact (set_other _ _ _ _ _ _ D _ G). }
    destruct (str_eqb_spec n $"ARGUMENT_STRING") as [->|_]; [|discriminate].
    { bk H m. inversion H; subst. destruct (upd_eq AString _ _ _ _ P eq_refl B) as (a' & G & ->). exists AString, a'.
      split; [reflexivity|]. split; [reflexivity|]. split; [others|]. intros _. destruct (the_arg_shape AString f P W) as [Sh Ka].
      cbn [shown]. rewrite <- join_spaced.
      split; [exact (set_reads _ _ _ _ Sh _ G)|]. intros pr' o' D. exact (set_other _ _ _ _ _ _ D _ G). }
  - unfold setFlagArgOpt_vec in H.
    destruct (str_eqb_spec n $"ARGUMENT_FILE") as [->|_]; [|discriminate].
    { bk H m. inversion H; subst. destruct (upd_eq AFile _ _ _ _ P eq_refl B) as (a' & G & ->). exists AFile, a'.
      split; [reflexivity|]. split; [reflexivity|]. split; [others|]. intros _. destruct (the_arg_shape AFile f P W) as [Sh Ka].
      cbn [shown]. rewrite <- join_spaced.
      split; [exact (vec_reads _ _ _ _ Sh _ G)|]. intros pr' o' D. exact (vec_other _ _ _ _ _ _ D _ G). }
Qed.
Lemma set_option_wf f n pr o s P P' : wf P -> set_option f n pr o s P = Ok P' -> wf P'.
Proof.
  intros W H. destruct s; cbn [set_option] in H;
    [eapply opt_int_wf|eapply opt_dbl_wf|eapply opt_str_wf|eapply opt_set_wf|eapply opt_vec_wf]; eauto.
Qed.

(** ** adding *)
Lemma add_effect f n P P' : addFlagArg f n P = Ok P' ->
  exists k, n = arg_name k /\ margs k P' = m_set f (fresh_arg k) (margs k P) /\
    (forall k', k' <> k -> margs k' P' = margs k' P) /\ (k <> ADouble -> m_find f (margs k P) = None).
Proof.
  unfold addFlagArg. intros H.
  assert (Q : forall (m : smap (arg E)), m_has f m = false -> m_find f m = None).
  { intros m. unfold m_has. destruct (m_find f m); [discriminate|auto]. }
  destruct (str_eqb_spec n $"ARGUMENT_INT") as [->|_].
  { destruct (m_has f _) eqn:F; [discriminate|]. inversion H; subst. exists AInt. split; [reflexivity|]. split; [reflexivity|]. split; [others|auto]. }
  destruct (str_eqb_spec n $"ARGUMENT_SWITCH") as [->|_].
  { destruct (m_has f _) eqn:F; [discriminate|]. inversion H; subst. exists ASwitch. split; [reflexivity|]. split; [reflexivity|]. split; [others|auto]. }
  destruct (str_eqb_spec n $"ARGUMENT_STRING") as [->|_].
  { destruct (m_has f _) eqn:F; [discriminate|]. inversion H; subst. exists AString. split; [reflexivity|]. split; [reflexivity|]. split; [others|auto]. }
  destruct (str_eqb_spec n $"ARGUMENT_FILE") as [->|_].
  { destruct (m_has f _) eqn:F; [discriminate|]. inversion H; subst. exists AFile. split; [reflexivity|]. split; [reflexivity|]. split; [others|auto]. }
  destruct (str_eqb_spec n $"ARGUMENT_DOUBLE") as [->|_]; [|discriminate].
  { destruct (m_has f _) eqn:F; [discriminate|]. inversion H; subst. exists ADouble. cbn [margs].
    split; [reflexivity|]. split; [reflexivity|]. split; [others|]. contradiction. }
Qed.

(** ** parsing: the options parse does not write keep their values *)
Definition kept a a' : Prop := forall pr o, ~ written_by_parse pr o -> getPropertyValues E a' pr o = getPropertyValues E a pr o.
Definition holds P P' : Prop :=
  forall k f a, m_find f (margs k P) = Some a -> exists a', m_find f (margs k P') = Some a' /\ kept a a'.
Lemma kept_refl a : kept a a. Proof. intros pr o _. reflexivity. Qed.
Lemma holds_refl P : holds P P. Proof. intros k f a F. exists a. split; auto using kept_refl. Qed.
Lemma holds_trans P Q R : holds P Q -> holds Q R -> holds P R.
Proof.
  intros H1 H2 k f a F. destruct (H1 _ _ _ F) as (b & Fb & Kb). destruct (H2 _ _ _ Fb) as (c & Fc & Kc).
  exists c. split; auto. intros pr o N. rewrite Kc; auto.
Qed.
Lemma holds_same P P' : (forall k, margs k P' = margs k P) -> holds P P'.
Proof. intros H k f a F. exists a. rewrite H. auto using kept_refl. Qed.
Lemma holds_set P P' k f a a' : margs k P' = m_set f a' (margs k P) -> (forall k', k' <> k -> margs k' P' = margs k' P) ->
  m_find f (margs k P) = Some a -> kept a a' -> holds P P'.
Proof.
  intros H1 H2 F K k' f' b Fb. destruct (akind_dec k' k) as [->|N].
  - rewrite H1, find_set. destruct (str_dec f' f) as [->|N]; [|exists b; auto using kept_refl].
    assert (b = a) by congruence. subst. exists a'. auto.
  - rewrite H2 by auto. exists b. auto using kept_refl.
Qed.
Lemma kept_trans a b c : kept a b -> kept b c -> kept a c.
Proof. intros H1 H2 pr o N. rewrite H2, H1; auto. Qed.
Lemma valid_on_kept w a : kept a (fst (argValid_str_on w a)).
Proof.
  assert (Step : forall A (x : stm (arg E) A) B (y : A -> stm (arg E) B),
    (forall a, kept a (fst (x a))) -> (forall v a, kept a (fst (y v a))) -> forall a, kept a (fst (andthen x y a))).
  { intros A x B y Hx Hy b. specialize (Hx b). unfold andthen. destruct (x b) as [b' [v| | | |]]; cbn [fst] in *; auto. eapply kept_trans; [exact Hx|apply Hy]. }
  revert a. unfold argValid_str_on. apply Step; [|intros _; apply Step; [|intros _; apply Step; [|intros _; apply Step; [|intros _]]]];
    intros a; unfold part; cbn [fst]; intros pr o N; unfold getPropertyValues; cbn [a_int a_dbl a_size a_str a_set a_vec].
  - rewrite (pv_rel dec pr o (fun p p' => p' = p \/ v_int E w p = Ok p') (a_int E a) (fst (each_on (whole (v_int E w)) (a_int E a)))); [reflexivity| |apply each_on_rel; auto].
    intros p p' [->|H]; [auto|]. unfold v_int in H. destruct (p_kind p) eqn:K; try (apply Ok_inj in H; subst; split; congruence).
    unfold exist_propValid in H. bk H m.
    assert (G : p' = p \/ p' = setPropOption_ $"FILE_DOES_EXIST" 1 p).
    { destruct (negb (m =? 0)), (file_exists E w); cbn [negb] in H; try discriminate; apply Ok_inj in H; auto. }
    destruct G as [-> | ->]; [split; congruence|]. cbn [setPropOption_ p_kind]. split; auto. intros Q.
    fold (setPropOption_ $"FILE_DOES_EXIST" 1 p). apply get_set_ne. intros ->. apply N. left. split; [symmetry; exact Q|reflexivity].
  - now rewrite each_on_same by (intros; eapply v_size_same; eauto).
  - now rewrite each_on_same by (intros; eapply v_str_same; eauto).
  - now rewrite each_on_same by (intros; eapply v_set_same; eauto).
  - rewrite (pv_rel join pr o (fun p p' => p' = p \/ v_vec E w p = Ok p') (a_vec E a) (fst (each_on (whole (v_vec E w)) (a_vec E a)))); [reflexivity| |apply each_on_rel; auto].
    intros p p' [->|H]; [auto|]. unfold v_vec in H. destruct (p_kind p) eqn:K; try (apply Ok_inj in H; subst; split; congruence).
    unfold sister_propValid in H. bk H x1. bk H x2. bk H x3. bk H x4. cbv zeta in H. apply Ok_inj in H. subst. split; [exact K|].
    intros Q. rewrite !get_set_ne; auto; intros ->; apply N; right; (split; [symmetry; exact Q|cbn; tauto]).
Qed.
Definition lasting {A} (s : stm (parser E) A) : Prop := forall P, holds P (fst (s P)).
Lemma lasting_then {A B} (a : stm (parser E) A) (b : A -> stm (parser E) B) : lasting a -> (forall v, lasting (b v)) -> lasting (andthen a b).
Proof.
  intros Ha Hb P. specialize (Ha P). unfold andthen. destruct (a P) as [P' [v| | | |]]; cbn [fst] in *; auto. eapply holds_trans; [exact Ha|apply Hb].
Qed.
Lemma lasting_reads {A} (x : outcome A) : lasting (reads x). Proof. intros P. apply holds_refl. Qed.
Lemma lasting_yields {A} (x : A) : lasting (yields x). Proof. intros P. apply holds_refl. Qed.
Ltac same := intros ?; apply holds_same; intros []; reflexivity.
Ltac lasts := repeat (first [apply lasting_reads|apply lasting_yields|apply lasting_then; [|intros ?]|same]).
Lemma stage_lasts f args v : lasting (parse_str_on f args v) /\ lasting (parse_switch_on f args v) /\ lasting (parse_int_on f args v) /\
  lasting (parse_double_on f args v) /\ lasting (parse_file_on f args v).
Proof.
  assert (Read : forall A B (x : outcome A) (y : A -> stm (parser E) B) P, (forall v, holds P (fst (y v P))) -> holds P (fst (andthen (reads x) y P))).
  { intros A B x y P H. unfold andthen, reads. destruct x; try apply holds_refl. apply H. }
  assert (Then : forall A B (x : stm (parser E) A) (y : A -> stm (parser E) B) P, holds P (fst (x P)) -> (forall v, lasting (y v)) -> holds P (fst (andthen x y P))).
  { intros A B x y P H1 H2. unfold andthen. destruct (x P) as [P' [u| | | |]]; cbn [fst] in *; auto. eapply holds_trans; [exact H1|apply H2]. }
  split; [|split; [|split; [|split]]]; intros P; unfold parse_str_on, parse_switch_on, parse_int_on, parse_double_on, parse_file_on;
  (destruct (m_find f _) as [a|] eqn:F; [|apply holds_refl]).
  - destruct (negb _ || _); [|apply holds_refl]. apply Read. intros w. apply Then; [|intros ?; lasts].
    apply (holds_set _ _ AString f a (fst (argValid_str_on w a))); [reflexivity|others|exact F|apply valid_on_kept].
  - destruct (negb _); [|revert P F; intros P _; revert P; lasts]. destruct (nth_error args (fst v + 1)) as [w|]; [|destruct (requiresParameter E a); revert P F; intros P _; revert P; lasts].
    apply Then; [|intros ?; lasts].
    apply (holds_set _ _ ASwitch f a (fst (argValid_str_on w a))); [reflexivity|others|exact F|apply valid_on_kept].
  - destruct (negb _ || _); [|apply holds_refl]. apply Read. intros w. apply Read. intros n. apply Then; [|intros ?; lasts].
    apply (holds_set _ _ AInt f a (fst (argValid_int_on n a))); [reflexivity|others|exact F|rewrite argValid_int_on_same; apply kept_refl].
  - destruct (negb _ || _); [|apply holds_refl]. apply Read. intros w. apply Read. intros n. apply Then; [|intros ?; lasts].
    apply (holds_set _ _ ADouble f a (fst (argValid_dbl_on n a))); [reflexivity|others|exact F|rewrite argValid_dbl_on_same; apply kept_refl].
  - destruct (negb _ || _); [|apply holds_refl]. apply Read. intros w. apply Then; [|intros ?; lasts].
    apply (holds_set _ _ AFile f a (fst (argValid_str_on w a))); [reflexivity|others|exact F|apply valid_on_kept].
Qed.
(** whatever becomes of the command line *)
Lemma parse_on_lasts args : lasting (parse_on args).
Proof.
  assert (A : forall i, lasting (parseArg_on i args)).
  { intros i P. unfold parseArg_on. destruct (nth_error args i) as [w|]; [|apply holds_refl]. cbv zeta. generalize (resolve P w). intros f. revert P.
    repeat (apply lasting_then; [apply stage_lasts|intros ?]). destruct (snd v3); lasts. }
  assert (L : forall fuel i al, lasting (parse_loop_on fuel args i al)).
  { induction fuel as [|n IH]; intros i al; cbn [parse_loop_on]; [lasts|]. destruct (nth_error args i) as [w|]; [|lasts].
    destruct (is_help w); [destruct (al =? length args)%nat; [lasts|apply IH]|]. destruct (is_version w); [lasts|].
    destruct (is_citation w); [destruct (al =? length args)%nat; [lasts|apply IH]|].
    apply lasting_then; [apply A|]. intros j. apply IH. }
  unfold parse_on. destruct args as [|x [|y t]]; [lasts|lasts|]. apply lasting_then; [apply L|]. intros _. intros P. apply holds_refl.
Qed.
Lemma settled_inv args P P' : settled (parse_on args P) = Ok P' -> P' = fst (parse_on args P).
Proof. destruct (parse_on args P) as [Q [| | | |]]; cbn [settled fst]; congruence. Qed.

(** ** all calls *)
Lemma call_wf c P P' : wf P -> do_call c P = Ok P' -> wf P'.
Proof.
  intros W H. destruct c; cbn [do_call] in H; try (inversion H; subst; apply wf_with_defaults;
    first [apply wf_with_ints|apply wf_with_sizes|apply wf_with_dbls|apply wf_with_strs]; exact W).
  - eapply set_option_wf; eauto.
  - eapply add_wf; eauto.
  - apply settled_inv in H. subst. apply parse_on_wf, W.
Qed.
Lemma call_keeps c P P' k f a pr o : wf P -> do_call c P = Ok P' -> k <> ADouble -> m_find f (margs k P) = Some a ->
  no_set f (arg_name k) pr o c -> (no_parse c \/ ~ written_by_parse pr o) ->
  exists a', m_find f (margs k P') = Some a' /\ getPropertyValues E a' pr o = getPropertyValues E a pr o.
Proof.
  intros W H Nk F Ns Np. destruct c as [f0 n0 pr0 o0 s|f0 n0|args|f0 v|f0 v|f0 v|f0 v]; cbn [do_call] in H;
    try (inversion H; subst; exists a; split; [destruct k; exact F|reflexivity]).
  - destruct (set_effect _ _ _ _ _ _ _ W H) as (k0 & a0 & -> & M1 & M2 & M3). destruct (akind_dec k k0) as [<-|N].
    + rewrite M1, find_set. destruct (str_dec f f0) as [<-|N]; [|exists a; auto].
      exists a0. split; auto. destruct (M3 Nk) as [_ M4]. cbn [no_set] in Ns. rewrite M4 by congruence. unfold the_arg. now rewrite F.
    + rewrite M2 by auto. exists a. auto.
  - destruct (add_effect _ _ _ _ H) as (k0 & -> & M1 & M2 & M3). destruct (akind_dec k k0) as [<-|N].
    + rewrite M1, find_set. destruct (str_dec f f0) as [<-|N]; [|exists a; auto]. rewrite M3 in F by auto. discriminate.
    + rewrite M2 by auto. exists a. auto.
  - destruct Np as [Np|Np]; [contradiction|]. apply settled_inv in H. subst. destruct (parse_on_lasts args P _ _ _ F) as (a' & F' & K). exists a'. auto.
Qed.
Lemma calls_keep l : forall P P' k f a pr o, wf P -> do_calls l P = Ok P' -> k <> ADouble -> m_find f (margs k P) = Some a ->
  Forall (no_set f (arg_name k) pr o) l -> (Forall no_parse l \/ ~ written_by_parse pr o) ->
  wf P' /\ exists a', m_find f (margs k P') = Some a' /\ getPropertyValues E a' pr o = getPropertyValues E a pr o.
Proof.
  induction l as [|c t IH]; intros P P' k f a pr o W H Nk F Ns Np; cbn [do_calls] in H.
  - inversion H; subst. split; auto. exists a. auto.
  - bk H P1. inversion Ns; subst.
    destruct (call_keeps c P P1 k f a pr o W B Nk F H2) as (a1 & F1 & V1).
    { destruct Np as [Np|Np]; [|auto]. inversion Np; auto. }
    destruct (IH P1 P' k f a1 pr o (call_wf _ _ _ W B) H Nk F1 H3) as (W' & a' & F' & V').
    { destruct Np as [Np|Np]; [|auto]. inversion Np; auto. }
    split; auto. exists a'. split; auto. congruence.
Qed.

(** ** the options that exist *)
Definition opts_of (k : akind) : list (str * str) :=
  concat (map (fun p => map (fun o => (prop_name p, o)) (prop_opts p)) (ki k ++ kd k ++ kz k ++ ks k ++ kset k ++ ParserWf.kv k)).
Lemma pv_total {T} (text : T -> str) pr o ps : Forall full_prop ps ->
  match prop_value text pr o ps with
  | Some r => (exists t, r = Ok t) /\ exists p, In p (map p_kind ps) /\ pr = prop_name p /\ In o (prop_opts p)
  | None => forall p, In p (map p_kind ps) -> pr = prop_name p -> ~ In o (prop_opts p)
  end.
Proof.
  induction ps as [|p t IH]; intros F; cbn [prop_value map]; [intros p []|]. inversion F as [|? ? Fp Ft]; subst.
  destruct (str_eqb_spec pr (prop_name (p_kind p))) as [->|N]; cbn [andb].
  - destruct (existsb (str_eqb o) (prop_opts (p_kind p))) eqn:X.
    + apply existsb_exists in X as (y & I & Q). apply str_eqb_eq in Q. subst y. destruct (proj1 Fp o I) as (v & G). rewrite G. cbn [bind].
      split; [eauto|]. exists (p_kind p). split; [left; auto|auto].
    + specialize (IH Ft). destruct (prop_value text (prop_name (p_kind p)) o t) as [r|].
      * destruct IH as (I1 & q & I2 & I3). split; auto. exists q. split; [right; auto|auto].
      * intros q [<-|Iq] Eq; [|auto]. intros C. rewrite (existsb_in _ _ C) in X. discriminate.
  - specialize (IH Ft). destruct (prop_value text pr o t) as [r|].
    * destruct IH as (I1 & q & I2 & I3). split; auto. exists q. split; [right; auto|auto].
    * intros q [<-|Iq] Eq; [congruence|auto].
Qed.
Lemma total_value a pr o : shape a ->
  (In (pr, o) (opts_of (a_kind E a)) /\ exists t, getPropertyValues E a pr o = Ok t) \/
  (~ In (pr, o) (opts_of (a_kind E a)) /\ getPropertyValues E a pr o = Throw InvalidArgument).
Proof.
  intros S. unfold getPropertyValues.
  pose proof (pv_total dec pr o _ (proj2 (sh_int _ S))) as T1. pose proof (pv_total (d_text E) pr o _ (proj2 (sh_dbl _ S))) as T2.
  pose proof (pv_total dec pr o _ (proj2 (sh_size _ S))) as T3. pose proof (pv_total (fun s => s) pr o _ (proj2 (sh_str _ S))) as T4.
  pose proof (pv_total join pr o _ (proj2 (sh_set _ S))) as T5. pose proof (pv_total join pr o _ (proj2 (sh_vec _ S))) as T6.
  rewrite (proj1 (sh_int _ S)) in T1. rewrite (proj1 (sh_dbl _ S)) in T2. rewrite (proj1 (sh_size _ S)) in T3.
  rewrite (proj1 (sh_str _ S)) in T4. rewrite (proj1 (sh_set _ S)) in T5. rewrite (proj1 (sh_vec _ S)) in T6.
  assert (In_ : forall p, In p (ki (a_kind E a) ++ kd (a_kind E a) ++ kz (a_kind E a) ++ ks (a_kind E a) ++ kset (a_kind E a) ++ ParserWf.kv (a_kind E a)) ->
            pr = prop_name p -> In o (prop_opts p) -> In (pr, o) (opts_of (a_kind E a))).
  { intros p I -> Io. unfold opts_of. apply in_concat. eexists. split; [apply in_map; exact I|]. apply (in_map (fun o => (prop_name p, o))). exact Io. }
  destruct (prop_value dec pr o (a_int E a)) as [r|]; cbn [orelse].
  { left. destruct T1 as ((t & ->) & p & I & Q & Io). split; [|eauto]. apply (In_ p); auto. rewrite !in_app_iff. auto. }
  destruct (prop_value (d_text E) pr o (a_dbl E a)) as [r|]; cbn [orelse].
  { left. destruct T2 as ((t & ->) & p & I & Q & Io). split; [|eauto]. apply (In_ p); auto. rewrite !in_app_iff. auto. }
  destruct (prop_value dec pr o (a_size E a)) as [r|]; cbn [orelse].
  { left. destruct T3 as ((t & ->) & p & I & Q & Io). split; [|eauto]. apply (In_ p); auto. rewrite !in_app_iff. auto. }
  destruct (prop_value (fun s => s) pr o (a_str E a)) as [r|]; cbn [orelse].
  { left. destruct T4 as ((t & ->) & p & I & Q & Io). split; [|eauto]. apply (In_ p); auto. rewrite !in_app_iff. auto. }
  destruct (prop_value join pr o (a_set E a)) as [r|]; cbn [orelse].
  { left. destruct T5 as ((t & ->) & p & I & Q & Io). split; [|eauto]. apply (In_ p); auto. rewrite !in_app_iff. auto 7. }
  destruct (prop_value join pr o (a_vec E a)) as [r|]; cbn [orelse].
  { left. destruct T6 as ((t & ->) & p & I & Q & Io). split; [|eauto]. apply (In_ p); auto. rewrite !in_app_iff. auto 7. }
  right. split; [|reflexivity]. unfold opts_of. intros C. apply in_concat in C as (x & Ix & C). apply in_map_iff in Ix as (p & <- & Ip).
  apply in_map_iff in C as (o' & Q & Io). assert (pr = prop_name p) by congruence. assert (o' = o) by congruence. subst o'.
  rewrite !in_app_iff in Ip. destruct Ip as [I|[I|[I|[I|[I|I]]]]];
   [apply (T1 p)|apply (T2 p)|apply (T3 p)|apply (T4 p)|apply (T5 p)|apply (T6 p)]; auto.
Qed.
End History.
