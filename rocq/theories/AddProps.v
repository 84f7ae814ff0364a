(** * C99: attaching arguments to flags *)
From Verif Require Import StrFacts ArgsFacts ParserWf ParserStateWf OptionHistory OptionProps.
From Verif Require Export OptionSpec HelpSpec.
Open Scope Z_scope.

(** the flag has an argument of this type: some option of it can be read *)
Definition has_argument {E} (P : parser E) (f n : str) : Prop := exists pr o t, getFlagArgOptValue P f n pr o = Ok t.
(** the values and the help text of two parsers are the same *)
Definition same_values {E} (P P' : parser E) : Prop :=
  (forall f, getInt P' f = getInt P f /\ getDouble P' f = getDouble P f /\ getStr P' f = getStr P f /\ getSize_t P' f = getSize_t P f).

Section Add.
Context {E : env}.
Implicit Types P : parser E.
Lemma has_iff P f k : wf P -> k <> ADouble -> (has_argument P f (arg_name k) <-> m_has f (margs k P) = true).
Proof.
  intros W Nk. unfold has_argument, m_has. split.
  - intros (pr & o & t & H). rewrite (read_eq _ _ _ _ _ W Nk) in H. destruct (m_find f (margs k P)); [reflexivity|discriminate].
  - intros H. destruct (m_find f (margs k P)) as [a|] eqn:F; [|discriminate].
    destruct (wf_find _ _ _ _ (wf_margs k P W) F) as [K Sh].
    assert (X : exists pr o, In (pr, o) (opts_of k)) by (destruct k; [| |  | |]; try (destruct Nk; reflexivity); do 2 eexists; left; reflexivity).
    destruct X as (pr & o & I). exists pr, o. destruct (total_value a pr o Sh) as [[_ (t & Q)]|[Q _]]; [|rewrite K in Q; contradiction].
    exists t. rewrite (read_eq _ _ _ _ _ W Nk), F. exact Q.
Qed.
Lemma add_eq P f k : k <> ADouble -> addFlagArg f (arg_name k) P = if m_has f (margs k P) then Throw InvalidArgument else
  Ok (match k with AInt => with_int (m_set f (ArgumentInt E) (int_arg P)) P | ASwitch => with_switch (m_set f (ArgumentSwitch E) (switch_arg P)) P
      | AString => with_str (m_set f (ArgumentString E) (str_arg P)) P | AFile => with_file (m_set f (ArgumentFile E) (file_arg P)) P | ADouble => P end).
Proof. intros N. destruct k; try (destruct N; reflexivity); reflexivity. Qed.
End Add.

Theorem C99_add_partial : forall (E : env) (P : parser E) f n, built E P -> In n [$"ARGUMENT_INT"; $"ARGUMENT_SWITCH"; $"ARGUMENT_STRING"; $"ARGUMENT_FILE"] ->
  (has_argument P f n -> addFlagArg f n P = Throw InvalidArgument) /\
  (~ has_argument P f n -> exists P', addFlagArg f n P = Ok P' /\ has_argument P' f n /\
     (forall pr o t, In (n, pr, o, t) initially -> getFlagArgOptValue P' f n pr o = Ok t) /\
     (forall f' n' pr o, (f', n') <> (f, n) -> getFlagArgOptValue P' f' n' pr o = getFlagArgOptValue P f' n' pr o) /\
     (n <> $"ARGUMENT_SWITCH" -> same_values P P') /\
     (forall f', f' <> f -> getInt P' f' = getInt P f' /\ getDouble P' f' = getDouble P f' /\ getStr P' f' = getStr P f' /\ getSize_t P' f' = getSize_t P f') /\
     showUsage P' = showUsage P).
Proof.
  intros E P f n B I. pose proof (built_wf _ B) as W.
  assert (X : exists k, k <> ADouble /\ n = arg_name k).
  { cbn [In] in I. destruct I as [<-|[<-|[<-|[<-|[]]]]]; [exists AInt|exists ASwitch|exists AString|exists AFile]; (split; [discriminate|reflexivity]). }
  destruct X as (k & Nk & ->). clear I. rewrite (has_iff P f k W Nk), (add_eq P f k Nk). split.
  - intros ->. reflexivity.
  - intros H. destruct (m_has f (margs k P)) eqn:M; [congruence|]. eexists. split; [reflexivity|].
    match goal with |- context [has_argument ?q f] => set (P' := q) end.
    assert (A : addFlagArg f (arg_name k) P = Ok P') by (rewrite (add_eq P f k Nk), M; reflexivity).
    assert (B' : built E P') by (eapply B_add; eauto). pose proof (built_wf _ B') as W'.
    destruct (add_effect _ _ _ _ A) as (k0 & Q & M1 & M2 & _). apply name_inj in Q. subst k0.
    split; [|split; [|split; [|split; [|split]]]].
    + apply (has_iff P' f k W' Nk). unfold m_has. rewrite M1, find_set_eq. reflexivity.
    + intros pr o t It. destruct (@initially_kind E _ _ _ _ It) as (k0 & _ & Q & _ & V). apply name_inj in Q. subst k0.
      rewrite (read_eq _ _ _ _ _ W' Nk), M1, find_set_eq. exact V.
    + intros f' n' pr o N. destruct (name_kind n') as [[k' ->]|Nn].
      * destruct (akind_dec k' ADouble) as [->|Nk']; [rewrite !read_none; auto; intros k1 N1 Q; apply name_inj in Q; congruence|].
        rewrite (read_eq _ _ _ _ _ W' Nk'), (read_eq _ _ _ _ _ W Nk'). destruct (akind_dec k' k) as [->|Nkk]; [|rewrite (M2 _ Nkk); reflexivity].
        rewrite M1, find_set_ne by congruence. reflexivity.
      * rewrite !read_none; auto.
    + intros Ns f'. subst P'. unfold getInt, getDouble, getStr, getSize_t. destruct k; try (destruct Nk; reflexivity); try (destruct Ns; reflexivity); repeat split; reflexivity.
    + intros f' Nf. subst P'. unfold getInt, getDouble, getStr, getSize_t. destruct k; try (destruct Nk; reflexivity); cbn [int_values switch_arg string_values double_values size_t_values with_int with_switch with_str with_file];
        rewrite ?find_set_ne by exact Nf; repeat split; reflexivity.
    + subst P'. destruct k; try (destruct Nk; reflexivity); reflexivity.
Qed.
Print Assumptions C99_add_partial.

Theorem C99_unknown_type : forall (E : env) (P : parser E) f n, ~ In n [$"ARGUMENT_INT"; $"ARGUMENT_SWITCH"; $"ARGUMENT_STRING"; $"ARGUMENT_FILE"; $"ARGUMENT_DOUBLE"] ->
  addFlagArg f n P = Throw InvalidArgument.
Proof.
  intros E P f n N. cbn [In] in N. unfold addFlagArg.
  destruct (str_eqb_spec n $"ARGUMENT_INT"); [subst; tauto|]. destruct (str_eqb_spec n $"ARGUMENT_SWITCH"); [subst; tauto|].
  destruct (str_eqb_spec n $"ARGUMENT_STRING"); [subst; tauto|]. destruct (str_eqb_spec n $"ARGUMENT_FILE"); [subst; tauto|].
  destruct (str_eqb_spec n $"ARGUMENT_DOUBLE"); [subst; tauto|reflexivity].
Qed.
Print Assumptions C99_unknown_type.

(** doubles: whether the flag has a file argument decides *)
Theorem C99_double_partial : forall (E : env) (P : parser E) f, built E P ->
  (has_argument P f $"ARGUMENT_FILE" -> addFlagArg f $"ARGUMENT_DOUBLE" P = Throw InvalidArgument) /\
  (~ has_argument P f $"ARGUMENT_FILE" -> exists P', addFlagArg f $"ARGUMENT_DOUBLE" P = Ok P' /\ same_values P P' /\ showUsage P' = showUsage P /\
     (forall f' n pr o, getFlagArgOptValue P' f' n pr o = getFlagArgOptValue P f' n pr o) /\
     exists P'', addFlagArg f $"ARGUMENT_DOUBLE" P' = Ok P'').
Proof.
  intros E P f B. pose proof (built_wf _ B) as W. change $"ARGUMENT_FILE" with (arg_name AFile). rewrite (has_iff P f AFile W ltac:(discriminate)). cbn [margs].
  assert (Q : forall P0 : parser E, addFlagArg f $"ARGUMENT_DOUBLE" P0 = if m_has f (file_arg P0) then Throw InvalidArgument else Ok (with_double (m_set f (ArgumentDouble E) (double_arg P0)) P0)) by (intros; reflexivity).
  rewrite Q. split; [intros ->; reflexivity|]. intros H. destruct (m_has f (file_arg P)) eqn:M; [congruence|].
  eexists. split; [reflexivity|]. split; [intros f'; repeat split; reflexivity|]. split; [reflexivity|]. split; [reflexivity|].
  eexists. rewrite Q. change (file_arg (with_double (m_set f (ArgumentDouble E) (double_arg P)) P)) with (file_arg P). rewrite M. reflexivity.
Qed.
Print Assumptions C99_double_partial.

(** the limits of a double argument are lost when it is added again; a double argument of a flag with a file argument is refused *)
Definition dbl_new := parser_of (ArgumentParser a_world [[$"--x"; $"-x"; $"a number"]; [$"--f"]]).
Definition dbl_limit := parser_of (P <- addFlagArg $"--x" $"ARGUMENT_DOUBLE" dbl_new ;; setFlagArgOpt_dbl $"--x" $"ARGUMENT_DOUBLE" $"PROPERTY_DOUBLE" $"MAX" (9 : D a_world) P).
Definition is_invalid {X} (o : outcome X) : bool := match o with Throw InvalidArgument => true | _ => false end.
Definition is_done {X} (o : outcome X) : bool := match o with Ok _ => true | _ => false end.
Theorem C99_double_refuted :
  is_done (P <- addFlagArg $"--x" $"ARGUMENT_DOUBLE" dbl_new ;; setFlagArgOpt_dbl $"--x" $"ARGUMENT_DOUBLE" $"PROPERTY_DOUBLE" $"MAX" (9 : D a_world) P) = true /\
  is_invalid (parse [$"prog"; $"--x"; $"77"] dbl_limit) = true /\
  is_done (P <- addFlagArg $"--x" $"ARGUMENT_DOUBLE" dbl_limit ;; parse [$"prog"; $"--x"; $"77"] P) = true /\
  is_invalid (P <- addFlagArg $"--f" $"ARGUMENT_FILE" dbl_limit ;; addFlagArg $"--f" $"ARGUMENT_DOUBLE" P) = true.
Proof. vm_compute. repeat split. Qed.
Print Assumptions C99_double_refuted.

Example C99_example : built a_world ex_new /\ ~ has_argument ex_new $"--n" $"ARGUMENT_INT" /\ has_argument ex_set $"--n" $"ARGUMENT_INT".
Proof.
  assert (R : forall x, (match x with Ok _ => true | _ => false end) = true -> x = Ok (parser_of x)) by (intros []; [reflexivity|discriminate..]).
  split; [apply (B_new [[$"--n"; $"-n"; $"a number"]; [$"--t"]]); apply R; vm_compute; reflexivity|]. split.
  - intros (pr & o & t & H). vm_compute in H. discriminate H.
  - exists $"PROPERTY_INT", $"MIN", $"3". vm_compute. reflexivity.
Qed.
