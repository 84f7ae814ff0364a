(** * C89: options of flags can be read back *)
From Verif Require Import StrFacts ArgsFacts ParserWf ParserStateWf OptionHistory.
From Verif Require Export OptionSpec.
Open Scope Z_scope.

Section Aux.
Context {E : env}.
Lemma initially_kind n pr o t : In (n, pr, o, t) initially -> exists k, k <> ADouble /\ n = arg_name k /\
  In (pr, o) (opts_of k) /\ getPropertyValues E (fresh_arg k) pr o = Ok t.
Proof.
  intros I. assert (Q : Forall (fun x => exists k, k <> ADouble /\ fst (fst (fst x)) = arg_name k /\
     In (snd (fst (fst x)), snd (fst x)) (opts_of k) /\ getPropertyValues E (fresh_arg k) (snd (fst (fst x))) (snd (fst x)) = Ok (snd x)) initially).
  { unfold initially.
    Local Ltac one k := apply Forall_cons; [exists k; split; [discriminate|]; split; [reflexivity|]; split; [vm_compute; tauto|vm_compute; reflexivity]|].
    do 2 one AInt. do 4 one AString. one ASwitch. do 8 one AFile. apply Forall_nil. }
  rewrite Forall_forall in Q. exact (Q _ I).
Qed.
Lemma kind_initially k pr o : k <> ADouble -> In (pr, o) (opts_of k) -> exists t, In (arg_name k, pr, o, t) initially.
Proof.
  intros N I. assert (Q : Forall (fun x => exists t, In (arg_name k, fst x, snd x, t) initially) (opts_of k)).
  { destruct k; [|contradiction| | |];
      (match goal with |- Forall ?p ?l => let l' := eval vm_compute in l in change (Forall p l') end);
      repeat (apply Forall_cons; [eexists; vm_compute; tauto|]); apply Forall_nil. }
  rewrite Forall_forall in Q. exact (Q _ I).
Qed.
End Aux.

(** what was set last is what is read, whatever is done later to the parser *)
Theorem C89_last_partial :
  forall (E : env) (P P1 P2 : parser E) f n pr o s later,
  built E P -> n <> $"ARGUMENT_DOUBLE" ->
  set_option f n pr o s P = Ok P1 ->
  do_calls later P1 = Ok P2 -> Forall (no_set f n pr o) later ->
  (Forall no_parse later \/ ~ written_by_parse pr o) ->
  getFlagArgOptValue P2 f n pr o = Ok (shown n s).
Proof.
  intros E P P1 P2 f n pr o s later B Nn Hs Hl Ns Np. apply built_wf in B.
  destruct (set_effect _ _ _ _ _ _ _ B Hs) as (k & a & -> & M1 & M2 & M3).
  assert (Nk : k <> ADouble) by (intros ->; apply Nn; reflexivity).
  destruct (M3 Nk) as [V _].
  assert (F : m_find f (margs k P1) = Some a) by (rewrite M1; apply find_set_eq).
  destruct (calls_keep _ _ _ _ _ _ _ _ (set_option_wf _ _ _ _ _ _ _ B Hs) Hl Nk F Ns Np) as (W2 & a2 & F2 & V2).
  rewrite (read_eq _ _ _ _ _ W2 Nk), F2. congruence.
Qed.
Print Assumptions C89_last_partial.

(** options never set have their initial values *)
Theorem C89_initial_partial :
  forall (E : env) (P P1 P2 : parser E) f n pr o t first later,
  built E P -> In (n, pr, o, t) initially ->
  (forall pr' o', getFlagArgOptValue P f n pr' o' = Throw InvalidArgument) ->
  (first = CAdd f n \/ exists pr' o' s, first = CSet f n pr' o' s) -> no_set f n pr o first ->
  do_call first P = Ok P1 ->
  do_calls later P1 = Ok P2 -> Forall (no_set f n pr o) later ->
  (Forall no_parse later \/ ~ written_by_parse pr o) ->
  getFlagArgOptValue P2 f n pr o = Ok t.
Proof.
  intros E P P1 P2 f n pr o t first later B I Abs Fi Nf Hf Hl Ns Np. apply built_wf in B.
  destruct (@initially_kind E _ _ _ _ I) as (k & Nk & -> & Io & V).
  assert (Fn : m_find f (margs k P) = None).
  { specialize (Abs pr o). rewrite (read_eq _ _ _ _ _ B Nk) in Abs. destruct (m_find f (margs k P)) as [a|] eqn:F; auto.
    destruct (wf_find _ _ _ _ (wf_margs k P B) F) as [K Sh]. destruct (total_value a pr o Sh) as [[_ (t' & Q)]|[Q _]]; [congruence|].
    rewrite K in Q. contradiction. }
  assert (F : exists a, m_find f (margs k P1) = Some a /\ getPropertyValues E a pr o = Ok t).
  { destruct Fi as [->|(pr' & o' & s & ->)]; cbn [do_call] in Hf.
    - destruct (add_effect _ _ _ _ Hf) as (k0 & Q & M1 & _ & _). apply name_inj in Q. subst k0. exists (fresh_arg k). rewrite M1.
      split; [apply find_set_eq|exact V].
    - destruct (set_effect _ _ _ _ _ _ _ B Hf) as (k0 & a & Q & M1 & _ & M3). apply name_inj in Q. subst k0. exists a. rewrite M1.
      split; [apply find_set_eq|]. destruct (M3 Nk) as [_ M4]. cbn [no_set] in Nf. rewrite M4 by congruence. unfold the_arg. now rewrite Fn. }
  destruct F as (a & F & V1).
  destruct (calls_keep _ _ _ _ _ _ _ _ (call_wf _ _ _ B Hf) Hl Nk F Ns Np) as (W2 & a2 & F2 & V2).
  rewrite (read_eq _ _ _ _ _ W2 Nk), F2. congruence.
Qed.
Print Assumptions C89_initial_partial.

(** the options that exist are those of the table: reading or setting any other is rejected *)
Theorem C89_known_options :
  forall (E : env) (P : parser E) f n pr o,
  built E P ->
  (exists t, getFlagArgOptValue P f n pr o = Ok t /\ exists t0, In (n, pr, o, t0) initially) \/
  getFlagArgOptValue P f n pr o = Throw InvalidArgument.
Proof.
  intros E P f n pr o B. apply built_wf in B. destruct (name_kind n) as [[k ->]|N].
  - destruct (akind_dec k ADouble) as [->|Nk].
    + right. apply read_none; auto. intros k Nk Q. apply name_inj in Q. congruence.
    + rewrite (read_eq _ _ _ _ _ B Nk). destruct (m_find f (margs k P)) as [a|] eqn:F; [|auto].
      destruct (wf_find _ _ _ _ (wf_margs k P B) F) as [K Sh]. destruct (total_value a pr o Sh) as [[I (t & Q)]|[_ Q]]; [left|auto].
      exists t. split; auto. rewrite K in I. exact (kind_initially k pr o Nk I).
  - right. apply read_none; auto.
Qed.
Print Assumptions C89_known_options.
Theorem C89_settable_options :
  forall (E : env) (P P1 : parser E) f n pr o s,
  built E P -> n <> $"ARGUMENT_DOUBLE" -> set_option f n pr o s P = Ok P1 -> exists t, In (n, pr, o, t) initially.
Proof.
  intros E P P1 f n pr o s B Nn H.
  assert (R : getFlagArgOptValue P1 f n pr o = Ok (shown n s)).
  { apply (C89_last_partial E P P1 P1 f n pr o s []); auto. }
  assert (B1 : built E P1).
  { destruct s; cbn [set_option] in H; [eapply B_int|eapply B_dbl|eapply B_str|eapply B_set|eapply B_vec]; eauto. }
  destruct (C89_known_options E P1 f n pr o B1) as [(t & _ & I)|Q]; [exact I|congruence].
Qed.
Print Assumptions C89_settable_options.

(** the limits of a double can be set but not read *)
Theorem C89_double_refuted :
  forall (E : env) (P : parser E) f pr o, built E P -> getFlagArgOptValue P f $"ARGUMENT_DOUBLE" pr o = Throw InvalidArgument.
Proof.
  intros E P f pr o B. apply built_wf in B. apply read_none; auto. intros k Nk Q. apply (name_inj ADouble) in Q. congruence.
Qed.
Print Assumptions C89_double_refuted.

(** a case: a number between 3 and 9; a command line is read later, after another one was rejected *)
Definition a_world : env := mkEnv Z Z.ltb (-1000) 1000 dec stoi (fun _ => false).
Definition parser_of (x : outcome (parser a_world)) : parser a_world := match x with Ok P => P | _ => empty_parser a_world end.
Definition ex_new := parser_of (ArgumentParser a_world [[$"--n"; $"-n"; $"a number"]; [$"--t"]]).
Definition ex_set := parser_of (set_option $"--n" $"ARGUMENT_INT" $"PROPERTY_INT" $"MIN" (SInt 3) ex_new).
Definition ex_calls : list (call a_world) :=
  [CSet $"--n" $"ARGUMENT_INT" $"PROPERTY_INT" $"MAX" (SInt 9); CAdd $"--t" $"ARGUMENT_DOUBLE";
   CSet $"--t" $"ARGUMENT_STRING" $"PROPERTY_STRING_CHOICE" $"STRING_CHOICES" (SSet [$"a"; $"b"]); CParse [$"prog"; $"-n"; $"77"]; CParse [$"prog"; $"-n"; $"7"]].
Definition ex_last := parser_of (do_calls ex_calls ex_set).
Example C89_example :
  built a_world ex_new /\ set_option $"--n" $"ARGUMENT_INT" $"PROPERTY_INT" $"MIN" (SInt 3) ex_new = Ok ex_set /\
  do_calls ex_calls ex_set = Ok ex_last /\ Forall (no_set $"--n" $"ARGUMENT_INT" $"PROPERTY_INT" $"MIN") ex_calls /\
  ~ written_by_parse $"PROPERTY_INT" $"MIN" /\
  getFlagArgOptValue ex_last $"--n" $"ARGUMENT_INT" $"PROPERTY_INT" $"MIN" = Ok $"3" /\
  getFlagArgOptValue ex_last $"--t" $"ARGUMENT_STRING" $"PROPERTY_STRING_CHOICE" $"STRING_CHOICES" = Ok $"a b" /\
  getFlagArgOptValue ex_last $"--t" $"ARGUMENT_STRING" $"PROPERTY_STRING" $"MIN_LENGTH" = Ok $"0".
Proof.
  assert (R : forall x, (match x with Ok _ => true | _ => false end) = true -> x = Ok (parser_of x)) by (intros []; [reflexivity|discriminate..]).
  split. { apply (B_new [[$"--n"; $"-n"; $"a number"]; [$"--t"]]). apply R. vm_compute. reflexivity. }
  split. { apply R. vm_compute. reflexivity. }
  split. { apply R. vm_compute. reflexivity. }
  split. { repeat constructor; cbn [no_set]; intros Q; vm_compute in Q; discriminate. }
  split. { intros [[Q _]|[Q _]]; vm_compute in Q; discriminate. }
  split; [vm_compute; reflexivity|]. split; vm_compute; reflexivity.
Qed.
