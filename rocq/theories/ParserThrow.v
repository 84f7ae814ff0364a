(** * C55: which exception a value that is refused gives *)
From Verif Require Import StrFacts ArgsFacts ParserWf ParserStateWf ParserRun ParserLine ParserMore ParserEffect ParserReject ParserProps ParserRejectProps ParserCheck.
From Verif Require Import MainSafe.
From Verif Require Export ParserRejectSpec.
From Verif Require Export StrSpec StrModel.
Open Scope Z_scope.

(** a call that returns, throws or is undefined: it neither ends the process nor runs out of steps *)
Definition quiet {A} (o : outcome A) : Prop := (forall c, o <> Exit c) /\ o <> NoFuel.
Lemma quiet_bind {A B} (o : outcome A) (k : A -> outcome B) : quiet o -> (forall a, quiet (k a)) -> quiet (bind o k).
Proof. intros [H1 H2] K. destruct o; cbn [bind]; auto; try (split; congruence). Qed.
Ltac nq := split; [intros ? ?; discriminate|discriminate].
Create HintDb quiet.
Ltac quiet1 := match goal with
| |- quiet (bind _ _) => apply quiet_bind; [|intros ?]
| |- quiet (Ok _) => nq
| |- quiet (Throw _) => nq
| |- quiet (Undef _) => nq
| |- quiet (if ?b then _ else _) => destruct b
| |- quiet (match ?x with _ => _ end) => destruct x
| |- quiet (let _ := _ in _) => cbv zeta
| |- _ => solve [auto with quiet]
end.
Ltac quiets := repeat quiet1.
Lemma quiet_each {A} (f : A -> outcome A) l : (forall x, quiet (f x)) -> quiet (each f l).
Proof. intros H. induction l; cbn [each]; quiets. Qed.
Lemma quiet_stoi s : quiet (stoi s). Proof. unfold stoi; quiets. Qed.
Lemma quiet_option {T} (p : prop T) o : quiet (getPropOption p o). Proof. unfold getPropOption; quiets. Qed.
#[local] Hint Resolve quiet_each quiet_stoi quiet_option : quiet.
Lemma quiet_ext x : quiet (ext_checkExt x).
Proof.
  unfold ext_checkExt. destruct (str_eqb x []); [nq|]. destruct (Ascii.eqb _ _); [nq|].
  destruct (ext_exists x) as (c & y & Hs). destruct (dot_last _ _ _ Hs) as [-> _]. cbn [bind]. quiets.
Qed.
#[local] Hint Resolve quiet_ext : quiet.
Section Quiet.
Context {E : env}.
Lemma quiet_int w p : quiet (v_int E w p). Proof. unfold v_int, exist_propValid; quiets. Qed.
Lemma quiet_size w p : quiet (v_size w p). Proof. unfold v_size, string_propValid; quiets. Qed.
Lemma quiet_str w p : quiet (v_str w p). Proof. unfold v_str, switch_propValid; quiets. Qed.
Lemma quiet_set w p : quiet (v_set w p).
Proof.
  unfold v_set. destruct (p_kind p); try nq.
  - unfold ext_propValid. destruct (path_is_exists w) as (d & c & y & f & -> & Hd & Hf & Hs).
    rewrite lastString_ok by auto. cbn [bind]. destruct (dot_last _ _ _ Hs) as [_ Q]. rewrite Q. cbn [bind].
    unfold extSupported. quiets.
  - unfold choice_propValid. quiets.
Qed.
Lemma quiet_vec w p : quiet (v_vec E w p).
Proof.
  unfold v_vec. destruct (p_kind p); try nq. unfold sister_propValid.
  destruct (path_is_exists w) as (d & c & y & f & -> & Hd & Hf & Hs).
  rewrite lastString_ok, getPath_ok by auto. cbn [bind]. destruct (dot_last _ _ _ Hs) as [-> _]. cbn [bind]. quiets.
Qed.
#[local] Hint Resolve quiet_int quiet_size quiet_str quiet_set quiet_vec : quiet.
Lemma quiet_valid_str w (a : arg E) : quiet (argValid_str E w a). Proof. unfold argValid_str; quiets. Qed.
Lemma quiet_valid_int w (a : arg E) : quiet (argValid_int E w a). Proof. unfold argValid_int, int_propValid. quiets. apply quiet_each. intros p. quiets. Qed.
Lemma quiet_valid_dbl w (a : arg E) : quiet (argValid_dbl E w a). Proof. unfold argValid_dbl, double_propValid. quiets. apply quiet_each. intros p. quiets. Qed.
#[local] Hint Resolve quiet_valid_str quiet_valid_int quiet_valid_dbl : quiet.
Lemma quiet_take k f w (P : parser E) : (k = KDouble -> quiet (e_stod E w)) -> quiet (take k f w P).
Proof. intros Q. unfold take. destruct (m_find f (args_of P k)); [|nq]. destruct k; quiets. Qed.
Lemma value_throws (P : parser E) prog l x f k w rest : reg P -> MainSafe.settled E P -> sound_double E -> (k = KDouble -> quiet (e_stod E w)) -> valid P l -> ~ informational x -> stands_for P x f -> has_kind P f k -> k <> KSwitch ->
  ~ admissible P f w -> exists e, parse (prog :: words l ++ x :: w :: rest) P = Throw e /\ refused P f w e.
Proof.
  intros R St Hd Qd V NI S K N A. pose proof (def_parse E Hd (prog :: words l ++ x :: w :: rest) P St) as D. revert D.
  destruct (parse_prefix P prog l x (w :: rest) R V) as (P' & fu & Rn & L & W & F1 & _ & ->).
  { intros. exists f; auto. }
  assert (R' : reg P') by (eapply alike_reg; eauto). assert (K' : has_kind P' f k) by (apply (l_kind _ _ L); auto).
  destruct fu as [|n]; [lia|]. rewrite step_word by auto.
  rewrite (parseArg_val _ _ _ x f k R' K' N) ; [|apply nth_here|apply stands_resolve; auto; apply (alike_stands _ _ _ _ L); auto].
  rewrite nth_app_len1. cbn [hd_error]. pose proof (quiet_take k f w P' Qd) as [Q1 Q2]. destruct (take k f w P') as [Q|e|c|u|] eqn:T; cbn [bind]; intros D.
  - exfalso. apply A. apply (l_adm _ _ L). apply (take_admissible k f w P' R' K'); eauto.
  - exists e. split; [auto|]. apply (alike_refused P P' f w e L). eapply take_refused; eauto.
  - exfalso. apply (Q1 c). auto.
  - exfalso. apply (D u). auto.
  - exfalso. auto.
Qed.
End Quiet.

Lemma none_some {A} (o : option A) a : o = None -> o = Some a -> False. Proof. congruence. Qed.
(** the command line of calc_J: a value that is not acceptable ends the parse with the
    exception that [refused] names for the type of the flag *)
Theorem C55_value_exception : forall E prog l x f k w rest, sound_double E -> valid (catnip E) l ->
  ~ informational x -> stands_for (catnip E) x f -> has_kind (catnip E) f k -> k <> KSwitch -> ~ admissible (catnip E) f w ->
  exists e, parse (prog :: words l ++ x :: w :: rest) (catnip E) = Throw e /\ refused (catnip E) f w e.
Proof.
  intros E prog l x f k w rest Hd V NI S K N A. eapply value_throws; eauto.
  - apply regular_reg, catnip_regular.
  - apply catnip_settled, catnip_ok.
  - intros ->. exfalso. destruct K as [a K]. cbn [args_of] in K. assert (D : double_arg (catnip E) = []) by (vm_compute; reflexivity). exact (none_some _ _ (eq_trans (f_equal (m_find f) D) eq_refl) K).
Qed.

Example C55_exception_example : ~ informational $"--spin_1" /\ stands_for (catnip world) $"--spin_1" $"--spin_1" /\ has_kind (catnip world) $"--spin_1" KStr /\
  ~ admissible (catnip world) $"--spin_1" $"Gamma" /\ parse [$"calc_J"; $"--spin_1"; $"Gamma"] (catnip world) = Throw InvalidArgument.
Proof.
  split; [apply infob_ok; reflexivity|].
  assert (K : has_kind (catnip world) $"--spin_1" KStr) by (apply has_keys; [apply catnip_wf|vm_compute; auto 10]).
  split; [apply standsb_ok; [apply catnip_wf|vm_compute; reflexivity]|]. split; [exact K|]. split; [apply admissibleb_no; vm_compute; reflexivity|apply throws_ok; vm_compute; reflexivity].
Qed.
Print Assumptions C55_value_exception.
