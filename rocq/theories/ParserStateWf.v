(** * The parser an exception leaves behind: agreement with [parse] and well-formedness *)
From Verif Require Export ParserFacts.
Open Scope Z_scope.

(** a call that ends normally, with the object it leaves *)
Definition result {S A} (r : S * outcome A) : outcome (S * A) := v <- snd r ;; Ok (fst r, v).
Lemma result_then {S A B} (a : stm S A) (b : A -> stm S B) s :
  result (andthen a b s) = (r <- result (a s) ;; result (b (snd r) (fst r))).
Proof. unfold andthen, result. destruct (a s) as [s' [v| | | |]]; reflexivity. Qed.
Lemma result_reads {S A} (x : outcome A) (s : S) : result (reads x s) = (v <- x ;; Ok (s, v)).
Proof. reflexivity. Qed.
Lemma bind_bind {A B C} (x : outcome A) (f : A -> outcome B) (g : B -> outcome C) : (y <- (v <- x ;; f v) ;; g y) = (v <- x ;; y <- f v ;; g y).
Proof. destruct x; reflexivity. Qed.
Lemma bind_ext {A B} (x : outcome A) (f g : A -> outcome B) : (forall v, f v = g v) -> (v <- x ;; f v) = (v <- x ;; g v).
Proof. intros H. destruct x; cbn [bind]; auto. Qed.

Lemma Ok_inj {A} (a b : A) : Ok a = Ok b -> a = b.
Proof. congruence. Qed.
Lemma each_on_ok {A} (f : A -> outcome A) l : result (each_on (whole f) l) = (l' <- each f l ;; Ok (l', tt)).
Proof.
  unfold result. induction l as [|x t IH]; cbn [each_on each]; [reflexivity|].
  destruct (each_on (whole f) t) as [t' o]. unfold whole. destruct (f x); cbn [bind fst snd]; try reflexivity.
  cbn [fst snd] in IH. destruct o as [[]| | | |], (each f t); cbn [bind] in *; try discriminate; congruence.
Qed.
Lemma each_on_rel {A} (R : A -> A -> Prop) (f : A -> outcome A) l : (forall x, R x x) -> (forall x y, f x = Ok y -> R x y) -> Forall2 R l (fst (each_on (whole f) l)).
Proof.
  intros Rr Rf. assert (Rl : forall l, Forall2 R l l) by (induction l0; constructor; auto).
  induction l as [|x t IH]; cbn [each_on]; [constructor|]. unfold whole at 1. destruct (f x) eqn:F; cbn [fst]; constructor; auto.
Qed.
Lemma each_on_same {A} (f : A -> outcome A) l : (forall x y, f x = Ok y -> y = x) -> fst (each_on (whole f) l) = l.
Proof. induction l as [|x t IH]; intros H; cbn [each_on]; [reflexivity|]. unfold whole at 1. destruct (f x) eqn:F; cbn [fst]; auto. rewrite (H _ _ F), IH; auto. Qed.

Section State.
Context {E : env}.
Implicit Types (P : parser E) (a : arg E).
Ltac projs := cbn [a_kind a_int a_dbl a_size a_str a_set a_vec fst snd bind] in *.

(** ** the object of a flag *)
Lemma argValid_str_on_ok w a : result (argValid_str_on w a) = (a' <- argValid_str E w a ;; Ok (a', tt)).
Proof.
  unfold argValid_str_on, argValid_str. rewrite result_then. unfold part at 1. unfold result at 1. projs.
  pose proof (each_on_ok (v_int E w) (a_int E a)) as E1. unfold result in E1. destruct (each_on (whole (v_int E w)) (a_int E a)) as [i [[]| | | |]]; destruct (each (v_int E w) (a_int E a)) as [i'| | | |]; projs; try congruence.
  apply Ok_inj in E1. assert (i = i') by congruence. subst i'. clear E1.
  rewrite result_then. unfold part at 1. unfold result at 1. projs.
  pose proof (each_on_ok (v_size w) (a_size E a)) as E1. unfold result in E1. destruct (each_on (whole (v_size w)) (a_size E a)) as [z [[]| | | |]]; destruct (each (v_size w) (a_size E a)) as [z'| | | |]; projs; try congruence.
  apply Ok_inj in E1. assert (z = z') by congruence. subst z'. clear E1.
  rewrite result_then. unfold part at 1. unfold result at 1. projs.
  pose proof (each_on_ok (v_str w) (a_str E a)) as E1. unfold result in E1. destruct (each_on (whole (v_str w)) (a_str E a)) as [s [[]| | | |]]; destruct (each (v_str w) (a_str E a)) as [s'| | | |]; projs; try congruence.
  apply Ok_inj in E1. assert (s = s') by congruence. subst s'. clear E1.
  rewrite result_then. unfold part at 1. unfold result at 1. projs.
  pose proof (each_on_ok (v_set w) (a_set E a)) as E1. unfold result in E1. destruct (each_on (whole (v_set w)) (a_set E a)) as [t [[]| | | |]]; destruct (each (v_set w) (a_set E a)) as [t'| | | |]; projs; try congruence.
  apply Ok_inj in E1. assert (t = t') by congruence. subst t'. clear E1.
  unfold part, result. projs.
  pose proof (each_on_ok (v_vec E w) (a_vec E a)) as E1. unfold result in E1. destruct (each_on (whole (v_vec E w)) (a_vec E a)) as [v [[]| | | |]]; destruct (each (v_vec E w) (a_vec E a)) as [v'| | | |]; projs; try congruence.
Qed.
Lemma argValid_int_on_ok n a : result (argValid_int_on n a) = (a' <- argValid_int E n a ;; Ok (a', tt)).
Proof.
  unfold argValid_int_on, argValid_int, part, result. projs.
  pose proof (each_on_ok (int_propValid n) (a_int E a)) as E1. unfold result in E1. destruct (each_on (whole (int_propValid n)) (a_int E a)) as [v [[]| | | |]]; destruct (each (int_propValid n) (a_int E a)) as [v'| | | |]; projs; try congruence.
Qed.
Lemma argValid_dbl_on_ok n a : result (argValid_dbl_on n a) = (a' <- argValid_dbl E n a ;; Ok (a', tt)).
Proof.
  unfold argValid_dbl_on, argValid_dbl, part, result. projs.
  pose proof (each_on_ok (double_propValid E n) (a_dbl E a)) as E1. unfold result in E1. destruct (each_on (whole (double_propValid E n)) (a_dbl E a)) as [v [[]| | | |]]; destruct (each (double_propValid E n) (a_dbl E a)) as [v'| | | |]; projs; try congruence.
Qed.

(** ** one argument of the command line *)
Lemma part_ok {A} (get : A -> arg E) put (b : stm (arg E) unit) f (P : A) : (forall a, result (b a) = (a' <- f a ;; Ok (a', tt))) ->
  result (part get put b P) = (a' <- f (get P) ;; Ok (put a' P, tt)).
Proof.
  intros H. specialize (H (get P)). unfold part, result in *. destruct (b (get P)) as [a' [[]| | | |]], (f (get P)); cbn [fst snd bind] in *; congruence.
Qed.
Definition out (s : @pstate E) : parser E * locals := (snd (fst s), (fst (fst s), snd s)).
Ltac split_out := rewrite ?bind_bind; cbn [bind]; try reflexivity.
Lemma parse_str_on_ok f args i P u : result (parse_str_on f args (i, u) P) = (s <- parse_str f args (i, P, u) ;; Ok (out s)).
Proof.
  unfold parse_str_on, parse_str. cbn [fst snd]. destruct (m_find f (str_arg P)) as [a|]; [|reflexivity]. destruct (negb _ || _); [|reflexivity].
  rewrite result_then, result_reads. split_out. apply bind_ext. intros w. cbn [fst snd].
  rewrite result_then, (part_ok _ _ _ _ _ (argValid_str_on_ok w)). split_out.
Qed.
Lemma parse_file_on_ok f args i P u : result (parse_file_on f args (i, u) P) = (s <- parse_file f args (i, P, u) ;; Ok (out s)).
Proof.
  unfold parse_file_on, parse_file. cbn [fst snd]. destruct (m_find f (file_arg P)) as [a|]; [|reflexivity]. destruct (negb _ || _); [|reflexivity].
  rewrite result_then, result_reads. split_out. apply bind_ext. intros w. cbn [fst snd].
  rewrite result_then, (part_ok _ _ _ _ _ (argValid_str_on_ok w)). split_out.
Qed.
Lemma parse_int_on_ok f args i P u : result (parse_int_on f args (i, u) P) = (s <- parse_int f args (i, P, u) ;; Ok (out s)).
Proof.
  unfold parse_int_on, parse_int. cbn [fst snd]. destruct (m_find f (int_arg P)) as [a|]; [|reflexivity]. destruct (negb _ || _); [|reflexivity].
  rewrite result_then, result_reads. split_out. apply bind_ext. intros w. cbn [fst snd].
  rewrite result_then, result_reads. split_out. apply bind_ext. intros n. cbn [fst snd].
  rewrite result_then, (part_ok _ _ _ _ _ (argValid_int_on_ok n)). split_out.
Qed.
Lemma parse_double_on_ok f args i P u : result (parse_double_on f args (i, u) P) = (s <- parse_double f args (i, P, u) ;; Ok (out s)).
Proof.
  unfold parse_double_on, parse_double. cbn [fst snd]. destruct (m_find f (double_arg P)) as [a|]; [|reflexivity]. destruct (negb _ || _); [|reflexivity].
  rewrite result_then, result_reads. split_out. apply bind_ext. intros w. cbn [fst snd].
  rewrite result_then, result_reads. split_out. apply bind_ext. intros n. cbn [fst snd].
  rewrite result_then, (part_ok _ _ _ _ _ (argValid_dbl_on_ok n)). split_out.
Qed.
Lemma parse_switch_on_ok f args i P u : result (parse_switch_on f args (i, u) P) = (s <- parse_switch f args (i, P, u) ;; Ok (out s)).
Proof.
  unfold parse_switch_on, parse_switch. cbn [fst snd]. destruct (m_find f (switch_arg P)) as [a|]; [|reflexivity]. destruct (negb _); [|reflexivity].
  destruct (nth_error args (i + 1)) as [w|]; [|destruct (requiresParameter E a); reflexivity].
  rewrite result_then, (part_ok _ _ _ _ _ (argValid_str_on_ok w)). split_out. apply bind_ext. intros a'. cbn [fst snd].
  rewrite result_then. unfold assigns at 1. unfold result at 1. cbn [fst snd bind]. rewrite result_then, result_reads. split_out.
Qed.
Lemma out_eta (s : @pstate E) : s = (fst (snd (out s)), fst (out s), snd (snd (out s))). Proof. destruct s as [[i P] u]. reflexivity. Qed.
Lemma parseArg_on_ok i args P : result (parseArg_on i args P) = (r <- parseArg_ i args P ;; Ok (snd r, fst r)).
Proof.
  unfold parseArg_on, parseArg_. destruct (nth_error args i) as [w|]; [|reflexivity]. cbv zeta. set (f := resolve P w).
  rewrite result_then, parse_str_on_ok. split_out. apply bind_ext. intros [[i1 P1] u1]. unfold out. cbn [fst snd].
  rewrite result_then, parse_switch_on_ok. split_out. apply bind_ext. intros [[i2 P2] u2]. unfold out. cbn [fst snd].
  rewrite result_then, parse_int_on_ok. split_out. apply bind_ext. intros [[i3 P3] u3]. unfold out. cbn [fst snd].
  rewrite result_then, parse_double_on_ok. split_out. apply bind_ext. intros [[i4 P4] u4]. unfold out. cbn [fst snd].
  rewrite result_then, parse_file_on_ok. split_out. apply bind_ext. intros [[i5 P5] u5]. unfold out. cbn [fst snd].
  destruct u5; reflexivity.
Qed.
Lemma parse_loop_on_ok fuel args : forall i al P, result (parse_loop_on fuel args i al P) = (P' <- parse_loop fuel args i al P ;; Ok (P', tt)).
Proof.
  induction fuel as [|n IH]; intros i al P; cbn [parse_loop_on parse_loop]; [reflexivity|]. destruct (nth_error args i) as [w|]; [|reflexivity].
  destruct (is_help w); [destruct (al =? length args)%nat; [reflexivity|apply IH]|]. destruct (is_version w); [reflexivity|].
  destruct (is_citation w); [destruct (al =? length args)%nat; [reflexivity|apply IH]|].
  rewrite result_then, parseArg_on_ok. split_out. apply bind_ext. intros r. cbn [fst snd]. apply IH.
Qed.
Lemma parse_on_ok args P : result (parse_on args P) = (P' <- parse args P ;; Ok (P', tt)).
Proof.
  unfold parse_on, parse. destruct args as [|x [|y t]]; [reflexivity|reflexivity|].
  rewrite result_then, parse_loop_on_ok. split_out. apply bind_ext. intros P1. cbn [fst snd]. rewrite result_reads. split_out.
  destruct (postParseCheck P1) as [[]| | | |]; reflexivity.
Qed.

(** ** well-formedness *)
Definition safe {A} (s : stm (parser E) A) : Prop := forall P, wf P -> wf (fst (s P)).
Lemma safe_then {A B} (a : stm (parser E) A) (b : A -> stm (parser E) B) : safe a -> (forall v, safe (b v)) -> safe (andthen a b).
Proof.
  intros Ha Hb P W. specialize (Ha P W). unfold andthen. destruct (a P) as [P' [v| | | |]]; cbn [fst] in *; auto. apply Hb; auto.
Qed.
Lemma safe_reads {A} (x : outcome A) : safe (reads x). Proof. intros P W. exact W. Qed.
Lemma safe_yields {A} (x : A) : safe (yields x). Proof. intros P W. exact W. Qed.
Lemma argValid_str_on_shape w a : shape a -> shape (fst (argValid_str_on w a)) /\ a_kind E (fst (argValid_str_on w a)) = a_kind E a.
Proof.
  assert (Step : forall A (x : stm (arg E) A) B (y : A -> stm (arg E) B),
    (forall a, shape a -> shape (fst (x a)) /\ a_kind E (fst (x a)) = a_kind E a) ->
    (forall v a, shape a -> shape (fst (y v a)) /\ a_kind E (fst (y v a)) = a_kind E a) ->
    forall a, shape a -> shape (fst (andthen x y a)) /\ a_kind E (fst (andthen x y a)) = a_kind E a).
  { intros A x B y Hx Hy b Hb. destruct (Hx b Hb) as [X1 X2]. unfold andthen. destruct (x b) as [b' [v| | | |]]; cbn [fst] in *; auto.
    destruct (Hy v b' X1) as [Y1 Y2]. split; auto. congruence. }
  revert a. unfold argValid_str_on.
  apply Step; [|intros _; apply Step; [|intros _; apply Step; [|intros _; apply Step; [|intros _]]]]; intros a [S1 S2 S3 S4 S5 S6]; unfold part; projs;
    (split; [|reflexivity]); constructor; projs; auto.
  - eapply keeps_list; [apply each_on_rel; [apply keeps_refl|apply v_int_keeps]|auto].
  - rewrite each_on_same by (intros; eapply v_size_same; eauto). auto.
  - rewrite each_on_same by (intros; eapply v_str_same; eauto). auto.
  - rewrite each_on_same by (intros; eapply v_set_same; eauto). auto.
  - eapply keeps_list; [apply each_on_rel; [apply keeps_refl|apply v_vec_keeps]|auto].
Qed.
Lemma argValid_int_on_same n a : fst (argValid_int_on n a) = a.
Proof. unfold argValid_int_on, part. projs. rewrite each_on_same by (intros; eapply int_same; eauto). destruct a; reflexivity. Qed.
Lemma argValid_dbl_on_same n a : fst (argValid_dbl_on n a) = a.
Proof. unfold argValid_dbl_on, part. projs. rewrite each_on_same by (intros; eapply dbl_same; eauto). destruct a; reflexivity. Qed.
Lemma safe_ints g : safe (assigns (fun P => with_ints (g P) P)). Proof. intros P W. apply wf_with_ints, W. Qed.
Lemma safe_strs g : safe (assigns (fun P => with_strs (g P) P)). Proof. intros P W. apply wf_with_strs, W. Qed.
Lemma safe_dbls g : safe (assigns (fun P => with_dbls (g P) P)). Proof. intros P W. apply wf_with_dbls, W. Qed.
Ltac locs := repeat (first [apply safe_reads|apply safe_yields|apply safe_ints|apply safe_strs|apply safe_dbls|apply safe_then; [|intros ?]]).
Lemma parse_str_on_wf f args v : safe (parse_str_on f args v).
Proof.
  intros P W. unfold parse_str_on. destruct (m_find f (str_arg P)) as [a|] eqn:F; [|exact W]. destruct (negb _ || _); [|exact W].
  destruct (wf_find _ _ _ _ (w_str _ W) F) as [K Sh]. revert P W F. intros P W _. revert P W. locs.
  intros P W. destruct (argValid_str_on_shape v0 a Sh). unfold part. cbn [fst]. apply wf_with_str; auto. apply wf_set; auto; [apply (w_str _ W)|congruence].
Qed.
Lemma parse_file_on_wf f args v : safe (parse_file_on f args v).
Proof.
  intros P W. unfold parse_file_on. destruct (m_find f (file_arg P)) as [a|] eqn:F; [|exact W]. destruct (negb _ || _); [|exact W].
  destruct (wf_find _ _ _ _ (w_file _ W) F) as [K Sh]. revert P W F. intros P W _. revert P W. locs.
  intros P W. destruct (argValid_str_on_shape v0 a Sh). unfold part. cbn [fst]. apply wf_with_file; auto. apply wf_set; auto; [apply (w_file _ W)|congruence].
Qed.
Lemma parse_int_on_wf f args v : safe (parse_int_on f args v).
Proof.
  intros P W. unfold parse_int_on. destruct (m_find f (int_arg P)) as [a|] eqn:F; [|exact W]. destruct (negb _ || _); [|exact W].
  destruct (wf_find _ _ _ _ (w_int _ W) F) as [K Sh]. revert P W F. intros P W _. revert P W. locs.
  intros P W. unfold part. cbn [fst]. rewrite argValid_int_on_same. apply wf_with_int; auto. apply wf_set; auto. apply (w_int _ W).
Qed.
Lemma parse_double_on_wf f args v : safe (parse_double_on f args v).
Proof.
  intros P W. unfold parse_double_on. destruct (m_find f (double_arg P)) as [a|] eqn:F; [|exact W]. destruct (negb _ || _); [|exact W].
  destruct (wf_find _ _ _ _ (w_double _ W) F) as [K Sh]. revert P W F. intros P W _. revert P W. locs.
  intros P W. unfold part. cbn [fst]. rewrite argValid_dbl_on_same. apply wf_with_double; auto. apply wf_set; auto. apply (w_double _ W).
Qed.
Lemma parse_switch_on_wf f args v : safe (parse_switch_on f args v).
Proof.
  intros P W. unfold parse_switch_on. destruct (m_find f (switch_arg P)) as [a|] eqn:F; [|exact W].
  destruct (wf_find _ _ _ _ (w_switch _ W) F) as [K Sh]. destruct (negb _).
  - destruct (nth_error args (fst v + 1)) as [w|].
    + revert P W F. intros P W _. revert P W. locs.
      intros P W. destruct (argValid_str_on_shape w a Sh). unfold part. cbn [fst]. apply wf_with_switch; auto. apply wf_set; auto; [apply (w_switch _ W)|congruence].
    + destruct (requiresParameter E a); revert P W F; intros P W _; revert P W; locs.
  - revert P W F; intros P W _; revert P W; locs.
Qed.
Lemma parseArg_on_wf i args : safe (parseArg_on i args).
Proof.
  intros P W. unfold parseArg_on. destruct (nth_error args i) as [w|]; [|exact W]. cbv zeta. generalize (resolve P w). intros f. revert P W.
  locs; first [apply parse_str_on_wf|apply parse_switch_on_wf|apply parse_int_on_wf|apply parse_double_on_wf|apply parse_file_on_wf|idtac].
  destruct (snd v3); locs.
Qed.
Lemma parse_loop_on_wf fuel args : forall i al, safe (parse_loop_on fuel args i al).
Proof.
  induction fuel as [|n IH]; intros i al; cbn [parse_loop_on]; [locs|]. destruct (nth_error args i) as [w|]; [|locs].
  destruct (is_help w); [destruct (al =? length args)%nat; [locs|apply IH]|]. destruct (is_version w); [locs|].
  destruct (is_citation w); [destruct (al =? length args)%nat; [locs|apply IH]|].
  apply safe_then; [apply parseArg_on_wf|]. intros j. apply IH.
Qed.
Lemma parse_on_wf args : safe (parse_on args).
Proof.
  unfold parse_on. destruct args as [|x [|y t]]; [locs|locs|]. apply safe_then; [apply parse_loop_on_wf|]. intros _ P W. exact W.
Qed.
Lemma built_wf P : built E P -> wf P.
Proof.
  induction 1 as [| |? ? ? ? IH|? ? ? ? IH|? ? ? ? IH|? ? ? ? IH| | | | | | |args P P' e B IH H].
  - eapply new_wf; eassumption.
  - eapply add_wf; eassumption.
  - apply wf_with_defaults, wf_with_ints, IH.
  - apply wf_with_defaults, wf_with_sizes, IH.
  - apply wf_with_defaults, wf_with_dbls, IH.
  - apply wf_with_defaults, wf_with_strs, IH.
  - eapply opt_int_wf; eassumption.
  - eapply opt_dbl_wf; eassumption.
  - eapply opt_str_wf; eassumption.
  - eapply opt_set_wf; eassumption.
  - eapply opt_vec_wf; eassumption.
  - eapply parse_wf; eassumption.
  - pose proof (parse_on_wf args P IH) as W. rewrite H in W. exact W.
Qed.

(** ** what no command line changes *)
Definition fixed_part P P' : Prop :=
  flags P' = flags P /\ maxFull P' = maxFull P /\ maxShort P' = maxShort P /\ maxDesc P' = maxDesc P /\
  defaults_set P' = defaults_set P /\ size_t_values P' = size_t_values P.
Definition steady {A} (s : stm (parser E) A) : Prop := forall P, fixed_part P (fst (s P)).
Lemma steady_then {A B} (a : stm (parser E) A) (b : A -> stm (parser E) B) : steady a -> (forall v, steady (b v)) -> steady (andthen a b).
Proof.
  intros Ha Hb P. specialize (Ha P). unfold andthen. destruct (a P) as [P' [v| | | |]]; cbn [fst] in *; auto. specialize (Hb v P').
  unfold fixed_part in *. intuition congruence.
Qed.
Ltac still := repeat (first [apply steady_then; [|intros ?]|intros ?; repeat split; reflexivity]).
Lemma stage_steady f args v : steady (parse_str_on f args v) /\ steady (parse_switch_on f args v) /\ steady (parse_int_on f args v) /\
  steady (parse_double_on f args v) /\ steady (parse_file_on f args v).
Proof.
  split; [|split; [|split; [|split]]]; intros P; unfold parse_str_on, parse_switch_on, parse_int_on, parse_double_on, parse_file_on;
  (destruct (m_find f _) as [a|]; [|repeat split]).
  - destruct (negb _ || _); [|repeat split]. revert P. still.
  - destruct (negb _); [|revert P; still]. destruct (nth_error args (fst v + 1)); [|destruct (requiresParameter E a)]; revert P; still.
  - destruct (negb _ || _); [|repeat split]. revert P. still.
  - destruct (negb _ || _); [|repeat split]. revert P. still.
  - destruct (negb _ || _); [|repeat split]. revert P. still.
Qed.
Lemma parse_on_steady args : steady (parse_on args).
Proof.
  assert (A : forall i, steady (parseArg_on i args)).
  { intros i P. unfold parseArg_on. destruct (nth_error args i) as [w|]; [|repeat split]. cbv zeta. generalize (resolve P w). intros f. revert P.
    repeat (apply steady_then; [apply stage_steady|intros ?]). destruct (snd v3); still. }
  assert (L : forall fuel i al, steady (parse_loop_on fuel args i al)).
  { induction fuel as [|n IH]; intros i al; cbn [parse_loop_on]; [still|]. destruct (nth_error args i) as [w|]; [|still].
    destruct (is_help w); [destruct (al =? length args)%nat; [still|apply IH]|]. destruct (is_version w); [still|].
    destruct (is_citation w); [destruct (al =? length args)%nat; [still|apply IH]|].
    apply steady_then; [apply A|]. intros j. apply IH. }
  unfold parse_on. destruct args as [|x [|y t]]; [still|still|]. apply steady_then; [apply L|]. intros _. still.
Qed.
End State.
