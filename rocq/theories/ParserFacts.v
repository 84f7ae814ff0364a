(** * What parsing a command line does *)
From Verif Require Export ParserWf.
Open Scope Z_scope.

Section Facts.
Context {E : env}.
Implicit Types (P : parser E) (a : arg E).

Ltac bk H x := apply bind_ok in H as (x & ?H & H).

(** ** every built parser is well formed *)
Lemma read_entry_wf items P P' : read_entry items P = Ok P' -> wf P -> wf P'.
Proof.
  intros H [W1 W2 W3 W4 W5 W6 W7]. destruct (read_entry_ok items P) as [G1 G2].
  destruct (good_dec items) as [G|G]; [|rewrite G2 in H by auto; discriminate].
  destruct (G1 G) as (e & R & Fn & P2 & E2 & F1 & F2 & F3 & F4 & F5 & F6 & _). rewrite E2 in H. inversion H; subst P2.
  constructor; try (rewrite ?F2, ?F3, ?F4, ?F5, ?F6; auto; fail).
  - rewrite F1. apply sorted_set; auto.
  - rewrite F1. intros f a d Hi. apply in_m_set in Hi; auto. destruct Hi as [Hi|[Hi _]]; [|eauto].
    inversion Hi; subst. destruct R as (_ & _ & _ & R1 & R2 & _). rewrite Fn in R1. split; [apply R1|].
    destruct (abbreviation e); [left; apply R2|auto].
Qed.
Lemma new_wf fl P : ArgumentParser E fl = Ok P -> wf P.
Proof.
  unfold ArgumentParser. generalize (vs_insert help_entry fl). intros l.
  assert (W0 : wf (empty_parser E)).
  { constructor; cbn; auto using wf_nil. }
  revert W0. generalize (empty_parser E). induction l as [|x t IH]; intros P0 W H; cbn [for_each] in H; [inversion H; subst; auto|].
  bk H P1. apply (IH P1); auto. eapply read_entry_wf; [exact H0|exact W].
Qed.
Ltac wfs := constructor; cbn [str_arg switch_arg int_arg double_arg file_arg flags with_str with_switch with_int with_double with_file
   with_ints with_strs with_dbls with_sizes with_defaults]; auto.
Lemma wf_with_str m P : wf P -> wf_map AString m -> wf (with_str m P). Proof. intros [] H; wfs. Qed.
Lemma wf_with_switch m P : wf P -> wf_map ASwitch m -> wf (with_switch m P). Proof. intros [] H; wfs. Qed.
Lemma wf_with_int m P : wf P -> wf_map AInt m -> wf (with_int m P). Proof. intros [] H; wfs. Qed.
Lemma wf_with_double m P : wf P -> wf_map ADouble m -> wf (with_double m P). Proof. intros [] H; wfs. Qed.
Lemma wf_with_file m P : wf P -> wf_map AFile m -> wf (with_file m P). Proof. intros [] H; wfs. Qed.
Lemma wf_with_ints m P : wf P -> wf (with_ints m P). Proof. intros []; wfs. Qed.
Lemma wf_with_strs m P : wf P -> wf (with_strs m P). Proof. intros []; wfs. Qed.
Lemma wf_with_dbls m P : wf P -> wf (with_dbls m P). Proof. intros []; wfs. Qed.
Lemma wf_with_sizes m P : wf P -> wf (with_sizes m P). Proof. intros []; wfs. Qed.
Lemma wf_with_defaults m P : wf P -> wf (with_defaults m P). Proof. intros []; wfs. Qed.
Hint Resolve wf_with_str wf_with_switch wf_with_int wf_with_double wf_with_file wf_with_ints wf_with_strs wf_with_dbls wf_with_sizes
  wf_with_defaults wf_set new_int new_double new_string new_switch new_file w_str w_switch w_int w_double w_file : wfdb.

Lemma add_wf f n P P' : wf P -> addFlagArg f n P = Ok P' -> wf P'.
Proof.
  intros W. unfold addFlagArg.
  destruct (str_eqb n $"ARGUMENT_INT"). { destruct (m_has f _); intros H; inversion H; auto 7 with wfdb. }
  destruct (str_eqb n $"ARGUMENT_SWITCH"). { destruct (m_has f _); intros H; inversion H; auto 7 with wfdb. }
  destruct (str_eqb n $"ARGUMENT_STRING"). { destruct (m_has f _); intros H; inversion H; auto 7 with wfdb. }
  destruct (str_eqb n $"ARGUMENT_FILE"). { destruct (m_has f _); intros H; inversion H; auto 7 with wfdb. }
  destruct (str_eqb n $"ARGUMENT_DOUBLE"). { destruct (m_has f _); intros H; inversion H; auto 7 with wfdb. }
  discriminate.
Qed.
Ltac upd W H := let m := fresh "m" in bk H m; inversion H; subst; clear H;
  (apply wf_with_int || apply wf_with_str || apply wf_with_switch || apply wf_with_file || apply wf_with_double); auto;
  (eapply wf_update; [| | | |eauto]; [destruct W; assumption|reflexivity|
     (apply new_int || apply new_string || apply new_switch || apply new_file || apply new_double)|]);
  first [apply set_int_shape|apply set_dbl_shape|apply set_str_shape|apply set_set_shape|apply set_vec_shape].
Lemma opt_int_wf f n p o v P P' : wf P -> setFlagArgOpt_int f n p o v P = Ok P' -> wf P'.
Proof.
  intros W H. unfold setFlagArgOpt_int in H.
  destruct (str_eqb n $"ARGUMENT_INT"); [upd W H|].
  destruct (str_eqb n $"ARGUMENT_STRING"); [upd W H|].
  destruct (str_eqb n $"ARGUMENT_SWITCH").
  { destruct (v =? 0); [upd W H|]. destruct (v =? 1); [upd W H|discriminate]. }
  destruct (str_eqb n $"ARGUMENT_FILE"); [upd W H|discriminate].
Qed.
Lemma opt_dbl_wf f n p o v P P' : wf P -> setFlagArgOpt_dbl f n p o v P = Ok P' -> wf P'.
Proof.
  intros W H. unfold setFlagArgOpt_dbl in H.
  destruct (str_eqb n $"ARGUMENT_DOUBLE"); [upd W H|].
  destruct (str_eqb n $"ARGUMENT_STRING"); [upd W H|discriminate].
Qed.
Lemma opt_str_wf f n p o v P P' : wf P -> setFlagArgOpt_str f n p o v P = Ok P' -> wf P'.
Proof.
  intros W H. unfold setFlagArgOpt_str in H.
  destruct (str_eqb n $"ARGUMENT_FILE").
  { bk H m. inversion H; subst. apply wf_with_file; auto. eapply wf_update; [| | | |eauto];
      [destruct W; assumption|reflexivity|apply new_file|]. intros a a' Ha Sh.
    destruct (str_eqb p $"PROPERTY_FILE_EXT"); [eapply set_set_shape; eauto|].
    destruct (negb _ && _); [eapply set_vec_shape; eauto|eapply set_str_shape; eauto]. }
  destruct (str_eqb n $"ARGUMENT_SWITCH"). { destruct (_ && _); [discriminate|upd W H]. }
  destruct (str_eqb n $"ARGUMENT_STRING"); [upd W H|discriminate].
Qed.
Lemma opt_set_wf f n p o v P P' : wf P -> setFlagArgOpt_set f n p o v P = Ok P' -> wf P'.
Proof.
  intros W H. unfold setFlagArgOpt_set in H.
  destruct (str_eqb n $"ARGUMENT_FILE"); [upd W H|].
  destruct (str_eqb n $"ARGUMENT_STRING"); [upd W H|discriminate].
Qed.
Lemma opt_vec_wf f n p o v P P' : wf P -> setFlagArgOpt_vec f n p o v P = Ok P' -> wf P'.
Proof.
  intros W H. unfold setFlagArgOpt_vec in H.
  destruct (str_eqb n $"ARGUMENT_FILE"); [upd W H|discriminate].
Qed.

Definition st_wf (s : @pstate E) := wf (snd (fst s)).
Lemma parse_str_wf f args s s' : st_wf s -> parse_str f args s = Ok s' -> st_wf s'.
Proof.
  destruct s as [[i P] u]. unfold st_wf, parse_str. cbn [fst snd]. intros W.
  destruct (m_find f (str_arg P)) as [a|] eqn:F; [|intros H; inversion H; auto].
  destruct (_ || _); [|intros H; inversion H; auto]. intros H. bk H w. bk H a'. inversion H; subst. cbn [fst snd].
  destruct (wf_find _ _ _ _ (w_str _ W) F) as [K Sh]. destruct (argValid_str_shape _ _ _ H1 Sh) as [S2 K2].
  apply wf_with_strs, wf_with_str; auto. apply wf_set; auto with wfdb. congruence.
Qed.
Lemma parse_file_wf f args s s' : st_wf s -> parse_file f args s = Ok s' -> st_wf s'.
Proof.
  destruct s as [[i P] u]. unfold st_wf, parse_file. cbn [fst snd]. intros W.
  destruct (m_find f (file_arg P)) as [a|] eqn:F; [|intros H; inversion H; auto].
  destruct (_ || _); [|intros H; inversion H; auto]. intros H. bk H w. bk H a'. inversion H; subst. cbn [fst snd].
  destruct (wf_find _ _ _ _ (w_file _ W) F) as [K Sh]. destruct (argValid_str_shape _ _ _ H1 Sh) as [S2 K2].
  apply wf_with_strs, wf_with_file; auto. apply wf_set; auto with wfdb. congruence.
Qed.
Lemma parse_int_wf f args s s' : st_wf s -> parse_int f args s = Ok s' -> st_wf s'.
Proof.
  destruct s as [[i P] u]. unfold st_wf, parse_int. cbn [fst snd]. intros W.
  destruct (m_find f (int_arg P)) as [a|] eqn:F; [|intros H; inversion H; auto].
  destruct (_ || _); [|intros H; inversion H; auto]. intros H. bk H w. bk H v. bk H a'. inversion H; subst. cbn [fst snd].
  apply argValid_int_same in H2. subst. destruct (wf_find _ _ _ _ (w_int _ W) F) as [K Sh].
  apply wf_with_ints, wf_with_int; auto. apply wf_set; auto with wfdb.
Qed.
Lemma parse_double_wf f args s s' : st_wf s -> parse_double f args s = Ok s' -> st_wf s'.
Proof.
  destruct s as [[i P] u]. unfold st_wf, parse_double. cbn [fst snd]. intros W.
  destruct (m_find f (double_arg P)) as [a|] eqn:F; [|intros H; inversion H; auto].
  destruct (_ || _); [|intros H; inversion H; auto]. intros H. bk H w. bk H v. bk H a'. inversion H; subst. cbn [fst snd].
  apply argValid_dbl_same in H2. subst. destruct (wf_find _ _ _ _ (w_double _ W) F) as [K Sh].
  apply wf_with_dbls, wf_with_double; auto. apply wf_set; auto with wfdb.
Qed.
Lemma parse_switch_wf f args s s' : st_wf s -> parse_switch f args s = Ok s' -> st_wf s'.
Proof.
  destruct s as [[i P] u]. unfold st_wf, parse_switch. cbn [fst snd]. intros W.
  destruct (m_find f (switch_arg P)) as [a|] eqn:F; [|intros H; inversion H; auto].
  destruct (negb _); [|intros H; inversion H; subst; cbn; auto with wfdb].
  destruct (nth_error args (i + 1)) as [w|].
  - intros H. bk H a'. bk H b. inversion H; subst. cbn [fst snd].
    destruct (wf_find _ _ _ _ (w_switch _ W) F) as [K Sh]. destruct (argValid_str_shape _ _ _ H0 Sh) as [S2 K2].
    apply wf_with_ints, wf_with_strs, wf_with_switch; auto. apply wf_set; auto with wfdb. congruence.
  - destruct (requiresParameter E a); intros H; inversion H; subst; cbn; auto with wfdb.
Qed.
Lemma parseArg_wf i args P r : wf P -> parseArg_ i args P = Ok r -> wf (snd r).
Proof.
  intros W. unfold parseArg_. destruct (nth_error args i) as [w|]; [|discriminate]. intros H.
  bk H s1. bk H s2. bk H s3. bk H s4. bk H s5.
  assert (W1 : st_wf s1) by (eapply parse_str_wf; [|eauto]; exact W).
  assert (W2 : st_wf s2) by (eapply parse_switch_wf; eauto).
  assert (W3 : st_wf s3) by (eapply parse_int_wf; eauto).
  assert (W4 : st_wf s4) by (eapply parse_double_wf; eauto).
  assert (W5 : st_wf s5) by (eapply parse_file_wf; eauto).
  destruct s5 as [[i5 P5] u5]. destruct u5; [discriminate|]. inversion H; subst. exact W5.
Qed.
Lemma parse_loop_wf fuel args : forall i al P P', wf P -> parse_loop fuel args i al P = Ok P' -> wf P'.
Proof.
  induction fuel as [|n IH]; intros i al P P' W H; cbn [parse_loop] in H; [discriminate|].
  destruct (nth_error args i) as [w|]; [|inversion H; subst; auto].
  destruct (is_help w). { destruct (al =? length args)%nat; [discriminate|eauto]. }
  destruct (is_version w); [discriminate|].
  destruct (is_citation w). { destruct (al =? length args)%nat; [discriminate|eauto]. }
  bk H r. eapply IH; [|eauto]. eapply parseArg_wf; eauto.
Qed.
Lemma parse_wf args P P' : wf P -> parse args P = Ok P' -> wf P'.
Proof.
  intros W. unfold parse. destruct args as [|x [|y t]]; try discriminate. intros H. bk H P1. bk H u. inversion H; subst.
  eapply parse_loop_wf; eauto.
Qed.
End Facts.
