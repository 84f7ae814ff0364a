(** * The options of flags: facts *)
From Verif Require Import StrFacts ArgsFacts ParserWf ParserFacts.
From Verif Require Export OptionSpec.
Open Scope Z_scope.

Section Facts.
Context {E : env}.
Ltac bk H x := let F := fresh "B" in apply bind_ok in H as (x & F & H).

Definition names {T} (ps : list (prop T)) : list str := map prop_name (map p_kind ps).
Lemma existsb_in o l : In o l -> existsb (str_eqb o) l = true.
Proof. intros I. apply existsb_exists. exists o. split; auto. apply str_eqb_refl. Qed.

Lemma pv_same {T} (text : T -> str) pr o v ps : forall r, Forall full_prop ps -> set_in pr o v ps = Ok r ->
  prop_value text pr o (snd r) = (if fst r then Some (Ok (text v)) else None).
Proof.
  induction ps as [|p t IH]; intros r F H; cbn [set_in] in H; [inversion H; reflexivity|].
  inversion F as [|? ? Fp Ft]; subst. destruct (str_eqb pr (prop_name (p_kind p))) eqn:N.
  - bk H p'. bk H r'. inversion H; subst. cbn [fst snd prop_value]. unfold setPropOption in B.
    destruct (propOptionValid_ p o) eqn:V; [|discriminate]. inversion B; subst. cbn [setPropOption_ p_kind]. rewrite N.
    assert (I : In o (prop_opts (p_kind p))).
    { unfold propOptionValid_, m_has in V. destruct (m_find o (p_options p)) as [w|] eqn:Q; [|discriminate].
      apply (proj2 Fp o w). unfold getPropOption. now rewrite Q. }
    rewrite (existsb_in _ _ I). cbn [andb]. fold (setPropOption_ o v p). rewrite get_set. reflexivity.
  - bk H r'. inversion H; subst. cbn [fst snd prop_value]. rewrite N. cbn [andb]. apply IH; auto.
Qed.
Lemma pv_other {T} (text : T -> str) pr o v pr' o' ps : forall r, (pr', o') <> (pr, o) -> set_in pr o v ps = Ok r ->
  prop_value text pr' o' (snd r) = prop_value text pr' o' ps.
Proof.
  induction ps as [|p t IH]; intros r D H; cbn [set_in] in H; [inversion H; reflexivity|].
  destruct (str_eqb_spec pr (prop_name (p_kind p))) as [N|N].
  - bk H p'. bk H r'. inversion H; subst. cbn [fst snd prop_value]. rewrite (IH _ D B0).
    unfold setPropOption in B. destruct (propOptionValid_ p o); [|discriminate]. inversion B; subst. cbn [setPropOption_ p_kind].
    destruct (str_eqb_spec pr' (prop_name (p_kind p))) as [N'|N']; cbn [andb]; auto.
    fold (setPropOption_ o v p). rewrite get_set_ne by congruence. reflexivity.
  - bk H r'. inversion H; subst. cbn [fst snd prop_value]. rewrite (IH _ D B). reflexivity.
Qed.
Lemma pv_none {T} (text : T -> str) pr o (ps : list (prop T)) : ~ In pr (names ps) -> prop_value text pr o ps = None.
Proof.
  unfold names. induction ps as [|p t IH]; intros N; [reflexivity|]. cbn [prop_value]. cbn [map In] in N.
  destruct (str_eqb_spec pr (prop_name (p_kind p))); [exfalso; auto|]. cbn [andb]. apply IH. tauto.
Qed.
Lemma set_in_name {T} pr o (v : T) ps : forall r, set_in pr o v ps = Ok r -> fst r = true -> In pr (names ps).
Proof.
  unfold names. induction ps as [|p t IH]; intros r H T1; cbn [set_in] in H; [inversion H; subst; discriminate|]. cbn [map In].
  destruct (str_eqb_spec pr (prop_name (p_kind p))); [left; congruence|]. bk H r'. inversion H; subst. right. eapply IH; eauto.
Qed.
Lemma set_in_false {T} pr o (v : T) ps : forall r, set_in pr o v ps = Ok r -> fst r = false -> snd r = ps.
Proof.
  induction ps as [|p t IH]; intros r H T1; cbn [set_in] in H; [inversion H; subst; auto|].
  destruct (str_eqb pr (prop_name (p_kind p))). { bk H p'. bk H r'. inversion H; subst. discriminate. }
  bk H r'. inversion H; subst. cbn [fst snd] in *. f_equal. apply IH; auto.
Qed.

(** a setting is what is read afterwards *)
Section One.
Variables (a a' : arg E) (pr o : str).
Hypothesis S : shape a.
Lemma int_reads v : setArgPropertyOpt_int E pr o v a = Ok a' -> getPropertyValues E a' pr o = Ok (dec v).
Proof.
  unfold setArgPropertyOpt_int. intros H. bk H r. destruct (fst r) eqn:Q; [|discriminate]. inversion H; subst.
  unfold getPropertyValues. cbn [a_int]. rewrite (pv_same dec _ _ _ _ _ (proj2 (sh_int _ S)) B), Q. reflexivity.
Qed.
Ltac no_name Sx := (apply pv_none; unfold names; rewrite (proj1 Sx)).
Lemma set_reads l : setArgPropertyOpt_set E pr o l a = Ok a' -> getPropertyValues E a' pr o = Ok (join l).
Proof.
  unfold setArgPropertyOpt_set. intros H. bk H r. destruct (fst r) eqn:Q; [|discriminate]. inversion H; subst.
  pose proof (set_in_name _ _ _ _ _ B Q) as I. unfold names in I. rewrite (proj1 (sh_set _ S)) in I.
  unfold getPropertyValues. cbn [a_int a_dbl a_size a_str a_set a_vec].
  rewrite (pv_same join _ _ _ _ _ (proj2 (sh_set _ S)) B), Q.
  rewrite (pv_none dec pr o (a_int E a)), (pv_none (d_text E) pr o (a_dbl E a)), (pv_none dec pr o (a_size E a)), (pv_none (fun s => s) pr o (a_str E a)).
  - reflexivity.
  - unfold names. rewrite (proj1 (sh_str _ S)). destruct (a_kind E a); cbn in *; intuition; subst; discriminate.
  - unfold names. rewrite (proj1 (sh_size _ S)). destruct (a_kind E a); cbn in *; intuition; subst; discriminate.
  - unfold names. rewrite (proj1 (sh_dbl _ S)). destruct (a_kind E a); cbn in *; intuition; subst; discriminate.
  - unfold names. rewrite (proj1 (sh_int _ S)). destruct (a_kind E a); cbn in *; intuition; subst; discriminate.
Qed.
Lemma vec_reads l : setArgPropertyOpt_vec E pr o l a = Ok a' -> getPropertyValues E a' pr o = Ok (join l).
Proof.
  unfold setArgPropertyOpt_vec. intros H. bk H r. destruct (fst r) eqn:Q; [|discriminate]. inversion H; subst.
  pose proof (set_in_name _ _ _ _ _ B Q) as I. unfold names in I. rewrite (proj1 (sh_vec _ S)) in I.
  unfold getPropertyValues. cbn [a_int a_dbl a_size a_str a_set a_vec].
  rewrite (pv_same join _ _ _ _ _ (proj2 (sh_vec _ S)) B), Q.
  rewrite (pv_none dec pr o (a_int E a)), (pv_none (d_text E) pr o (a_dbl E a)), (pv_none dec pr o (a_size E a)), (pv_none (fun s => s) pr o (a_str E a)),
    (pv_none join pr o (a_set E a)).
  - reflexivity.
  - unfold names. rewrite (proj1 (sh_set _ S)). destruct (a_kind E a); cbn in *; intuition; subst; discriminate.
  - unfold names. rewrite (proj1 (sh_str _ S)). destruct (a_kind E a); cbn in *; intuition; subst; discriminate.
  - unfold names. rewrite (proj1 (sh_size _ S)). destruct (a_kind E a); cbn in *; intuition; subst; discriminate.
  - unfold names. rewrite (proj1 (sh_dbl _ S)). destruct (a_kind E a); cbn in *; intuition; subst; discriminate.
  - unfold names. rewrite (proj1 (sh_int _ S)). destruct (a_kind E a); cbn in *; intuition; subst; discriminate.
Qed.
Lemma str_reads v : setArgPropertyOpt_str E pr o v a = Ok a' ->
  getPropertyValues E a' pr o = Ok (if str_eqb (arg_name (a_kind E a)) $"ARGUMENT_SWITCH" then v else join [v]).
Proof.
  unfold setArgPropertyOpt_str. intros H. bk H r1. bk H r2. bk H r3. destruct (fst r1 || fst r2 || fst r3) eqn:Q; [|discriminate].
  inversion H; subst. clear H.
  assert (N1 := set_in_name _ _ _ _ _ B). assert (N2 := set_in_name _ _ _ _ _ B0). assert (N3 := set_in_name _ _ _ _ _ B1).
  unfold getPropertyValues. cbn [a_int a_dbl a_size a_str a_set a_vec].
  rewrite (pv_same (fun s => s) _ _ _ _ _ (proj2 (sh_str _ S)) B), (pv_same join _ _ _ _ _ (proj2 (sh_set _ S)) B1),
    (pv_same join _ _ _ _ _ (proj2 (sh_vec _ S)) B0).
  unfold names in N1, N2, N3. rewrite (proj1 (sh_str _ S)) in N1. rewrite (proj1 (sh_vec _ S)) in N2. rewrite (proj1 (sh_set _ S)) in N3.
  assert (Ni : ~ In pr (names (a_int E a))).
  { unfold names. rewrite (proj1 (sh_int _ S)). destruct (a_kind E a), (fst r1), (fst r2), (fst r3); cbn in *; try discriminate; intuition; subst; discriminate. }
  assert (Nd : ~ In pr (names (a_dbl E a))).
  { unfold names. rewrite (proj1 (sh_dbl _ S)). destruct (a_kind E a), (fst r1), (fst r2), (fst r3); cbn in *; try discriminate; intuition; subst; discriminate. }
  assert (Nz : ~ In pr (names (a_size E a))).
  { unfold names. rewrite (proj1 (sh_size _ S)). destruct (a_kind E a), (fst r1), (fst r2), (fst r3); cbn in *; try discriminate; intuition; subst; discriminate. }
  rewrite (pv_none dec _ _ _ Ni), (pv_none (d_text E) _ _ _ Nd), (pv_none dec _ _ _ Nz). cbn [orelse].
  destruct (a_kind E a); cbn in N1, N2, N3; cbn [arg_name];
    destruct (fst r1), (fst r2), (fst r3); cbn [orelse]; try discriminate; try reflexivity; intuition.
Qed.
End One.

(** other options keep their values *)
Section Others.
Variables (a a' : arg E) (pr o pr' o' : str).
Hypothesis D : (pr', o') <> (pr, o).
Notation keeps_value := (getPropertyValues E a' pr' o' = getPropertyValues E a pr' o').
Lemma int_other v : setArgPropertyOpt_int E pr o v a = Ok a' -> keeps_value.
Proof.
  unfold setArgPropertyOpt_int. intros H. bk H r. destruct (fst r) eqn:Q; [|discriminate]. inversion H; subst.
  unfold getPropertyValues. cbn [a_int a_dbl a_size a_str a_set a_vec]. now rewrite (pv_other dec _ _ _ _ _ _ _ D B).
Qed.
Lemma set_other l : setArgPropertyOpt_set E pr o l a = Ok a' -> keeps_value.
Proof.
  unfold setArgPropertyOpt_set. intros H. bk H r. destruct (fst r) eqn:Q; [|discriminate]. inversion H; subst.
  unfold getPropertyValues. cbn [a_int a_dbl a_size a_str a_set a_vec]. now rewrite (pv_other join _ _ _ _ _ _ _ D B).
Qed.
Lemma vec_other l : setArgPropertyOpt_vec E pr o l a = Ok a' -> keeps_value.
Proof.
  unfold setArgPropertyOpt_vec. intros H. bk H r. destruct (fst r) eqn:Q; [|discriminate]. inversion H; subst.
  unfold getPropertyValues. cbn [a_int a_dbl a_size a_str a_set a_vec]. now rewrite (pv_other join _ _ _ _ _ _ _ D B).
Qed.
Lemma str_other v : setArgPropertyOpt_str E pr o v a = Ok a' -> keeps_value.
Proof.
  unfold setArgPropertyOpt_str. intros H. bk H r1. bk H r2. bk H r3. destruct (fst r1 || fst r2 || fst r3) eqn:Q; [|discriminate].
  inversion H; subst. unfold getPropertyValues. cbn [a_int a_dbl a_size a_str a_set a_vec].
  now rewrite (pv_other (fun s => s) _ _ _ _ _ _ _ D B), (pv_other join _ _ _ _ _ _ _ D B0), (pv_other join _ _ _ _ _ _ _ D B1).
Qed.
End Others.

(** a value on the command line changes only what parse writes *)
Lemma pv_rel {T} (text : T -> str) pr o (R : prop T -> prop T -> Prop) ps ps' :
  (forall p p', R p p' -> p_kind p' = p_kind p /\ (prop_name (p_kind p) = pr -> getPropOption p' o = getPropOption p o)) ->
  Forall2 R ps ps' -> prop_value text pr o ps' = prop_value text pr o ps.
Proof.
  intros H F. induction F as [|p p' t t' r F IH]; [reflexivity|]. cbn [prop_value]. destruct (H _ _ r) as [K G]. rewrite K, IH.
  destruct (str_eqb_spec pr (prop_name (p_kind p))) as [->|N]; cbn [andb]; [|reflexivity]. now rewrite G.
Qed.
Lemma name_exist k : prop_name k = $"PROPERTY_FILE_EXIST" -> k = PFileExist.
Proof. destruct k; intros H; vm_compute in H; congruence. Qed.
Lemma valid_other w a a' pr o : ~ written_by_parse pr o -> argValid_str E w a = Ok a' ->
  getPropertyValues E a' pr o = getPropertyValues E a pr o.
Proof.
  intros N H. unfold argValid_str in H. bk H i. bk H z. bk H s. bk H st. bk H v. inversion H; subst. clear H.
  apply each_same in B0; [|apply v_size_same]. apply each_same in B1; [|apply v_str_same]. apply each_same in B2; [|apply v_set_same]. subst.
  unfold getPropertyValues. cbn [a_int a_dbl a_size a_str a_set a_vec].
  assert (Ei : prop_value dec pr o i = prop_value dec pr o (a_int E a)).
  { apply (pv_rel dec pr o (fun p p' => v_int E w p = Ok p')).
    - intros p p' H. unfold v_int in H. destruct (p_kind p) eqn:K; try (inversion H; subst; split; congruence).
      unfold exist_propValid in H. bk H m.
      assert (G : p' = p \/ p' = setPropOption_ $"FILE_DOES_EXIST" 1 p).
      { destruct (negb (m =? 0)), (file_exists E w); cbn [negb] in H; inversion H; auto. }
      destruct G as [-> | ->]; [split; congruence|]. cbn [setPropOption_ p_kind]. split; auto. rewrite ?K. intros Q.
      fold (setPropOption_ $"FILE_DOES_EXIST" 1 p). apply get_set_ne. intros ->. apply N. left. split; [symmetry; exact Q|reflexivity].
    - eapply each_rel; [|exact B]. auto. }
  assert (Ev : prop_value join pr o v = prop_value join pr o (a_vec E a)).
  { apply (pv_rel join pr o (fun p p' => v_vec E w p = Ok p')).
    - intros p p' H. unfold v_vec in H. destruct (p_kind p) eqn:K; try (inversion H; subst; split; congruence).
      unfold sister_propValid in H. bk H x1. bk H x2. bk H x3. bk H x4. cbv zeta in H. inversion H; subst. split; [exact K|].
      intros Q. rewrite !get_set_ne; auto; intros ->; apply N; right; (split; [symmetry; exact Q|cbn; tauto]).
    - eapply each_rel; [|exact B3]. auto. }
  now rewrite Ei, Ev.
Qed.
End Facts.
