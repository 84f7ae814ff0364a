(** * Parsing item by item *)
From Verif Require Export ParserStateWf.
Open Scope Z_scope.

Section Run.
Context {E : env}.
Implicit Types (P : parser E) (a : arg E).
Ltac bk H x := apply bind_ok in H as (x & ?H & H).

Record reg P : Prop := {
  g_wf : wf P;
  g_one : forall w f f', stands_for P w f -> stands_for P w f' -> f = f';
  g_kind : forall f k k', has_kind P f k -> has_kind P f k' -> k = k';
  g_reg : forall f k, has_kind P f k -> exists b, registered P f b }.
Lemma regular_reg P : regular P -> reg P.
Proof. intros []. constructor; auto. apply built_wf; auto. Qed.

(** ** words *)
Lemma by_abbr_in x fl : sorted fl -> (exists f d, In (f, (x, d)) fl /\ by_abbreviation x fl = f /\
    forall f' d', In (f', (x, d')) fl -> f' = f \/ str_ltb f f' = true) \/
  (by_abbreviation x fl = x /\ forall f d, ~ In (f, (x, d)) fl).
Proof.
  induction fl as [|[f [a d]] t IH]; cbn [by_abbreviation sorted]; [right; auto|]. cbn [fst snd]. intros [S1 S2].
  destruct (str_eqb_spec a x) as [->|N].
  - left. exists f, d. split; [now left|]. split; [auto|]. intros f' d' [K|K]; [left; congruence|right]. rewrite Forall_forall in S1. exact (S1 _ K).
  - destruct (IH S2) as [(f' & d' & I & R & M)|[R I]].
    + left. exists f', d'. split; [now right|]. split; [auto|]. intros f2 d2 [K|K]; [congruence|eauto].
    + right. split; auto. intros f' d' [K|K]; [inversion K; congruence|eapply I; eauto].
Qed.
Lemma first_one P s f f' : first_with P s f -> first_with P s f' -> registered P f s -> registered P f' s -> f = f'.
Proof.
  intros A B Rf Rf'. destruct (A _ Rf') as [->|L]; auto. destruct (B _ Rf) as [->|L']; auto.
  pose proof (ltb_trans _ _ _ L L') as C. rewrite ltb_irrefl in C. discriminate.
Qed.
(** the flag found by its abbreviation *)
Lemma by_abbr_stands P x : wf P -> (exists f, by_abbreviation x (flags P) = f /\ stands_for P x f) \/
  (by_abbreviation x (flags P) = x /\ forall f, ~ registered P f x).
Proof.
  intros W. destruct (by_abbr_in x (flags P) (w_flags _ W)) as [(f & d & I & Eq & M)|[Eq N]].
  - left. exists f. split; [auto|]. exists x. apply find_in in I; [|apply (w_flags _ W)]. split; [exists d; auto|]. right. split; [auto|].
    intros _ f' (d' & F). apply find_in in F; [|apply (w_flags _ W)]. eapply M; eauto.
  - right. split; [auto|]. intros f (d & F). apply find_in in F; [|apply (w_flags _ W)]. eapply N; eauto.
Qed.
Lemma stands_resolve P x f : reg P -> stands_for P x f -> resolve P x = f.
Proof.
  intros R S. pose proof S as (a & Rf & H). unfold resolve, m_has. destruct (m_find x (flags P)) as [[a2 d2]|] eqn:F2.
  - eapply (g_one _ R); [|exact S]. exists a2. split; [exists d2; auto|auto].
  - destruct H as [->|[-> _]]; [destruct Rf as (d & F); congruence|].
    destruct (by_abbr_stands P a (g_wf _ R)) as [(f' & -> & S')|[_ N]]; [eapply (g_one _ R); eauto|exfalso; eapply N; eauto].
Qed.
Lemma resolve_stands P x : reg P -> (exists b, registered P (resolve P x) b) -> stands_for P x (resolve P x).
Proof.
  intros R (a & d & F). unfold resolve in *. destruct (m_has x (flags P)) eqn:M.
  - exists a. split; [exists d; auto|auto].
  - destruct (by_abbr_stands P x (g_wf _ R)) as [(f' & Eq & S)|[Eq _]]; rewrite Eq in *; [auto|]. exists a. split; [exists d; auto|auto].
Qed.
Lemma is_a_flag_iff P w : wf P -> (is_a_flag P w = true <-> a_flag P w).
Proof.
  intros W. unfold is_a_flag. rewrite existsb_exists. split.
  - intros ([f [a d]] & I & H). cbn [fst snd] in H. apply find_in in I; [|apply (w_flags _ W)].
    apply orb_true_iff in H as [H|H]; apply str_eqb_eq in H; subst.
    + exists w, a. split; [exists d; auto|auto].
    + destruct (by_abbr_stands P w W) as [(f' & _ & S)|[_ N]]; [exists f'; auto|]. exfalso. apply (N f). exists d; auto.
  - intros (f & a & (d & F) & H). exists (f, (a, d)). apply find_in in F; [|apply (w_flags _ W)]. split; auto. cbn [fst snd].
    apply orb_true_iff. destruct H as [->|[-> _]]; [left|right]; apply str_eqb_refl.
Qed.
Lemma not_flag P w : wf P -> ~ a_flag P w -> resolve P w = w.
Proof.
  intros W H. unfold resolve. destruct (m_has w (flags P)); auto. destruct (by_abbr_stands P w W) as [(f & _ & S)|[Q _]]; auto.
  exfalso. apply H. exists f; auto.
Qed.

(** ** one step *)
Definition take (k : fkind) (f w : str) P : outcome (parser E) :=
  match m_find f (args_of P k) with
  | None => Throw InvalidArgument
  | Some a =>
    match k with
    | KStr => a' <- argValid_str E w a ;; Ok (with_strs (m_set f w (string_values P)) (with_str (m_set f a' (str_arg P)) P))
    | KFile => a' <- argValid_str E w a ;; Ok (with_strs (m_set f w (string_values P)) (with_file (m_set f a' (file_arg P)) P))
    | KInt => v <- stoi w ;; a' <- argValid_int E v a ;; Ok (with_ints (m_set f v (int_values P)) (with_int (m_set f a' (int_arg P)) P))
    | KDouble => v <- e_stod E w ;; a' <- argValid_dbl E v a ;; Ok (with_dbls (m_set f v (double_values P)) (with_double (m_set f a' (double_arg P)) P))
    | KSwitch => Throw InvalidArgument
    end
  end.
Definition flip (f : str) P : parser E := with_ints (m_set f 1 (int_values P)) P.

Lemma other_kinds P f k : reg P -> has_kind P f k -> forall k', k' <> k -> m_find f (args_of P k') = None.
Proof.
  intros R H k' N. destruct (m_find f (args_of P k')) as [a|] eqn:F; auto.
  exfalso. apply N. eapply (g_kind _ R); [exists a; eauto|auto].
Qed.
Ltac others R H := 
  let O := fresh "O" in pose proof (other_kinds _ _ _ R H) as O;
  try (pose proof (O KStr ltac:(discriminate))); try (pose proof (O KSwitch ltac:(discriminate)));
  try (pose proof (O KInt ltac:(discriminate))); try (pose proof (O KDouble ltac:(discriminate)));
  try (pose proof (O KFile ltac:(discriminate))); cbn [args_of] in *; clear O.
Ltac proj := cbn [str_arg switch_arg int_arg double_arg file_arg flags with_str with_switch with_int with_double with_file
   with_ints with_strs with_dbls with_sizes with_defaults string_values int_values double_values size_t_values bind].

Ltac nones f := repeat (match goal with H : m_find f _ = None |- _ => rewrite H end; proj); auto.
Lemma needs P f k a : reg P -> k <> KSwitch -> m_find f (args_of P k) = Some a -> requiresParameter E a = true.
Proof.
  intros R N F. unfold requiresParameter. destruct (g_wf _ R) as [W1 W2 W3 W4 W5 _ _]. 
  destruct k; cbn [args_of] in F; try congruence;
  match goal with W : wf_map _ ?m, F : m_find _ ?m = _ |- _ => destruct (wf_find _ _ _ _ W F) as [-> _]; reflexivity end.
Qed.
Lemma parseArg_val i args P x f k : reg P -> has_kind P f k -> k <> KSwitch -> nth_error args i = Some x -> resolve P x = f ->
  parseArg_ i args P = match nth_error args (i + 1) with
                       | None => Throw RuntimeError
                       | Some w => P' <- take k f w P ;; Ok (S i, P')
                       end.
Proof.
  intros R K N Hx Hf. unfold parseArg_. rewrite Hx, Hf. pose proof K as [a F].
  pose proof (needs _ _ _ _ R N F) as Q. unfold take. rewrite F.
  destruct k; [| congruence | | |]; others R K; cbn [args_of] in F; unfold parse_str, parse_switch, parse_int, parse_double, parse_file, next_word.
  - rewrite F, Q, orb_true_r. destruct (nth_error args (i + 1)) as [w|]; [|reflexivity]. proj.
    destruct (argValid_str E w a); proj; auto. nones f.
  - nones f. rewrite F, Q, orb_true_r. destruct (nth_error args (i + 1)) as [w|]; [|reflexivity]. proj.
    destruct (stoi w) as [v| | | |]; proj; auto. destruct (argValid_int E v a); proj; auto. nones f.
  - nones f. rewrite F, Q, orb_true_r. destruct (nth_error args (i + 1)) as [w|]; [|reflexivity]. proj.
    destruct (e_stod E w) as [v| | | |]; proj; auto. destruct (argValid_dbl E v a); proj; auto. nones f.
  - nones f. rewrite F, Q, orb_true_r. destruct (nth_error args (i + 1)) as [w|]; [|reflexivity]. proj.
    destruct (argValid_str E w a); proj; auto.
Qed.
Lemma parseArg_sw i args P x f a : reg P -> m_find f (switch_arg P) = Some a -> nth_error args i = Some x -> resolve P x = f ->
  parseArg_ i args P =
    match nth_error args (i + 1) with
    | None => Ok (i, flip f P)
    | Some w => if is_a_flag P w then Ok (i, flip f P) else
        a' <- argValid_str E w a ;; b <- positive_str w ;;
        Ok (i, with_ints (m_set f (if b : bool then 1 else 0) (int_values P))
                 (with_strs (m_set f w (string_values P)) (with_switch (m_set f a' (switch_arg P)) P)))
    end.
Proof.
  intros R F Hx Hf. assert (K : has_kind P f KSwitch) by (exists a; auto). unfold parseArg_. rewrite Hx, Hf. others R K.
  unfold parse_str, parse_switch, parse_int, parse_double, parse_file, nextParameterIsAFlag_.
  repeat (match goal with H : m_find f _ = _ |- _ => rewrite H end; proj).
  destruct (wf_find _ _ _ _ (w_switch _ (g_wf _ R)) F) as [Ka _]. unfold requiresParameter. rewrite Ka.
  destruct (nth_error args (i + 1)) as [w|]; cbn [negb].
  - destruct (is_a_flag P w); cbn [negb]; proj.
    + repeat (match goal with H : m_find f _ = _ |- _ => rewrite H end; proj). auto.
    + destruct (argValid_str E w a) as [a'| | | |]; proj; auto. destruct (positive_str w) as [b| | | |]; proj; auto.
      repeat (match goal with H : m_find f _ = _ |- _ => rewrite H end; proj). auto.
  - proj. repeat (match goal with H : m_find f _ = _ |- _ => rewrite H end; proj). auto.
Qed.
Lemma parseArg_unknown i args P x : (forall k, ~ has_kind P (resolve P x) k) -> nth_error args i = Some x ->
  parseArg_ i args P = Throw InvalidArgument.
Proof.
  intros N Hx. unfold parseArg_. rewrite Hx. set (f := resolve P x) in *.
  assert (O : forall k, m_find f (args_of P k) = None).
  { intros k. destruct (m_find f (args_of P k)) eqn:F; auto. exfalso. apply (N k). eexists; eauto. }
  pose proof (O KStr); pose proof (O KSwitch); pose proof (O KInt); pose proof (O KDouble); pose proof (O KFile). cbn [args_of] in *.
  unfold parse_str, parse_switch, parse_int, parse_double, parse_file.
  repeat (match goal with H : m_find f _ = _ |- _ => rewrite H end; proj). auto.
Qed.

(** ** acceptance does not depend on earlier values *)
Lemma each_okb {A} (f : A -> outcome A) l : is_ok (each f l) = forallb (fun x => is_ok (f x)) l.
Proof.
  induction l as [|x t IH]; simpl; auto. destruct (f x); simpl; auto. rewrite <- IH. destruct (each f t); auto.
Qed.
Lemma is_ok_iff {A} (x : outcome A) : is_ok x = true <-> exists b, x = Ok b.
Proof. destruct x; split; eauto; try discriminate; intros [b H]; discriminate. Qed.
Lemma exist_ok w p : is_ok (exist_propValid E w p) = match getPropOption p $"FILE_MUST_EXIST" with
   Ok m => (m =? 0) || file_exists E w | _ => false end.
Proof.
  unfold exist_propValid. destruct (getPropOption p _) as [m| | | |]; auto. cbn [bind].
  destruct (m =? 0); cbn [negb]; destruct (file_exists E w); auto.
Qed.
Lemma sister_ok w p : is_ok (sister_propValid E w p) = is_ok (getPropOption p $"ALLOWED_SISTER_FILE_EXT").
Proof.
  destruct (path_is_exists w) as (d & c & e & f & -> & Hd & Hf & Hs). unfold sister_propValid.
  rewrite lastString_ok, getPath_ok by auto. cbn [bind]. destruct (dot_last _ _ _ Hs) as [-> _]. cbn [bind].
  destruct (getPropOption p _); auto.
Qed.
Lemma v_int_stable w w' p p' : v_int E w p = Ok p' -> is_ok (v_int E w' p') = is_ok (v_int E w' p).
Proof.
  intros H. assert (K : p_kind p' = p_kind p) by (apply v_int_keeps in H; apply H). unfold v_int in *. rewrite K.
  destruct (p_kind p); auto. rewrite !exist_ok. unfold exist_propValid in H. apply bind_ok in H as (m & G & H).
  assert (G' : getPropOption p' $"FILE_MUST_EXIST" = Ok m).
  { destruct (negb (m =? 0)), (file_exists E w); cbn [negb] in H; inversion H; subst; auto;
      (rewrite get_set_ne; [auto|apply str_eqb_neq; reflexivity]). }
  rewrite G, G'. auto.
Qed.
Lemma v_vec_stable w w' p p' : v_vec E w p = Ok p' -> is_ok (v_vec E w' p') = is_ok (v_vec E w' p).
Proof.
  intros H. assert (K : p_kind p' = p_kind p) by (apply v_vec_keeps in H; apply H). unfold v_vec in *. rewrite K.
  destruct (p_kind p); auto. rewrite !sister_ok. unfold sister_propValid in H.
  bk H x1. bk H x2. bk H x3. bk H x4. inversion H; subst.
  repeat (rewrite get_set_ne by (apply str_eqb_neq; reflexivity)). auto.
Qed.
Lemma forall2_okb {A} (f g : A -> bool) l l' : Forall2 (fun x y => g y = f x) l l' -> forallb g l' = forallb f l.
Proof. induction 1; simpl; congruence. Qed.
Lemma argValid_str_okb w a : is_ok (argValid_str E w a) =
  forallb (fun p => is_ok (v_int E w p)) (a_int E a) && forallb (fun p => is_ok (v_size w p)) (a_size E a) &&
  forallb (fun p => is_ok (v_str w p)) (a_str E a) && forallb (fun p => is_ok (v_set w p)) (a_set E a) &&
  forallb (fun p => is_ok (v_vec E w p)) (a_vec E a).
Proof.
  rewrite <- !each_okb. unfold argValid_str.
  destruct (each (v_int E w) _); auto. destruct (each (v_size w) _); auto. destruct (each (v_str w) _); auto.
  destruct (each (v_set w) _); auto. destruct (each (v_vec E w) _); auto.
Qed.
Lemma argValid_str_stable w w' a a' : argValid_str E w a = Ok a' -> is_ok (argValid_str E w' a') = is_ok (argValid_str E w' a).
Proof.
  intros H. rewrite !argValid_str_okb. unfold argValid_str in H. bk H i. bk H z. bk H s. bk H st. bk H v. inversion H; subst.
  cbn [a_int a_size a_str a_set a_vec].
  apply each_same in H1; [|apply v_size_same]. apply each_same in H2; [|apply v_str_same]. apply each_same in H3; [|apply v_set_same]. subst.
  assert (Q1 : forallb (fun p => is_ok (v_int E w' p)) i = forallb (fun p => is_ok (v_int E w' p)) (a_int E a)).
  { apply forall2_okb. eapply each_rel; [|eauto]. intros; eapply v_int_stable; eauto. }
  assert (Q2 : forallb (fun p => is_ok (v_vec E w' p)) v = forallb (fun p => is_ok (v_vec E w' p)) (a_vec E a)).
  { apply forall2_okb. eapply each_rel; [|eauto]. intros; eapply v_vec_stable; eauto. }
  rewrite Q1, Q2. reflexivity.
Qed.

(** ** parsers that treat command lines alike *)
Record alike P P' : Prop := {
  l_flags : flags P' = flags P;
  l_kind : forall f k, has_kind P' f k <-> has_kind P f k;
  l_adm : forall f w, admissible P' f w <-> admissible P f w }.
Lemma alike_refl P : alike P P. Proof. constructor; tauto. Qed.
Lemma alike_trans P Q S : alike P Q -> alike Q S -> alike P S.
Proof. intros [A1 A2 A3] [B1 B2 B3]. constructor; [congruence|intros; rewrite B2; auto|intros; rewrite B3; auto]. Qed.
Lemma alike_stands P P' x f : alike P P' -> (stands_for P' x f <-> stands_for P x f).
Proof. intros [A _ _]. unfold stands_for, first_with, registered. rewrite A. tauto. Qed.
Lemma alike_reg P P' : alike P P' -> wf P' -> reg P -> reg P'.
Proof.
  intros A W R. constructor; auto.
  - intros w f f'. rewrite !(alike_stands P P') by auto. apply R.
  - intros f k k'. rewrite !(l_kind _ _ A). apply R.
  - intros f k. rewrite (l_kind _ _ A). intros H. unfold registered. rewrite (l_flags _ _ A). eapply R; eauto.
Qed.
Lemma alike_valid P P' l : alike P P' -> (valid P' l <-> valid P l).
Proof.
  intros A. induction l as [|[x f w|x f|x] t IH]; cbn [valid]; [tauto| | |].
  - rewrite IH, (l_adm _ _ A), (alike_stands _ _ _ _ A). tauto.
  - rewrite IH, (l_kind _ _ A), (alike_stands _ _ _ _ A).
    assert (F : forall y, a_flag P' y <-> a_flag P y) by (intros y; unfold a_flag; split; intros (g & H); exists g; apply (alike_stands _ _ _ _ A); auto).
    assert (G : (forall y r, words t = y :: r -> a_flag P' y) <-> (forall y r, words t = y :: r -> a_flag P y)).
    { split; intros H y r Hy; apply F; eauto. }
    rewrite G. tauto.
  - rewrite IH. tauto.
Qed.

(** argument maps are changed at one key only, by an object accepting the same values *)
Lemma adm_change P P' k f a a' :
  (forall k2 f2, m_find f2 (args_of P' k2) = if (match k, k2 with KStr, KStr | KSwitch, KSwitch | KInt, KInt | KDouble, KDouble | KFile, KFile => true | _, _ => false end)
      then m_find f2 (m_set f a' (args_of P k)) else m_find f2 (args_of P k2)) ->
  flags P' = flags P -> m_find f (args_of P k) = Some a ->
  (k = KStr \/ k = KFile -> forall w, is_ok (argValid_str E w a') = is_ok (argValid_str E w a)) ->
  (k = KInt \/ k = KDouble -> a' = a) ->
  alike P P'.
Proof.
  intros H Fl F Hs Hi.
  assert (Same : forall k2 f2, (k2 <> k \/ f2 <> f) -> m_find f2 (args_of P' k2) = m_find f2 (args_of P k2)).
  { intros k2 f2 N. rewrite H. destruct k, k2; auto; (destruct N as [N|N]; [congruence|]); apply find_set_ne; auto. }
  assert (Here : m_find f (args_of P' k) = Some a') by (rewrite H; destruct k; apply find_set_eq).
  constructor; auto.
  - intros f2 k2. unfold has_kind.
    destruct (str_dec f2 f) as [->|N]; [|rewrite Same by auto; tauto].
    assert (D : k2 = k \/ k2 <> k) by (destruct k, k2; auto; right; discriminate).
    destruct D as [->|N]; [|rewrite Same by auto; tauto]. rewrite Here, F. split; eauto.
  - intros f2 w. unfold admissible.
    assert (Q : forall k2 , (exists b, m_find f2 (args_of P' k2) = Some b /\ 
        match k2 with KStr | KFile => exists c, argValid_str E w b = Ok c | KInt => exists v c, stoi w = Ok v /\ argValid_int E v b = Ok c
          | KDouble => exists v c, e_stod E w = Ok v /\ argValid_dbl E v b = Ok c | KSwitch => False end) <->
        (exists b, m_find f2 (args_of P k2) = Some b /\ 
        match k2 with KStr | KFile => exists c, argValid_str E w b = Ok c | KInt => exists v c, stoi w = Ok v /\ argValid_int E v b = Ok c
          | KDouble => exists v c, e_stod E w = Ok v /\ argValid_dbl E v b = Ok c | KSwitch => False end)).
    { intros k2. destruct (str_dec f2 f) as [->|N]; [|rewrite Same by auto; tauto].
      assert (D : k2 = k \/ k2 <> k) by (destruct k, k2; auto; right; discriminate).
      destruct D as [->|N]; [|rewrite Same by auto; tauto]. rewrite Here, F.
      destruct k.
      - specialize (Hs ltac:(auto) w). split; intros (b & Eb & Hb); inversion Eb; subst b; eexists; split; eauto;
          apply is_ok_iff; apply is_ok_iff in Hb; congruence.
      - split; intros (b & _ & []).
      - rewrite Hi by auto. tauto.
      - rewrite Hi by auto. tauto.
      - specialize (Hs ltac:(auto) w). split; intros (b & Eb & Hb); inversion Eb; subst b; eexists; split; eauto;
          apply is_ok_iff; apply is_ok_iff in Hb; congruence. }
    split; intros (k2 & Hk); exists k2; apply Q; auto.
Qed.
Lemma take_alike k f w P P' : take k f w P = Ok P' -> wf P -> alike P P' /\ wf P'.
Proof.
  unfold take. intros H W. destruct (m_find f (args_of P k)) as [a|] eqn:F; [|discriminate].
  destruct k; cbn [args_of] in F; try discriminate.
  - bk H a'. inversion H; subst. split.
    + apply (adm_change P _ KStr f a a'); auto; [intros [] f2; auto|intros _ w2; eapply argValid_str_stable; eauto|intros [|]; discriminate].
    + destruct (wf_find _ _ _ _ (w_str _ W) F) as [K Sh]. destruct (argValid_str_shape _ _ _ H0 Sh) as [S2 K2].
      apply wf_with_strs, wf_with_str; auto. apply wf_set; [apply W|congruence|auto].
  - bk H v. bk H a'. apply argValid_int_same in H1. subst. inversion H; subst. split.
    + apply (adm_change P _ KInt f a a); auto. intros [] f2; auto.
    + destruct (wf_find _ _ _ _ (w_int _ W) F) as [K Sh]. apply wf_with_ints, wf_with_int; auto. apply wf_set; [apply W|auto|auto].
  - bk H v. bk H a'. apply argValid_dbl_same in H1. subst. inversion H; subst. split.
    + apply (adm_change P _ KDouble f a a); auto. intros [] f2; auto.
    + destruct (wf_find _ _ _ _ (w_double _ W) F) as [K Sh]. apply wf_with_dbls, wf_with_double; auto. apply wf_set; [apply W|auto|auto].
  - bk H a'. inversion H; subst. split.
    + apply (adm_change P _ KFile f a a'); auto; [intros [] f2; auto|intros _ w2; eapply argValid_str_stable; eauto|intros [|]; discriminate].
    + destruct (wf_find _ _ _ _ (w_file _ W) F) as [K Sh]. destruct (argValid_str_shape _ _ _ H0 Sh) as [S2 K2].
      apply wf_with_strs, wf_with_file; auto. apply wf_set; [apply W|congruence|auto].
Qed.
Lemma flip_alike f P : wf P -> alike P (flip f P) /\ wf (flip f P).
Proof. intros W. split; [constructor; unfold has_kind, admissible; intros; tauto|apply wf_with_ints; auto]. Qed.
Lemma take_admissible k f w P : reg P -> has_kind P f k -> (admissible P f w <-> exists P', take k f w P = Ok P').
Proof.
  intros R K. unfold take, admissible. destruct K as [a F]. rewrite F. split.
  - intros (k2 & a2 & F2 & H). assert (k2 = k) by (eapply (g_kind _ R); eexists; eauto). subst k2. rewrite F in F2. inversion F2; subst a2.
    destruct k; try tauto.
    + destruct H as (a' & ->). eexists; reflexivity.
    + destruct H as (v & a' & -> & H). cbn [bind]. rewrite H. eexists; reflexivity.
    + destruct H as (v & a' & -> & H). cbn [bind]. rewrite H. eexists; reflexivity.
    + destruct H as (a' & ->). eexists; reflexivity.
  - intros (P' & H). exists k, a. split; auto. destruct k; try discriminate.
    + bk H a'. eauto.
    + bk H v. bk H a'. eauto.
    + bk H v. bk H a'. eauto.
    + bk H a'. eauto.
Qed.

(** ** the run over items *)
Inductive run : parser E -> list item -> parser E -> Prop :=
| run_nil P : run P [] P
| run_val P x f w k t P1 P2 : has_kind P f k -> take k f w P = Ok P1 -> run P1 t P2 -> run P (IVal x f w :: t) P2
| run_sw P x f t P2 : run (flip f P) t P2 -> run P (ISw x f :: t) P2
| run_note P x t P2 : run P t P2 -> run P (INote x :: t) P2.

Lemma informational_eq x : (is_help x || is_citation x = true <-> note x) /\ (is_version x = true <-> version x).
Proof.
  unfold is_help, is_citation, is_version, note, version. rewrite !orb_true_iff, !str_eqb_eq. cbn. intuition.
Qed.
Lemma valid_run P l : reg P -> valid P l -> exists P', run P l P' /\ alike P P' /\ wf P'.
Proof.
  revert P; induction l as [|[x f w|x f|x] t IH]; intros P R V; cbn [valid] in V.
  - exists P. split; [constructor|]. split; [apply alike_refl|apply R].
  - destruct V as (_ & S & A & V). pose proof A as (k & a & F & _).
    assert (K : has_kind P f k) by (exists a; auto).
    apply (take_admissible k f w P R K) in A as (P1 & T). destruct (take_alike _ _ _ _ _ T (g_wf _ R)) as [L W].
    destruct (IH P1) as (P2 & Rn & L2 & W2).
    { eapply alike_reg; eauto. } { apply (alike_valid _ _ _ L); auto. }
    exists P2. split; [econstructor; eauto|]. split; auto. eapply alike_trans; eauto.
  - destruct V as (_ & S & K & _ & V). destruct (flip_alike f P (g_wf _ R)) as [L W].
    destruct (IH (flip f P)) as (P2 & Rn & L2 & W2).
    { eapply alike_reg; eauto. } { apply (alike_valid _ _ _ L); auto. }
    exists P2. split; [econstructor; eauto|]. split; auto. eapply alike_trans; eauto.
  - destruct V as (_ & V). destruct (IH P R V) as (P2 & Rn & L2 & W2). exists P2. split; [econstructor; eauto|auto].
Qed.

Definition notes (l : list item) : nat := length (filter (fun i => match i with INote _ => true | _ => false end) l).
Lemma nth_app_len {A} (a b : list A) : nth_error (a ++ b) (length a) = hd_error b.
Proof. rewrite nth_error_app2, Nat.sub_diag by lia. destruct b; auto. Qed.
Lemma nth_app_len1 {A} (a b : list A) x : nth_error (a ++ x :: b) (length a + 1) = hd_error b.
Proof. rewrite nth_error_app2 by lia. replace (length a + 1 - length a)%nat with 1%nat by lia. destruct b; auto. Qed.

(** parsing valid items *)
Lemma words_cons i t : words (i :: t) = item_words i ++ words t. Proof. reflexivity. Qed.
Lemma loop_items l : forall pre P al fuel rest, reg P -> valid P l ->
  (length (words l) < fuel)%nat -> (rest <> [] -> forall x f t, l = t ++ [ISw x f] -> a_flag P (hd [] rest)) ->
  (al + notes l <= length (pre ++ words l ++ rest))%nat ->
  exists P' fuel', run P l P' /\ alike P P' /\ wf P' /\ (fuel = fuel' + length l)%nat /\ (length l <= length (words l))%nat /\
    parse_loop fuel (pre ++ words l ++ rest) (length pre) al P =
    parse_loop fuel' (pre ++ words l ++ rest) (length (pre ++ words l)) (al + notes l) P'.
Proof.
  induction l as [|i t IH]; intros pre P al fuel rest R V Fu Hl Ha.
  - exists P, fuel. cbn [words map concat app notes filter length]. rewrite app_nil_r, !Nat.add_0_r.
    split; [constructor|]. split; [apply alike_refl|]. split; [apply R|]. auto.
  - destruct fuel as [|n]; [lia|]. cbn [parse_loop].
    destruct i as [x f w|x f|x]; cbn [valid] in V; rewrite words_cons in *; cbn [item_words app] in *.
    + destruct V as (NI & St & A & V). pose proof A as (k & a & F & Hk).
      assert (K : has_kind P f k) by (exists a; auto). assert (Nk : k <> KSwitch) by (intros ->; exact Hk).
      apply (take_admissible k f w P R K) in A as (P1 & T). destruct (take_alike _ _ _ _ _ T (g_wf _ R)) as [L W].
      rewrite nth_app_len. cbn [hd_error].
      destruct (informational_eq x) as [I1 I2].
      destruct (is_help x) eqn:Eh; [exfalso; apply NI; left; apply I1; reflexivity|].
      destruct (is_version x) eqn:Ev; [exfalso; apply NI; right; apply I2; reflexivity|].
      destruct (is_citation x) eqn:Ec; [exfalso; apply NI; left; apply I1; reflexivity|].
      rewrite (parseArg_val _ _ _ x f k R K Nk) by (rewrite ?nth_app_len; auto; apply stands_resolve; auto).
      rewrite nth_app_len1. cbn [hd_error]. rewrite T. cbn [bind fst snd].
      replace (pre ++ x :: w :: words t ++ rest) with ((pre ++ [x; w]) ++ words t ++ rest) by (rewrite <- app_assoc; reflexivity).
      destruct (IH (pre ++ [x; w]) P1 al n rest) as (P2 & fl & Rn & L2 & W2 & Ef & El & Eq).
      { eapply alike_reg; eauto. } { apply (alike_valid _ _ _ L); auto. } { cbn [length] in Fu. lia. }
      { intros Hr x2 f2 t2 ->. unfold a_flag. specialize (Hl Hr x2 f2 (IVal x f w :: t2) eq_refl) as (g & G). exists g. apply (alike_stands _ _ _ _ L); auto. }
      { unfold notes in *. cbn [filter] in Ha. rewrite <- app_assoc. exact Ha. }
      exists P2, fl. split; [econstructor; eauto|]. split; [eapply alike_trans; eauto|]. split; [auto|].
      split; [cbn [length]; lia|]. split; [cbn [length]; lia|].
      replace (S (S (length pre))) with (length (pre ++ [x; w])) by (rewrite app_length; simpl; lia). rewrite Eq.
        rewrite <- !app_assoc. unfold notes. cbn [filter]. reflexivity.
    + destruct V as (NI & St & K & Nx & V). pose proof K as (a & F). destruct (flip_alike f P (g_wf _ R)) as [L W].
      rewrite nth_app_len. cbn [hd_error].
      destruct (informational_eq x) as [I1 I2].
      destruct (is_help x) eqn:Eh; [exfalso; apply NI; left; apply I1; reflexivity|].
      destruct (is_version x) eqn:Ev; [exfalso; apply NI; right; apply I2; reflexivity|].
      destruct (is_citation x) eqn:Ec; [exfalso; apply NI; left; apply I1; reflexivity|].
      rewrite (parseArg_sw _ _ _ x f a R F) by (rewrite ?nth_app_len; auto; apply stands_resolve; auto).
      rewrite nth_app_len1.
      assert (B : (match hd_error (words t ++ rest) with
        | Some w => if is_a_flag P w then Ok (length pre, flip f P) else
            a' <- argValid_str E w a;; b <- positive_str w;;
            Ok (length pre, with_ints (m_set f (if b:bool then 1 else 0) (int_values P)) (with_strs (m_set f w (string_values P)) (with_switch (m_set f a' (switch_arg P)) P)))
        | None => Ok (length pre, flip f P) end) = Ok (length pre, flip f P)).
      { destruct (words t) as [|y r] eqn:Ew.
        - destruct rest as [|y r]; [reflexivity|]. cbn [app hd_error].
          rewrite (proj2 (is_a_flag_iff P y (g_wf _ R))); auto. 
          assert (t = []). { destruct t as [|[? ? ?|? ?|?] ?]; auto; discriminate. } subst t.
          apply (Hl ltac:(discriminate) x f []). reflexivity.
        - cbn [app hd_error]. rewrite (proj2 (is_a_flag_iff P y (g_wf _ R))); auto. eapply Nx; eauto. }
      rewrite B. cbn [bind fst snd].
      replace (pre ++ x :: words t ++ rest) with ((pre ++ [x]) ++ words t ++ rest) by (rewrite <- app_assoc; reflexivity).
      destruct (IH (pre ++ [x]) (flip f P) al n rest) as (P2 & fl & Rn & L2 & W2 & Ef & El & Eq).
      { eapply alike_reg; eauto. } { apply (alike_valid _ _ _ L); auto. } { cbn [length] in Fu. lia. }
      { intros Hr x2 f2 t2 ->. specialize (Hl Hr x2 f2 (ISw x f :: t2) eq_refl) as (g & G). exists g. apply (alike_stands _ _ _ _ L); auto. }
      { unfold notes in *. cbn [filter] in Ha. rewrite <- app_assoc. exact Ha. }
      exists P2, fl. split; [econstructor; eauto|]. split; [eapply alike_trans; eauto|]. split; [auto|].
      split; [cbn [length]; lia|]. split; [cbn [length]; lia|].
      replace (S (length pre)) with (length (pre ++ [x])) by (rewrite app_length; simpl; lia). rewrite Eq.
        rewrite <- !app_assoc. unfold notes. cbn [filter]. reflexivity.
    + destruct V as (Nt & V). rewrite nth_app_len. cbn [hd_error].
      destruct (informational_eq x) as [I1 I2]. apply I1 in Nt.
      assert (Hne : (al =? length (pre ++ x :: words t ++ rest))%nat = false).
      { apply Nat.eqb_neq. unfold notes in Ha. cbn [filter length] in Ha. lia. }
      assert (Nv : is_version x = false).
      { destruct (is_version x) eqn:Ev; auto. apply orb_true_iff in Nt. unfold is_version, is_help, is_citation in *.
        rewrite !orb_true_iff, !str_eqb_eq in *. destruct Ev as [->| ->], Nt as [[Nt|Nt]|[Nt|Nt]]; discriminate. }
      assert (B : (if is_help x then if (al =? length (pre ++ x :: words t ++ rest))%nat then Exit 0
          else parse_loop n (pre ++ x :: words t ++ rest) (S (length pre)) (S al) P
        else if is_version x then Exit 0 else if is_citation x then if (al =? length (pre ++ x :: words t ++ rest))%nat then Exit 0
          else parse_loop n (pre ++ x :: words t ++ rest) (S (length pre)) (S al) P
        else r <- parseArg_ (length pre) (pre ++ x :: words t ++ rest) P;; parse_loop n (pre ++ x :: words t ++ rest) (S (fst r)) al (snd r))
        = parse_loop n (pre ++ x :: words t ++ rest) (S (length pre)) (S al) P).
      { rewrite Hne, Nv. apply orb_true_iff in Nt. destruct (is_help x); auto. destruct Nt as [Nt|Nt]; [discriminate|]. rewrite Nt. auto. }
      rewrite B.
      replace (pre ++ x :: words t ++ rest) with ((pre ++ [x]) ++ words t ++ rest) by (rewrite <- app_assoc; reflexivity).
      destruct (IH (pre ++ [x]) P (S al) n rest) as (P2 & fl & Rn & L2 & W2 & Ef & El & Eq); auto.
      { cbn [length] in Fu. lia. }
      { intros Hr x2 f2 t2 ->. exact (Hl Hr x2 f2 (INote x :: t2) eq_refl). }
      { unfold notes in *. cbn [filter length] in Ha. rewrite <- app_assoc. cbn [app]. lia. }
      exists P2, fl. split; [econstructor; eauto|]. split; [auto|]. split; [auto|].
      split; [cbn [length]; lia|]. split; [cbn [length]; lia|].
      replace (S (length pre)) with (length (pre ++ [x])) by (rewrite app_length; simpl; lia). rewrite Eq.
        rewrite <- !app_assoc. unfold notes. cbn [filter length]. f_equal. lia.
Qed.
End Run.
