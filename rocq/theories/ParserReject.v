(** * What a rejected command line leaves behind *)
From Verif Require Export ParserEffect ParserRejectSpec.
Open Scope Z_scope.

Lemma m_set_same {V} k (v : V) m : sorted m -> m_find k m = Some v -> m_set k v m = m.
Proof.
  induction m as [|[k' v'] t IH]; cbn [m_find m_set]; intros S F; [discriminate|]. destruct S as [S1 S2]. cbn [fst] in S1.
  destruct (str_eqb_spec k k') as [->|N]; [congruence|]. destruct (str_ltb k k') eqn:L.
  - exfalso. apply find_in in F; auto. rewrite Forall_forall in S1. specialize (S1 _ F). cbn [fst] in S1.
    assert (C := ltb_trans _ _ _ L S1). rewrite ltb_irrefl in C. discriminate.
  - rewrite IH; auto.
Qed.

Section Reject.
Context {E : env}.
Implicit Types (P : parser E) (a : arg E).
Ltac bk H x := apply bind_ok in H as (x & ?H & H).
Ltac projs := cbn [a_kind a_int a_dbl a_size a_str a_set a_vec fst snd bind] in *.

Lemma result_throw {S A} (r : S * outcome A) e : result r = Throw e -> r = (fst r, Throw e).
Proof. unfold result. destruct r as [s [| | | |]]; cbn [fst snd bind]; congruence. Qed.
Lemma result_ok {S A} (r : S * outcome A) s v : result r = Ok (s, v) -> r = (s, Ok v).
Proof. unfold result. destruct r as [s' [| | | |]]; cbn [fst snd bind]; congruence. Qed.

(** ** the argument object that refused a value *)
Lemma string_left w a : shape a -> a_kind E a = AString \/ a_kind E a = ASwitch -> fst (argValid_str_on w a) = a.
Proof.
  intros [S1 S2 S3 S4 S5 S6] K.
  assert (Ei : a_int E a = []) by (destruct S1 as [S1 _]; destruct K as [K|K]; rewrite K in S1; apply map_eq_nil in S1; auto).
  assert (Ev : a_vec E a = []) by (destruct S6 as [S6 _]; destruct K as [K|K]; rewrite K in S6; apply map_eq_nil in S6; auto).
  assert (Hz : fst (each_on (whole (v_size w)) (a_size E a)) = a_size E a) by (apply each_on_same; intros; eapply v_size_same; eauto).
  assert (Hs : fst (each_on (whole (v_str w)) (a_str E a)) = a_str E a) by (apply each_on_same; intros; eapply v_str_same; eauto).
  assert (Ht : fst (each_on (whole (v_set w)) (a_set E a)) = a_set E a) by (apply each_on_same; intros; eapply v_set_same; eauto).
  destruct a as [k i d z s t v]. projs. subst i v. unfold argValid_str_on, andthen, part. cbn [each_on]. projs.
  destruct (each_on (whole (v_size w)) z) as [z' oz]. projs. subst z'. destruct oz as [| | | |]; try reflexivity. projs.
  destruct (each_on (whole (v_str w)) s) as [z' oz]. projs. subst z'. destruct oz as [| | | |]; try reflexivity. projs.
  destruct (each_on (whole (v_set w)) t) as [z' oz]. projs. subst z'. destruct oz as [| | | |]; reflexivity.
Qed.
Lemma file_left w a e : shape a -> a_kind E a = AFile -> argValid_str E w a = Throw e ->
  exists p, a_int E a = [p] /\ p_kind p = PFileExist /\
   ((exists e', exist_propValid E w p = Throw e' /\ fst (argValid_str_on w a) = a) \/
    exists p', exist_propValid E w p = Ok p' /\
      fst (argValid_str_on w a) = mkArg E (a_kind E a) [p'] (a_dbl E a) (a_size E a) (a_str E a) (a_set E a) (a_vec E a)).
Proof.
  intros [S1 S2 S3 S4 S5 S6] K T. destruct a as [k i d z s t v]. projs. subst k. cbn [ki kd kz ks kset ParserWf.kv] in *.
  destruct S1 as [S1 F1]. destruct i as [|p [|q r]]; try discriminate. cbn [map] in S1. injection S1 as Kp. exists p. split; [auto|]. split; [auto|].
  destruct S3 as [S3 _]. apply map_eq_nil in S3. destruct S4 as [S4 _]. apply map_eq_nil in S4. subst z s.
  destruct S6 as [S6 _]. destruct v as [|q [|q2 r]]; try discriminate.
  assert (Ht : fst (each_on (whole (v_set w)) t) = t) by (apply each_on_same; intros; eapply v_set_same; eauto).
  apply Forall_inv in F1.
  assert (G : forall o, In o [$"FILE_MUST_EXIST"; $"FILE_DOES_EXIST"] -> exists x, getPropOption p o = Ok x) by (intros o Ho; apply (proj1 F1 o); rewrite Kp; exact Ho).
  destruct (G $"FILE_MUST_EXIST") as (m & Hm); [left; auto|]. destruct (G $"FILE_DOES_EXIST") as (dd & Hd); [right; left; auto|].
  unfold argValid_str in T. projs. cbn [each] in T. unfold v_int at 1 in T. rewrite Kp in T.
  assert (Wp : whole (v_int E w) p = whole (exist_propValid E w) p) by (unfold whole, v_int; rewrite Kp; reflexivity).
  unfold argValid_str_on, andthen, part. projs. cbn [each_on]. rewrite Wp.
  assert (Wx : whole (exist_propValid E w) p = match exist_propValid E w p with Ok p' => (p', Ok tt) | Throw e' => (p, Throw e') | Exit n => (p, Exit n) | Undef u => (p, Undef u) | NoFuel => (p, NoFuel) end) by reflexivity.
  rewrite Wx. destruct (exist_propValid E w p) as [p'|e'| | |] eqn:X.
  2:{ left. exists e'. split; reflexivity. }
  2-4: exfalso; unfold exist_propValid in X; rewrite Hm in X; cbn [bind] in X; destruct (negb (m =? 0)), (file_exists E w); discriminate.
  right. exists p'. split; [auto|]. projs. cbn [each_on]. projs.
  pose proof (each_on_ok (v_set w) t) as Et. unfold result in Et. destruct (each_on (whole (v_set w)) t) as [t' ot]. projs. subst t'.
  destruct ot as [[]| | | |]; projs; try reflexivity. destruct (each (v_set w) t) as [t2| | | |]; projs; try discriminate.
  unfold whole. destruct (v_vec E w q) eqn:V; projs; try reflexivity. discriminate T.
Qed.

(** ** one argument that is refused *)
Lemma m_set_str f a P : wf P -> m_find f (str_arg P) = Some a -> with_str (m_set f a (str_arg P)) P = P.
Proof. intros W F. rewrite m_set_same; [destruct P; reflexivity|apply (w_str _ W)|auto]. Qed.
Lemma m_set_switch f a P : wf P -> m_find f (switch_arg P) = Some a -> with_switch (m_set f a (switch_arg P)) P = P.
Proof. intros W F. rewrite m_set_same; [destruct P; reflexivity|apply (w_switch _ W)|auto]. Qed.
Lemma m_set_int f a P : wf P -> m_find f (int_arg P) = Some a -> with_int (m_set f a (int_arg P)) P = P.
Proof. intros W F. rewrite m_set_same; [destruct P; reflexivity|apply (w_int _ W)|auto]. Qed.
Lemma m_set_dbl f a P : wf P -> m_find f (double_arg P) = Some a -> with_double (m_set f a (double_arg P)) P = P.
Proof. intros W F. rewrite m_set_same; [destruct P; reflexivity|apply (w_double _ W)|auto]. Qed.
Lemma m_set_file f a P : wf P -> m_find f (file_arg P) = Some a -> with_file (m_set f a (file_arg P)) P = P.
Proof. intros W F. rewrite m_set_same; [destruct P; reflexivity|apply (w_file _ W)|auto]. Qed.

(** the parser after the value [w] was refused by the flag [f] of kind [k] *)
Definition left_by (k : fkind) (f w : str) P P' : Prop :=
  match k with
  | KFile => exists a, m_find f (file_arg P) = Some a /\ P' = with_file (m_set f (fst (argValid_str_on w a)) (file_arg P)) P
  | _ => P' = P
  end.
(** every refusal by an argument object is an invalid_argument *)
Lemma each_throw {A} (f : A -> outcome A) l e : (forall x e, f x = Throw e -> e = InvalidArgument) -> each f l = Throw e -> e = InvalidArgument.
Proof.
  intros H. induction l as [|x t IH]; cbn [each]; [discriminate|]. destruct (f x) eqn:F; cbn [bind]; try discriminate; [|intros K; injection K as <-; eapply H; eauto].
  destruct (each f t); cbn [bind]; try discriminate. auto.
Qed.
Lemma get_throw {T} (p : prop T) o e : getPropOption p o = Throw e -> e = InvalidArgument.
Proof. unfold getPropOption. destruct (m_find o _); congruence. Qed.
Ltac got H := match type of H with bind (getPropOption ?p ?o) _ = _ => let G := fresh "G" in destruct (getPropOption p o) as [?v|?e'| | |] eqn:G; cbn [bind] in H; try discriminate; [|apply get_throw in G; congruence] end.
Lemma ext_check_throw x e : ext_checkExt x = Throw e -> e = InvalidArgument.
Proof.
  unfold ext_checkExt. destruct (str_eqb x []); [discriminate|]. destruct (Ascii.eqb _ _); [discriminate|].
  destruct (ext_exists x) as (c & y & Hs). destruct (dot_last _ _ _ Hs) as [-> _]. cbn [bind]. destruct (negb _); congruence.
Qed.
Lemma v_set_throw w p e : v_set w p = Throw e -> e = InvalidArgument.
Proof.
  unfold v_set. destruct (p_kind p); try discriminate; intros H.
  - unfold ext_propValid in H. destruct (path_is_exists w) as (d & c & y & f & -> & Hd & Hf & Hs).
    rewrite lastString_ok in H by auto. cbn [bind] in H. destruct (dot_last _ _ _ Hs) as [_ Q]. rewrite Q in H. cbn [bind] in H.
    unfold extSupported in H. destruct (ext_checkExt _) as [|e'| | |] eqn:C; cbn [bind] in H; try discriminate; [|apply ext_check_throw in C; congruence].
    rewrite bind_bind in H. got H. destruct (existsb _ _); cbn [bind] in H; congruence.
  - unfold choice_propValid in H. got H. destruct v as [|x t]; [discriminate|]. destruct (str_eqb x s_true); [|discriminate]. got H. destruct (existsb _ _); congruence.
Qed.
Lemma argValid_str_throw w a e : argValid_str E w a = Throw e -> e = InvalidArgument.
Proof.
  unfold argValid_str. intros H.
  destruct (each (v_int E w) _) as [|e'| | |] eqn:E1; cbn [bind] in H; try discriminate.
  2:{ injection H as <-. revert E1. apply each_throw. intros p x Q. unfold v_int in Q. destruct (p_kind p); try discriminate. unfold exist_propValid in Q. got Q.
      destruct (negb (v =? 0)), (file_exists E w); cbn [negb] in Q; congruence. }
  destruct (each (v_size w) _) as [|e'| | |] eqn:E2; cbn [bind] in H; try discriminate.
  2:{ injection H as <-. revert E2. apply each_throw. intros p x Q. unfold v_size in Q. destruct (p_kind p); try discriminate. unfold string_propValid in Q. got Q.
      destruct (v <? len w); [congruence|]. got Q. destruct (len w <? _); congruence. }
  destruct (each (v_str w) _) as [|e'| | |] eqn:E3; cbn [bind] in H; try discriminate.
  2:{ injection H as <-. revert E3. apply each_throw. intros p x Q. unfold v_str in Q. destruct (p_kind p); try discriminate. unfold switch_propValid in Q. destruct (existsb _ _); congruence. }
  destruct (each (v_set w) _) as [|e'| | |] eqn:E4; cbn [bind] in H; try discriminate.
  2:{ injection H as <-. revert E4. apply each_throw. intros p x. apply v_set_throw. }
  destruct (each (v_vec E w) _) as [|e'| | |] eqn:E5; cbn [bind] in H; try discriminate.
  injection H as <-. revert E5. apply each_throw. intros p x Q. unfold v_vec in Q. destruct (p_kind p); try discriminate.
  unfold sister_propValid in Q. destruct (path_is_exists w) as (d & c & y & f & -> & Hd & Hf & Hs).
  rewrite lastString_ok, getPath_ok in Q by auto. cbn [bind] in Q. destruct (dot_last _ _ _ Hs) as [G _]. rewrite G in Q. cbn [bind] in Q.
  destruct (getPropOption p _) eqn:X; cbn [bind] in Q; try discriminate. apply get_throw in X. congruence.
Qed.
Lemma argValid_int_throw v a e : argValid_int E v a = Throw e -> e = InvalidArgument.
Proof.
  unfold argValid_int. destruct (each (int_propValid v) _) as [|e'| | |] eqn:E1; cbn [bind]; try discriminate. intros H. injection H as <-. revert E1. apply each_throw.
  intros p x Q. unfold int_propValid in Q. got Q. destruct (v <? _); [congruence|]. got Q. destruct (_ <? v); congruence.
Qed.
Lemma argValid_dbl_throw v a e : argValid_dbl E v a = Throw e -> e = InvalidArgument.
Proof.
  unfold argValid_dbl. destruct (each (double_propValid E v) _) as [|e'| | |] eqn:E1; cbn [bind]; try discriminate. intros H. injection H as <-. revert E1. apply each_throw.
  intros p x Q. unfold double_propValid in Q. got Q. destruct (d_lt E v _); [congruence|]. got Q. destruct (d_lt E _ v); congruence.
Qed.
Lemma take_refused k f w P e : reg P -> has_kind P f k -> k <> KSwitch -> take k f w P = Throw e -> refused P f w e.
Proof.
  intros R K N T. split.
  { intros A. apply (take_admissible k f w P R K) in A as (P' & A). congruence. }
  exists k. split; [auto|]. pose proof K as [a F]. unfold take in T. rewrite F in T. destruct k; try congruence.
  - destruct (argValid_str E w a) eqn:A; cbn [bind] in T; try discriminate. apply argValid_str_throw in A. congruence.
  - destruct (stoi w) as [v| | | |]; cbn [bind] in T; try discriminate; [|left; congruence]. right. split; [eauto|]. destruct (argValid_int E v a) eqn:A; cbn [bind] in T; try discriminate. apply argValid_int_throw in A. congruence.
  - destruct (e_stod E w) as [v| | | |]; cbn [bind] in T; try discriminate; [|left; congruence]. right. split; [eauto|]. destruct (argValid_dbl E v a) eqn:A; cbn [bind] in T; try discriminate. apply argValid_dbl_throw in A. congruence.
  - destruct (argValid_str E w a) eqn:A; cbn [bind] in T; try discriminate. apply argValid_str_throw in A. congruence.
Qed.
Ltac others R H := 
  let O := fresh "O" in pose proof (other_kinds _ _ _ R H) as O;
  try (pose proof (O KStr ltac:(discriminate))); try (pose proof (O KSwitch ltac:(discriminate)));
  try (pose proof (O KInt ltac:(discriminate))); try (pose proof (O KDouble ltac:(discriminate)));
  try (pose proof (O KFile ltac:(discriminate))); cbn [args_of] in *; clear O.
Ltac stage := unfold andthen at 1; unfold parse_str_on at 1 || unfold parse_switch_on at 1 || unfold parse_int_on at 1 || unfold parse_double_on at 1 || unfold parse_file_on at 1.
Ltac skip f := unfold andthen at 1; 
  (unfold parse_str_on at 1 || unfold parse_switch_on at 1 || unfold parse_int_on at 1 || unfold parse_double_on at 1 || unfold parse_file_on at 1);
  match goal with H : m_find f _ = None |- _ => rewrite H end; unfold yields at 1.
Lemma parseArg_on_refused i args P x f k w e : reg P -> has_kind P f k -> k <> KSwitch -> nth_error args i = Some x -> resolve P x = f ->
  nth_error args (i + 1) = Some w -> take k f w P = Throw e ->
  exists P', parseArg_on i args P = (P', Throw e) /\ left_by k f w P P'.
Proof.
  intros R K N Hx Hf Hw T. pose proof K as [a F]. pose proof (needs _ _ _ _ R N F) as Q. pose proof (g_wf _ R) as W.
  exists (fst (parseArg_on i args P)). split.
  { apply result_throw. rewrite parseArg_on_ok, (parseArg_val _ _ _ x f k R K N Hx Hf), Hw, T. reflexivity. }
  unfold take in T. rewrite F in T. unfold parseArg_on. rewrite Hx, Hf. cbv zeta. 
  destruct k; [|congruence| | |]; others R K; cbn [args_of] in F.
  - stage. rewrite F, Q, orb_true_r. unfold andthen, reads, next_word. cbn [fst snd]. rewrite Hw.
    pose proof (argValid_str_on_ok w a) as A. destruct (argValid_str E w a) as [b|e'| | |]; cbn [bind] in T, A; try discriminate.
    apply result_throw in A. unfold part. rewrite A. cbn [fst snd left_by]. destruct (wf_find _ _ _ _ (w_str _ W) F) as [Ka Sh]. rewrite string_left by auto. apply m_set_str; auto.
  - skip f. skip f. stage. rewrite F, Q, orb_true_r. unfold andthen, reads, next_word. cbn [fst snd]. rewrite Hw.
    destruct (stoi w) as [v|e'| | |]; cbn [bind] in T; try discriminate; [|reflexivity].
    pose proof (argValid_int_on_ok v a) as A. destruct (argValid_int E v a) as [b|e'| | |]; cbn [bind] in T, A; try discriminate.
    apply result_throw in A. unfold part. rewrite A. cbn [fst snd left_by]. rewrite argValid_int_on_same. apply m_set_int; auto.
  - skip f. skip f. skip f. stage. rewrite F, Q, orb_true_r. unfold andthen, reads, next_word. cbn [fst snd]. rewrite Hw.
    destruct (e_stod E w) as [v|e'| | |]; cbn [bind] in T; try discriminate; [|reflexivity].
    pose proof (argValid_dbl_on_ok v a) as A. destruct (argValid_dbl E v a) as [b|e'| | |]; cbn [bind] in T, A; try discriminate.
    apply result_throw in A. unfold part. rewrite A. cbn [fst snd left_by]. rewrite argValid_dbl_on_same. apply m_set_dbl; auto.
  - skip f. skip f. skip f. skip f. stage. rewrite F, Q, orb_true_r. unfold andthen, reads, next_word. cbn [fst snd]. rewrite Hw.
    pose proof (argValid_str_on_ok w a) as A. destruct (argValid_str E w a) as [b|e'| | |]; cbn [bind] in T, A; try discriminate.
    apply result_throw in A. unfold part. rewrite A. cbn [fst snd left_by]. exists a. auto.
Qed.
Lemma parseArg_on_missing i args P x f k : reg P -> has_kind P f k -> k <> KSwitch -> nth_error args i = Some x -> resolve P x = f ->
  nth_error args (i + 1) = None -> parseArg_on i args P = (P, Throw RuntimeError).
Proof.
  intros R K N Hx Hf Hw. pose proof K as [a F]. pose proof (needs _ _ _ _ R N F) as Q.
  assert (fst (parseArg_on i args P) = P).
  2:{ rewrite <- H at 2. apply result_throw. rewrite parseArg_on_ok, (parseArg_val _ _ _ x f k R K N Hx Hf), Hw. reflexivity. }
  unfold parseArg_on. rewrite Hx, Hf. cbv zeta.
  destruct k; [|congruence| | |]; others R K; cbn [args_of] in F.
  - stage. rewrite F, Q, orb_true_r. unfold andthen, reads, next_word. cbn [fst snd]. rewrite Hw. reflexivity.
  - skip f. skip f. stage. rewrite F, Q, orb_true_r. unfold andthen, reads, next_word. cbn [fst snd]. rewrite Hw. reflexivity.
  - skip f. skip f. skip f. stage. rewrite F, Q, orb_true_r. unfold andthen, reads, next_word. cbn [fst snd]. rewrite Hw. reflexivity.
  - skip f. skip f. skip f. skip f. stage. rewrite F, Q, orb_true_r. unfold andthen, reads, next_word. cbn [fst snd]. rewrite Hw. reflexivity.
Qed.
Lemma parseArg_on_unknown i args P x : (forall k, ~ has_kind P (resolve P x) k) -> nth_error args i = Some x ->
  parseArg_on i args P = (P, Throw InvalidArgument).
Proof.
  intros N Hx. unfold parseArg_on. rewrite Hx. cbv zeta. set (f := resolve P x) in *.
  assert (O : forall k, m_find f (args_of P k) = None).
  { intros k. destruct (m_find f (args_of P k)) eqn:F; auto. exfalso. apply (N k). eexists; eauto. }
  pose proof (O KStr); pose proof (O KSwitch); pose proof (O KInt); pose proof (O KDouble); pose proof (O KFile). cbn [args_of] in *.
  skip f. skip f. skip f. skip f. skip f. reflexivity.
Qed.
Lemma parseArg_on_switch i args P x f a w e : reg P -> m_find f (switch_arg P) = Some a -> nth_error args i = Some x -> resolve P x = f ->
  nth_error args (i + 1) = Some w -> is_a_flag P w = false -> (a' <- argValid_str E w a ;; b <- positive_str w ;; Ok (a', b)) = Throw e ->
  parseArg_on i args P = (P, Throw e) /\ ~ bool_word w /\ e = InvalidArgument.
Proof.
  intros R F Hx Hf Hw Hn T. assert (K : has_kind P f KSwitch) by (exists a; auto). pose proof (g_wf _ R) as W.
  destruct (wf_find _ _ _ _ (w_switch _ W) F) as [Ka Sh].
  assert (Av : argValid_str E w a = if existsb (str_eqb w) [$"0"; $"1"; $"ON"; $"OFF"; $"TRUE"; $"FALSE"] then Ok a else Throw InvalidArgument).
  { destruct Sh as [[S1 _] _ [S3 _] [S4 _] [S5 _] [S6 _]]. rewrite Ka in *. destruct a as [k ii d z s t v]. projs. subst k. cbn [ki kd kz ks kset ParserWf.kv] in *.
    apply map_eq_nil in S1, S3, S5, S6. subst. destruct s as [|p [|q r]]; try discriminate. cbn [map] in S4. injection S4 as Kp.
    unfold argValid_str. projs. cbn [each bind]. unfold v_str. rewrite Kp. unfold switch_propValid.
    destruct (existsb _ _); reflexivity. }
  assert (Nb : ~ bool_word w /\ argValid_str E w a = Throw InvalidArgument).
  { rewrite Av in *. destruct (existsb (str_eqb w) [$"0"; $"1"; $"ON"; $"OFF"; $"TRUE"; $"FALSE"]) eqn:Eb.
    - exfalso. apply existsb_str in Eb. assert (B : bool_word w) by (unfold bool_word; cbn [In] in *; intuition). destruct (bool_positive w B) as (b & Hb). cbn [bind] in T. rewrite Hb in T. discriminate.
    - split; [|auto]. intros B. assert (C : existsb (str_eqb w) [$"0"; $"1"; $"ON"; $"OFF"; $"TRUE"; $"FALSE"] = true) by (apply existsb_str; unfold bool_word in B; cbn [In] in *; intuition). congruence. }
  destruct Nb as [Nb At]. rewrite At in T. cbn [bind] in T. assert (e = InvalidArgument) by congruence. subst e. split; [|auto].
  others R K. unfold parseArg_on. rewrite Hx, Hf. cbv zeta. skip f. stage. rewrite F. cbn [fst snd].
  unfold nextParameterIsAFlag_. rewrite Hw, Hn. cbn [negb]. unfold andthen, part.
  pose proof (argValid_str_on_ok w a) as A. rewrite At in A. apply result_throw in A. rewrite A. cbn [fst snd].
  rewrite string_left by auto. rewrite m_set_switch by auto. reflexivity.
Qed.

(** ** the line as a whole *)
Inductive residue P P1 : list str -> exn -> parser E -> Prop :=
| res_unknown x r : ~ informational x -> (forall f k, stands_for P x f -> ~ has_kind P f k) -> residue P P1 (x :: r) InvalidArgument P1
| res_missing x f k : ~ informational x -> stands_for P x f -> has_kind P f k -> k <> KSwitch -> residue P P1 [x] RuntimeError P1
| res_value x f k w r e P' : ~ informational x -> stands_for P x f -> has_kind P f k -> k <> KSwitch -> refused P f w e -> take k f w P1 = Throw e ->
    left_by k f w P1 P' -> residue P P1 (x :: w :: r) e P'
| res_word x f w r a : ~ informational x -> stands_for P x f -> m_find f (switch_arg P1) = Some a -> ~ a_flag P w -> ~ bool_word w ->
    residue P P1 (x :: w :: r) InvalidArgument P1
| res_bool x f w r a b : ~ informational x -> stands_for P x f -> m_find f (switch_arg P1) = Some a -> ~ a_flag P w -> bool_word w -> positive_str w = Ok b ->
    residue P P1 (x :: w :: r) InvalidArgument
      (with_ints (m_set f (if b : bool then 1 else 0) (int_values P1)) (with_strs (m_set f w (string_values P1)) P1)).
Lemma alike_a_flag P P1 w : alike P P1 -> (a_flag P1 w <-> a_flag P w).
Proof. intros L. unfold a_flag. split; intros (g & H); exists g; apply (alike_stands _ _ _ _ L); auto. Qed.
Lemma alike_refused P P1 f w e : alike P P1 -> refused P1 f w e -> refused P f w e.
Proof.
  intros L (N & k & K & H). split; [intros A; apply N, (l_adm _ _ L), A|]. exists k. split; [apply (l_kind _ _ L), K|exact H].
Qed.
Lemma residue_alike P P1 P2 rest e P' : alike P P1 -> residue P1 P2 rest e P' -> residue P P2 rest e P'.
Proof.
  intros L H. destruct H as [x r I N|x f k I S K N|x f k w r e P' I S K N Rf T Lb|x f w r a I S F Nf Nb|x f w r a b I S F Nf Bw Pb].
  - constructor 1; auto. intros f k S K. apply (N f k); [apply (alike_stands _ _ _ _ L), S|apply (l_kind _ _ L), K].
  - econstructor 2; eauto; [apply (alike_stands _ _ _ _ L), S|apply (l_kind _ _ L), K].
  - econstructor 3; eauto; [apply (alike_stands _ _ _ _ L), S|apply (l_kind _ _ L), K|eapply alike_refused; eauto].
  - econstructor 4; eauto; [apply (alike_stands _ _ _ _ L), S|rewrite <- (alike_a_flag _ _ _ L); auto].
  - econstructor 5; eauto; [apply (alike_stands _ _ _ _ L), S|rewrite <- (alike_a_flag _ _ _ L); auto].
Qed.
Lemma loop_rejected fuel : forall pre rest al P P' e, reg P ->
  parse_loop_on fuel (pre ++ rest) (length pre) al P = (P', Throw e) ->
  exists l rest' P1, rest = words l ++ rest' /\ valid P l /\ run P l P1 /\ residue P P1 rest' e P' /\
   (forall y r x f t, rest' = y :: r -> l = t ++ [ISw x f] -> a_flag P y).
Proof.
  induction fuel as [|n IH]; intros pre rest al P P' e R H; [discriminate|]. cbn [parse_loop_on] in H.
  rewrite nth_app_len in H. destruct rest as [|x r]; cbn [hd_error] in H; [discriminate|].
  destruct (informational_eq x) as [I1 I2].
  assert (Note : is_help x || is_citation x = true ->
     (if (al =? length (pre ++ x :: r))%nat then reads (Exit 0) else parse_loop_on n (pre ++ x :: r) (S (length pre)) (S al)) P = (P', Throw e) ->
     exists l rest' P1, x :: r = words l ++ rest' /\ valid P l /\ run P l P1 /\ residue P P1 rest' e P' /\
       (forall y r x f t, rest' = y :: r -> l = t ++ [ISw x f] -> a_flag P y)).
  { intros Hn H2. destruct (Nat.eqb_spec al (length (pre ++ x :: r))); [discriminate|].
    replace (pre ++ x :: r) with ((pre ++ [x]) ++ r) in * by (rewrite <- app_assoc; reflexivity).
    replace (S (length pre)) with (length (pre ++ [x])) in H2 by (rewrite app_length; simpl; lia).
    destruct (IH (pre ++ [x]) r (S al) P P' e R H2) as (l & rest' & P1 & -> & V & Rn & Rs & Sw).
    exists (INote x :: l), rest', P1. split; [reflexivity|]. split; [split; [apply I1; auto|auto]|]. split; [constructor; auto|]. split; [auto|].
    intros y q z f t E1 E2. destruct t as [|i t]; [discriminate|]. injection E2 as _ E2. eapply Sw; eauto. }
  destruct (is_help x) eqn:Eh; [apply Note; auto|]. destruct (is_version x) eqn:Ev; [discriminate|].
  destruct (is_citation x) eqn:Ec; [apply Note; auto|]. clear Note.
  assert (NI : ~ informational x).
  { intros [K|K]; [apply I1 in K|apply I2 in K]; discriminate. }
  assert (Here : forall rest' P2 e2, residue P P rest' e2 P2 -> x :: r = rest' -> (P', Throw e) = (P2, @Throw unit e2) ->
     exists l rest' P1, x :: r = words l ++ rest' /\ valid P l /\ run P l P1 /\ residue P P1 rest' e P' /\
       (forall y r x f t, rest' = y :: r -> l = t ++ [ISw x f] -> a_flag P y)).
  { intros rest' P2 e2 Rs E1 E2. injection E2 as -> ->. exists [], (x :: r), P. split; [reflexivity|]. split; [exact I|]. split; [constructor|]. rewrite E1. split; [auto|].
    intros y q z f t _ E2. destruct t; discriminate. }
  destruct (not_known P x R) as [N|(k & K & Sx)].
  { unfold andthen in H. rewrite (parseArg_on_unknown _ _ _ x) in H by (auto; rewrite nth_app_len; auto).
    eapply Here; [|reflexivity|symmetry; exact H]. constructor 1; auto. intros f k S. rewrite <- (stands_resolve _ _ _ R S). auto. }
  set (f := resolve P x) in *.
  assert (Kd : k = KSwitch \/ k <> KSwitch) by (destruct k; auto; right; discriminate).
  destruct Kd as [->|Nk].
  - pose proof K as (a & F). cbn [args_of] in F.
    assert (Pa := parseArg_sw (length pre) (pre ++ x :: r) _ x f a R F). rewrite nth_app_len1, nth_app_len in Pa. specialize (Pa eq_refl eq_refl).
    assert (Po := parseArg_on_ok (length pre) (pre ++ x :: r) P). rewrite Pa in Po.
    assert (Flip : parseArg_on (length pre) (pre ++ x :: r) P = (flip f P, Ok (length pre)) -> (forall y q, r = y :: q -> a_flag P y) -> 
       exists l rest' P1, x :: r = words l ++ rest' /\ valid P l /\ run P l P1 /\ residue P P1 rest' e P' /\
         (forall y r x f t, rest' = y :: r -> l = t ++ [ISw x f] -> a_flag P y)).
    { intros Q Hy. unfold andthen in H. rewrite Q in H. destruct (flip_alike f P (g_wf _ R)) as [L W].
      replace (pre ++ x :: r) with ((pre ++ [x]) ++ r) in * by (rewrite <- app_assoc; reflexivity).
      replace (S (length pre)) with (length (pre ++ [x])) in H by (rewrite app_length; simpl; lia).
      destruct (IH (pre ++ [x]) r al (flip f P) P' e) as (l & rest' & P1 & E1 & V & Rn & Rs & Sw); auto.
      { eapply alike_reg; eauto. }
      exists (ISw x f :: l), rest', P1. split; [rewrite E1; reflexivity|]. split.
      { split; [auto|]. split; [auto|]. split; [auto|]. split; [|apply (alike_valid _ _ _ L); auto].
        intros y q Hq. apply (Hy y (q ++ rest')). rewrite E1, Hq. reflexivity. }
      split; [constructor; auto|]. split; [eapply residue_alike; eauto|].
      intros y q z g t E2 E3. destruct t as [|i t].
      - injection E3 as <- <- ->. apply (Hy y q). rewrite E1, E2. reflexivity.
      - injection E3 as _ E3. apply (alike_a_flag _ _ _ L). eapply Sw; eauto. }
    destruct r as [|w q]; cbn [hd_error] in Po.
    + apply result_ok in Po. apply Flip; auto. discriminate.
    + destruct (is_a_flag P w) eqn:Fw.
      * apply result_ok in Po. apply Flip; auto. intros y q' Q. inversion Q; subst. apply is_a_flag_iff; auto. apply R.
      * assert (Nw : ~ a_flag P w). { intros C. apply is_a_flag_iff in C; [congruence|apply R]. }
        destruct (a' <- argValid_str E w a ;; b <- positive_str w ;; Ok (a', b)) as [[a' b]|e'| | |] eqn:Q.
        -- apply bind_ok in Q as (a1 & H0 & Q). apply bind_ok in Q as (b1 & H1 & Q). apply Ok_inj in Q. injection Q as -> ->. rewrite H0 in Po. cbn [bind] in Po. rewrite H1 in Po. cbn [bind fst snd] in Po. apply result_ok in Po.
           destruct (wf_find _ _ _ _ (w_switch _ (g_wf _ R)) F) as [Ka Sh].
           assert (a' = a). { pose proof (argValid_str_on_ok w a) as A. rewrite H0 in A. apply result_ok in A. pose proof (string_left w a Sh (or_intror Ka)) as B. rewrite A in B. exact B. }
           subst a'. rewrite m_set_switch in Po by (auto; apply R).
           pose proof (after_switch P f w a a (if b then 1 else 0) R F Nw) as AS. cbv zeta in AS. rewrite m_set_switch in AS by (auto; apply R).
           pose proof (positive_bool _ _ H1) as Bw. destruct (not_info w (bool_not_info w Bw)) as (B1 & B2 & B3).
           unfold andthen in H. rewrite Po in H. destruct n as [|n]; [discriminate|]. cbn [parse_loop_on] in H.
           replace (S (length pre)) with (length pre + 1)%nat in H by lia. rewrite nth_app_len1 in H. cbn [hd_error] in H.
           rewrite B1, B2, B3 in H. unfold andthen in H. rewrite (parseArg_on_unknown _ _ _ w) in H; [|exact AS|rewrite nth_app_len1; auto].
           eapply Here; [|reflexivity|symmetry; exact H]. econstructor 5; eauto.
        -- destruct (parseArg_on_switch (length pre) (pre ++ x :: w :: q) P x f a w e' R F) as (Pr & Nb & ->); auto; [rewrite nth_app_len; auto|rewrite nth_app_len1; auto|].
           unfold andthen in H. rewrite Pr in H. eapply Here; [|reflexivity|symmetry; exact H]. econstructor 4; eauto.
        -- exfalso. unfold andthen in H. destruct (argValid_str E w a) as [a'| | | |]; cbn [bind] in Q, Po; try discriminate; [destruct (positive_str w); cbn [bind] in Q, Po; try discriminate|];
             destruct (parseArg_on _ _ _) as [s [| | | |]]; cbn in Po; discriminate.
        -- exfalso. unfold andthen in H. destruct (argValid_str E w a) as [a'| | | |]; cbn [bind] in Q, Po; try discriminate; [destruct (positive_str w); cbn [bind] in Q, Po; try discriminate|];
             destruct (parseArg_on _ _ _) as [s [| | | |]]; cbn in Po; discriminate.
        -- exfalso. unfold andthen in H. destruct (argValid_str E w a) as [a'| | | |]; cbn [bind] in Q, Po; try discriminate; [destruct (positive_str w); cbn [bind] in Q, Po; try discriminate|];
             destruct (parseArg_on _ _ _) as [s [| | | |]]; cbn in Po; discriminate.
  - destruct r as [|w q].
    + unfold andthen in H. rewrite (parseArg_on_missing _ _ _ x f k R K Nk) in H; [| rewrite nth_app_len; auto|auto|rewrite nth_app_len1; auto].
      eapply Here; [|reflexivity|symmetry; exact H]. econstructor 2; eauto.
    + assert (Pa := parseArg_val (length pre) (pre ++ x :: w :: q) _ x f k R K Nk). rewrite nth_app_len1, nth_app_len in Pa. specialize (Pa eq_refl eq_refl). cbn [hd_error] in Pa.
      assert (Po := parseArg_on_ok (length pre) (pre ++ x :: w :: q) P). rewrite Pa in Po.
      destruct (take k f w P) as [P1|e'| | |] eqn:T; cbn [bind fst snd] in Po.
      * apply result_ok in Po. unfold andthen in H. rewrite Po in H. destruct (take_alike _ _ _ _ _ T (g_wf _ R)) as [L W].
        replace (pre ++ x :: w :: q) with ((pre ++ [x; w]) ++ q) in * by (rewrite <- app_assoc; reflexivity).
        replace (S (S (length pre))) with (length (pre ++ [x; w])) in H by (rewrite app_length; simpl; lia).
        destruct (IH (pre ++ [x; w]) q al P1 P' e) as (l & rest' & P2 & E1 & V & Rn & Rs & Sw); auto.
        { eapply alike_reg; eauto. }
        exists (IVal x f w :: l), rest', P2. split; [rewrite E1; reflexivity|]. split.
        { split; [auto|]. split; [auto|]. split; [apply (take_admissible k f w P R K); eauto|]. apply (alike_valid _ _ _ L); auto. }
        split; [econstructor; eauto|]. split; [eapply residue_alike; eauto|].
        intros y q' z g t E2 E3. destruct t as [|i t]; [discriminate|]. injection E3 as _ E3. apply (alike_a_flag _ _ _ L). eapply Sw; eauto.
      * destruct (parseArg_on_refused (length pre) (pre ++ x :: w :: q) P x f k w e' R K Nk) as (P2 & Pr & Lb); auto; [rewrite nth_app_len; auto|rewrite nth_app_len1; auto|].
        unfold andthen in H. rewrite Pr in H. eapply Here; [|reflexivity|symmetry; exact H]. econstructor 3; eauto. eapply take_refused; eauto.
      * exfalso. unfold andthen in H. destruct (parseArg_on _ _ _) as [s [| | | |]]; cbn in Po; discriminate.
      * exfalso. unfold andthen in H. destruct (parseArg_on _ _ _) as [s [| | | |]]; cbn in Po; discriminate.
      * exfalso. unfold andthen in H. destruct (parseArg_on _ _ _) as [s [| | | |]]; cbn in Po; discriminate.
Qed.

(** ** a file whose extension was refused *)
Lemma left_file P f w a e : wf P -> m_find f (file_arg P) = Some a -> argValid_str E w a = Throw e ->
  let P' := with_file (m_set f (fst (argValid_str_on w a)) (file_arg P)) P in
  alike P P' /\ wf P' /\ (forall g, required P' g <-> required P g) /\
  (forall g, found P' g <-> found P g \/ (g = f /\ file_exists E w = true)).
Proof.
  intros W F T P'. destruct (wf_find _ _ _ _ (w_file _ W) F) as [K Sh].
  destruct (file_left w a e Sh K T) as (p & A & Kp & H).
  destruct (file_props _ _ _ W F) as (p0 & m & d & A0 & K0 & M & D). assert (p0 = p) by congruence. subst p0.
  destruct (exist_valid E p m d w M D) as [X1 X2].
  assert (Same : fst (argValid_str_on w a) = a -> file_exists E w = false -> alike P P' /\ wf P' /\ (forall g, required P' g <-> required P g) /\
     (forall g, found P' g <-> found P g \/ (g = f /\ file_exists E w = true))).
  { intros Q Nx. assert (P' = P) as -> by (unfold P'; rewrite Q; apply m_set_file; auto). split; [apply alike_refl|]. split; [auto|]. split; [tauto|].
    intros g. rewrite Nx. intuition congruence. }
  destruct H as [(e' & Ex & Q)|(p' & Ex & Q)].
  { apply Same; auto. destruct (file_exists E w) eqn:Fe; auto. destruct (X1 (or_intror eq_refl)) as (q & C & _). congruence. }
  clear Same. assert (C : m = 0 \/ file_exists E w = true).
  { destruct (Z.eq_dec m 0); auto. destruct (file_exists E w) eqn:Fe; auto. rewrite X2 in Ex by auto. discriminate. }
  destruct (X1 C) as (q & Eq & Kq & Mq & Dq). rewrite Ex in Eq. apply Ok_inj in Eq. subst q.
  set (a' := mkArg E (a_kind E a) [p'] (a_dbl E a) (a_size E a) (a_str E a) (a_set E a) (a_vec E a)) in *.
  assert (W' : wf P').
  { apply wf_with_file; auto. destruct (argValid_str_on_shape w a Sh) as [S1 S2]. apply wf_set; [apply W|congruence|auto]. }
  assert (F' : m_find f (file_arg P') = Some a') by (unfold P'; rewrite Q; cbn [with_file file_arg]; apply find_set_eq).
  assert (L : alike P P').
  { apply (adm_change P P' KFile f a (fst (argValid_str_on w a))); auto; [intros [] f2; auto| |intros [|]; discriminate].
    intros _ v. rewrite Q. rewrite !argValid_str_okb. unfold a'. cbn [a_int a_size a_str a_set a_vec]. rewrite A. cbn [forallb].
    rewrite (v_int_stable w v p p'); [reflexivity|]. unfold v_int. rewrite Kp. exact Ex. }
  assert (Other : forall g, g <> f -> m_find g (file_arg P') = m_find g (file_arg P)) by (intros g N; unfold P'; cbn [with_file file_arg]; apply find_set_ne; auto).
  assert (Eqv : forall g pr o, g <> f -> getFlagArgOptValue P' g $"ARGUMENT_FILE" pr o = getFlagArgOptValue P g $"ARGUMENT_FILE" pr o).
  { intros g pr o N. destruct (m_find g (file_arg P)) as [b|] eqn:G.
    - rewrite (file_some P g b), (file_some P' g b); auto. rewrite Other; auto.
    - rewrite (file_none P g), (file_none P' g); auto. rewrite Other; auto. }
  destruct (required_iff _ _ _ _ _ _ W F A Kp M D) as [R1 R2].
  destruct (required_iff P' f a' p' m (if file_exists E w then 1 else d) W' F' eq_refl ltac:(congruence) Mq Dq) as [R1' R2'].
  split; [auto|]. split; [auto|]. split; intros g; (destruct (str_dec g f) as [->|N]; [|unfold required, found; rewrite Eqv by auto; clear - N; tauto]).
  - rewrite R1, R1'. tauto.
  - rewrite R2, R2'. clear - R2. destruct (file_exists E w).
    + split; [intros _; right; auto|intros _; lia].
    + split; [auto|]. intros [H|[_ H]]; [auto|discriminate].
Qed.
Lemma alike_file_word P P1 f w rest : alike P P1 -> (file_word P1 f w rest <-> file_word P f w rest).
Proof.
  intros L. unfold file_word. split; intros (x & r & -> & S & K); exists x, r; (split; [auto|]); split; try (apply (alike_stands _ _ _ _ L); exact S); apply (l_kind _ _ L); exact K.
Qed.
(** what [residue] does to the parser the items left *)
Lemma residue_effect P P1 rest e P' : reg P -> reg P1 -> alike P P1 -> residue P P1 rest e P' ->
  alike P1 P' /\ wf P' /\ (forall g, required P' g <-> required P1 g) /\
  (forall g, found P' g <-> found P1 g \/ exists w, file_word P g w rest /\ file_exists E w = true) /\
  (forall g, (forall w, switch_word P g w rest -> ~ bool_word w) ->
     getStr P' g = getStr P1 g /\ getInt P' g = getInt P1 g /\ getDouble P' g = getDouble P1 g) /\
  (forall g w, switch_word P g w rest -> bool_word w -> reads_word P' g w).
Proof.
  intros R R1 L H.
  assert (One : forall x f g, stands_for P x f -> stands_for P x g -> g = f) by (intros x f g A B; eapply (g_one _ R); eauto).
  assert (Kone : forall f k k', has_kind P f k -> has_kind P f k' -> k = k') by (intros; eapply (g_kind _ R); eauto).
  assert (Same : (forall g w, file_word P g w rest -> file_exists E w = false) -> (forall g w, switch_word P g w rest -> ~ bool_word w) ->
    alike P1 P1 /\ wf P1 /\ (forall g, required P1 g <-> required P1 g) /\
    (forall g, found P1 g <-> found P1 g \/ exists w, file_word P g w rest /\ file_exists E w = true) /\
    (forall g, (forall w, switch_word P g w rest -> ~ bool_word w) ->
       getStr P1 g = getStr P1 g /\ getInt P1 g = getInt P1 g /\ getDouble P1 g = getDouble P1 g) /\
    (forall g w, switch_word P g w rest -> bool_word w -> reads_word P1 g w)).
  { intros Hf Hs. split; [apply alike_refl|]. split; [apply R1|]. split; [tauto|]. split; [|split; [tauto|]].
    - intros g. split; [tauto|]. intros [A|(w & A & B)]; auto. apply Hf in A. congruence.
    - intros g w A B. exfalso. eapply Hs; eauto. }
  destruct H as [x r I N|x f k I S K N|x f k w r e P' I S K N Rf T Lb|x f w r a I S F Nf Nb|x f w r a b I S F Nf Bw Pb].
  - apply Same.
    + intros g w (y & q & Q & Sy & Ky). injection Q as -> ->. exfalso. eapply N; eauto.
    + intros g w (y & q & Q & Sy & Ky). injection Q as -> ->. exfalso. eapply N; eauto.
  - apply Same; intros g w (y & q & Q & _); discriminate.
  - assert (Sw : forall g v, ~ switch_word P g v (x :: w :: r)).
    { intros g v (y & q & Q & Sy & Ky). injection Q as <- <- <-. rewrite (One x f g) in Ky by auto. apply N. eapply Kone; eauto. }
    assert (Kf : k = KFile \/ k <> KFile) by (destruct k; auto; right; discriminate). destruct Kf as [->|Nk].
    + destruct Lb as (a & F & ->). unfold take in T. cbn [args_of] in T. rewrite F in T.
      destruct (argValid_str E w a) as [a'|e'| | |] eqn:A; cbn [bind] in T; try discriminate.
      destruct (left_file P1 f w a e' (g_wf _ R1) F A) as (A1 & A2 & A3 & A4).
      split; [auto|]. split; [auto|]. split; [auto|]. split; [|split].
      * intros g. rewrite A4. split; (intros [B|B]; [left; auto|right]).
        -- destruct B as [-> B]. exists w. split; [exists x, r; auto|auto].
        -- destruct B as (v & (y & q & Q & Sy & Ky) & B). injection Q as <- <- <-. split; [eauto|auto].
      * intros g _. cbn. auto.
      * intros g v C. exfalso. eapply Sw; eauto.
    + assert (P' = P1) by (destruct k; cbn [left_by] in Lb; congruence). subst P'. apply Same.
      * intros g v (y & q & Q & Sy & Ky). injection Q as <- <- <-. rewrite (One x f g) in Ky by auto. exfalso. apply Nk. eapply Kone; eauto.
      * intros g v C. exfalso. eapply Sw; eauto.
  - assert (Ks : has_kind P f KSwitch) by (apply (l_kind _ _ L); exists a; auto). apply Same.
    + intros g v (y & q & Q & Sy & Ky). injection Q as <- <- <-. rewrite (One x f g) in Ky by auto. assert (KFile = KSwitch) by (eapply Kone; eauto). discriminate.
    + intros g v (y & q & Q & Sy & Ky). injection Q as <- <- <-. auto.
  - assert (Ks : has_kind P f KSwitch) by (apply (l_kind _ _ L); exists a; auto).
    set (P2 := with_ints _ _). assert (V : forall pr o g n, getFlagArgOptValue P2 g n pr o = getFlagArgOptValue P1 g n pr o) by reflexivity.
    split; [constructor; unfold has_kind, admissible; intros; tauto|]. split; [apply wf_with_ints, wf_with_strs, R1|]. split; [intros g; unfold required; rewrite V; tauto|].
    split; [|split].
    + intros g. unfold found. rewrite V. split; [tauto|]. intros [B|(v & (y & q & Q & Sy & Ky) & _)]; auto. injection Q as <- <- <-.
      rewrite (One x f g) in Ky by auto. assert (KFile = KSwitch) by (eapply Kone; eauto). discriminate.
    + intros g Hg. assert (Ng : g <> f). { intros ->. apply (Hg w); auto. exists x, r. auto. }
      unfold getStr, getInt, getDouble, P2. cbn. rewrite !find_set_ne by auto. auto.
    + intros g v (y & q & Q & Sy & Ky) _. injection Q as <- <- <-. rewrite (One x f g) by auto. unfold reads_word, getStr, getInt, P2. cbn [with_ints with_strs int_values string_values].
      rewrite !find_set_eq. split; [reflexivity|]. unfold positive_str in Pb. destruct (existsb (str_eqb w) [$"ON"; $"TRUE"; $"1"]); [apply Ok_inj in Pb; subst b; reflexivity|].
      destruct (existsb _ _); [apply Ok_inj in Pb; subst b; reflexivity|discriminate].
Qed.
Lemma residue_stuck P P1 rest e P' l : alike P P1 -> residue P P1 rest e P' -> stuck P l rest e.
Proof.
  intros L H. destruct H as [x r I N|x f k I S K N|x f k w r e P' I S K N Rf T Lb|x f w r a I S F Nf Nb|x f w r a b I S F Nf Bw Pb].
  - constructor 2; auto.
  - econstructor 3; eauto.
  - econstructor 4; eauto.
  - econstructor 5; eauto. apply (l_kind _ _ L). exists a; auto.
  - econstructor 5; eauto. apply (l_kind _ _ L). exists a; auto.
Qed.

Lemma run_alike P l P1 : run P l P1 -> wf P -> alike P P1 /\ wf P1.
Proof.
  induction 1 as [P|P x g w k t P1 P2 K T R IH|P x g t P2 R IH|P x t P2 R IH]; intros W.
  - split; [apply alike_refl|auto].
  - destruct (take_alike _ _ _ _ _ T W) as [L W1]. destruct (IH W1) as [L2 W2]. split; [eapply alike_trans; eauto|auto].
  - destruct (flip_alike g P W) as [L W1]. destruct (IH W1) as [L2 W2]. split; [eapply alike_trans; eauto|auto].
  - auto.
Qed.
(** ** the outcome of a rejected command line *)
Lemma parse_on_rejected args P P' e : reg P -> parse_on args P = (P', Throw e) ->
  ((length args <= 1)%nat /\ P' = P) \/
  exists prog l rest P1, args = prog :: words l ++ rest /\ valid P l /\ run P l P1 /\ alike P P1 /\ wf P1 /\ ends_before P l rest /\
    ((rest = [] /\ P' = P1 /\ e = RuntimeError /\ exists f, required P1 f /\ ~ found P1 f) \/ residue P P1 rest e P').
Proof.
  intros R H. unfold parse_on in H. destruct args as [|prog [|x r]].
  - left. injection H as -> _. auto.
  - left. injection H as -> _. auto.
  - right. unfold andthen in H. destruct (parse_loop_on (length (prog :: x :: r)) (prog :: x :: r) 1 2 P) as [P1 [[]|e'| | |]] eqn:Lp; try discriminate.
    + assert (Q : parse_loop (length (prog :: x :: r)) (prog :: x :: r) 1 2 P = Ok P1).
      { pose proof (parse_loop_on_ok (length (prog :: x :: r)) (prog :: x :: r) 1 2 P) as A. rewrite Lp in A. cbn [result fst snd bind] in A.
        destruct (parse_loop _ _ _ _ P) as [P2| | | |]; cbn [bind] in A; try discriminate. apply Ok_inj in A. congruence. }
      destruct (loop_ok _ [prog] (x :: r) 2 P P1 R ltac:(cbn; lia) Q) as (l & Ew & V & Rn & _).
      destruct (run_alike _ _ _ Rn (g_wf _ R)) as [L W].
      exists prog, l, [], P1. rewrite app_nil_r. split; [congruence|]. split; [auto|]. split; [auto|]. split; [auto|]. split; [auto|]. split; [intros ? ? ? ? ? C; discriminate|].
      left. unfold reads in H. destruct (post_iff P1 W) as [[Hp _]|[Hp Hf]]; rewrite Hp in H; [discriminate|]. injection H as <- <-. auto.
    + injection H as -> ->. destruct (loop_rejected _ [prog] (x :: r) 2 P P' e R Lp) as (l & rest & P1 & Ew & V & Rn & Rs & Sw).
      destruct (run_alike _ _ _ Rn (g_wf _ R)) as [L W].
      exists prog, l, rest, P1. split; [congruence|]. split; [auto|]. split; [auto|]. split; [auto|]. split; [auto|]. split; [|right; auto].
      intros y q z f t E1 E2. eapply Sw; eauto.
Qed.
End Reject.
