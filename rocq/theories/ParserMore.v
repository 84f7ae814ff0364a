(** * Command lines that go wrong, respelled ones, and informational ones *)
From Verif Require Export ParserCheck.
Open Scope Z_scope.

Section More.
Context {E : env}.
Implicit Types (P : parser E) (a : arg E).
Lemma nth_here {A} (a : list A) x b : nth_error (a ++ x :: b) (length a) = Some x.
Proof. now rewrite nth_app_len. Qed.
Ltac bk H x := apply bind_ok in H as (x & ?H & H).

Lemma switch_valid P f a w : wf P -> m_find f (switch_arg P) = Some a ->
  (bool_word w -> exists a', argValid_str E w a = Ok a') /\ (~ bool_word w -> argValid_str E w a = Throw InvalidArgument).
Proof.
  intros W F. destruct (wf_find _ _ _ _ (w_switch _ W) F) as [K [S1 S2 S3 S4 S5 S6]]. rewrite K in *. cbn [ki kd kz ks kset kv] in *.
  destruct S1 as [S1 _], S3 as [S3 _], S4 as [S4 _], S5 as [S5 _], S6 as [S6 _].
  unfold argValid_str. apply map_eq_nil in S1, S3, S5, S6. rewrite S1, S3, S5, S6. cbn [each bind].
  destruct (a_str E a) as [|p [|q t]]; try discriminate. inversion S4 as [S7]. cbn [each]. unfold v_str. rewrite S7. unfold switch_propValid.
  assert (Q : existsb (str_eqb w) [$"0"; $"1"; $"ON"; $"OFF"; $"TRUE"; $"FALSE"] = true <-> bool_word w).
  { rewrite existsb_str. unfold bool_word. cbn [In]. intuition. }
  destruct (existsb (str_eqb w) _); split; intros H; cbn [bind]; eauto.
  - exfalso. apply H, Q. auto.
  - apply Q in H. discriminate.
Qed.
Lemma valid_app_r P l t : valid P (l ++ t) -> valid P t.
Proof. induction l as [|[x f w|x f|x] r IH]; cbn [app valid]; auto; intros H; apply IH; tauto. Qed.
Lemma valid_snoc P l x f : valid P l -> ~ informational x -> stands_for P x f -> has_kind P f KSwitch -> valid P (l ++ [ISw x f]).
Proof.
  intros V N Sx K. assert (Fx : a_flag P x) by (exists f; exact Sx).
  induction l as [|[y g w|y g|y] r IH]; cbn [app valid] in *.
  - split; [auto|]. split; [auto|]. split; [auto|]. split; [intros y r H; discriminate|auto].
  - destruct V as (A & B & C & D). auto.
  - destruct V as (A & B & C & D & G). split; [auto|]. split; [auto|]. split; [auto|]. split; [|auto]. intros z q H. rewrite words_app in H.
    destruct (words r) as [|z' q'] eqn:Er; cbn [app] in H.
    + cbn in H. injection H as <- <-. auto.
    + injection H as <- <-. eapply D; eauto.
  - destruct V; auto.
Qed.
Lemma alike_flag P P' y : alike P P' -> (a_flag P' y <-> a_flag P y).
Proof. intros L. unfold a_flag. split; intros (g & H); exists g; apply (alike_stands _ _ _ _ L); auto. Qed.
Lemma flag_dec P x : wf P -> a_flag P x \/ ~ a_flag P x.
Proof. intros W. rewrite <- is_a_flag_iff by auto. destruct (is_a_flag P x); auto. Qed.

(** one step of the loop on a word that is not informational *)
Lemma step_word n A x r al P : ~ informational x ->
  parse_loop (S n) (A ++ x :: r) (length A) al P =
  (s <- parseArg_ (length A) (A ++ x :: r) P ;; parse_loop n (A ++ x :: r) (S (fst s)) al (snd s)).
Proof. intros N. cbn [parse_loop]. rewrite nth_app_len. cbn [hd_error]. destruct (not_info x N) as (-> & -> & ->). reflexivity. Qed.
Lemma no_kind P P' x : reg P -> alike P P' -> wf P' -> (forall f k, stands_for P x f -> ~ has_kind P f k) ->
  forall k, ~ has_kind P' (resolve P' x) k.
Proof.
  intros R L W N k K. assert (R' : reg P') by (eapply alike_reg; eauto). 
  assert (S : stands_for P' x (resolve P' x)) by (apply resolve_stands; auto; eapply (g_reg _ R'); eauto).
  apply (N (resolve P' x) k); [apply (alike_stands _ _ _ _ L); auto|apply (l_kind _ _ L); auto].
Qed.
Lemma unknown_word P prog l x rest : reg P -> valid P l -> ~ informational x -> (forall f k, stands_for P x f -> ~ has_kind P f k) ->
  parse (prog :: words l ++ x :: rest) P = Throw InvalidArgument.
Proof.
  intros R V NI NK.
  assert (Easy : (forall y f t, l = t ++ [ISw y f] -> a_flag P x) -> parse (prog :: words l ++ x :: rest) P = Throw InvalidArgument).
  { intros H. destruct (parse_prefix P prog l x rest R V H) as (P' & fu & Rn & L & W & F1 & _ & ->).
    destruct fu as [|n]; [lia|]. rewrite step_word by auto.
    rewrite (parseArg_unknown _ _ _ x); [reflexivity|eapply no_kind; eauto|apply nth_here]. }
  destruct (flag_dec P x (g_wf _ R)) as [F|F]; [apply Easy; auto|].
  destruct (sw_end l) as [(y & f & t & ->)|N]; [|apply Easy; intros y f t H; exfalso; eapply N; eauto].
  clear Easy. pose proof (valid_app_r _ _ _ V) as V2. apply valid_app in V. cbn [valid] in V2. destruct V2 as (NIy & Sy & Ky & _ & _).
  rewrite words_app. change (words [ISw y f]) with [y]. rewrite <- app_assoc. cbn [app].
  destruct (parse_prefix P prog t y (x :: rest) R V) as (P' & fu & Rn & L & W & F1 & _ & ->).
  { intros. exists f; auto. }
  assert (R' : reg P') by (eapply alike_reg; eauto).
  destruct fu as [|[|n]]; [cbn [length] in F1; lia|cbn [length] in F1; lia|]. rewrite step_word by auto.
  apply (l_kind _ _ L) in Ky. apply (alike_stands _ _ _ _ L) in Sy. pose proof Ky as (a & Fa). cbn [args_of] in Fa.
  rewrite (parseArg_sw _ _ _ y f a R' Fa) by (try apply nth_here; apply stands_resolve; auto).
  rewrite nth_app_len1. cbn [hd_error].
  assert (NF : ~ a_flag P' x) by (intros C; apply F; apply (alike_flag _ _ _ L); auto).
  destruct (is_a_flag P' x) eqn:Ix; [exfalso; apply NF; apply is_a_flag_iff; auto|].
  destruct (switch_valid P' f a x W Fa) as [B1 B2].
  assert (Bd : bool_word x \/ ~ bool_word x).
  { unfold bool_word. destruct (in_dec str_dec x [$"ON"; $"TRUE"; $"1"; $"OFF"; $"FALSE"; $"0"]); auto. }
  destruct Bd as [B|B]; [|rewrite B2 by auto; reflexivity].
  destruct (B1 B) as (a' & ->). cbn [bind]. destruct (bool_positive x B) as (b & ->). cbn [bind fst snd].
  pose proof (after_switch P' f x a a' (if b then 1 else 0) R' Fa NF) as AS. cbv zeta in AS.
  change (prog :: words t) with ([prog] ++ words t).
  replace (([prog] ++ words t) ++ y :: x :: rest) with ((([prog] ++ words t) ++ [y]) ++ x :: rest) by (rewrite <- app_assoc; reflexivity).
  replace (S (length ([prog] ++ words t))) with (length (([prog] ++ words t) ++ [y])) by (rewrite !app_length; simpl; lia).
  rewrite step_word by auto. rewrite (parseArg_unknown _ _ _ x); [reflexivity|exact AS|apply nth_here].
Qed.
Lemma value_missing P prog l x f k : reg P -> valid P l -> ~ informational x -> stands_for P x f -> has_kind P f k -> k <> KSwitch ->
  parse (prog :: words l ++ [x]) P = Throw RuntimeError.
Proof.
  intros R V NI S K N. destruct (parse_prefix P prog l x [] R V) as (P' & fu & Rn & L & W & F1 & _ & ->).
  { intros. exists f; auto. }
  assert (R' : reg P') by (eapply alike_reg; eauto). destruct fu as [|n]; [lia|]. rewrite step_word by auto.
  rewrite (parseArg_val _ _ _ x f k R') ; [|apply (l_kind _ _ L); auto|auto|apply nth_here|apply stands_resolve; auto; apply (alike_stands _ _ _ _ L); auto].
  rewrite nth_app_len1. reflexivity.
Qed.
Lemma value_bad P prog l x f k w rest : reg P -> valid P l -> ~ informational x -> stands_for P x f -> has_kind P f k -> k <> KSwitch ->
  ~ admissible P f w -> forall P', parse (prog :: words l ++ x :: w :: rest) P <> Ok P'.
Proof.
  intros R V NI S K N A P2. destruct (parse_prefix P prog l x (w :: rest) R V) as (P' & fu & Rn & L & W & F1 & _ & ->).
  { intros. exists f; auto. }
  assert (R' : reg P') by (eapply alike_reg; eauto). destruct fu as [|n]; [lia|]. rewrite step_word by auto.
  rewrite (parseArg_val _ _ _ x f k R') ; [|apply (l_kind _ _ L); auto|auto|apply nth_here|apply stands_resolve; auto; apply (alike_stands _ _ _ _ L); auto].
  rewrite nth_app_len1. cbn [hd_error]. destruct (take k f w P') as [Q| | | |] eqn:T; cbn [bind]; try discriminate.
  exfalso. apply A. apply (l_adm _ _ L). apply (take_admissible k f w P' R'); [apply (l_kind _ _ L); auto|eauto].
Qed.

(** ** spelling *)
Lemma respelled_words P l l' : respelled P l l' -> length (words l) = length (words l') /\ notes l = notes l' /\ length l = length l'.
Proof.
  unfold notes. induction 1 as [|x x' f w l l' N S R IH|x x' f l l' N S R IH|x l l' R IH]; rewrite ?words_cons; cbn [item_words app length filter] in *;
    [auto|split; [lia|split; lia]..].
Qed.
Lemma respelled_valid P l l' : respelled P l l' -> valid P l -> valid P l'.
Proof.
  induction 1 as [|x x' f w l l' N S R IH|x x' f l l' N S R IH|x l l' R IH]; cbn [valid]; auto.
  - tauto.
  - intros (A & B & C & D & V). split; [auto|]. split; [auto|]. split; [auto|]. split; [|auto]. intros y r H.
    destruct R as [|z z' g w l l' N2 S2 R|z z' g l l' N2 S2 R|z l l' R]; rewrite ?words_cons in *; cbn [item_words app] in *.
    + discriminate.
    + injection H as <- <-. exists g; auto.
    + injection H as <- <-. exists g; auto.
    + injection H as <- <-. eapply D; eauto.
  - tauto.
Qed.
Lemma respelled_end P l l' y f t : respelled P l l' -> l' = t ++ [ISw y f] -> exists y' t', l = t' ++ [ISw y' f].
Proof.
  intros R. revert t. induction R as [|x x' g w l l' N S R IH|x x' g l l' N S R IH|x l l' R IH]; intros t H.
  - destruct t; discriminate.
  - destruct t as [|i t]; [discriminate|]. injection H as <- H. destruct (IH t H) as (y' & t' & ->). exists y', (IVal x g w :: t'). reflexivity.
  - destruct t as [|i t].
    + injection H as -> -> H. subst l'. inversion R; subst. exists x, []. reflexivity.
    + injection H as <- H. destruct (IH t H) as (y' & t' & ->). exists y', (ISw x g :: t'). reflexivity.
  - destruct t as [|i t]; [discriminate|]. injection H as <- H. destruct (IH t H) as (y' & t' & ->). exists y', (INote x :: t'). reflexivity.
Qed.
Lemma respelled_end2 P l l' y f t : respelled P l l' -> l = t ++ [ISw y f] -> exists y' t', l' = t' ++ [ISw y' f].
Proof.
  intros R. revert t. induction R as [|x x' g w l l' N S R IH|x x' g l l' N S R IH|x l l' R IH]; intros t H.
  - destruct t; discriminate.
  - destruct t as [|i t]; [discriminate|]. injection H as <- H. destruct (IH t H) as (y' & t' & ->). exists y', (IVal x' g w :: t'). reflexivity.
  - destruct t as [|i t].
    + injection H as -> -> H. subst l. inversion R; subst. exists x', []. reflexivity.
    + injection H as <- H. destruct (IH t H) as (y' & t' & ->). exists y', (ISw x' g :: t'). reflexivity.
  - destruct t as [|i t]; [discriminate|]. injection H as <- H. destruct (IH t H) as (y' & t' & ->). exists y', (INote x :: t'). reflexivity.
Qed.
Lemma respelled_run P l l' : respelled P l l' -> forall Q Q1 Q2 : parser E, reg Q -> run Q l Q1 -> run Q l' Q2 -> Q1 = Q2.
Proof.
  induction 1 as [|x x' f w l l' N S R IH|x x' f l l' N S R IH|x l l' R IH]; intros Q Q1 Q2 G R1 R2; inversion R1; inversion R2; subst; auto.
  - match goal with T1 : take ?a _ _ Q = Ok _, T2 : take ?b _ _ Q = Ok _, _ : run ?q1 l Q1, _ : run ?q2 l' Q2 |- _ =>
      assert (a = b) by (eapply (g_kind _ G); eauto); subst b; assert (q1 = q2) by congruence; subst q2 end.
    eapply IH; [|eauto|eauto]. match goal with H : take _ _ _ Q = Ok _ |- _ => destruct (take_alike _ _ _ _ _ H (g_wf _ G)) as [L W]; eapply alike_reg; eauto end.
  - eapply IH; [|eauto|eauto]. destruct (flip_alike f Q (g_wf _ G)) as [L W]. eapply alike_reg; eauto.
  - eapply IH; eauto.
Qed.
Lemma respell P prog l l' rest : reg P -> valid P l -> respelled P l l' ->
  parse (prog :: words l ++ rest) P = parse (prog :: words l' ++ rest) P.
Proof.
  intros R V S. pose proof (respelled_valid _ _ _ S V) as V'. destruct (respelled_words _ _ _ S) as (Lw & Ln & Ll).
  destruct rest as [|x r].
  - rewrite !app_nil_r. destruct (words l) as [|q0 q] eqn:Ew.
    { destruct (words l'); [reflexivity|discriminate]. }
    rewrite <- Ew in *. clear q0 q Ew.
    assert (Dn : all_notes (words l) \/ ~ all_notes (words l)).
    { destruct (Nat.eq_dec (notes l) (length (words l))) as [Q|Q]; [left; eapply notes_all; eauto|right].
      intros C. apply Q. clear - V C. induction l as [|[y f w|y f|y] t IH]; unfold all_notes, notes in *; rewrite ?words_cons in *; cbn [filter length item_words app valid] in *; auto.
      - exfalso. destruct V as (N & _). inversion C; subst. apply N. left; auto.
      - exfalso. destruct V as (N & _). inversion C; subst. apply N. left; auto.
      - destruct V as (_ & V). inversion C; subst. rewrite IH; auto. }
    destruct Dn as [Dn|Dn].
    + assert (Eq : words l = words l'). 
      { clear - S Dn V. induction S as [|x x' f w l l' N S R IH|x x' f l l' N S R IH|x l l' R IH]; auto; unfold all_notes in *; rewrite !words_cons in *; cbn [item_words app valid] in *.
        - exfalso. destruct V as (V & _). inversion Dn; subst. apply V. left; auto.
        - exfalso. destruct V as (V & _). inversion Dn; subst. apply V. left; auto.
        - inversion Dn; subst. rewrite IH; tauto. }
      now rewrite Eq.
    + assert (Dn' : ~ all_notes (words l')).
      { intros C. apply Dn. eapply notes_all; eauto. rewrite Ln, Lw. clear - V' C. induction l' as [|[y f w|y f|y] t IH]; unfold all_notes, notes in *; rewrite ?words_cons in *; cbn [filter length item_words app valid] in *; auto.
        - exfalso. destruct V' as (N & _). inversion C; subst. apply N. left; auto.
        - exfalso. destruct V' as (N & _). inversion C; subst. apply N. left; auto.
        - destruct V' as (_ & V). inversion C; subst. rewrite IH; auto. }
      destruct (parse_valid P prog l R V Dn) as (P1 & R1 & _ & _ & ->). destruct (parse_valid P prog l' R V' Dn') as (P2 & R2 & _ & _ & ->).
      now rewrite (respelled_run _ _ _ S _ _ _ R R1 R2).
  - assert (Ok : (forall y f t, l = t ++ [ISw y f] -> a_flag P x) -> parse (prog :: words l ++ x :: r) P = parse (prog :: words l' ++ x :: r) P).
    { intros H. destruct (parse_prefix P prog l x r R V H) as (P1 & f1 & R1 & _ & _ & _ & F1 & ->).
      destruct (parse_prefix P prog l' x r R V') as (P2 & f2 & R2 & _ & _ & _ & F2 & ->).
      { intros y f t Ht. destruct (respelled_end _ _ _ _ _ _ S Ht) as (y' & t' & Hl). eapply H; eauto. }
      rewrite (respelled_run _ _ _ S _ _ _ R R1 R2), F1, F2, Ln, Lw, Ll. cbn [length]. rewrite Lw.
      now rewrite (loop_tail _ (prog :: words l) (prog :: words l')) by (cbn [length]; lia). }
    destruct (flag_dec P x (g_wf _ R)) as [F|F]; [apply Ok; auto|].
    destruct (sw_end l) as [(y & f & t & Hl)|N]; [|apply Ok; intros y f t H; exfalso; eapply N; eauto].
    clear Ok. destruct (informational_dec x) as [I|I]; [|].
    2: { rewrite !unknown_word; auto; intros g k Sg; exfalso; apply F; exists g; auto. }
    (* an unregistered informational word after a switch *)
    assert (Bad : forall m, valid P m -> (exists z q, m = q ++ [ISw z f]) -> parse (prog :: words m ++ x :: r) P = Throw InvalidArgument).
    { clear - R F I. intros m V (y & t & ->). pose proof (valid_app_r _ _ _ V) as V2. apply valid_app in V. cbn [valid] in V2. destruct V2 as (NIy & Sy & Ky & _ & _).
      rewrite words_app. change (words [ISw y f]) with [y]. rewrite <- app_assoc. cbn [app].
      destruct (parse_prefix P prog t y (x :: r) R V) as (P' & fu & Rn & L & W & F1 & _ & ->).
      { intros. exists f; auto. }
      assert (R' : reg P') by (eapply alike_reg; eauto).
      destruct fu as [|n]; [cbn [length] in F1; lia|]. rewrite step_word by auto.
      apply (l_kind _ _ L) in Ky. apply (alike_stands _ _ _ _ L) in Sy. pose proof Ky as (a & Fa). cbn [args_of] in Fa.
      rewrite (parseArg_sw _ _ _ y f a R' Fa) by (try apply nth_here; apply stands_resolve; auto).
      rewrite nth_app_len1. cbn [hd_error].
      assert (NF : ~ a_flag P' x) by (intros C; apply F; apply (alike_flag _ _ _ L); auto).
      destruct (is_a_flag P' x) eqn:Ix; [exfalso; apply NF; apply is_a_flag_iff; auto|].
      destruct (switch_valid P' f a x W Fa) as [B1 B2]. rewrite B2; [reflexivity|]. intros B. exact (bool_not_info x B I). }
    rewrite !Bad; auto; [eapply respelled_end2; eauto|eauto].
Qed.

(** ** informational words *)
Lemma step_note n A x r al P : note x ->
  parse_loop (S n) (A ++ x :: r) (length A) al P =
  if (al =? length (A ++ x :: r))%nat then Exit 0 else parse_loop n (A ++ x :: r) (S (length A)) (S al) P.
Proof.
  intros N. cbn [parse_loop]. rewrite nth_app_len. cbn [hd_error]. unfold note in N. cbn [In] in N.
  destruct N as [<-|[<-|[<-|[<-|[]]]]]; reflexivity.
Qed.
Lemma valid_notes P ws : Forall note ws -> valid P (map INote ws) /\ words (map INote ws) = ws /\ notes (map INote ws) = length ws.
Proof.
  induction 1 as [|x ws N F (A & B & C)]; [cbn; auto|]. cbn [map valid]. rewrite words_cons, B. unfold notes in *. cbn [filter length item_words app].
  rewrite C. auto.
Qed.
Lemma only_notes P prog ws : reg P -> Forall note ws -> ws <> [] -> parse (prog :: ws) P = Exit 0.
Proof.
  intros R F N. destruct (exists_last N) as (r & x & ->). apply Forall_app in F as [F Fx]. inversion Fx; subst.
  destruct (valid_notes P r F) as (V & Wd & Nt).
  destruct (parse_prefix P prog (map INote r) x [] R V) as (P' & fu & _ & _ & _ & F1 & _ & Pe).
  { intros y f t H. exfalso. destruct (@app_eq_nil item [] []) as [_ _]; auto.
    assert (I : In (ISw y f) (map INote r)) by (rewrite H; apply in_or_app; right; left; auto). apply in_map_iff in I as (z & Hz & _). discriminate. }
  rewrite Wd, Nt in Pe. rewrite Pe. destruct fu as [|n]; [lia|]. rewrite step_note by auto.
  destruct (Nat.eqb_spec (2 + length r) (length ((prog :: r) ++ [x]))) as [_|C]; [reflexivity|].
  exfalso. apply C. rewrite app_length. cbn [length]. lia.
Qed.
Lemma version_exits P prog l x rest : reg P -> valid P l -> version x -> (forall y f t, l = t ++ [ISw y f] -> a_flag P x) ->
  parse (prog :: words l ++ x :: rest) P = Exit 0.
Proof.
  intros R V N H. destruct (parse_prefix P prog l x rest R V H) as (P' & fu & _ & _ & _ & F1 & _ & ->).
  destruct fu as [|n]; [lia|]. cbn [parse_loop]. rewrite nth_app_len. cbn [hd_error]. destruct N as [<-|[<-|[]]]; reflexivity.
Qed.
End More.
