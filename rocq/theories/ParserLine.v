(** * Whole command lines *)
From Verif Require Export ParserRun.
Open Scope Z_scope.

Section Line.
Context {E : env}.
Implicit Types (P : parser E) (a : arg E).
Ltac bk H x := apply bind_ok in H as (x & ?H & H).

Lemma dec_zero m : dec m = $"0" -> m = 0.
Proof.
  unfold dec. destruct (Z.ltb_spec m 0); [discriminate|]. intros D.
  destruct (dec_nonneg_digits m) as (ds & E1 & N & F & V); [lia|]. rewrite D in E1.
  pose proof (digits_val_map ds 0 [] F) as K. rewrite app_nil_r, <- E1, V in K. cbn [digits_val] in K. rewrite <- K. reflexivity.
Qed.

(** ** parse succeeds only on valid item lists *)
Lemma kind_dec P f : (exists k, has_kind P f k) \/ (forall k, ~ has_kind P f k).
Proof.
  unfold has_kind.
  destruct (m_find f (str_arg P)) eqn:F1; [left; exists KStr; eauto|].
  destruct (m_find f (switch_arg P)) eqn:F2; [left; exists KSwitch; eauto|].
  destruct (m_find f (int_arg P)) eqn:F3; [left; exists KInt; eauto|].
  destruct (m_find f (double_arg P)) eqn:F4; [left; exists KDouble; eauto|].
  destruct (m_find f (file_arg P)) eqn:F5; [left; exists KFile; eauto|].
  right. intros [] (a & H); cbn [args_of] in H; congruence.
Qed.
Lemma informational_dec x : informational x \/ ~ informational x.
Proof.
  destruct (informational_eq x) as [A B]. unfold informational.
  destruct (is_help x || is_citation x); [left; left; apply A; auto|].
  destruct (is_version x); [left; right; apply B; auto|]. right. intros [H|H]; [apply A in H|apply B in H]; discriminate.
Qed.
Lemma not_info x : ~ informational x -> is_help x = false /\ is_version x = false /\ is_citation x = false.
Proof.
  intros N. destruct (informational_eq x) as [A B]. unfold informational in N.
  destruct (is_help x) eqn:E1; [exfalso; apply N; left; apply A; auto|].
  destruct (is_version x) eqn:E2; [exfalso; apply N; right; apply B; auto|].
  destruct (is_citation x) eqn:E3; [exfalso; apply N; left; apply A; auto|]. auto.
Qed.
Lemma not_known P x : reg P -> (forall k, ~ has_kind P (resolve P x) k) \/ exists k, has_kind P (resolve P x) k /\ stands_for P x (resolve P x).
Proof.
  intros R. destruct (kind_dec P (resolve P x)) as [[k K]|N]; auto. right. exists k. split; auto.
  apply resolve_stands; auto. eapply (g_reg _ R); eauto.
Qed.
Lemma positive_bool w b : positive_str w = Ok b -> bool_word w.
Proof.
  unfold positive_str. destruct (existsb (str_eqb w) [$"ON"; $"TRUE"; $"1"]) eqn:E1.
  - apply existsb_str in E1. intros _. unfold bool_word. cbn [In] in *. intuition.
  - destruct (existsb (str_eqb w) [$"OFF"; $"FALSE"; $"0"]) eqn:E2; [|discriminate]. apply existsb_str in E2. intros _. unfold bool_word. cbn [In] in *. intuition.
Qed.
Lemma bool_positive w : bool_word w -> exists b, positive_str w = Ok b.
Proof. unfold bool_word. cbn [In]. intuition; subst; cbv; eauto. Qed.
Lemma bool_not_info w : bool_word w -> ~ informational w.
Proof.
  unfold bool_word. cbn [In]. intros H [K|K]; [apply (proj1 (informational_eq w)) in K|apply (proj2 (informational_eq w)) in K]; revert K; 
  intuition; subst; discriminate.
Qed.
(** the state after "switch value" knows no more flags than before *)
Lemma after_switch P f w a a' v : reg P -> m_find f (switch_arg P) = Some a -> ~ a_flag P w ->
  let P1 := with_ints (m_set f v (int_values P)) (with_strs (m_set f w (string_values P)) (with_switch (m_set f a' (switch_arg P)) P)) in
  forall k, ~ has_kind P1 (resolve P1 w) k.
Proof.
  intros R F N P1 k K. replace (resolve P1 w) with w in K by (symmetry; apply (not_flag P w (g_wf _ R) N)).
  apply N. assert (Q : exists k', has_kind P w k').
  { destruct K as (b & K). destruct k; cbn [args_of] in K.
    - exists KStr, b; auto. 
    - cbn in K. rewrite find_set in K. exists KSwitch. destruct (str_dec w f) as [->|]; [exists a|exists b]; auto.
    - exists KInt, b; auto.
    - exists KDouble, b; auto.
    - exists KFile, b; auto. }
  destruct Q as (k' & Q). destruct (g_reg _ R _ _ Q) as (c & C). exists w, c. auto.
Qed.

Lemma loop_ok fuel : forall pre rest al P P', reg P -> (al <= length (pre ++ rest))%nat ->
  parse_loop fuel (pre ++ rest) (length pre) al P = Ok P' ->
  exists l, rest = words l /\ valid P l /\ run P l P' /\ (al + notes l <= length (pre ++ rest))%nat.
Proof.
  induction fuel as [|n IH]; intros pre rest al P P' R La H; [discriminate|]. cbn [parse_loop] in H.
  rewrite nth_app_len in H. destruct rest as [|x r]; cbn [hd_error] in H.
  { inversion H; subst. exists []. split; [auto|]. split; [exact I|]. split; [constructor|]. unfold notes; cbn [filter length]; lia. }
  destruct (informational_eq x) as [I1 I2].
  assert (Note : is_help x || is_citation x = true ->
     (if (al =? length (pre ++ x :: r))%nat then Exit 0 else parse_loop n (pre ++ x :: r) (S (length pre)) (S al) P) = Ok P' ->
     exists l, x :: r = words l /\ valid P l /\ run P l P' /\ (al + notes l <= length (pre ++ x :: r))%nat).
  { intros Hn H2. destruct (Nat.eqb_spec al (length (pre ++ x :: r))); [discriminate|].
    replace (pre ++ x :: r) with ((pre ++ [x]) ++ r) in * by (rewrite <- app_assoc; reflexivity).
    replace (S (length pre)) with (length (pre ++ [x])) in H2 by (rewrite app_length; simpl; lia).
    destruct (IH (pre ++ [x]) r (S al) P P' R) as (l & -> & V & Rn & Ln); [lia|auto|].
    exists (INote x :: l). split; [reflexivity|]. split; [split; [apply I1; auto|auto]|]. split; [constructor; auto|].
    unfold notes in *; cbn [filter length]. lia. }
  destruct (is_help x) eqn:Eh; [apply Note; auto|]. destruct (is_version x) eqn:Ev; [discriminate|].
  destruct (is_citation x) eqn:Ec; [apply Note; auto|]. clear Note.
  assert (NI : ~ informational x).
  { intros [K|K]; [apply I1 in K|apply I2 in K]; discriminate. }
  bk H s. destruct (not_known P x R) as [N|(k & K & Sx)].
  { rewrite (parseArg_unknown _ _ _ x) in H0 by (auto; rewrite nth_app_len; auto). discriminate. }
  set (f := resolve P x) in *.
  assert (Kd : k = KSwitch \/ k <> KSwitch) by (destruct k; auto; right; discriminate).
  destruct Kd as [->|Nk].
  - pose proof K as (a & F). cbn [args_of] in F.
    rewrite (parseArg_sw _ _ _ x f a R F) in H0 by (auto; rewrite nth_app_len; auto). rewrite nth_app_len1 in H0.
    assert (Flip : s = (length pre, flip f P) -> (forall y q, r = y :: q -> a_flag P y) -> 
       exists l, x :: r = words l /\ valid P l /\ run P l P' /\ (al + notes l <= length (pre ++ x :: r))%nat).
    { intros -> Hy. cbn [fst snd] in H. destruct (flip_alike f P (g_wf _ R)) as [L W].
      replace (pre ++ x :: r) with ((pre ++ [x]) ++ r) in * by (rewrite <- app_assoc; reflexivity).
      replace (S (length pre)) with (length (pre ++ [x])) in H by (rewrite app_length; simpl; lia).
      destruct (IH (pre ++ [x]) r al (flip f P) P') as (l & -> & V & Rn & Ln); auto.
      { eapply alike_reg; eauto. }
      exists (ISw x f :: l). split; [reflexivity|]. split.
      { split; [auto|]. split; [auto|]. split; [auto|]. split; [auto|]. apply (alike_valid _ _ _ L); auto. }
      split; [constructor; auto|]. unfold notes in *; cbn [filter length]. lia. }
    destruct r as [|w q]; cbn [hd_error] in H0.
    + inversion H0; subst s. apply Flip; auto. discriminate.
    + destruct (is_a_flag P w) eqn:Fw.
      * inversion H0; subst s. apply Flip; auto. intros y q' Q. inversion Q; subst. apply is_a_flag_iff; auto. apply R.
      * exfalso. bk H0 a'. bk H0 b. inversion H0; subst s. clear H0. cbn [fst snd] in H.
        assert (Nw : ~ a_flag P w). { intros C. apply is_a_flag_iff in C; [congruence|apply R]. }
        pose proof (after_switch P f w a a' (if b then 1 else 0) R F Nw) as AS. cbv zeta in AS.
        destruct (not_info w (bool_not_info w (positive_bool _ _ H2))) as (B1 & B2 & B3).
        destruct n as [|n]; [discriminate|]. cbn [parse_loop] in H.
        replace (S (length pre)) with (length pre + 1)%nat in H by lia. rewrite nth_app_len1 in H. cbn [hd_error] in H.
        rewrite B1, B2, B3 in H. rewrite (parseArg_unknown _ _ _ w) in H; [discriminate|exact AS|rewrite nth_app_len1; auto].
  - rewrite (parseArg_val _ _ _ x f k R K Nk) in H0 by (auto; rewrite nth_app_len; auto). rewrite nth_app_len1 in H0.
    destruct r as [|w q]; cbn [hd_error] in H0; [discriminate|]. bk H0 P1. inversion H0; subst s. clear H0. cbn [fst snd] in H.
    destruct (take_alike _ _ _ _ _ H1 (g_wf _ R)) as [L W].
    replace (pre ++ x :: w :: q) with ((pre ++ [x; w]) ++ q) in * by (rewrite <- app_assoc; reflexivity).
    replace (S (S (length pre))) with (length (pre ++ [x; w])) in H by (rewrite app_length; simpl; lia).
    destruct (IH (pre ++ [x; w]) q al P1 P') as (l & -> & V & Rn & Ln); auto.
    { eapply alike_reg; eauto. }
    exists (IVal x f w :: l). split; [reflexivity|]. split.
    { split; [auto|]. split; [auto|]. split; [apply (take_admissible k f w P R K); eauto|]. apply (alike_valid _ _ _ L); auto. }
    split; [econstructor; eauto|]. unfold notes in *; cbn [filter length]. lia.
Qed.

(** ** all_notes and counting *)
Lemma notes_le l : (notes l <= length (words l))%nat.
Proof.
  induction l as [|[x f w|x f|x] t IH]; unfold notes in *; rewrite ?words_cons; cbn [filter length item_words app] in *; auto; lia.
Qed.
Lemma notes_all P l : valid P l -> notes l = length (words l) -> all_notes (words l).
Proof.
  induction l as [|[x f w|x f|x] t IH]; unfold all_notes, notes in *; rewrite ?words_cons; cbn [filter length item_words app valid] in *; intros V H.
  - constructor.
  - exfalso. pose proof (notes_le t). unfold notes in *. lia.
  - exfalso. pose proof (notes_le t). unfold notes in *. lia.
  - destruct V as (N & V). constructor; auto.
Qed.
(** ** the prefix of a command line *)
Lemma stage_mono f args : forall s s' : @pstate E, (parse_str f args s = Ok s' \/ parse_switch f args s = Ok s' \/ parse_int f args s = Ok s' \/
    parse_double f args s = Ok s' \/ parse_file f args s = Ok s') -> (fst (fst s) <= fst (fst s'))%nat.
Proof.
  intros [[j Q'] u] s' H. unfold parse_str, parse_switch, parse_int, parse_double, parse_file in H.
  destruct H as [H|[H|[H|[H|H]]]].
  - destruct (m_find f (str_arg Q')); [|inversion H; auto]. destruct (_ || _); [|inversion H; auto]. bk H x. bk H y. inversion H; cbn [fst]; lia.
  - destruct (m_find f (switch_arg Q')); [|inversion H; auto]. destruct (negb _); [|inversion H; auto]. destruct (nth_error _ _).
    + bk H x. bk H y. inversion H; auto.
    + destruct (requiresParameter _ _); inversion H; auto.
  - destruct (m_find f (int_arg Q')); [|inversion H; auto]. destruct (_ || _); [|inversion H; auto]. bk H x. bk H y. bk H z. inversion H; cbn [fst]; lia.
  - destruct (m_find f (double_arg Q')); [|inversion H; auto]. destruct (_ || _); [|inversion H; auto]. bk H x. bk H y. bk H z. inversion H; cbn [fst]; lia.
  - destruct (m_find f (file_arg Q')); [|inversion H; auto]. destruct (_ || _); [|inversion H; auto]. bk H x. bk H y. inversion H; cbn [fst]; lia.
Qed.
Lemma parseArg_mono i args P r : parseArg_ i args P = Ok r -> (i <= fst r)%nat.
Proof.
  unfold parseArg_. destruct (nth_error args i) as [w|]; [|discriminate]. set (f := resolve P w). intros H.
  bk H s1. bk H s2. bk H s3. bk H s4. bk H s5.
  pose proof (stage_mono f args _ _ (or_introl H0)). pose proof (stage_mono f args _ _ (or_intror (or_introl H1))).
  pose proof (stage_mono f args _ _ (or_intror (or_intror (or_introl H2)))).
  pose proof (stage_mono f args _ _ (or_intror (or_intror (or_intror (or_introl H3))))).
  pose proof (stage_mono f args _ _ (or_intror (or_intror (or_intror (or_intror H4))))).
  destruct s5 as [[j Q] u]. destruct u; [discriminate|]. inversion H; cbn [fst] in *. lia.
Qed.
Lemma parseArg_tail i (A B r : list str) P : length A = length B -> (length A <= i)%nat -> parseArg_ i (A ++ r) P = parseArg_ i (B ++ r) P.
Proof.
  intros L Hi.
  assert (Nth : forall j, (length A <= j)%nat -> nth_error (A ++ r) j = nth_error (B ++ r) j).
  { intros j Hj. rewrite !nth_error_app2 by lia. now rewrite L. }
  unfold parseArg_. rewrite Nth by auto. destruct (nth_error (B ++ r) i) as [w|]; auto. set (f := resolve P w).
  assert (Q : forall s : @pstate E, (length A <= fst (fst s))%nat ->
     parse_str f (A ++ r) s = parse_str f (B ++ r) s /\ parse_switch f (A ++ r) s = parse_switch f (B ++ r) s /\
     parse_int f (A ++ r) s = parse_int f (B ++ r) s /\ parse_double f (A ++ r) s = parse_double f (B ++ r) s /\
     parse_file f (A ++ r) s = parse_file f (B ++ r) s).
  { intros [[j Q] u]. cbn [fst]. intros Hj. unfold parse_str, parse_switch, parse_int, parse_double, parse_file, nextParameterIsAFlag_, next_word.
    rewrite !Nth by lia. auto. }
  destruct (Q (i, P, true) Hi) as (-> & _). destruct (parse_str f (B ++ r) _) as [s1| | | |] eqn:E1; auto. cbn [bind].
  assert (H1 : (length A <= fst (fst s1))%nat) by (pose proof (stage_mono f _ _ _ (or_introl E1)); cbn [fst] in *; lia).
  destruct (Q s1 H1) as (_ & -> & _). destruct (parse_switch f (B ++ r) _) as [s2| | | |] eqn:E2; auto. cbn [bind].
  assert (H2 : (length A <= fst (fst s2))%nat) by (pose proof (stage_mono f _ _ _ (or_intror (or_introl E2))); lia).
  destruct (Q s2 H2) as (_ & _ & -> & _). destruct (parse_int f (B ++ r) _) as [s3| | | |] eqn:E3; auto. cbn [bind].
  assert (H3 : (length A <= fst (fst s3))%nat) by (pose proof (stage_mono f _ _ _ (or_intror (or_intror (or_introl E3)))); lia).
  destruct (Q s3 H3) as (_ & _ & _ & -> & _). destruct (parse_double f (B ++ r) _) as [s4| | | |] eqn:E4; auto. cbn [bind].
  assert (H4 : (length A <= fst (fst s4))%nat) by (pose proof (stage_mono f _ _ _ (or_intror (or_intror (or_intror (or_introl E4))))); lia).
  destruct (Q s4 H4) as (_ & _ & _ & _ & ->). auto.
Qed.
Lemma loop_tail fuel : forall (A B r : list str) i al P, length A = length B -> (length A <= i)%nat ->
  parse_loop fuel (A ++ r) i al P = parse_loop fuel (B ++ r) i al P.
Proof.
  induction fuel as [|n IH]; intros A B r i al P L Hi; auto. cbn [parse_loop].
  rewrite (parseArg_tail i A B) by auto.
  assert (Nth : nth_error (A ++ r) i = nth_error (B ++ r) i) by (rewrite !nth_error_app2 by lia; now rewrite L).
  assert (Len : length (A ++ r) = length (B ++ r)) by (rewrite !app_length; lia).
  rewrite Nth. destruct (nth_error (B ++ r) i) as [w|] eqn:W; auto. rewrite Len. rewrite (IH A B) by lia.
  assert (G : (r0 <- parseArg_ i (B ++ r) P;; parse_loop n (A ++ r) (S (fst r0)) al (snd r0)) =
              (r0 <- parseArg_ i (B ++ r) P;; parse_loop n (B ++ r) (S (fst r0)) al (snd r0))).
  { destruct (parseArg_ i (B ++ r) P) as [s| | | |] eqn:Pe; auto. cbn [bind]. apply IH; auto. apply parseArg_mono in Pe. lia. }
  rewrite G. auto.
Qed.
End Line.
