(** * C57: the command lines that end the process *)
From Verif Require Import StrFacts ArgsFacts ParserWf ParserStateWf ParserRun ParserLine ParserMore ParserEffect ParserReject ParserProps ParserRejectProps ParserFacts ParserCheck ParserThrow.
From Verif Require Export ParserRejectSpec.
From Verif Require Export StrSpec StrModel.
Open Scope Z_scope.

Ltac bk H x := apply bind_ok in H as (x & ?H & H).
Section Exit.
Context {E : env} (Hq : forall s c, e_stod E s <> Exit c).
Implicit Types (P : parser E).
Lemma bind_exit {A B} (o : outcome A) (k : A -> outcome B) c : (forall c', o <> Exit c') -> bind o k = Exit c -> exists a, o = Ok a /\ k a = Exit c.
Proof. intros N. destruct o as [a|e|c'|u|]; cbn [bind]; intros H; try discriminate; [eauto|exfalso; exact (N _ eq_refl)]. Qed.
Definition ends P al (pre rest : list str) : Prop :=
  exists l x r, rest = words l ++ x :: r /\ valid P l /\ ends_before P l (x :: r) /\ (version x \/ note x /\ al + Z.of_nat (notes l) = Z.of_nat (length (pre ++ rest))).
Lemma take_no_exit k f w P c : take k f w P <> Exit c.
Proof.
  unfold take. destruct (m_find f (args_of P k)) as [a|]; [|discriminate]. destruct k; try discriminate; intros H.
  - apply bind_exit in H as (? & _ & H); [discriminate|]. intros ?. apply quiet_valid_str.
  - apply bind_exit in H as (? & _ & H); [|intros ?; apply quiet_stoi]. apply bind_exit in H as (? & _ & H); [discriminate|]. intros ?. apply quiet_valid_int.
  - apply bind_exit in H as (? & _ & H); [|intros ?; apply Hq]. apply bind_exit in H as (? & _ & H); [discriminate|]. intros ?. apply quiet_valid_dbl.
  - apply bind_exit in H as (? & _ & H); [discriminate|]. intros ?. apply quiet_valid_str.
Qed.
Lemma positive_quiet w c : positive_str w <> Exit c.
Proof. unfold positive_str. destruct (existsb _ _); [discriminate|]. destruct (existsb _ _); discriminate. Qed.
Lemma loop_exits fuel : forall pre rest al P c, reg P -> 
  parse_loop fuel (pre ++ rest) (length pre) al P = Exit c -> c = 0 /\ ends P (Z.of_nat al) pre rest.
Proof.
  induction fuel as [|n IH]; intros pre rest al P c R H; [discriminate|]. cbn [parse_loop] in H.
  rewrite nth_app_len in H. destruct rest as [|x r]; cbn [hd_error] in H; [discriminate|].
  destruct (informational_eq x) as [I1 I2].
  assert (Note : is_help x || is_citation x = true ->
     (if (al =? length (pre ++ x :: r))%nat then Exit 0 else parse_loop n (pre ++ x :: r) (S (length pre)) (S al) P) = Exit c ->
     c = 0 /\ ends P (Z.of_nat al) pre (x :: r)).
  { intros Hn H2. apply I1 in Hn. destruct (Nat.eqb_spec al (length (pre ++ x :: r))) as [Eal|_].
    - split; [congruence|]. exists [], x, r. split; [reflexivity|]. split; [exact I|]. split; [intros y q z g t _ Q; destruct t; discriminate|]. right. split; [auto|]. unfold notes. cbn [filter length]. lia.
    - replace (pre ++ x :: r) with ((pre ++ [x]) ++ r) in * by (rewrite <- app_assoc; reflexivity).
      replace (S (length pre)) with (length (pre ++ [x])) in H2 by (rewrite app_length; simpl; lia).
      destruct (IH (pre ++ [x]) r (S al) P c R H2) as (-> & l & y & q & -> & V & Eb & D). split; [reflexivity|].
      exists (INote x :: l), y, q. split; [reflexivity|]. split; [split; auto|]. split.
      { intros y' q' z g t Q1 Q2. destruct t as [|i t]; [discriminate|]. injection Q2 as _ Q2. eapply Eb; eauto. }
      destruct D as [D|[D1 D2]]; [auto|right; split; [auto|]]. rewrite <- app_assoc in D2. cbn [app] in *. unfold notes in *. cbn [filter length]. lia. }
  destruct (is_help x) eqn:Eh; [apply Note; auto|]. destruct (is_version x) eqn:Ev.
  { split; [congruence|]. exists [], x, r. split; [reflexivity|]. split; [exact I|]. split; [intros y q z g t _ Q; destruct t; discriminate|]. left. apply I2. auto. }
  destruct (is_citation x) eqn:Ec; [apply Note; auto|]. clear Note.
  assert (NI : ~ informational x).
  { intros [K|K]; [apply I1 in K|apply I2 in K]; discriminate. }
  destruct (not_known P x R) as [N|(k & K & Sx)].
  { rewrite (parseArg_unknown _ _ _ x) in H by (auto; rewrite nth_app_len; auto). discriminate. }
  set (f := resolve P x) in *.
  assert (Kd : k = KSwitch \/ k <> KSwitch) by (destruct k; auto; right; discriminate).
  destruct Kd as [->|Nk].
  - pose proof K as (a & F). cbn [args_of] in F.
    rewrite (parseArg_sw _ _ _ x f a R F) in H by (auto; rewrite nth_app_len; auto). rewrite nth_app_len1 in H.
    assert (Flip : parse_loop n (pre ++ x :: r) (S (length pre)) al (flip f P) = Exit c -> (forall y q, r = y :: q -> a_flag P y) -> 
       c = 0 /\ ends P (Z.of_nat al) pre (x :: r)).
    { clear H. intros H Hy. destruct (flip_alike f P (g_wf _ R)) as [L W].
      replace (pre ++ x :: r) with ((pre ++ [x]) ++ r) in * by (rewrite <- app_assoc; reflexivity).
      replace (S (length pre)) with (length (pre ++ [x])) in H by (rewrite app_length; simpl; lia).
      destruct (IH (pre ++ [x]) r al (flip f P) c) as (-> & l & y & q & -> & V & Eb & D); auto.
      { eapply alike_reg; eauto. }
      split; [reflexivity|]. exists (ISw x f :: l), y, q. split; [reflexivity|]. split.
      { split; [auto|]. split; [auto|]. split; [auto|]. split; [|apply (alike_valid _ _ _ L); auto]. intros y' q' Q. apply (Hy y' (q' ++ y :: q)). rewrite Q. reflexivity. }
      split.
      { intros y' q' z g t Q1 Q2. injection Q1 as <- <-. destruct t as [|i t].
        - injection Q2 as <- <- ->. apply (Hy y q). reflexivity.
        - injection Q2 as _ Q2. apply (alike_a_flag _ _ _ L). eapply Eb; eauto. }
      destruct D as [D|[D1 D2]]; [auto|right; split; [auto|]]. rewrite <- app_assoc in D2. cbn [app] in *. unfold notes in *. cbn [filter length]. lia. }
    destruct r as [|w q]; cbn [hd_error] in H.
    + cbn [bind fst snd] in H. apply Flip; auto. discriminate.
    + destruct (is_a_flag P w) eqn:Fw.
      * cbn [bind fst snd] in H. apply Flip; auto. intros y q' Q. inversion Q; subst. apply is_a_flag_iff; auto. apply R.
      * exfalso. apply bind_exit in H as (s & H0 & H).
        2:{ intros c' C. apply bind_exit in C as (a' & _ & C); [|intros ?; apply quiet_valid_str]. apply bind_exit in C as (b & _ & C); [discriminate|]. intros ?. apply positive_quiet. }
        bk H0 a'. bk H0 b. inversion H0; subst s. clear H0. cbn [fst snd] in H.
        assert (Nw : ~ a_flag P w). { intros C. apply is_a_flag_iff in C; [congruence|apply R]. }
        pose proof (after_switch P f w a a' (if b then 1 else 0) R F Nw) as AS. cbv zeta in AS.
        destruct (not_info w (bool_not_info w (positive_bool _ _ H2))) as (B1 & B2 & B3).
        destruct n as [|n]; [discriminate|]. cbn [parse_loop] in H.
        replace (S (length pre)) with (length pre + 1)%nat in H by lia. rewrite nth_app_len1 in H. cbn [hd_error] in H.
        rewrite B1, B2, B3 in H. rewrite (parseArg_unknown _ _ _ w) in H; [discriminate|exact AS|rewrite nth_app_len1; auto].
  - rewrite (parseArg_val _ _ _ x f k R K Nk) in H by (auto; rewrite nth_app_len; auto). rewrite nth_app_len1 in H.
    destruct r as [|w q]; cbn [hd_error] in H; [discriminate|].
    destruct (take k f w P) as [P1|e|c'|u|] eqn:T; cbn [bind fst snd] in H; try discriminate; [|exfalso; exact (take_no_exit _ _ _ _ _ T)].
    destruct (take_alike _ _ _ _ _ T (g_wf _ R)) as [L W].
    replace (pre ++ x :: w :: q) with ((pre ++ [x; w]) ++ q) in * by (rewrite <- app_assoc; reflexivity).
    replace (S (S (length pre))) with (length (pre ++ [x; w])) in H by (rewrite app_length; simpl; lia).
    destruct (IH (pre ++ [x; w]) q al P1 c) as (-> & l & y & q' & -> & V & Eb & D); auto.
    { eapply alike_reg; eauto. }
    split; [reflexivity|]. exists (IVal x f w :: l), y, q'. split; [reflexivity|]. split.
    { split; [auto|]. split; [auto|]. split; [apply (take_admissible k f w P R K); eauto|]. apply (alike_valid _ _ _ L); auto. }
    split.
    { intros y' q2 z g t Q1 Q2. destruct t as [|i t]; [discriminate|]. injection Q2 as _ Q2. apply (alike_a_flag _ _ _ L). eapply Eb; eauto. }
    destruct D as [D|[D1 D2]]; [auto|right; split; [auto|]]. rewrite <- app_assoc in D2. cbn [app] in *. unfold notes in *. cbn [filter length]. lia.
Qed.
End Exit.

Lemma exits_ok {A} (o : outcome A) c : match o with Exit d => d =? c | _ => false end = true -> o = Exit c.
Proof. destruct o; try discriminate. intros H. apply Z.eqb_eq in H. now subst. Qed.
Lemma okb_ok {A} (o : outcome A) : match o with Ok _ => true | _ => false end = true -> exists a, o = Ok a.
Proof. destruct o; try discriminate. eauto. Qed.
(** a command line ends the process exactly when it has only help and citation words, or
    when everything before a version word is acceptable; the status is then 0 *)
Theorem C57_exactly : forall E (P : parser E) prog ws c, (forall s c, e_stod E s <> Exit c) -> regular P ->
  (parse (prog :: ws) P = Exit c <->
   c = 0 /\ ((ws <> [] /\ all_notes ws) \/
             exists l x rest, ws = words l ++ x :: rest /\ valid P l /\ version x /\ ends_before P l (x :: rest))).
Proof.
  intros E P prog ws c Hq R0. pose proof (regular_reg _ R0) as R. split.
  - intros H. destruct ws as [|w ws]; [discriminate|]. set (as' := w :: ws) in *.
    assert (H' : parse_loop (length (prog :: as')) ([prog] ++ as') (length [prog]) 2 P = Exit c).
    { change (parse (prog :: as') P) with (P2 <- parse_loop (length (prog :: as')) ([prog] ++ as') (length [prog]) 2 P ;; postParseCheck P2 ;;; Ok P2) in H.
      destruct (parse_loop _ _ _ _ _) as [P2|e|c'|u|] eqn:El; cbn [bind] in H; try discriminate; [|auto].
      assert (W2 : wf P2) by (eapply parse_loop_wf; [apply R|exact El]).
      exfalso. apply bind_exit in H as (u & _ & H); [discriminate|]. intros c' C.
      destruct (post_iff P2 W2) as [[Q _]|[Q _]]; rewrite Q in C; discriminate. }
    apply loop_exits in H' as (-> & l & x & r & Ea & V & Eb & D); auto. split; [reflexivity|]. rewrite Ea in *. destruct D as [D|[D1 D2]].
    + right. exists l, x, r. auto.
    + left. split; [destruct (words l); discriminate|]. pose proof (notes_le l). rewrite app_length, app_length in D2. cbn [length] in D2.
      assert (r = []) by (destruct r; [reflexivity|cbn [length] in D2; lia]). subst r. assert (Nl : notes l = length (words l)) by (cbn [length] in D2; lia).
      apply (notes_all P l V) in Nl. apply Forall_app. split; [exact Nl|]. constructor; auto.
  - intros [-> [[N F]|(l & x & rest & -> & V & N & Eb)]]; [apply C57_only_notes_partial; auto|]. apply C57_version_partial; auto. intros y f t Q. eapply Eb; eauto.
Qed.
Print Assumptions C57_exactly.
(** both ways to stop, and a help word after a flag that does not stop anything *)
Example C57_exactly_example : regular (catnip world) /\ (forall s c, e_stod world s <> Exit c) /\
  parse [$"calc_J"; $"-h"; $"--citation"] (catnip world) = Exit 0 /\ parse [$"calc_J"; $"-s_1"; $"Beta"; $"--version"; $"any"] (catnip world) = Exit 0 /\
  (exists P', parse [$"calc_J"; $"-s_1"; $"Beta"; $"-h"] (catnip world) = Ok P').
Proof.
  split; [apply catnip_regular|]. split; [intros s c; apply quiet_stoi|].
  split; [apply exits_ok; vm_compute; reflexivity|]. split; [apply exits_ok; vm_compute; reflexivity|].
  apply okb_ok. vm_compute. reflexivity.
Qed.
