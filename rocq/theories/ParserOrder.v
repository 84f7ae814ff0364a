(** * Items of different flags commute *)
From Coq Require Import Permutation.
From Verif Require Import ArgsFacts.
From Verif Require Export ParserEffect ParserOrderSpec.
Open Scope Z_scope.

Lemma set_comm {V} k1 k2 (v1 v2 : V) : k1 <> k2 -> forall m, m_set k1 v1 (m_set k2 v2 m) = m_set k2 v2 (m_set k1 v1 m).
Proof.
  intros Hk. assert (N1 : str_eqb k1 k2 = false) by (apply str_eqb_neq; auto). assert (N2 : str_eqb k2 k1 = false) by (apply str_eqb_neq; auto).
  assert (T : (str_ltb k1 k2 = true /\ str_ltb k2 k1 = false) \/ (str_ltb k1 k2 = false /\ str_ltb k2 k1 = true)).
  { destruct (ltb_total k1 k2) as [H|[H|H]]; [left|contradiction|right]; (split; [try exact H|try exact H]).
    - destruct (str_ltb k2 k1) eqn:G; auto. pose proof (ltb_trans _ _ _ H G) as C. rewrite ltb_irrefl in C. discriminate.
    - destruct (str_ltb k1 k2) eqn:G; auto. pose proof (ltb_trans _ _ _ H G) as C. rewrite ltb_irrefl in C. discriminate. }
  assert (As : forall a b, str_ltb a b = true -> str_eqb a b = false). { intros a b H. destruct (str_eqb a b) eqn:G; auto. apply str_eqb_eq in G. subst. rewrite ltb_irrefl in H. discriminate. }
  assert (Aw : forall a b, str_ltb a b = true -> str_ltb b a = false). { intros a b H. destruct (str_ltb b a) eqn:G; auto. pose proof (ltb_trans _ _ _ H G) as C. rewrite ltb_irrefl in C. discriminate. }
  induction m as [|[k v] m IH]; cbn [m_set].
  - rewrite N1, N2. destruct T as [[-> ->]|[-> ->]]; reflexivity.
  - destruct (str_eqb k2 k) eqn:E2; [apply str_eqb_eq in E2; subst k|].
    { rewrite N1. cbn [m_set]. rewrite N1. destruct (str_ltb k1 k2) eqn:L1; cbn [m_set]; [rewrite N2, (Aw _ _ L1)|]; rewrite (proj2 (str_eqb_eq k2 k2) eq_refl); reflexivity. }
    destruct (str_eqb k1 k) eqn:E1; [apply str_eqb_eq in E1; subst k|].
    { cbn [m_set]. rewrite N2. destruct (str_ltb k2 k1) eqn:L2; cbn [m_set]; [rewrite N1, (Aw _ _ L2)|]; rewrite (proj2 (str_eqb_eq k1 k1) eq_refl); reflexivity. }
    destruct (str_ltb k2 k) eqn:L2; destruct (str_ltb k1 k) eqn:L1; cbn [m_set]; rewrite ?N1, ?N2, ?E1, ?E2, ?L1, ?L2.
    + destruct T as [[-> ->]|[-> ->]]; reflexivity.
    + assert (G : str_ltb k1 k2 = false). { destruct (str_ltb k1 k2) eqn:G; auto. rewrite (ltb_trans _ _ _ G L2) in L1. discriminate. } rewrite G. reflexivity.
    + assert (G : str_ltb k2 k1 = false). { destruct (str_ltb k2 k1) eqn:G; auto. rewrite (ltb_trans _ _ _ G L1) in L2. discriminate. } rewrite G. reflexivity.
    + f_equal. apply IH.
Qed.

Section Order.
Context {E : env}.
Implicit Types (P : parser E).
Ltac bk H x := apply bind_ok in H as (x & ?H & H).

(** one item *)
Inductive step P : str -> option str -> parser E -> Prop :=
| st_val f w k P1 : has_kind P f k -> take k f w P = Ok P1 -> step P f (Some w) P1
| st_sw f : step P f None (flip f P).
Lemma step_alike P f o P1 : step P f o P1 -> reg P -> alike P P1 /\ reg P1.
Proof.
  intros [f' w k P' K T|f'] R.
  - destruct (take_alike _ _ _ _ _ T (g_wf _ R)) as [L W]. split; [exact L|eapply alike_reg; eauto].
  - destruct (flip_alike f' P (g_wf _ R)) as [L W]. split; [exact L|eapply alike_reg; eauto].
Qed.
Lemma step_fun P f o P1 P2 : reg P -> step P f o P1 -> step P f o P2 -> P1 = P2.
Proof.
  intros R H1 H2. destruct H1 as [f w k P1 K T|f].
  - inversion H2 as [? ? k' ? K' T'|]; subst. pose proof (g_kind _ R _ _ _ K K') as <-. congruence.
  - inversion H2. reflexivity.
Qed.
Lemma take_comm k1 k2 f g w v P P1 P2 : f <> g -> take k1 f w P = Ok P1 -> take k2 g v P1 = Ok P2 -> exists P1', take k2 g v P = Ok P1' /\ take k1 f w P1' = Ok P2.
Proof.
  intros N T1 T2. unfold take in T1. destruct (m_find f (args_of P k1)) as [a|] eqn:F; [|discriminate].
  assert (Hg : m_find g (args_of P1 k2) = m_find g (args_of P k2) /\ forall P', (forall k, m_find f (args_of P' k) = m_find f (args_of P k)) -> take k1 f w P' = match k1 with
     | KStr => a' <- argValid_str E w a ;; Ok (with_strs (m_set f w (string_values P')) (with_str (m_set f a' (str_arg P')) P'))
     | KFile => a' <- argValid_str E w a ;; Ok (with_strs (m_set f w (string_values P')) (with_file (m_set f a' (file_arg P')) P'))
     | KInt => v <- stoi w ;; a' <- argValid_int E v a ;; Ok (with_ints (m_set f v (int_values P')) (with_int (m_set f a' (int_arg P')) P'))
     | KDouble => v <- e_stod E w ;; a' <- argValid_dbl E v a ;; Ok (with_dbls (m_set f v (double_values P')) (with_double (m_set f a' (double_arg P')) P'))
     | KSwitch => Throw InvalidArgument end).
  { split; [|intros P' HP'; unfold take; rewrite HP', F; reflexivity].
    destruct k1; [bk T1 a'|discriminate|bk T1 x; bk T1 a'|bk T1 x; bk T1 a'|bk T1 a']; inversion T1; subst P1; destruct k2; cbn; auto; apply find_set_ne; auto. }
  destruct Hg as [Hg Hf]. unfold take in T2. rewrite Hg in T2. unfold take at 1. destruct (m_find g (args_of P k2)) as [b|] eqn:G; [|discriminate].
  destruct k1; [bk T1 a'|discriminate|bk T1 x; bk T1 a'|bk T1 x; bk T1 a'|bk T1 a']; injection T1 as <-;
    (destruct k2; [bk T2 b'|discriminate|bk T2 y; bk T2 b'|bk T2 y; bk T2 b'|bk T2 b']); injection T2 as <-;
    repeat match goal with H : ?o = Ok _ |- context [bind ?o _] => rewrite H; cbn [bind] end;
    (eexists; split; [reflexivity|]; rewrite Hf; [|intros []; cbn; auto; apply find_set_ne; auto]);
    repeat match goal with H : ?o = Ok _ |- context [bind ?o _] => rewrite H; cbn [bind] end;
    f_equal; unfold with_strs, with_str, with_file, with_ints, with_int, with_dbls, with_double; cbn; f_equal; try reflexivity; apply set_comm; auto.
Qed.
Lemma step_comm P f o g q P1 P2 : f <> g -> step P f o P1 -> step P1 g q P2 -> reg P -> exists P1', step P g q P1' /\ step P1' f o P2.
Proof.
  intros N H1 H2 R. destruct (step_alike _ _ _ _ H1 R) as [L1 R1].
  inversion H1 as [f' w k P' K T|f']; subst; inversion H2 as [g' v k' P'' K' T'|g']; subst.
  - destruct (take_comm _ _ _ _ _ _ _ _ _ N T T') as (Q & T1 & T2). exists Q. apply (l_kind _ _ L1) in K'. assert (S1 : step P g (Some v) Q) by (econstructor; eauto). split; [exact S1|].
    destruct (step_alike _ _ _ _ S1 R) as [LQ _]. econstructor; [|exact T2]. apply (l_kind _ _ LQ). exact K.
  - exists (flip g P). split; [constructor|]. destruct (flip_alike g P (g_wf _ R)) as [LQ _]. econstructor; [apply (l_kind _ _ LQ); exact K|].
    clear - T N. unfold take in *. assert (Q : args_of (flip g P) k = args_of P k) by (destruct k; reflexivity). rewrite Q. destruct (m_find f (args_of P k)) as [a|]; [|discriminate].
    destruct k; [bk T a'|discriminate|bk T x; bk T a'|bk T x; bk T a'|bk T a']; injection T as <-;
      repeat match goal with H : ?o = Ok _ |- context [bind ?o _] => rewrite H; cbn [bind] end; f_equal; unfold flip, with_strs, with_str, with_file, with_ints, with_int, with_dbls, with_double; cbn; f_equal; try reflexivity; apply set_comm; auto.
  - assert (T2 : take k' g v P = Ok P2 \/ True) by auto. apply (l_kind _ _ L1) in K'. clear T2.
    assert (X : exists Q, take k' g v P = Ok Q /\ flip f Q = P2).
    { clear - T' N. unfold take in *. assert (Q : args_of (flip f P) k' = args_of P k') by (destruct k'; reflexivity). rewrite Q in T'. destruct (m_find g (args_of P k')) as [a|]; [|discriminate].
      destruct k'; [bk T' a'|discriminate|bk T' x; bk T' a'|bk T' x; bk T' a'|bk T' a']; injection T' as <-;
      repeat match goal with H : ?o = Ok _ |- context [bind ?o _] => rewrite H; cbn [bind] end; eexists; (split; [reflexivity|]); unfold flip, with_strs, with_str, with_file, with_ints, with_int, with_dbls, with_double; cbn; f_equal; try reflexivity; apply set_comm; auto. }
    destruct X as (Q & TQ & <-). exists Q. split; [econstructor; eauto|constructor].
  - exists (flip g P). split; [constructor|]. replace (flip g (flip f P)) with (flip f (flip g P)); [constructor|]. unfold flip, with_ints. cbn. f_equal. apply set_comm; auto.
Qed.

(** the effects of a line *)
Definition effect (i : item) : list (str * option str) := match i with IVal _ f w => [(f, Some w)] | ISw _ f => [(f, None)] | INote _ => [] end.
Definition effects (l : list item) := concat (map effect l).
Inductive steps : parser E -> list (str * option str) -> parser E -> Prop :=
| ss_nil P : steps P [] P
| ss_cons P f o t P1 P2 : step P f o P1 -> steps P1 t P2 -> steps P ((f, o) :: t) P2.
Lemma run_steps P l P' : run P l P' -> steps P (effects l) P'.
Proof.
  induction 1 as [|P x f w k t P1 P2 K T Rn IH|P x f t P2 Rn IH|P x t P2 Rn IH]; unfold effects; cbn [map concat effect app]; [constructor| | |exact IH].
  - econstructor; [econstructor; eauto|exact IH].
  - econstructor; [constructor|exact IH].
Qed.
Lemma steps_fun P e P1 P2 : reg P -> steps P e P1 -> steps P e P2 -> P1 = P2.
Proof.
  intros R H1. revert P2. induction H1 as [|P f o t P1 P1' S1 H IH]; intros P2 H2; inversion H2; subst; [reflexivity|].
  match goal with H : step P f o ?Q |- _ => pose proof (step_fun _ _ _ _ _ R S1 H) as <- end. apply IH; auto. eapply step_alike; eauto.
Qed.
Lemma steps_front a f o b : Forall (fun e => fst e <> f) a -> forall P P', reg P -> steps P (a ++ (f, o) :: b) P' -> steps P ((f, o) :: a ++ b) P'.
Proof.
  induction a as [|[g q] a IH]; intros F P P' R H; [exact H|]. inversion F as [|? ? Hg F']; subst. cbn [fst] in Hg. cbn [app] in *. inversion H as [|? ? ? ? P1 ? S1 H1]; subst.
  apply IH in H1; [|auto|eapply step_alike; eauto]. inversion H1 as [|? ? ? ? P2 ? S2 H2]; subst. destruct (step_comm _ _ _ _ _ _ _ Hg S1 S2 R) as (Q & SQ & SQ2).
  econstructor; [exact SQ|]. econstructor; [exact SQ2|exact H2].
Qed.
Definition of_flag (f : str) (e : list (str * option str)) : list (option str) := map snd (filter (fun x => str_eqb (fst x) f) e).
Lemma said_effects f l : said f l = of_flag f (effects l).
Proof.
  unfold said, effects, of_flag. induction l as [|i l IH]; [reflexivity|]. cbn [map concat]. rewrite filter_app, map_app, <- IH. f_equal. destruct i; cbn [item_says effect filter map fst snd]; try reflexivity; destruct (str_eqb _ _); reflexivity.
Qed.
Lemma split_first f e o r : of_flag f e = o :: r -> exists a b, e = a ++ (f, o) :: b /\ Forall (fun x => fst x <> f) a.
Proof.
  induction e as [|[g q] e IH]; intros H; [discriminate|]. unfold of_flag in H. cbn [filter fst] in H. destruct (str_eqb g f) eqn:G.
  - apply str_eqb_eq in G. subst g. cbn [map snd] in H. injection H as -> _. exists [], e. split; [reflexivity|constructor].
  - destruct (IH H) as (a & b & -> & F). exists ((g, q) :: a), b. split; [reflexivity|]. constructor; auto. cbn [fst]. apply str_eqb_neq. exact G.
Qed.
Lemma of_flag_app f a b : of_flag f (a ++ b) = of_flag f a ++ of_flag f b. Proof. unfold of_flag. rewrite filter_app, map_app. reflexivity. Qed.
Lemma of_flag_none f a : Forall (fun x => fst x <> f) a -> of_flag f a = [].
Proof. induction 1 as [|x a H F IH]; [reflexivity|]. unfold of_flag in *. cbn [filter]. apply str_eqb_neq in H. rewrite H. exact IH. Qed.
Lemma steps_same e : forall e', (forall f, of_flag f e = of_flag f e') -> forall P P1 P2, reg P -> steps P e P1 -> steps P e' P2 -> P1 = P2.
Proof.
  induction e as [|[f o] e IH]; intros e' H P P1 P2 R S1 S2.
  - assert (e' = []). { destruct e' as [|[g q] e']; [reflexivity|]. specialize (H g). unfold of_flag in H. cbn [filter fst map] in H. rewrite (proj2 (str_eqb_eq g g) eq_refl) in H. discriminate H. }
    subst. inversion S1; inversion S2; subst. reflexivity.
  - pose proof (H f) as Hf. unfold of_flag at 1 in Hf. cbn [filter fst map] in Hf. rewrite (proj2 (str_eqb_eq f f) eq_refl) in Hf. cbn [map snd] in Hf. symmetry in Hf.
    destruct (split_first _ _ _ _ Hf) as (a & b & -> & Fa). apply steps_front in S2; auto. inversion S1 as [|? ? ? ? Q1 ? T1 S1']; subst. inversion S2 as [|? ? ? ? Q2 ? T2 S2']; subst.
    pose proof (step_fun _ _ _ _ _ R T1 T2) as <-. apply (IH (a ++ b)) with (P := Q1); auto; [|eapply step_alike; eauto].
    intros g. specialize (H g). change ((f, o) :: e) with ([(f, o)] ++ e) in H. change (a ++ (f, o) :: b) with (a ++ [(f, o)] ++ b) in H. rewrite !of_flag_app in *. unfold of_flag in H at 1 4. cbn [filter fst] in H.
    destruct (str_eqb f g) eqn:G; [|exact H]. apply str_eqb_eq in G. subst g. rewrite (of_flag_none f a Fa) in *. cbn [map snd app] in H. injection H as H. exact H.
Qed.
Lemma run_order P l l' P1 P2 : reg P -> same_said l l' -> run P l P1 -> run P l' P2 -> P1 = P2.
Proof. intros R H R1 R2. eapply steps_same; [|exact R|apply run_steps; eauto|apply run_steps; eauto]. intros f. rewrite <- !said_effects. apply H. Qed.

(** a line of informational words only says nothing *)
Lemma notes_silent P l : valid P l -> (all_notes (words l) <-> effects l = []).
Proof.
  unfold all_notes. induction l as [|i l IH]; intros V; [split; [reflexivity|constructor]|]. rewrite words_cons. destruct i as [x f w|x f|x]; cbn [valid item_words app] in *; unfold effects; cbn [map concat effect app].
  - split; [|discriminate]. intros H. exfalso. apply V. left. inversion H; auto.
  - split; [|discriminate]. intros H. exfalso. apply V. left. inversion H; auto.
  - destruct V as [Hx V]. rewrite <- (IH V). split; intros H; [inversion H; auto|constructor; auto].
Qed.
Lemma effects_nil l l' : same_said l l' -> effects l = [] -> effects l' = [].
Proof.
  intros H E0. destruct (effects l') as [|[g q] e] eqn:E1; [reflexivity|]. specialize (H g). rewrite !said_effects, E0, E1 in H. unfold of_flag in H. cbn [filter fst map] in H. rewrite (proj2 (str_eqb_eq g g) eq_refl) in H. discriminate H.
Qed.
Lemma said_perm l l' : Permutation l l' -> all_once l -> same_said l l'.
Proof.
  intros Pm. induction Pm as [|i l l' Pm IH|i j l|l1 l2 l3 P1 IH1 P2 IH2]; intros N f.
  - reflexivity.
  - unfold said. cbn [map concat]. f_equal. apply IH. unfold all_once in *. cbn [map concat] in N. clear - N. induction (flag_of i) as [|x r IH]; [exact N|]. apply IH. cbn [app] in N. inversion N; auto.
  - unfold said. cbn [map concat]. rewrite !app_assoc. f_equal. unfold all_once in N. cbn [map concat] in N.
    assert (D : forall g, In g (flag_of i) -> In g (flag_of j) -> False).
    { intros g Hi Hj. destruct i, j; cbn [flag_of In app] in *; try tauto; destruct Hi as [<-|[]]; destruct Hj as [<-|[]]; inversion N as [|? ? C _]; apply C; cbn; auto. }
    destruct i as [x f1 w|x f1|x], j as [y f2 v|y f2|y]; cbn [item_says]; try reflexivity; try (rewrite app_nil_r; reflexivity); cbn [flag_of In] in D;
      destruct (str_eqb f1 f) eqn:A1, (str_eqb f2 f) eqn:A2; try reflexivity; apply str_eqb_eq in A1, A2; subst; exfalso; eapply D; (left; reflexivity).
  - rewrite IH1 by auto. apply IH2. clear - P1 N. unfold all_once in *. eapply Permutation_NoDup; [|exact N].
    clear N. induction P1 as [|i a b Q IH|i j a|a b c Q1 I1 Q2 I2]; cbn [map concat]; [constructor|apply Permutation_app_head; exact IH|rewrite !app_assoc; apply Permutation_app_tail, Permutation_app_comm|eapply Permutation_trans; eauto].
Qed.
Lemma valid_perm P l l' : Permutation l l' -> Forall (fun i => is_note i = false) l -> valid P l -> valid P l'.
Proof.
  intros Pm F V.
  assert (C : forall t, Forall (fun i => is_note i = false) t -> (valid P t <-> Forall (fun i => match i with
     | IVal x f w => ~ informational x /\ stands_for P x f /\ admissible P f w | ISw x f => ~ informational x /\ stands_for P x f /\ has_kind P f KSwitch | INote _ => False end) t)).
  { induction t as [|i t IH]; intros Ft; [split; [constructor|reflexivity]|]. inversion Ft as [|? ? Hi Ft']; subst. specialize (IH Ft'). destruct i as [x f w|x f|x]; cbn [valid]; [| |discriminate Hi].
    - rewrite IH. split; [intros (A & B & D & H); constructor; auto|intros H; inversion H as [|? ? HA H']; subst; tauto].
    - rewrite IH. split; [intros (A & B & D & _ & H); constructor; auto|]. intros H. inversion H as [|? ? HA H']; subst. do 3 (split; [tauto|]). split; [|auto].
      intros y r Ey. destruct t as [|j t]; [discriminate|]. inversion H' as [|? ? Hj _]; subst. rewrite words_cons in Ey. destruct j as [x2 f2 w2|x2 f2|x2]; [| |destruct Hj]; cbn [item_words app] in Ey; injection Ey as <- _; exists f2; tauto. }
  apply C; [eapply Permutation_Forall; eauto|]. eapply Permutation_Forall; [exact Pm|]. apply C; auto.
Qed.
End Order.
