(** * The loops of the swap order, for every match vector *)
From Coq Require Import Permutation.
From Verif Require Export QcCycleSpec QcTerm.
From Verif Require Import MatrixFacts MatrixCtor MatrixOps MatrixOps2.
Open Scope Z_scope.

(** ** retarget gives its one result or nothing *)
Lemma retarget_mono w s : forall f l pos r, retarget f w s l pos = Ok r -> forall f', (f <= f')%nat -> retarget f' w s l pos = Ok r.
Proof.
  induction f as [|f IH]; intros l pos r H f' L; [discriminate|]. destruct f' as [|f']; [lia|]. cbn [retarget] in *.
  destruct (Nat.eqb pos (length l)); auto. cbv zeta in *.
  destruct (nth_error l (find_second w l pos)); apply (IH _ _ _ H); lia.
Qed.
Lemma retarget_shape w s : forall f l pos, retarget f w s l pos = NoFuel \/ exists r, retarget f w s l pos = Ok r.
Proof.
  induction f as [|f IH]; intros l pos; cbn [retarget]; auto. destruct (Nat.eqb pos (length l)); eauto. cbv zeta.
  destruct (nth_error l (find_second w l pos)); apply IH.
Qed.
Lemma retarget_or f w s pre suf : retarget f w s (pre ++ suf) (length pre) = NoFuel \/
  (retarget f w s (pre ++ suf) (length pre) = Ok (pre ++ map (ret w s) suf) /\ (w <> s \/ ~ In w (map snd suf))).
Proof.
  destruct (Z.eq_dec w s) as [->|N].
  - destruct (in_dec Z.eq_dec s (map snd suf)) as [I|I].
    + left. apply retarget_forever. apply in_map_iff in I as (p & E & I). apply In_nth_error in I as (k & I).
      exists p, (length pre + k)%nat. split; [lia|]. split; auto. rewrite nth_error_app2 by lia. replace (length pre + k - length pre)%nat with k by lia. exact I.
    + destruct (retarget_shape s s f (pre ++ suf) (length pre)) as [E|(r & E)]; auto. right. split; auto. rewrite E. f_equal.
      pose proof (retarget_mono _ _ _ _ _ _ E (f + (hits s suf + 2)) ltac:(lia)) as E'.
      rewrite retarget_ok in E'; [congruence|lia|right; apply not_in_hits; auto].
  - destruct (retarget_shape w s f (pre ++ suf) (length pre)) as [E|(r & E)]; auto. right. split; auto. rewrite E. f_equal.
    pose proof (retarget_mono _ _ _ _ _ _ E (f + (hits w suf + 2)) ltac:(lia)) as E'.
    rewrite retarget_ok in E'; [congruence|lia|auto].
Qed.

(** ** without [okn] the loops never end *)
Lemma refresh1_stuck fuel : forall r rest done, length rest = r -> ~ okn r rest ->
  for_up (Z.of_nat (length done) + 1) (Z.of_nat (length done + r)) (fun i A =>
    pr <- pair_at A i ;; retarget fuel (fst pr) (snd pr) A (Z.to_nat i)) (done ++ rest) = NoFuel.
Proof.
  induction r as [|r IH]; intros rest done HL Hok.
  - exfalso. apply Hok. destruct rest; exact I.
  - destruct rest as [|p t]; [discriminate|]. simpl in HL. cbn [okn] in Hok.
    rewrite for_up_cons, pair_at_mid. cbn [bind]. rewrite snoc_cons.
    replace (Z.to_nat (Z.of_nat (length done) + 1)) with (length (done ++ [p])) by (rewrite app_length; simpl; lia).
    destruct (retarget_or fuel (fst p) (snd p) (done ++ [p]) t) as [E|[E H]]; rewrite E; cbn [bind]; auto.
    replace (Datatypes.S (length done)) with (length (done ++ [p])) by (rewrite app_length; simpl; lia).
    apply IH; [rewrite map_length; lia|]. tauto.
Qed.
Lemma refresh1_stuck' fuel A : ~ okn (length A) A -> refreshSwapOrder1 fuel A = NoFuel.
Proof. intros H. exact (refresh1_stuck fuel (length A) A [] eq_refl H). Qed.

Lemma refresh2_stuck fuel : forall r rest done A, length rest = r -> ~ okn r (rest ++ A) ->
  for_up (Z.of_nat (length done) + 1) (Z.of_nat (length done + r)) (fun i BA =>
    pr <- pair_at (fst BA) i ;;
    B' <- retarget fuel (fst pr) (snd pr) (fst BA) (Z.to_nat i) ;;
    A' <- retarget fuel (fst pr) (snd pr) (snd BA) 0 ;;
    Ok (B', A')) (done ++ rest, A) = NoFuel.
Proof.
  induction r as [|r IH]; intros rest done A HL Hok.
  - exfalso. apply Hok. destruct (rest ++ A); exact I.
  - destruct rest as [|p t]; [discriminate|]. simpl in HL. simpl app in Hok. cbn [okn] in Hok.
    rewrite for_up_cons. cbn [fst snd]. rewrite pair_at_mid. cbn [bind]. rewrite snoc_cons.
    replace (Z.to_nat (Z.of_nat (length done) + 1)) with (length (done ++ [p])) by (rewrite app_length; simpl; lia).
    destruct (retarget_or fuel (fst p) (snd p) (done ++ [p]) t) as [E|[E H1]]; rewrite E; cbn [bind]; auto.
    destruct (retarget_or fuel (fst p) (snd p) [] A) as [E'|[E' H2]]; cbn [app length] in E'; rewrite E'; cbn [bind]; auto.
    replace (Datatypes.S (length done)) with (length (done ++ [p])) by (rewrite app_length; simpl; lia).
    apply IH; [rewrite map_length; lia|]. rewrite <- map_app. intros K. apply Hok. split; [|exact K].
    rewrite map_app. destruct (Z.eq_dec (fst p) (snd p)); auto. right. intros I. apply in_app_iff in I. tauto.
Qed.
Lemma refresh2_stuck' fuel B A : ~ okn (length B) (B ++ A) -> refreshSwapOrder2 fuel B A = NoFuel.
Proof. intros H. unfold refreshSwapOrder2. pose proof (refresh2_stuck fuel (length B) B [] A eq_refl H) as E. cbn [length app Nat.add] in E. change (Z.of_nat 0 + 1) with 1 in E. rewrite E. reflexivity. Qed.

(** ** [okn] is the absence of a cycle that is entered later *)
Section Graph.
Variable l0 : list (Z * Z).
Hypothesis ND : NoDup (map fst l0).
Inductive lds : Z -> Z -> Prop :=
| lds_one i k : In (i, k) l0 -> lds i k
| lds_more i k x : In (i, k) l0 -> lds k x -> lds i x.
(** the first place on the way from [j] outside [D] *)
Inductive exits (D : list Z) : Z -> Z -> Prop :=
| exits_one i k : In (i, k) l0 -> ~ In k D -> exits D i k
| exits_more i k x : In (i, k) l0 -> In k D -> exits D k x -> exits D i x.
Lemma goes_fun i k k' : In (i, k) l0 -> In (i, k') l0 -> k = k'.
Proof.
  clear -ND. induction l0 as [|[a b] t IH]; simpl; [tauto|]. simpl in ND. inversion ND as [|? ? N1 N2]; subst. intros [E|I] [E'|I'].
  - congruence.
  - inversion E; subst. exfalso. apply N1. apply in_map_iff. exists (i, k'). auto.
  - inversion E'; subst. exfalso. apply N1. apply in_map_iff. exists (i, k). auto.
  - auto.
Qed.
Lemma exits_fun D i x y : exits D i x -> exits D i y -> x = y.
Proof.
  intros H. revert y. induction H as [i k G N|i k x G N H IH]; intros y H'; inversion H'; subst.
  - eapply goes_fun; eauto.
  - assert (k = k0) by (eapply goes_fun; eauto). subst. contradiction.
  - assert (k = y) by (eapply goes_fun; eauto). subst. contradiction.
  - assert (k = k0) by (eapply goes_fun; eauto). subst. auto.
Qed.
Lemma exits_out D i x : exits D i x -> ~ In x D. Proof. induction 1; auto. Qed.
Lemma exits_leads D i x : exits D i x -> lds i x. Proof. induction 1; [apply lds_one; auto|eapply lds_more; eauto]. Qed.
Lemma exits_grow D w i x : exits D i x -> x <> w -> exits (D ++ [w]) i x.
Proof. induction 1 as [i k G N|i k x G N H IH]; intros Hne; [apply exits_one; auto|eapply exits_more; [exact G| |auto]]; rewrite in_app_iff; simpl; intuition congruence. Qed.
Lemma exits_through D w i y : exits D i w -> ~ In w D -> exits D w y -> y <> w -> exits (D ++ [w]) i y.
Proof.
  intros H Nw Hw Ne. remember w as w' eqn:Ew in H. induction H as [i k G N|i k x G N H IH]; subst.
  - eapply exits_more; [exact G|apply in_app_iff; simpl; auto|]. apply exits_grow; auto.
  - eapply exits_more; [exact G|apply in_app_iff; auto|]. auto.
Qed.
(** the way from a place of a cycle through [D] back to [w] stays in D and w *)
Lemma cycle_inside D w v : exits D w w -> lds w v -> In v (D ++ [w]).
Proof.
  intros C H.
  assert (K : forall i, (i = w \/ (In i D /\ exits D i w)) -> lds i v -> In v (D ++ [w])).
  { clear H. intros i Hi H. revert Hi. induction H as [i k G|i k x G H IH]; intros Hi.
    - assert (E : exits D i w) by (destruct Hi as [->|[_ ?]]; auto). inversion E; subst.
      + assert (w = k) by (eapply goes_fun; eauto). subst. apply in_app_iff; simpl; auto.
      + assert (k0 = k) by (eapply goes_fun; eauto). subst. apply in_app_iff; auto.
    - apply IH. assert (E : exits D i w) by (destruct Hi as [->|[_ ?]]; auto). inversion E; subst.
      + left. symmetry. eapply goes_fun; eauto.
      + assert (k0 = k) by (eapply goes_fun; eauto). subst. auto. }
  apply (K w); auto.
Qed.
(** a way to [c]: either through [D] only, or some later place on it enters directly *)
Lemma last_entry D c j : ~ In c D -> lds j c ->
  exits D j c \/ exists j', j' <> c /\ ~ In j' D /\ In j' (map fst l0) /\ exits D j' c.
Proof.
  intros Nc H. remember c as c' eqn:Ec in H. induction H as [i k G|i k x G H IH]; subst.
  - left. apply exits_one; auto.
  - destruct (IH eq_refl) as [E|E]; auto. destruct (in_dec Z.eq_dec k D) as [I|I]; [left; eapply exits_more; eauto|].
    destruct (Z.eq_dec k c) as [->|N]; [left; apply exits_one; auto|]. right. exists k. split; auto. split; auto. split; auto.
    destruct H as [k y Gk|k y z Gk _]; exact (in_map fst _ _ Gk).
Qed.

Definition trap_at (D : list Z) (c : Z) (post : list Z) : Prop :=
  lds c c /\ (forall v, lds c v -> In v (D ++ [c])) /\ exists j, In j post /\ lds j c.
(** [rest] is what is left of [l0] after the places [D] *)
Definition inv (D : list Z) (rest : list (Z * Z)) : Prop :=
  map fst l0 = D ++ map fst rest /\ forall p, In p rest -> exits D (fst p) (snd p).
Lemma nd_split D w t : map fst l0 = D ++ w :: t -> ~ In w D /\ ~ In w t /\ forall j, In j t -> ~ In j D.
Proof.
  intros E. rewrite E in ND. pose proof (NoDup_remove_2 _ _ _ ND) as N. rewrite in_app_iff in N. split; [tauto|]. split; [tauto|].
  intros j I K. clear -ND I K. induction D as [|d D IH]; [contradiction|]. simpl in ND. inversion ND as [|? ? N1 N2]; subst.
  destruct K as [->|K]; [apply N1; rewrite in_app_iff; simpl; auto|auto].
Qed.
Lemma step_trap D p t : inv D (p :: t) -> ((fst p = snd p /\ In (fst p) (map snd t)) <-> trap_at D (fst p) (map fst t)).
Proof.
  intros [EF EX]. cbn [map] in EF. destruct (nd_split _ _ _ EF) as (N1 & N2 & N3). set (w := fst p) in *. split.
  - intros [E I]. assert (C : exits D w w) by (pose proof (EX p (or_introl eq_refl)) as X; fold w in X; rewrite <- E in X; exact X).
    split; [eapply exits_leads; eauto|]. split; [intros v H; apply (cycle_inside D w v); auto|].
    apply in_map_iff in I as (q & Eq & I). exists (fst q). split; [apply in_map; auto|]. apply (exits_leads D). rewrite <- Eq. apply EX. right; auto.
  - intros (C & Hin & j & Ij & Lj). assert (Ew : exits D w (snd p)) by (apply EX; left; auto).
    assert (Es : w = snd p).
    { pose proof (exits_out _ _ _ Ew) as O. pose proof (Hin _ (exits_leads _ _ _ Ew)) as I. apply in_app_iff in I. simpl in I. intuition. }
    split; auto. assert (H : exists j', In j' (map fst t) /\ exits D j' w).
    { destruct (last_entry D w j N1 Lj) as [H|(j' & A1 & A2 & A3 & A4)]; [eauto|]. exists j'. split; auto. rewrite EF in A3. apply in_app_iff in A3. simpl in A3. intuition congruence. }
    destruct H as (j' & I' & E'). apply in_map_iff in I' as (q & Eq & I'). apply in_map_iff. exists q. split; auto.
    apply (exits_fun D j'); auto. rewrite <- Eq. apply EX. right; auto.
Qed.
Lemma inv_step D p t : inv D (p :: t) -> ~ (fst p = snd p /\ In (fst p) (map snd t)) -> inv (D ++ [fst p]) (map (ret (fst p) (snd p)) t).
Proof.
  intros [EF EX] Nt. cbn [map] in EF. destruct (nd_split _ _ _ EF) as (N1 & N2 & N3). split.
  - rewrite map_fst_ret, <- app_assoc. exact EF.
  - intros q' I. apply in_map_iff in I as (q & <- & I). pose proof (EX q (or_intror I)) as Eq. pose proof (EX p (or_introl eq_refl)) as Ep.
    unfold ret. destruct (Z.eqb_spec (fst p) (snd q)) as [E|E]; cbn [fst snd].
    + rewrite <- E in Eq. apply exits_through; auto. intros K. apply Nt. split; [auto|]. rewrite E. apply in_map; auto.
    + apply exits_grow; auto.
Qed.
Lemma okn_iff : forall n rest D, inv D rest ->
  (okn n rest <-> forall pre w post, map fst rest = pre ++ w :: post -> (length pre < n)%nat -> ~ trap_at (D ++ pre) w post).
Proof.
  induction n as [|n IH]; intros rest D Hi.
  - split; [intros _ pre w post _ L; lia|]. intros _. destruct rest; exact I.
  - destruct rest as [|p t]; [split; [intros _ [|? ?] w post E; discriminate|intros _; exact I]|]. cbn [okn].
    pose proof (step_trap D p t Hi) as St. split.
    + intros [H1 H2] [|x pre] w post E L; simpl in E.
      * inversion E; subst. rewrite app_nil_r. intros K. apply St in K. tauto.
      * inversion E; subst x. assert (Nt : ~ (fst p = snd p /\ In (fst p) (map snd t))) by tauto.
        pose proof (inv_step D p t Hi Nt) as Hi'. apply (IH _ _ Hi') with (pre := pre) (w := w) (post := post) in H2; [|rewrite map_fst_ret; auto|simpl in L; lia].
        rewrite <- app_assoc in H2. exact H2.
    + intros H. assert (Nt : ~ (fst p = snd p /\ In (fst p) (map snd t))).
      { rewrite St. specialize (H [] (fst p) (map fst t) eq_refl ltac:(simpl; lia)). rewrite app_nil_r in H. exact H. }
      split; [destruct (Z.eq_dec (fst p) (snd p)); tauto|]. apply (IH _ _ (inv_step D p t Hi Nt)). intros pre w post E L.
      rewrite map_fst_ret in E. rewrite <- app_assoc. apply (H (fst p :: pre)); simpl; [rewrite E; reflexivity|lia].
Qed.
Lemma okn_start n : okn n l0 <-> forall pre w post, map fst l0 = pre ++ w :: post -> (length pre < n)%nat -> ~ trap_at pre w post.
Proof.
  apply (okn_iff n l0 []). split; [reflexivity|]. intros [a b] I. apply exits_one; auto.
Qed.
End Graph.

(** ** places of the match vectors *)
Lemma in_number_from m : forall a i k, In (i, k) (number_from a m) <-> a <= i /\ nth_error m (Z.to_nat (i - a)) = Some k.
Proof.
  induction m as [|x t IH]; intros a i k; cbn [number_from].
  - split; [intros []|]. intros [_ E]. destruct (Z.to_nat (i - a)); discriminate.
  - cbn [In]. rewrite IH. split.
    + intros [E|[L E]]; [inversion E; subst; split; [lia|]; rewrite Z.sub_diag; reflexivity|]. split; [lia|].
      replace (Z.to_nat (i - a)) with (S (Z.to_nat (i - (a + 1)))) by lia. exact E.
    + intros [L E]. destruct (Z.eq_dec i a) as [->|N]; [left; rewrite Z.sub_diag in E; cbn in E; congruence|]. right. split; [lia|].
      replace (Z.to_nat (i - a)) with (S (Z.to_nat (i - (a + 1)))) in E by lia. exact E.
Qed.
Lemma number_from_split m : forall a pre w post, map fst (number_from a m) = pre ++ w :: post ->
  w = a + Z.of_nat (length pre) /\ (forall v, In v pre <-> a <= v < w) /\ (forall j, In j post <-> w < j < a + Z.of_nat (length m)).
Proof.
  intros a pre. revert m a. induction pre as [|x pre IH]; intros [|y m] a w post E; cbn [number_from map app fst] in E; try discriminate.
  - assert (w = a) by congruence. assert (Ep : map fst (number_from (a + 1) m) = post) by congruence. subst w. split; [simpl; lia|]. split; [simpl; lia|].
    intros j. rewrite <- Ep. rewrite in_map_iff. cbn [length]. split.
    + intros ([u k] & Eu & I). simpl in Eu. subst u. apply in_number_from in I as [L I]. apply nth_error_Some_lt in I || (assert (Z.to_nat (j - (a + 1)) < length m)%nat by (apply nth_error_Some; congruence)). lia.
    + intros L. destruct (nth_error m (Z.to_nat (j - (a + 1)))) as [k|] eqn:En; [|apply nth_error_None in En; lia].
      exists (j, k). split; auto. apply in_number_from. split; [lia|auto].
  - assert (x = a) by congruence. assert (Ep : map fst (number_from (a + 1) m) = pre ++ w :: post) by congruence. subst x.
    destruct (IH m (a + 1) w post Ep) as (Ew & H1 & H2). cbn [length]. split; [lia|]. split.
    + intros v. cbn [In]. rewrite H1. lia.
    + intros j. rewrite H2. lia.
Qed.
Lemma leads_lds m l : (forall i k, In (i, k) l <-> assigned m i k) -> forall i x, lds l i x <-> leads m i x.
Proof.
  intros H i x. split; induction 1 as [i k G|i k x G _ IH].
  - apply leads_one. apply H; auto.
  - eapply leads_more; [apply H; exact G|auto].
  - apply lds_one. apply H; auto.
  - eapply lds_more; [apply H; exact G|auto].
Qed.
Lemma leads_assigned m i x : leads m i x -> exists k, assigned m i k.
Proof. destruct 1; eauto. Qed.
Lemma leads_start m i x : leads m i x -> 1 <= i <= Z.of_nat (length m).
Proof.
  intros H. assert (A : exists k, assigned m i k) by (destruct H; eauto). destruct A as (k & L & E). split; [exact L|].
  assert (Z.to_nat (i - 1) < length m)%nat by (apply nth_error_Some; congruence). lia.
Qed.
Lemma lds_trans l i j x : lds l i j -> lds l j x -> lds l i x.
Proof. induction 1; intros H'; eapply lds_more; eauto. Qed.
Lemma leads_trans m i j x : leads m i j -> leads m j x -> leads m i x.
Proof. induction 1; intros H'; eapply leads_more; eauto. Qed.
Lemma assigned_fun m i k k' : assigned m i k -> assigned m i k' -> k = k'.
Proof. intros [_ A] [_ B]. congruence. Qed.
Lemma cycle_leads m c v : leads m c v -> leads m c c -> leads m v v.
Proof.
  induction 1 as [i k G|i k x G H IH]; intros C.
  - inversion C as [? ? G'|? ? ? G' H']; subst.
    + assert (i = k) by (eapply assigned_fun; eauto). subst. auto.
    + assert (k0 = k) by (eapply assigned_fun; eauto). subst. eapply leads_trans; [exact H'|]. apply leads_one; auto.
  - apply IH. inversion C as [? ? G'|? ? ? G' H']; subst.
    + assert (i = k) by (eapply assigned_fun; eauto). subst. auto.
    + assert (k0 = k) by (eapply assigned_fun; eauto). subst. eapply leads_trans; [exact H'|]. apply leads_one; auto.
Qed.

Lemma in_pairsA mA i k : In (i, k) (pairsA mA) <-> assigned mA i k.
Proof. apply in_number_from. Qed.
Lemma in_pairs2 mA mB i k : In (i, k) (pairsB mA mB ++ pairsA mA) <-> assigned (mA ++ mB) i k.
Proof.
  unfold pairsA, pairsB, assigned. rewrite in_app_iff, !in_number_from. split.
  - intros [[L E]|[L E]]; (split; [lia|]).
    + rewrite nth_error_app2 by lia. rewrite <- E. f_equal. lia.
    + rewrite nth_error_app1; auto. apply nth_error_Some. congruence.
  - intros [L E]. destruct (Z.le_gt_cases i (Z.of_nat (length mA))) as [K|K].
    + right. split; auto. rewrite nth_error_app1 in E by lia. exact E.
    + left. split; [lia|]. rewrite nth_error_app2 in E by lia. rewrite <- E. f_equal. lia.
Qed.
Lemma nodup_pairs2 mA mB : NoDup (map fst (pairsB mA mB ++ pairsA mA)).
Proof.
  rewrite map_app. apply nodup_app; [apply number_from_fst_nodup|apply number_from_fst_nodup|].
  intros x H1 H2. apply number_from_fst in H1. apply number_from_fst in H2. lia.
Qed.
Lemma okn_trapped mA : okn (length (pairsA mA)) (pairsA mA) <-> ~ trapped mA.
Proof.
  pose proof (leads_lds mA (pairsA mA) (in_pairsA mA)) as Ld.
  rewrite (okn_start (pairsA mA) (number_from_fst_nodup mA 1)). split.
  - intros H (c & j & C & Hin & L & Lj). pose proof (leads_start _ _ _ C) as Rc. pose proof (leads_start _ _ _ Lj) as Rj.
    assert (I : In c (map fst (pairsA mA))).
    { assert (A : exists k, assigned mA c k) by (exact (leads_assigned _ _ _ C)). destruct A as (k & A). apply in_pairsA in A. exact (in_map fst _ _ A). }
    apply in_split in I as (pre & post & E). destruct (number_from_split _ _ _ _ _ E) as (Ec & H1 & H2).
    apply (H pre c post E).
    + pose proof (f_equal (@length Z) E) as El. rewrite map_length, app_length in El. cbn [length] in El. lia.
    + split; [apply Ld; auto|]. split.
      * intros v Hv. apply Ld in Hv. pose proof (leads_start _ _ _ (cycle_leads _ _ _ Hv C)). specialize (Hin v Hv). apply in_app_iff. rewrite H1. cbn [In]. lia.
      * exists j. split; [apply H2; lia|apply Ld; auto].
  - intros Nt pre c post E _ (C & Hin & j & Ij & Lj). apply Nt. destruct (number_from_split _ _ _ _ _ E) as (Ec & H1 & H2).
    exists c, j. split; [apply Ld; auto|]. split; [|split; [apply H2; auto|apply Ld; auto]].
    intros v Hv. apply Ld in Hv. specialize (Hin v Hv). apply in_app_iff in Hin. rewrite H1 in Hin. cbn [In] in Hin. lia.
Qed.
Lemma okn_trapped2 mA mB : okn (length (pairsB mA mB)) (pairsB mA mB ++ pairsA mA) <-> ~ trapped2 mA mB.
Proof.
  pose proof (leads_lds (mA ++ mB) (pairsB mA mB ++ pairsA mA) (in_pairs2 mA mB)) as Ld.
  assert (LB : length (pairsB mA mB) = length mB) by apply number_from_length.
  rewrite (okn_start _ (nodup_pairs2 mA mB)). split.
  - intros H (c & j & C & Hin & L & Lj). pose proof (leads_start _ _ _ C) as Rc. pose proof (leads_start _ _ _ Lj) as Rj. rewrite app_length in Rc, Rj.
    pose proof (Hin c C) as Hc.
    assert (I : In c (map fst (pairsB mA mB))).
    { assert (A : exists k, assigned (mA ++ mB) c k) by (exact (leads_assigned _ _ _ C)). destruct A as (k & A). apply in_pairs2 in A. apply in_app_iff in A as [A|A].
      - exact (in_map fst _ _ A).
      - apply in_pairsA in A. destruct A as [_ A]. assert (Z.to_nat (c - 1) < length mA)%nat by (apply nth_error_Some; congruence). lia. }
    apply in_split in I as (pre & post & E). destruct (number_from_split _ _ _ _ _ E) as (Ec & H1 & H2).
    assert (E2 : map fst (pairsB mA mB ++ pairsA mA) = pre ++ c :: (post ++ map fst (pairsA mA))) by (rewrite map_app, E, <- app_assoc; reflexivity).
    apply (H pre c _ E2).
    + pose proof (f_equal (@length Z) E) as El. rewrite map_length, app_length in El. cbn [length] in El. lia.
    + split; [apply Ld; auto|]. split.
      * intros v Hv. apply Ld in Hv. specialize (Hin v Hv). apply in_app_iff. rewrite H1. cbn [In]. lia.
      * exists j. split; [|apply Ld; auto]. apply in_app_iff. destruct L as [L|L]; [left; apply H2; lia|right].
        assert (A : exists k, assigned (mA ++ mB) j k) by (exact (leads_assigned _ _ _ Lj)). destruct A as (k & A & B). rewrite nth_error_app1 in B by lia.
        refine (in_map fst _ (j, k) _). apply in_pairsA. split; auto.
  - intros Nt pre c post E Hl (C & Hin & j & Ij & Lj). apply Nt. rewrite map_app in E.
    assert (E2 : exists post1, map fst (pairsB mA mB) = pre ++ c :: post1 /\ post = post1 ++ map fst (pairsA mA)).
    { clear -E Hl. assert (Hl' : (length pre < length (map fst (pairsB mA mB)))%nat) by (rewrite map_length; auto). clear Hl. revert E Hl'. generalize (map fst (pairsB mA mB)) as u, (map fst (pairsA mA)) as v.
      induction pre as [|x pre IH]; intros [|y u] v E L; simpl in *; try lia.
      - exists u. inversion E; auto.
      - assert (Et : u ++ v = pre ++ c :: post) by congruence. destruct (IH u v Et ltac:(lia)) as (p1 & A & B). exists p1. split; [congruence|auto]. }
    destruct E2 as (post1 & E2 & ->). destruct (number_from_split _ _ _ _ _ E2) as (Ec & H1 & H2).
    exists c, j. split; [apply Ld; auto|]. split; [|split; [|apply Ld; auto]].
    + intros v Hv. apply Ld in Hv. specialize (Hin v Hv). apply in_app_iff in Hin. rewrite H1 in Hin. cbn [In] in Hin. lia.
    + apply in_app_iff in Ij as [I|I]; [left; apply H2; auto|right]. apply number_from_fst in I. lia.
Qed.

(** ** the whole computation of the swap order *)
Lemma refresh1_exact mA : (trapped mA -> forall fuel, refreshSwapOrder1 fuel (pairsA mA) = NoFuel) /\
  (~ trapped mA -> forall fuel, (length mA + 2 <= fuel)%nat -> refreshSwapOrder1 fuel (pairsA mA) = Ok (refr (length mA) (pairsA mA))).
Proof.
  assert (L : length (pairsA mA) = length mA) by apply number_from_length. pose proof (okn_trapped mA) as O. split.
  - intros Ht fuel. apply refresh1_stuck'. tauto.
  - intros Ht fuel Hf. rewrite <- L. apply refresh1_ok; [lia|]. tauto.
Qed.
Lemma refresh2_exact mA mB : (trapped2 mA mB -> forall fuel, refreshSwapOrder2 fuel (pairsB mA mB) (pairsA mA) = NoFuel) /\
  (~ trapped2 mA mB -> forall fuel, (length mA + length mB + 2 <= fuel)%nat ->
     exists B A, refreshSwapOrder2 fuel (pairsB mA mB) (pairsA mA) = Ok (B, A) /\ B ++ A = refr (length mB + length mA) (pairsB mA mB ++ pairsA mA)).
Proof.
  assert (L : length (pairsA mA) = length mA) by apply number_from_length. assert (L' : length (pairsB mA mB) = length mB) by apply number_from_length.
  pose proof (okn_trapped2 mA mB) as O. split.
  - intros Ht fuel. apply refresh2_stuck'. tauto.
  - intros Ht fuel Hf. destruct (refresh2_ok fuel (pairsB mA mB) (pairsA mA)) as (B & A & E & E1 & _); [lia|tauto|]. rewrite L, L' in E1. eauto.
Qed.

(** ** the swaps *)
Definition outside (n : Z) (p : Z * Z) : Prop := fst p <> snd p /\ ~ (1 <= fst p <= n /\ 1 <= snd p <= n).
Lemma outside_dec n p : {outside n p} + {~ outside n p}.
Proof.
  unfold outside. destruct (Z.eq_dec (fst p) (snd p)); [right; tauto|].
  destruct (Z_le_dec 1 (fst p)), (Z_le_dec (fst p) n), (Z_le_dec 1 (snd p)), (Z_le_dec (snd p) n); first [left; split; [auto|lia]|right; intros [_ H]; apply H; lia].
Defined.
Lemma swap_outside {X} (L : list X) p : outside (Z.of_nat (length L)) p -> swap_blocks p L = Undef BadIterator.
Proof.
  intros [N O]. unfold swap_blocks. destruct (Z.eqb_spec (fst p) (snd p)); [contradiction|].
  destruct (Z_le_dec 1 (fst p)); [|rewrite list_at_bad by lia; reflexivity].
  destruct (Z_le_dec (fst p) (Z.of_nat (length L))); [|rewrite list_at_bad by lia; reflexivity].
  destruct (list_at_ok L (fst p)) as (x & E & _); [lia|]. rewrite E. cbn [bind]. rewrite list_at_bad by lia. reflexivity.
Qed.
Definition tr (p : Z * Z) (k : Z) : Z := if k =? fst p then snd p else if k =? snd p then fst p else k.
Lemma swap_inside {X} (L : list X) p : ~ outside (Z.of_nat (length L)) p ->
  exists L', swap_blocks p L = Ok L' /\ length L' = length L /\ forall k, 1 <= k <= Z.of_nat (length L) -> nth_error L' (Z.to_nat (k - 1)) = nth_error L (Z.to_nat (tr p k - 1)).
Proof.
  intros O. destruct (Z.eq_dec (fst p) (snd p)) as [E|N].
  - exists L. unfold swap_blocks. rewrite E, Z.eqb_refl. split; auto. split; auto. intros k _. unfold tr. rewrite E. destruct (Z.eqb_spec k (snd p)) as [->|]; auto.
  - assert (I : 1 <= fst p <= Z.of_nat (length L) /\ 1 <= snd p <= Z.of_nat (length L)).
    { unfold outside in O. destruct (Z_le_dec 1 (fst p)), (Z_le_dec (fst p) (Z.of_nat (length L))), (Z_le_dec 1 (snd p)), (Z_le_dec (snd p) (Z.of_nat (length L))); try lia; exfalso; apply O; split; auto; lia. }
    destruct p as [w s]. cbn [fst snd] in *. destruct (swap_ok L w s) as (L' & E & Hl & H); try tauto. exists L'. split; auto. split; auto.
    intros k Hk. specialize (H k). unfold at_ in H. unfold tr. cbn [fst snd]. destruct (Z.ltb_spec k 1); [lia|]. destruct (Z.ltb_spec w 1); [lia|]. destruct (Z.ltb_spec s 1); [lia|].
    rewrite H. destruct (k =? w), (k =? s); auto.
Qed.
Lemma swaps_undef {X} (l : list (Z * Z)) : forall (L : list X), Exists (outside (Z.of_nat (length L))) l -> for_each l swap_blocks L = Undef BadIterator.
Proof.
  induction l as [|p t IH]; intros L H; [inversion H|]. cbn [for_each]. destruct (outside_dec (Z.of_nat (length L)) p) as [O|O].
  - rewrite swap_outside; auto.
  - destruct (swap_inside L p O) as (L' & E & Hl & _). rewrite E. cbn [bind]. apply IH. rewrite Hl. inversion H; subst; [contradiction|auto].
Qed.
Lemma tr_range p n k : ~ outside n p -> 1 <= k <= n -> 1 <= tr p k <= n.
Proof.
  intros O Hk. unfold tr, outside in *. destruct (Z.eqb_spec k (fst p)) as [E|E]; [|destruct (Z.eqb_spec k (snd p)); [|auto]].
  - destruct (Z.eq_dec (fst p) (snd p)); [lia|]. destruct (Z_le_dec 1 (snd p)), (Z_le_dec (snd p) n); try lia; exfalso; apply O; split; auto; lia.
  - destruct (Z_le_dec 1 (fst p)), (Z_le_dec (fst p) n); try lia; exfalso; apply O; split; auto; lia.
Qed.
Lemma tr_inj p x y : tr p x = tr p y -> x = y.
Proof. unfold tr. destruct (Z.eqb_spec x (fst p)), (Z.eqb_spec x (snd p)), (Z.eqb_spec y (fst p)), (Z.eqb_spec y (snd p)); lia. Qed.
Lemma swaps_order (n : nat) (l : list (Z * Z)) : ~ Exists (outside (Z.of_nat n)) l ->
  exists K, is_order (Z.of_nat n) K /\ forall X (L : list X), length L = n ->
    exists L', for_each l swap_blocks L = Ok L' /\ length L' = n /\ forall i x, nth_error K i = Some x -> nth_error L' i = nth_error L (Z.to_nat (x - 1)).
Proof.
  induction l as [|p t IH]; intros H.
  - exists (map Z.of_nat (seq 1 n)). split; [|intros X L Hl; exists L; split; [reflexivity|split; auto]].
    + split; [rewrite map_length, seq_length; auto|]. split; [apply FinFun.Injective_map_NoDup; [intros x y; lia|apply seq_NoDup]|].
      apply Forall_forall. intros x I. apply in_map_iff in I as (y & <- & I). apply in_seq in I. lia.
    + intros i x E. rewrite nth_error_map in E. destruct (nth_error (seq 1 n) i) as [y|] eqn:E1; [|discriminate]. cbn in E. assert (Ex : x = Z.of_nat y) by congruence. subst x.
      assert (Li : (i < length (seq 1 n))%nat) by (apply nth_error_Some; congruence). rewrite seq_length in Li.
      apply nth_error_nth with (d := O) in E1. rewrite seq_nth in E1 by auto. f_equal. lia.
  - destruct IH as (K & HK & H2); [intros I; apply H; right; auto|].
    assert (O : ~ outside (Z.of_nat n) p) by (intros I; apply H; left; auto). exists (map (tr p) K). pose proof HK as (K1 & K2 & K3). split.
    + split; [rewrite map_length; auto|]. split; [apply FinFun.Injective_map_NoDup; [intros x y; apply tr_inj|auto]|].
      rewrite Forall_forall in *. intros x I. apply in_map_iff in I as (y & <- & I). apply tr_range; auto.
    + intros X L Hl. rewrite <- Hl in O. destruct (swap_inside L p O) as (L1 & E1 & Hl1 & N1). cbn [for_each]. rewrite E1. cbn [bind].
      destruct (H2 X L1) as (L' & E2 & Hl2 & N2); [congruence|]. exists L'. split; auto. split; auto. intros i x E. rewrite nth_error_map in E.
      destruct (nth_error K i) as [y|] eqn:Ey; [|discriminate]. cbn in E. assert (Ex : x = tr p y) by congruence. subst x. rewrite (N2 i y Ey). apply N1.
      rewrite Forall_forall in K3. rewrite Hl. apply K3. eapply nth_error_In; eauto.
Qed.

(** ** what refreshing does to the pairs *)
Lemma refr_snd n : forall l p, In p (refr n l) -> In (snd p) (map snd l).
Proof.
  induction n as [|n IH]; intros [|q t] p I; cbn [refr] in I; try (apply in_map; exact I); [].
  destruct I as [->|I]; [left; auto|]. apply IH in I. apply in_map_iff in I as (r' & Er & I). apply in_map_iff in I as (r & <- & I). rewrite <- Er. unfold ret.
  destruct (Z.eqb_spec (fst q) (snd r)); cbn [snd]; [left; auto|right; apply in_map; auto].
Qed.
Lemma refr_fst n : forall l, map fst (refr n l) = map fst l.
Proof. induction n as [|n IH]; intros [|q t]; auto. cbn [refr map]. rewrite IH, map_fst_ret. reflexivity. Qed.
Lemma refr_keep n : forall l p, (forall q, In q l -> fst q <> snd p) -> In p l -> In p (refr n l).
Proof.
  induction n as [|n IH]; intros [|q t] p H I; auto. cbn [refr]. destruct I as [->|I]; [left; auto|right]. apply IH.
  - intros r' I'. apply in_map_iff in I' as (r & <- & I'). unfold ret. destruct (fst q =? snd r); cbn [fst]; apply H; right; auto.
  - apply in_map_iff. exists p. split; auto. unfold ret. destruct (Z.eqb_spec (fst q) (snd p)) as [E|E]; auto. exfalso. apply (H q); [left; auto|auto].
Qed.
(** entries -1 or 1..n: the swaps stay inside exactly if every place and every entry is one of 1..n *)
Lemma refr_outside k l (n : nat) : (forall p, In p l -> 1 <= fst p /\ (snd p = -1 \/ 1 <= snd p <= Z.of_nat n)) ->
  (Exists (outside (Z.of_nat n)) (refr k l) <-> ~ (Forall (fun p => 1 <= snd p) l /\ Forall (fun p => fst p <= Z.of_nat n) l)).
Proof.
  intros H. assert (S : forall p, In p (refr k l) -> snd p = -1 \/ 1 <= snd p <= Z.of_nat n).
  { intros p I. apply refr_snd in I. apply in_map_iff in I as (q & <- & I). apply H; auto. }
  assert (Fp : forall p, In p (refr k l) -> 1 <= fst p /\ exists q, In q l /\ fst q = fst p).
  { intros p I. assert (J : In (fst p) (map fst l)) by (rewrite <- (refr_fst k); apply in_map; auto). apply in_map_iff in J as (q & E & J). split; [rewrite <- E; apply H; auto|eauto]. }
  split.
  - intros I [H1 H2]. rewrite Forall_forall in H1, H2. apply Exists_exists in I as (p & I & N & O). apply O. destruct (Fp p I) as (F1 & q & Iq & Eq).
    pose proof (H2 q Iq). apply refr_snd in I. apply in_map_iff in I as (r & Er & I). pose proof (H1 r I). pose proof (H r I). lia.
  - intros N. destruct (Forall_dec (fun p : Z * Z => 1 <= snd p) (fun p => Z_le_dec 1 (snd p)) l) as [A|A].
    + destruct (Forall_dec (fun p : Z * Z => fst p <= Z.of_nat n) (fun p => Z_le_dec (fst p) (Z.of_nat n)) l) as [B|B]; [tauto|].
      apply neg_Forall_Exists_neg in B; [|intros p; destruct (Z_le_dec (fst p) (Z.of_nat n)); auto]. apply Exists_exists in B as (q & I & B).
      assert (J : In (fst q) (map fst (refr k l))) by (rewrite refr_fst; apply in_map; auto). apply in_map_iff in J as (p & E & J).
      apply Exists_exists. exists p. split; auto. pose proof (S p J). split; lia.
    + apply neg_Forall_Exists_neg in A; [|intros p; destruct (Z_le_dec 1 (snd p)); auto]. apply Exists_exists in A as (q & I & A).
      apply Exists_exists. exists q. pose proof (H q I). split; [apply refr_keep; auto; intros r Ir; pose proof (H r Ir); lia|]. split; lia.
Qed.
Lemma places1 mA n : (Forall (fun p : Z * Z => 1 <= snd p) (pairsA mA) /\ Forall (fun p : Z * Z => fst p <= Z.of_nat n) (pairsA mA)) <->
  (Forall (fun x => 1 <= x) mA /\ (length mA <= n)%nat).
Proof.
  rewrite !Forall_forall. split; intros [A B]; split.
  - intros x I. apply In_nth_error in I as (i & I). apply (A (Z.of_nat i + 1, x)). apply in_pairsA. split; [lia|]. replace (Z.to_nat (Z.of_nat i + 1 - 1)) with i by lia. auto.
  - destruct (Nat.le_gt_cases (length mA) n) as [|G]; auto. exfalso. destruct (nth_error mA n) as [x|] eqn:E; [|apply nth_error_None in E; lia].
    specialize (B (Z.of_nat n + 1, x)). cbn [fst] in B. assert (Z.of_nat n + 1 <= Z.of_nat n); [|lia]. apply B. apply in_pairsA. split; [lia|]. replace (Z.to_nat (Z.of_nat n + 1 - 1)) with n by lia. auto.
  - intros [i x] I. apply in_pairsA in I as [_ I]. apply A. eapply nth_error_In; eauto.
  - intros [i x] I. apply in_pairsA in I as [L I]. cbn [fst]. assert (Z.to_nat (i - 1) < length mA)%nat by (apply nth_error_Some; congruence). lia.
Qed.
Lemma places2 mA mB n : (Forall (fun p : Z * Z => 1 <= snd p) (pairsB mA mB ++ pairsA mA) /\ Forall (fun p : Z * Z => fst p <= Z.of_nat n) (pairsB mA mB ++ pairsA mA)) <->
  (Forall (fun x => 1 <= x) (mA ++ mB) /\ (length mA + length mB <= n)%nat).
Proof.
  pose proof (places1 (mA ++ mB) n) as P. rewrite app_length in P. rewrite <- P. rewrite !Forall_forall.
  assert (Q : forall p, In p (pairsB mA mB ++ pairsA mA) <-> In p (pairsA (mA ++ mB))) by (intros [i k]; rewrite in_pairs2, in_pairsA; tauto).
  split; intros [A B]; split; intros p I; first [apply A|apply B]; apply Q; auto.
Qed.

Section Whole.
Context {T : Type}.
Variable zero : T.
Implicit Types (m : mat T).
Notation desc := (Z * (Z -> Z -> T))%type.
Ltac dims H := destruct (denotes_dims _ _ _ _ _ H) as (? & ? & _ & ?).

Lemma stuck2 fuel mA mB b m R C f : denotes m R C 1 (fun r c _ => f r c) -> 1 <= R -> Forall (fun n => 1 <= n) b -> total b <= C ->
  trapped2 mA mB -> unscramble_Coef2 zero fuel mA mB b m = NoFuel.
Proof.
  intros Hm HR Hb Ht Tr. unfold unscramble_Coef2, unscramble2, splitCoefsUpByAtoms.
  destruct (split_cols zero m R C f b Hm HR Hb Ht) as (L & E & _). rewrite E. cbn [bind]. rewrite (proj1 (refresh2_exact mA mB) Tr fuel). reflexivity.
Qed.
Lemma stuck1 fuel mA b m R C f : denotes m R C 1 (fun r c _ => f r c) -> 1 <= R -> Forall (fun n => 1 <= n) b -> total b <= C ->
  trapped mA -> unscramble_Coef1 zero fuel mA b m = NoFuel.
Proof.
  intros Hm HR Hb Ht Tr. unfold unscramble_Coef1, unscramble1, splitCoefsUpByAtoms.
  destruct (split_cols zero m R C f b Hm HR Hb Ht) as (L & E & _). rewrite E. cbn [bind]. rewrite (proj1 (refresh1_exact mA) Tr fuel). reflexivity.
Qed.
Lemma ends2 fuel mA mB basis m tag : ~ trapped2 mA mB -> (length mA + length mB + 2 <= fuel)%nat -> unscramble2 zero fuel mA mB basis m tag <> NoFuel.
Proof.
  intros Hn Hf. destruct (proj2 (refresh2_exact mA mB) Hn fuel Hf) as (B & A & E & _).
  change (fin (unscramble2 zero fuel mA mB basis m tag)). unfold unscramble2, splitCoefsUpByAtoms, createNewMatrix.
  apply fin_bind; [apply fin_split|intros]. rewrite E. cbn [bind]. apply fin_bind; [|intros; apply fin_merge]. unfold updateSwapLists2. fin; apply fin_swap.
Qed.
Lemma ends1 fuel mA basis m tag : ~ trapped mA -> (length mA + 2 <= fuel)%nat -> unscramble1 zero fuel mA basis m tag <> NoFuel.
Proof.
  intros Hn Hf. pose proof (proj2 (refresh1_exact mA) Hn fuel Hf) as E.
  change (fin (unscramble1 zero fuel mA basis m tag)). unfold unscramble1, splitCoefsUpByAtoms, createNewMatrix.
  apply fin_bind; [apply fin_split|intros]. rewrite E. cbn [bind]. apply fin_bind; [|intros; apply fin_merge]. unfold updateSwapLists1. fin; apply fin_swap.
Qed.

(** merging the blocks in the order [K] *)
Lemma merged_cols L b f K m R C : denotes m R C 1 (fun r c _ => f r c) -> 1 <= R -> 1 <= C -> Forall (fun n => 1 <= n) b -> total b = C ->
  is_order (Z.of_nat (length b)) K -> Forall2 (is_colblock R) L (perm_desc zero b K f) ->
  exists m', mergeListOfMatrices zero L R C tagColumns = Ok m' /\ denotes m' R C 1 (fun r c _ => perm_fun zero b K f r c).
Proof.
  intros Hm HR HC Hb Ht Ho HF. dims Hm.
  destruct (merge_cols zero L (perm_desc zero b K f) R C) as (m' & E3 & D); auto; try lia; try (rewrite perm_szs); try (apply reordered_pos; auto).
  { rewrite total_reordered by auto. lia. }
  exists m'; split; auto. eapply denotes_ext; [exact D|]. intros r c s Hin. cbn beta. rewrite perm_szs, total_reordered by auto. destruct (Z.leb_spec c (total b)); auto.
  unfold inside in Hin. lia.
Qed.
Lemma merged_rows L b f K m R C : denotes m R C 1 (fun r c _ => f c r) -> 1 <= R -> 1 <= C -> Forall (fun n => 1 <= n) b -> total b = R ->
  is_order (Z.of_nat (length b)) K -> Forall2 (is_rowblock C) L (perm_desc zero b K f) ->
  exists m', mergeListOfMatrices zero L R C tagRows = Ok m' /\ denotes m' R C 1 (fun r c _ => perm_fun zero b K f c r).
Proof.
  intros Hm HR HC Hb Ht Ho HF. dims Hm.
  destruct (merge_rows zero L (perm_desc zero b K f) R C) as (m' & E3 & D); auto; try lia; try (rewrite perm_szs); try (apply reordered_pos; auto).
  { rewrite total_reordered by auto. lia. }
  exists m'; split; auto. eapply denotes_ext; [exact D|]. intros r c s Hin. cbn beta. rewrite perm_szs, total_reordered by auto. destruct (Z.leb_spec r (total b)); auto.
  unfold inside in Hin. lia.
Qed.

(** one order of the blocks for every matrix *)
Lemma order2 mA mB (b : list Z) : ~ trapped2 mA mB ->
  Forall (fun x => x = -1 \/ 1 <= x <= Z.of_nat (length b)) (mA ++ mB) -> Forall (fun x => 1 <= x) (mA ++ mB) -> (length mA + length mB <= length b)%nat ->
  exists K, is_order (Z.of_nat (length b)) K /\ forall fuel, (length mA + length mB + 2 <= fuel)%nat ->
    forall X (L : list X), length L = length b -> exists L',
    (BA <- refreshSwapOrder2 fuel (pairsB mA mB) (pairsA mA) ;; updateSwapLists2 (fst BA) (snd BA) L) = Ok L' /\ length L' = length b /\
    forall i x, nth_error K i = Some x -> nth_error L' i = nth_error L (Z.to_nat (x - 1)).
Proof.
  intros Nt Hr Hp Hl.
  destruct (swaps_order (length b) (refr (length mB + length mA) (pairsB mA mB ++ pairsA mA))) as (K & HK & H).
  { rewrite refr_outside.
    - intros N. apply N. apply places2. auto.
    - intros [i k] I. apply in_pairs2 in I as [I1 I2]. split; [exact I1|]. rewrite Forall_forall in Hr. apply Hr. eapply nth_error_In; eauto. }
  exists K. split; auto. intros fuel Hf X L HL. destruct (proj2 (refresh2_exact mA mB) Nt fuel Hf) as (B & A & E & E1). rewrite E. cbn [bind fst snd].
  unfold updateSwapLists2. rewrite <- for_each_app, E1. apply H; auto.
Qed.
Lemma order1 mA (b : list Z) : ~ trapped mA ->
  Forall (fun x => x = -1 \/ 1 <= x <= Z.of_nat (length b)) mA -> Forall (fun x => 1 <= x) mA -> (length mA <= length b)%nat ->
  exists K, is_order (Z.of_nat (length b)) K /\ forall fuel, (length mA + 2 <= fuel)%nat ->
    forall X (L : list X), length L = length b -> exists L',
    (A <- refreshSwapOrder1 fuel (pairsA mA) ;; updateSwapLists1 A L) = Ok L' /\ length L' = length b /\
    forall i x, nth_error K i = Some x -> nth_error L' i = nth_error L (Z.to_nat (x - 1)).
Proof.
  intros Nt Hr Hp Hl.
  destruct (swaps_order (length b) (refr (length mA) (pairsA mA))) as (K & HK & H).
  { rewrite refr_outside.
    - intros N. apply N. apply places1. auto.
    - intros [i k] I. apply in_pairsA in I as [I1 I2]. split; [exact I1|]. rewrite Forall_forall in Hr. apply Hr. eapply nth_error_In; eauto. }
  exists K. split; auto. intros fuel Hf X L HL. rewrite (proj2 (refresh1_exact mA) Nt fuel Hf). cbn [bind]. unfold updateSwapLists1. apply H; auto.
Qed.
Lemma outside2 mA mB n fuel X (L : list X) : ~ trapped2 mA mB -> (length mA + length mB + 2 <= fuel)%nat -> length L = n ->
  Forall (fun x => x = -1 \/ 1 <= x <= Z.of_nat n) (mA ++ mB) -> ~ (Forall (fun x => 1 <= x) (mA ++ mB) /\ (length mA + length mB <= n)%nat) ->
  (BA <- refreshSwapOrder2 fuel (pairsB mA mB) (pairsA mA) ;; updateSwapLists2 (fst BA) (snd BA) L) = Undef BadIterator.
Proof.
  intros Nt Hf HL Hr Hb. destruct (proj2 (refresh2_exact mA mB) Nt fuel Hf) as (B & A & E & E1). rewrite E. cbn [bind fst snd].
  unfold updateSwapLists2. rewrite <- for_each_app, E1. apply swaps_undef. rewrite HL. apply refr_outside.
  - intros [i k] I. apply in_pairs2 in I as [I1 I2]. split; [exact I1|]. rewrite Forall_forall in Hr. apply Hr. eapply nth_error_In; eauto.
  - rewrite places2. exact Hb.
Qed.
Lemma outside1 mA n fuel X (L : list X) : ~ trapped mA -> (length mA + 2 <= fuel)%nat -> length L = n ->
  Forall (fun x => x = -1 \/ 1 <= x <= Z.of_nat n) mA -> ~ (Forall (fun x => 1 <= x) mA /\ (length mA <= n)%nat) ->
  (A <- refreshSwapOrder1 fuel (pairsA mA) ;; updateSwapLists1 A L) = Undef BadIterator.
Proof.
  intros Nt Hf HL Hr Hb. rewrite (proj2 (refresh1_exact mA) Nt fuel Hf). cbn [bind]. unfold updateSwapLists1. apply swaps_undef. rewrite HL. apply refr_outside.
  - intros [i k] I. apply in_pairsA in I as [I1 I2]. split; [exact I1|]. rewrite Forall_forall in Hr. apply Hr. eapply nth_error_In; eauto.
  - rewrite places1. exact Hb.
Qed.
(** the whole functions from the swapping of the blocks *)
Definition by_blocks (blocks : forall X, list X -> outcome (list X)) (b : list Z) m tag : outcome (mat T) :=
  L <- splitMatrixIntoList zero b m tag ;; L' <- blocks _ L ;; mergeListOfMatrices zero L' (rows m) (cols m) tag.
Lemma unscramble2_blocks fuel mA mB b m tag : unscramble2 zero fuel mA mB b m tag =
  by_blocks (fun X L => BA <- refreshSwapOrder2 fuel (pairsB mA mB) (pairsA mA) ;; updateSwapLists2 (fst BA) (snd BA) L) b m tag.
Proof.
  unfold unscramble2, by_blocks, splitCoefsUpByAtoms, createNewMatrix. destruct (splitMatrixIntoList zero b m tag); cbn [bind]; auto.
  destruct (refreshSwapOrder2 fuel (pairsB mA mB) (pairsA mA)); cbn [bind]; auto.
Qed.
Lemma unscramble1_blocks fuel mA b m tag : unscramble1 zero fuel mA b m tag =
  by_blocks (fun X L => A <- refreshSwapOrder1 fuel (pairsA mA) ;; updateSwapLists1 A L) b m tag.
Proof.
  unfold unscramble1, by_blocks, splitCoefsUpByAtoms, createNewMatrix. destruct (splitMatrixIntoList zero b m tag); cbn [bind]; auto.
  destruct (refreshSwapOrder1 fuel (pairsA mA)); cbn [bind]; auto.
Qed.
Lemma by_blocks_cols blocks b m R C f K : denotes m R C 1 (fun r c _ => f r c) -> 1 <= R -> 1 <= C -> Forall (fun n => 1 <= n) b -> total b = C ->
  is_order (Z.of_nat (length b)) K ->
  (forall X (L : list X), length L = length b -> exists L', blocks X L = Ok L' /\ length L' = length b /\ forall i x, nth_error K i = Some x -> nth_error L' i = nth_error L (Z.to_nat (x - 1))) ->
  exists m', by_blocks blocks b m tagColumns = Ok m' /\ denotes m' R C 1 (fun r c _ => perm_fun zero b K f r c).
Proof.
  intros Hm HR HC Hb Ht Ho H. unfold by_blocks. pose proof Hm as (_ & -> & -> & _).
  destruct (split_cols zero m R C f b Hm HR Hb ltac:(lia)) as (L & E & HF). rewrite E. cbn [bind].
  pose proof (F2_length _ _ _ HF) as Hl. rewrite cut_length in Hl. destruct (H _ L Hl) as (L' & E' & Hl' & N). rewrite E'. cbn [bind].
  apply (merged_cols L' b f K m); auto. apply Forall2_perm with (L := L); auto; [rewrite cut_length; auto|congruence].
Qed.
Lemma by_blocks_rows blocks b m R C f K : denotes m R C 1 (fun r c _ => f c r) -> 1 <= R -> 1 <= C -> Forall (fun n => 1 <= n) b -> total b = R ->
  is_order (Z.of_nat (length b)) K ->
  (forall X (L : list X), length L = length b -> exists L', blocks X L = Ok L' /\ length L' = length b /\ forall i x, nth_error K i = Some x -> nth_error L' i = nth_error L (Z.to_nat (x - 1))) ->
  exists m', by_blocks blocks b m tagRows = Ok m' /\ denotes m' R C 1 (fun r c _ => perm_fun zero b K f c r).
Proof.
  intros Hm HR HC Hb Ht Ho H. unfold by_blocks. pose proof Hm as (_ & -> & -> & _).
  destruct (split_rows zero m R C f b Hm HC Hb ltac:(lia)) as (L & E & HF). rewrite E. cbn [bind].
  pose proof (F2_length _ _ _ HF) as Hl. rewrite cut_length in Hl. destruct (H _ L Hl) as (L' & E' & Hl' & N). rewrite E'. cbn [bind].
  apply (merged_rows L' b f K m); auto. apply Forall2_perm with (L := L); auto; [rewrite cut_length; auto|congruence].
Qed.
Lemma by_blocks_undef blocks b m R C f : denotes m R C 1 (fun r c _ => f r c) -> 1 <= R -> Forall (fun n => 1 <= n) b -> total b <= C ->
  (forall X (L : list X), length L = length b -> blocks X L = Undef BadIterator) -> by_blocks blocks b m tagColumns = Undef BadIterator.
Proof.
  intros Hm HR Hb Ht H. unfold by_blocks. destruct (split_cols zero m R C f b Hm HR Hb Ht) as (L & E & HF). rewrite E. cbn [bind].
  pose proof (F2_length _ _ _ HF) as Hl. rewrite cut_length in Hl. rewrite H by auto. reflexivity.
Qed.
End Whole.
