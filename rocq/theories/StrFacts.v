(** * Lemmas about string_support *)
From Verif Require Export StrSpec StrModel.
Open Scope Z_scope.

Lemma is_space_in c : is_space c = true <-> In c spaces.
Proof.
  split.
  - destruct c as [[] [] [] [] [] [] [] []]; vm_compute; intros H; try discriminate; tauto.
  - intros H. cbn in H. repeat (destruct H as [<-|H]; [reflexivity|]). destruct H.
Qed.
Lemma is_space_nin c : is_space c = false <-> ~ In c spaces.
Proof. rewrite <- is_space_in. destruct (is_space c); split; intros; congruence. Qed.

Lemma white_nil : white []. Proof. intros c []. Qed.
Lemma white_cons c s : white (c :: s) <-> In c spaces /\ white s.
Proof.
  unfold white; split.
  - intros H; split; [apply H; now left|intros d Hd; apply H; now right].
  - intros [H1 H2] d [->|Hd]; auto.
Qed.
Lemma white_app a b : white (a ++ b) <-> white a /\ white b.
Proof.
  unfold white; split.
  - intros H; split; intros; apply H; apply in_or_app; auto.
  - intros [H1 H2] c Hc. apply in_app_or in Hc as [Hc|Hc]; auto.
Qed.
Lemma white_rev a : white (rev a) <-> white a.
Proof. unfold white; split; intros H c Hc; apply H; [rewrite <- in_rev|rewrite in_rev]; auto. Qed.

(** ** drop_while / take_while *)
Lemma take_drop p s : take_while p s ++ drop_while p s = s.
Proof. induction s as [|c t IH]; simpl; auto. destruct (p c); simpl; congruence. Qed.
Lemma take_while_all p s c : In c (take_while p s) -> p c = true.
Proof.
  induction s as [|d t IH]; simpl; [tauto|]. destruct (p d) eqn:E; simpl; [|tauto].
  intros [<-|H]; auto.
Qed.
Lemma drop_while_head p s c t : drop_while p s = c :: t -> p c = false.
Proof.
  induction s as [|d s IH]; simpl; [discriminate|]. destruct (p d) eqn:E; auto.
  intros H; inversion H; subst; auto.
Qed.
Lemma drop_while_app_all p a b : (forall c, In c a -> p c = true) -> drop_while p (a ++ b) = drop_while p b.
Proof.
  induction a as [|c a IH]; simpl; intros H; auto. rewrite (H c) by auto. apply IH; auto.
Qed.
Lemma drop_while_stop p s : (forall c t, s = c :: t -> p c = false) -> drop_while p s = s.
Proof. destruct s as [|c t]; simpl; auto. intros H. rewrite (H c t); auto. Qed.
Lemma take_while_app_all p a b : (forall c, In c a -> p c = true) ->
  take_while p (a ++ b) = a ++ take_while p b.
Proof.
  induction a as [|c a IH]; simpl; intros H; auto. rewrite (H c) by auto. rewrite IH; auto.
Qed.
Lemma take_while_stop p s : (forall c t, s = c :: t -> p c = false) -> take_while p s = [].
Proof. destruct s as [|c t]; simpl; auto. intros H. rewrite (H c t); auto. Qed.
Lemma drop_while_le p s : (length (drop_while p s) <= length s)%nat.
Proof. rewrite <- (take_drop p s) at 2. rewrite app_length. lia. Qed.

(** ** trimming *)
Lemma ltrim_spec s : exists a, white a /\ s = a ++ ltrim s /\ begins_solid (ltrim s).
Proof.
  exists (take_while is_space s). repeat split.
  - intros c H. apply is_space_in. eapply take_while_all; eauto.
  - symmetry; apply take_drop.
  - intros c t H. apply is_space_nin. eapply drop_while_head; eauto.
Qed.
Lemma rtrim_spec s : exists b, white b /\ s = rtrim s ++ b /\ ends_solid (rtrim s).
Proof.
  exists (rev (take_while is_space (rev s))). repeat split.
  - apply white_rev. intros c H. apply is_space_in. eapply take_while_all; eauto.
  - unfold rtrim. rewrite <- rev_app_distr, take_drop, rev_involutive. auto.
  - unfold rtrim. intros c t H. apply (f_equal (@rev ascii)) in H. rewrite rev_involutive, rev_app_distr in H.
    simpl in H. apply is_space_nin. eapply drop_while_head; eauto.
Qed.
Lemma trim_spec s : exists a b, white a /\ white b /\ s = a ++ trim s ++ b /\
  begins_solid (trim s) /\ ends_solid (trim s).
Proof.
  destruct (ltrim_spec s) as (a & Ha & Ea & Sa). destruct (rtrim_spec (ltrim s)) as (b & Hb & Eb & Sb).
  exists a, b. unfold trim. repeat split; auto.
  - rewrite <- Eb. auto.
  - intros c t H. rewrite H in Eb. apply (Sa c (t ++ b)). auto.
Qed.
Lemma ltrim_solid s : begins_solid s -> ltrim s = s.
Proof. intros H. apply drop_while_stop. intros c t E. apply is_space_nin. eapply H; eauto. Qed.
Lemma rtrim_solid s : ends_solid s -> rtrim s = s.
Proof.
  intros H. unfold rtrim. rewrite drop_while_stop, rev_involutive; auto.
  intros c t E. apply is_space_nin. apply (H c (rev t)).
  apply (f_equal (@rev ascii)) in E. rewrite rev_involutive in E. auto.
Qed.
(** uniqueness: any decomposition into white, solid, white gives the trimmed string *)
Lemma ltrim_unique a s : white a -> begins_solid s -> ltrim (a ++ s) = s.
Proof.
  intros Ha Hs. unfold ltrim. rewrite drop_while_app_all.
  - apply ltrim_solid; auto.
  - intros c Hc; apply is_space_in; auto.
Qed.
Lemma rtrim_unique b s : white b -> ends_solid s -> rtrim (s ++ b) = s.
Proof.
  intros Hb Hs. unfold rtrim. rewrite rev_app_distr, drop_while_app_all.
  - apply rtrim_solid; auto.
  - intros c Hc; apply is_space_in. apply Hb. rewrite in_rev. auto.
Qed.
Lemma trim_unique a b s : white a -> white b -> begins_solid s -> ends_solid s -> trim (a ++ s ++ b) = s.
Proof.
  intros Ha Hb B E. unfold trim. destruct s as [|c t].
  - simpl. unfold ltrim. rewrite <- (app_nil_r (a ++ b)).
    rewrite drop_while_app_all; [reflexivity|].
    intros c Hc. apply is_space_in. apply in_app_or in Hc as [?|?]; auto.
  - rewrite ltrim_unique; auto.
    + apply rtrim_unique; auto.
    + intros d u Eq. simpl in Eq. inversion Eq; subst. apply (B d t); auto.
Qed.
Lemma trim_idem s : trim (trim s) = trim s.
Proof.
  destruct (trim_spec s) as (a & b & _ & _ & _ & B & E).
  pose proof (trim_unique [] [] (trim s) white_nil white_nil B E) as H.
  simpl in H. rewrite app_nil_r in H. exact H.
Qed.
Lemma ltrim_idem s : ltrim (ltrim s) = ltrim s.
Proof. destruct (ltrim_spec s) as (a & _ & _ & B). apply ltrim_solid; auto. Qed.
Lemma rtrim_idem s : rtrim (rtrim s) = rtrim s.
Proof. destruct (rtrim_spec s) as (a & _ & _ & B). apply rtrim_solid; auto. Qed.

(** ** splitting *)
Lemma nonspace_word w : no_white w -> forall c, In c w -> negb (is_space c) = true.
Proof. intros H c Hc. apply negb_true_iff, is_space_nin. auto. Qed.

Lemma extract_weave g0 w g t :
  woven g0 ((w, g) :: t) -> extract (weave g0 ((w, g) :: t)) = Some (w, weave g t).
Proof.
  intros (Hg0 & (Hne & Hw) & Hg & Ht). unfold extract. cbn [weave].
  rewrite drop_while_app_all by (intros c Hc; apply is_space_in; auto).
  destruct w as [|c w]; [congruence|].
  assert (Hc : is_space c = false) by (apply is_space_nin, Hw; now left).
  assert (E0 : drop_while is_space ((c :: w) ++ weave g t) = c :: w ++ weave g t)
    by (simpl; rewrite Hc; auto).
  rewrite E0. cbv iota zeta.
  change (c :: w ++ weave g t) with ((c :: w) ++ weave g t).
  rewrite (take_while_app_all (fun x => negb (is_space x)) (c :: w)) by (apply nonspace_word; auto).
  rewrite (drop_while_app_all (fun x => negb (is_space x)) (c :: w)) by (apply nonspace_word; auto).
  assert (Hstop : forall d u, weave g t = d :: u -> negb (is_space d) = false).
  { intros d u E. apply negb_false_iff. destruct t as [|[w' g'] t].
    - simpl in E. destruct Ht as [Ht _]. apply is_space_in, Ht. rewrite E; now left.
    - destruct g as [|d' g]; [exfalso; apply Hg; congruence|].
      simpl in E. inversion E; subst. destruct Ht as [Ht _]. apply is_space_in, Ht. now left. }
  rewrite take_while_stop, drop_while_stop, app_nil_r; auto.
Qed.
Lemma extract_white s : white s -> extract s = None.
Proof.
  intros H. unfold extract. rewrite <- (app_nil_r s).
  rewrite drop_while_app_all by (intros c Hc; apply is_space_in; auto). reflexivity.
Qed.
Lemma extract_all_weave l : forall g0 fuel, woven g0 l -> (length (weave g0 l) <= fuel)%nat ->
  extract_all fuel (weave g0 l) = map fst l.
Proof.
  induction l as [|[w g] t IH]; intros g0 fuel H Hf.
  - destruct fuel; simpl; auto. destruct H as [H _]. cbn [weave]. rewrite extract_white; auto.
  - assert (W : w <> []) by (destruct H as (_ & (? & _) & _); auto).
    assert (Hl : (length (weave g t) < length (weave g0 ((w, g) :: t)))%nat).
    { cbn [weave]. rewrite !app_length. destruct w; [congruence|]. simpl. lia. }
    destruct fuel as [|f]; [lia|]. cbn [extract_all].
    rewrite extract_weave by auto. cbn [map fst]. f_equal. apply IH; [|lia].
    destruct H as (_ & _ & _ & H); auto.
Qed.
Lemma splitSt_weave g0 l : woven g0 l -> splitSt (weave g0 l) = map fst l.
Proof.
  intros H. unfold splitSt. rewrite extract_all_weave by auto.
  clear - H. revert g0 H. induction l as [|[w g] t IH]; intros g0 H; auto.
  destruct H as (_ & (Hw & _) & _ & H). cbn [map fst filter].
  destruct (str_eqb_spec w []); [congruence|]. simpl. f_equal. eapply IH; eauto.
Qed.
(** every string is a weave *)
Lemma weave_exists_n n : forall s, (length s <= n)%nat -> exists g0 l, s = weave g0 l /\ woven g0 l.
Proof.
  induction n as [|n IH]; intros s Hs.
  - destruct s; [|simpl in Hs; lia]. exists [], []. split; auto. split; auto. apply white_nil.
  - set (g0 := take_while is_space s). set (r := drop_while is_space s).
    set (p := fun c => negb (is_space c)). set (w := take_while p r). set (r2 := drop_while p r).
    assert (Es : s = g0 ++ r) by (symmetry; apply take_drop).
    assert (Er : r = w ++ r2) by (symmetry; apply take_drop).
    assert (Hg0 : white g0) by (intros c Hc; apply is_space_in; eapply take_while_all; eauto).
    destruct r as [|c r'] eqn:R.
    + exists g0, []. rewrite Es, app_nil_r. split; auto. split; auto.
    + assert (Hc : is_space c = false) by (eapply drop_while_head; eauto).
      assert (Hw : w <> []). { unfold w. simpl. unfold p. rewrite Hc. discriminate. }
      assert (Hnw : no_white w).
      { intros d Hd. apply is_space_nin. apply negb_true_iff. change (p d = true). eapply take_while_all; eauto. }
      assert (Hr2 : forall d u, r2 = d :: u -> is_space d = true).
      { intros d u E. apply negb_false_iff. change (p d = false). eapply drop_while_head; eauto. }
      destruct (IH r2) as (g & l & E & Hl).
      { rewrite Es, Er, !app_length in Hs. destruct w; [congruence|]. simpl in Hs. lia. }
      exists g0, ((w, g) :: l). split.
      * rewrite Es, Er. cbn [weave]. rewrite E at 1. reflexivity.
      * simpl. repeat split; auto. intros Hne ->. destruct l as [|[w' g'] l]; [congruence|].
        destruct Hl as (_ & (Hw' & Hn') & _). destruct w' as [|d w']; [congruence|].
        cbn [weave app] in E. specialize (Hr2 d _ E).
        apply (Hn' d); [now left|]. apply is_space_in; auto.
Qed.
Lemma weave_exists s : exists g0 l, s = weave g0 l /\ woven g0 l.
Proof. eapply weave_exists_n; eauto. Qed.

Lemma splitSt_words s : Forall word (splitSt s).
Proof.
  destruct (weave_exists s) as (g0 & l & -> & H). rewrite splitSt_weave by auto.
  revert g0 H; induction l as [|[w g] t IH]; intros g0 H; simpl; constructor.
  - destruct H as (_ & H & _); auto.
  - destruct H as (_ & _ & _ & H). eapply IH; eauto.
Qed.
Lemma splitSt_word w : word w -> splitSt w = [w].
Proof.
  intros H. transitivity (splitSt (weave [] [(w, [])])).
  - simpl. rewrite app_nil_r. auto.
  - rewrite splitSt_weave; auto. simpl. repeat split; auto using white_nil; try apply H; congruence.
Qed.
Lemma splitSt_white s : white s -> splitSt s = [].
Proof. intros H. apply (splitSt_weave s []). split; auto. Qed.

(** ** substr *)
Lemma substr_ok s pos n : 0 <= pos <= len s -> substr s pos n =
  Ok (firstn (Z.to_nat (Z.min n (len s))) (skipn (Z.to_nat pos) s)).
Proof. intros H. unfold substr. destruct (Z.ltb_spec (len s) pos); auto. lia. Qed.
Lemma substr1_ok s pos : 0 <= pos <= len s -> substr1 s pos = Ok (skipn (Z.to_nat pos) s).
Proof. intros H. unfold substr1. destruct (Z.ltb_spec (len s) pos); auto. lia. Qed.
Lemma substr_prefix a b n : n = len a -> substr (a ++ b) 0 n = Ok a.
Proof.
  intros ->. unfold len. rewrite substr_ok by (unfold len; rewrite app_length; lia).
  unfold len. rewrite app_length. rewrite Z.min_l by lia. rewrite Nat2Z.id.
  change (Z.to_nat 0) with O. cbn [skipn]. rewrite firstn_app, firstn_all, Nat.sub_diag. simpl. rewrite app_nil_r. auto.
Qed.
Lemma substr_rest a b k n : k = len a -> len b <= n -> substr (a ++ b) k n = Ok b.
Proof.
  intros -> Hn. rewrite substr_ok by (unfold len; rewrite app_length; lia).
  unfold len in *. rewrite Nat2Z.id. rewrite skipn_app, skipn_all, Nat.sub_diag. cbn [app skipn].
  rewrite firstn_all2; auto. rewrite app_length. lia.
Qed.
Lemma substr1_rest a b k : k = len a -> substr1 (a ++ b) k = Ok b.
Proof.
  intros ->. rewrite substr1_ok by (unfold len; rewrite app_length; lia).
  unfold len. rewrite Nat2Z.id. rewrite skipn_app, skipn_all, Nat.sub_diag. auto.
Qed.
Lemma len_app a b : len (a ++ b) = len a + len b.
Proof. unfold len. rewrite app_length. lia. Qed.
Lemma len_cons c s : len (c :: s) = 1 + len s.
Proof. unfold len. cbn [length]. lia. Qed.
Lemma len_nonneg s : 0 <= len s. Proof. unfold len; lia. Qed.

(** ** searching a character set *)
Lemma mem_in c set : mem c set = true <-> In c set.
Proof.
  unfold mem. rewrite existsb_exists. split.
  - intros (x & H & E). apply Ascii.eqb_eq in E. congruence.
  - intros H. exists c. split; auto. apply Ascii.eqb_refl.
Qed.
Lemma mem_nin c set : mem c set = false <-> ~ In c set.
Proof. rewrite <- mem_in. destruct (mem c set); split; congruence. Qed.

Lemma find_first_of_some set s k : find_first_of set s = Some k ->
  exists a c b, s = a ++ c :: b /\ length a = k /\ In c set /\ forall x, In x a -> ~ In x set.
Proof.
  revert k; induction s as [|c t IH]; simpl; intros k H; [discriminate|].
  destruct (mem c set) eqn:E.
  - inversion H; subst. exists [], c, t. apply mem_in in E. repeat split; auto; simpl; tauto.
  - destruct (find_first_of set t) as [k'|] eqn:F; [|discriminate]. inversion H; subst.
    destruct (IH k' eq_refl) as (a & d & b & -> & L & I & N).
    exists (c :: a), d, b. repeat split; auto; simpl; [congruence|].
    intros x [<-|Hx]; auto. apply mem_nin; auto.
Qed.
Lemma find_first_of_none set s : find_first_of set s = None <-> (forall x, In x s -> ~ In x set).
Proof.
  induction s as [|c t IH]; simpl; split; try tauto.
  - destruct (mem c set) eqn:E; [discriminate|].
    destruct (find_first_of set t) eqn:F; [discriminate|]. intros _ x [<-|Hx]; [apply mem_nin; auto|].
    apply IH; auto.
  - intros H. destruct (mem c set) eqn:E.
    + apply mem_in in E. exfalso. apply (H c); auto.
    + rewrite (proj2 IH); auto.
Qed.
Lemma find_first_of_app set a c b : (forall x, In x a -> ~ In x set) -> In c set ->
  find_first_of set (a ++ c :: b) = Some (length a).
Proof.
  induction a as [|d a IH]; simpl; intros Ha Hc.
  - apply mem_in in Hc. rewrite Hc. auto.
  - assert (mem d set = false) as -> by (apply mem_nin; auto). rewrite IH; auto.
Qed.
Lemma find_last_of_some set s k : find_last_of set s = Some k ->
  exists a c b, s = a ++ c :: b /\ length a = k /\ In c set /\ forall x, In x b -> ~ In x set.
Proof.
  assert (Hn : forall t, find_last_of set t = None -> forall x, In x t -> ~ In x set).
  { induction t as [|d t IHt]; simpl; [tauto|].
    destruct (find_last_of set t) eqn:F; [discriminate|]. destruct (mem d set) eqn:E; [discriminate|].
    intros _ x [<-|Hx]; auto. apply mem_nin; auto. }
  revert k; induction s as [|c t IH]; simpl; intros k H; [discriminate|].
  destruct (find_last_of set t) as [k'|] eqn:F.
  - inversion H; subst. destruct (IH k' eq_refl) as (a & d & b & -> & L & I & N).
    exists (c :: a), d, b. repeat split; auto; simpl; congruence.
  - destruct (mem c set) eqn:E; [|discriminate]. inversion H; subst.
    exists [], c, t. apply mem_in in E. repeat split; auto. exact (Hn t F).
Qed.
Lemma find_last_of_none set s : find_last_of set s = None <-> (forall x, In x s -> ~ In x set).
Proof.
  induction s as [|c t IH]; simpl; split; try tauto.
  - destruct (find_last_of set t) eqn:F; [discriminate|]. destruct (mem c set) eqn:E; [discriminate|].
    intros _ x [<-|Hx]; [apply mem_nin; auto|]. apply IH; auto.
  - intros H. rewrite (proj2 IH) by auto. assert (mem c set = false) as -> by (apply mem_nin; auto). auto.
Qed.
Lemma find_last_of_app set a c b : (forall x, In x b -> ~ In x set) -> In c set ->
  find_last_of set (a ++ c :: b) = Some (length a).
Proof.
  induction a as [|d a IH]; simpl; intros Hb Hc.
  - rewrite (proj2 (find_last_of_none set b)) by auto. apply mem_in in Hc. rewrite Hc. auto.
  - rewrite IH; auto.
Qed.

(** ** paths *)
Definition sep : ascii := "/"%char.
Lemma sep_in c : In c PATH_SEPERATOR <-> c = sep.
Proof. cbn. split; [intros [<-|[]]; auto|intros ->; auto]. Qed.

Lemma path_parts p : exists d f, p = d ++ f /\ ~ In sep f /\ (d = [] \/ exists d', d = d' ++ [sep]).
Proof.
  induction p as [|c p (d & f & -> & Hf & Hd)].
  - exists [], []. repeat split; auto.
  - destruct (ascii_dec c sep) as [->|Hc].
    + exists (sep :: d), f. repeat split; auto. right.
      destruct Hd as [->|[d' ->]]; [exists []; auto|exists (sep :: d'); auto].
    + destruct Hd as [->|[d' ->]].
      * exists [], (c :: f). repeat split; auto. simpl. intros [->|H]; auto.
      * exists (c :: d' ++ [sep]), f. repeat split; auto. right; exists (c :: d'); auto.
Qed.
Lemma lastString_loop_ok n : forall d f fuel, (length d <= n)%nat -> (n < fuel)%nat -> ~ In sep f ->
  (d = [] \/ exists d', d = d' ++ [sep]) -> lastStringInPath_loop fuel (d ++ f) = Ok f.
Proof.
  induction n as [n IH] using lt_wf_ind; intros d f fuel Hn Hf Hs Hd.
  destruct fuel as [|fuel]; [lia|]. cbn [lastStringInPath_loop].
  destruct (find_first_of PATH_SEPERATOR (d ++ f)) as [k|] eqn:F.
  - apply find_first_of_some in F as (a & c & b & E & L & I & N).
    apply sep_in in I; subst c.
    assert (exists d2, d = a ++ sep :: d2) as [d2 ->].
    { destruct Hd as [->|[d' ->]].
      - simpl in E. exfalso. apply Hs. rewrite E. apply in_or_app; right; now left.
      - clear - E Hs N. revert a E N. induction d' as [|x d' IHd]; intros [|y a] E N; simpl in *.
        + inversion E. exists []. auto.
        + inversion E; subst. exfalso. apply Hs. apply in_or_app; right; now left.
        + inversion E; subst. exists (d' ++ [sep]). auto.
        + inversion E; subst. destruct (IHd a) as [d2 ->]; auto. exists d2. auto. }
    rewrite <- app_assoc. simpl. rewrite <- L.
    change (a ++ sep :: d2 ++ f) with (a ++ [sep] ++ d2 ++ f). rewrite app_assoc.
    rewrite substr_rest; [cbn [bind]| unfold len; rewrite app_length; simpl; lia | unfold len; rewrite !app_length; lia].
    assert (Hl : (length d2 < n)%nat) by (rewrite app_length in Hn; simpl in Hn; lia).
    apply (IH (length d2)); auto; try lia.
    destruct Hd as [Hd|[d' Hd]]; [destruct a; discriminate|].
    destruct d2 as [|x d2]; [now left|]. right.
    destruct (@exists_last _ (x :: d2)) as (q & y & Eq); [discriminate|]. rewrite Eq in Hd.
    change (sep :: q ++ [y]) with ((sep :: q) ++ [y]) in Hd. rewrite app_assoc in Hd.
    apply app_inj_tail in Hd as [_ ->]. eauto.
  - assert (d = []) as ->; auto.
    destruct Hd as [->|[d' ->]]; auto. exfalso.
    apply (proj1 (find_first_of_none _ _) F sep); [|apply sep_in; auto].
    rewrite <- app_assoc. apply in_or_app; right; now left.
Qed.
Lemma lastString_ok d f : ~ In sep f -> (d = [] \/ exists d', d = d' ++ [sep]) ->
  lastStringInPath (d ++ f) = Ok f.
Proof.
  intros. unfold lastStringInPath. apply (lastString_loop_ok (length d)); auto.
  rewrite app_length; lia.
Qed.
Lemma getPath_loop_ok n : forall pre d f fuel, (length d <= n)%nat -> (n < fuel)%nat -> ~ In sep f ->
  (d = [] \/ exists d', d = d' ++ [sep]) ->
  getPath_loop fuel (pre ++ d ++ f) (d ++ f) (len pre) = Ok (pre ++ d).
Proof.
  induction n as [n IH] using lt_wf_ind; intros pre d f fuel Hn Hf Hs Hd.
  destruct fuel as [|fuel]; [lia|]. cbn [getPath_loop].
  destruct (find_first_of PATH_SEPERATOR (d ++ f)) as [k|] eqn:F.
  - apply find_first_of_some in F as (a & c & b & E & L & I & N).
    apply sep_in in I; subst c.
    assert (exists d2, d = a ++ sep :: d2) as [d2 ->].
    { destruct Hd as [->|[d' ->]].
      - simpl in E. exfalso. apply Hs. rewrite E. apply in_or_app; right; now left.
      - clear - E Hs N. revert a E N. induction d' as [|x d' IHd]; intros [|y a] E N; simpl in *.
        + inversion E. exists []. auto.
        + inversion E; subst. exfalso. apply Hs. apply in_or_app; right; now left.
        + inversion E; subst. exists (d' ++ [sep]). auto.
        + inversion E; subst. destruct (IHd a) as [d2 ->]; auto. exists d2. auto. }
    replace ((a ++ sep :: d2) ++ f) with ((a ++ [sep]) ++ d2 ++ f) by (rewrite <- !app_assoc; reflexivity).
    rewrite <- L.
    rewrite substr_rest; [cbn [bind]| unfold len; rewrite app_length; simpl; lia | unfold len; rewrite !app_length; lia].
    replace (pre ++ (a ++ [sep]) ++ d2 ++ f) with ((pre ++ a ++ [sep]) ++ d2 ++ f) by (rewrite <- !app_assoc; reflexivity).
    replace (len pre + (Z.of_nat (length a) + 1)) with (len (pre ++ a ++ [sep]))
      by (unfold len; rewrite !app_length; simpl; lia).
    rewrite (substr_prefix _ (d2 ++ f)) by auto. cbn [bind].
    assert (Hl : (length d2 < n)%nat) by (rewrite app_length in Hn; simpl in Hn; lia).
    rewrite (IH (length d2)); auto; try lia.
    + f_equal. rewrite <- !app_assoc. reflexivity.
    + destruct Hd as [Hd|[d' Hd]]; [destruct a; discriminate|].
      destruct d2 as [|x d2]; [now left|]. right.
      destruct (@exists_last _ (x :: d2)) as (q & y & Eq); [discriminate|]. rewrite Eq in Hd.
      change (sep :: q ++ [y]) with ((sep :: q) ++ [y]) in Hd. rewrite app_assoc in Hd.
      apply app_inj_tail in Hd as [_ ->]. eauto.
  - assert (d = []) as ->.
    { destruct Hd as [->|[d' ->]]; auto. exfalso.
      apply (proj1 (find_first_of_none _ _) F sep); [|apply sep_in; auto].
      rewrite <- app_assoc. apply in_or_app; right; now left. }
    simpl. rewrite substr_ok by (unfold len; lia). cbn [bind].
    rewrite Z.add_0_r. rewrite substr_prefix by auto. cbn [bind]. rewrite app_nil_r. auto.
Qed.
Lemma getPath_ok d f : ~ In sep f -> (d = [] \/ exists d', d = d' ++ [sep]) -> getPath (d ++ f) = Ok d.
Proof.
  intros. unfold getPath. apply (getPath_loop_ok (length d) []); auto.
  rewrite app_length; lia.
Qed.
Lemma path_split p : exists d f, getPath p = Ok d /\ lastStringInPath p = Ok f /\ d ++ f = p /\
  ~ In sep f /\ (d = [] \/ exists d', d = d' ++ [sep]).
Proof.
  destruct (path_parts p) as (d & f & -> & Hf & Hd). exists d, f.
  repeat split; auto using getPath_ok, lastString_ok.
Qed.

(** ** prefixes and suffixes *)
Lemma size_t_small z : 0 <= z < SIZE_MOD -> size_t z = z.
Proof. intros. apply Z.mod_small; auto. Qed.
Lemma size_t_neg z : - SIZE_MOD <= z < 0 -> size_t z = z + SIZE_MOD.
Proof.
  intros. unfold size_t. rewrite <- (Z_mod_plus_full z 1). rewrite Z.mul_1_l.
  apply Z.mod_small. lia.
Qed.
Lemma firstn_len s n : 0 <= n <= len s -> len (firstn (Z.to_nat n) s) = n.
Proof. unfold len; intros. rewrite firstn_length_le; lia. Qed.
Lemma split_at s n : 0 <= n <= len s -> exists a b, s = a ++ b /\ len a = n /\ len b = len s - n.
Proof.
  intros H. exists (firstn (Z.to_nat n) s), (skipn (Z.to_nat n) s).
  split; [symmetry; apply firstn_skipn|]. split; [apply firstn_len; auto|].
  unfold len in *. rewrite skipn_length. lia.
Qed.
Lemma prefix_ok a b n : storable (a ++ b) -> len a = n -> firstN (a ++ b) n = Ok a /\ cut_beg (a ++ b) n = Ok b.
Proof.
  intros S <-. unfold storable in S. rewrite app_length in S.
  unfold firstN, cut_beg. pose proof (len_nonneg a).
  rewrite size_t_small by (unfold len, SIZE_MOD in *; lia).
  split; [apply substr_prefix; auto|]. apply substr_rest; auto. rewrite len_app; lia.
Qed.
Lemma suffix_ok a b n : storable (a ++ b) -> len b = n -> cut_end (a ++ b) n = Ok a /\ lastN (a ++ b) n = Ok b.
Proof.
  intros S <-. unfold storable in S. rewrite app_length in S.
  unfold cut_end, lastN. pose proof (len_nonneg a). pose proof (len_nonneg b).
  rewrite len_app. replace (len a + len b - len b) with (len a) by lia.
  rewrite size_t_small by (unfold len, SIZE_MOD in *; lia).
  split; [apply substr_prefix; auto|]. apply substr1_rest; auto.
Qed.
Lemma substr_whole s n : len s <= n -> substr s 0 n = Ok s.
Proof.
  intros. rewrite substr_ok by (pose proof (len_nonneg s); lia).
  change (Z.to_nat 0) with O. cbn [skipn]. rewrite firstn_all2; auto. unfold len in *. lia.
Qed.
Lemma too_long s n : storable s -> is_int n -> len s < n ->
  lastN s n = Throw OutOfRange /\ cut_beg s n = Throw OutOfRange /\ firstN s n = Ok s /\ cut_end s n = Ok s.
Proof.
  unfold storable, is_int, INT_MIN, INT_MAX. intros S I H. pose proof (len_nonneg s).
  unfold lastN, cut_beg, firstN, cut_end.
  rewrite (size_t_neg (len s - n)), (size_t_small n) by (unfold len, SIZE_MOD in *; lia).
  repeat split; try (apply substr_whole; unfold len, SIZE_MOD in *; lia).
  - unfold substr1. destruct (Z.ltb_spec (len s) (len s - n + SIZE_MOD)); auto. unfold SIZE_MOD in *; lia.
  - unfold substr. destruct (Z.ltb_spec (len s) n); auto. lia.
Qed.
Lemma negative_n s n : storable s -> is_int n -> n < 0 ->
  lastN s n = Throw OutOfRange /\ cut_beg s n = Throw OutOfRange /\ firstN s n = Ok s /\ cut_end s n = Ok s.
Proof.
  unfold storable, is_int, INT_MIN, INT_MAX. intros S I H. pose proof (len_nonneg s).
  unfold lastN, cut_beg, firstN, cut_end.
  rewrite (size_t_neg n), (size_t_small (len s - n)) by (unfold len, SIZE_MOD in *; lia).
  repeat split; try (apply substr_whole; unfold len, SIZE_MOD in *; lia).
  - unfold substr1. destruct (Z.ltb_spec (len s) (len s - n)); auto. lia.
  - unfold substr. destruct (Z.ltb_spec (len s) (n + SIZE_MOD)); auto. unfold len, SIZE_MOD in *; lia.
Qed.

(** ** substring search *)
Lemma starts_with_iff p s : starts_with p s = true <-> exists b, s = p ++ b.
Proof.
  revert s; induction p as [|x p IH]; intros s; simpl.
  - split; eauto.
  - destruct s as [|y s].
    + split; [discriminate|]. intros [b E]; discriminate.
    + rewrite andb_true_iff, IH, Ascii.eqb_eq. split.
      * intros [-> [b ->]]. eauto.
      * intros [b E]. inversion E; subst. eauto.
Qed.
Lemma find_some occ s k : find occ s = Some k ->
  exists a b, first_at occ s a b /\ length a = k.
Proof.
  revert k; induction s as [|c t IH]; intros k H.
  - simpl in H. destruct (starts_with occ []) eqn:E; [|discriminate]. inversion H; subst.
    apply starts_with_iff in E as [b ->]. exists [], b. split; auto. split; auto. intros; simpl; lia.
  - cbn [find] in H. destruct (starts_with occ (c :: t)) eqn:E.
    + inversion H; subst. apply starts_with_iff in E as [b E]. exists [], b. split; auto.
      split; auto. intros; simpl; lia.
    + destruct (find occ t) as [k'|] eqn:F; [|discriminate]. inversion H; subst.
      destruct (IH k' eq_refl) as (a & b & [Eq Min] & L). exists (c :: a), b. split; [|simpl; congruence].
      split; [simpl; congruence|]. intros [|x a'] b' E'.
      * exfalso. assert (starts_with occ (c :: t) = true) by (apply starts_with_iff; exists b'; auto). congruence.
      * simpl in E'. inversion E'; subst. specialize (Min _ _ H2). simpl; lia.
Qed.
Lemma find_none occ s : find occ s = None <-> ~ occurs occ s.
Proof.
  split.
  - induction s as [|c t IH]; cbn [find]; intros H [a [b E]].
    + destruct (starts_with occ []) eqn:F; [discriminate|].
      destruct a; [|discriminate]. assert (starts_with occ [] = true) by (apply starts_with_iff; exists b; auto). congruence.
    + destruct (starts_with occ (c :: t)) eqn:F; [discriminate|].
      destruct (find occ t) eqn:G; [discriminate|]. destruct a as [|x a].
      * assert (starts_with occ (c :: t) = true) by (apply starts_with_iff; exists b; auto). congruence.
      * simpl in E; inversion E; subst. apply IH; auto. exists a, b; auto.
  - intros H. destruct (find occ s) as [k|] eqn:E; auto. exfalso. apply H.
    apply find_some in E as (a & b & [Eq _] & _). exists a, b; auto.
Qed.
Lemma first_at_unique occ s a b a' b' : first_at occ s a b -> first_at occ s a' b' -> a = a' /\ b = b'.
Proof.
  intros [E M] [E' M'].
  assert (L : length a = length a') by (apply Nat.le_antisymm; [eapply M; eauto|eapply M'; eauto]).
  rewrite E in E'. clear - E' L. revert a' E' L; induction a as [|x a IH]; intros [|y a'] E L; try discriminate.
  - simpl in E. split; auto. eapply app_inv_head; eauto.
  - simpl in E; inversion E; subst. simpl in L. destruct (IH a'); auto; try lia. subst; auto.
Qed.
Lemma find_first_at occ s a b : first_at occ s a b -> find occ s = Some (length a).
Proof.
  intros H. destruct (find occ s) as [k|] eqn:E.
  - apply find_some in E as (a' & b' & H' & L). destruct (first_at_unique _ _ _ _ _ _ H H'). subst; auto.
  - exfalso. apply (proj1 (find_none _ _) E). exists a, b. apply H.
Qed.
Lemma found_iff s sub : foundSubStrInStr s sub = true <-> occurs sub s.
Proof.
  unfold foundSubStrInStr. destruct (find sub s) eqn:E; split; auto; try discriminate.
  - intros _. apply find_some in E as (a & b & [Eq _] & _). exists a, b; auto.
  - intros H. exfalso. apply (proj1 (find_none _ _) E); auto.
Qed.
Lemma grab_first occ s a b : first_at occ s a b ->
  grabStrBeforeFirstOccurance s occ = Ok a /\ grabStrAfterFirstOccurance s occ = Ok b.
Proof.
  intros H. pose proof (find_first_at _ _ _ _ H) as F. destruct H as [E _].
  unfold grabStrBeforeFirstOccurance, grabStrAfterFirstOccurance. rewrite F, E. split.
  - apply substr_prefix; auto.
  - rewrite app_assoc. apply substr1_rest. rewrite len_app. auto.
Qed.
Lemma grab_first_none occ s : ~ occurs occ s ->
  grabStrBeforeFirstOccurance s occ = Ok s /\ grabStrAfterFirstOccurance s occ = Ok [].
Proof.
  intros H. apply find_none in H. unfold grabStrBeforeFirstOccurance, grabStrAfterFirstOccurance.
  rewrite H. auto.
Qed.
Lemma occurs_first_at occ s : occurs occ s -> exists a b, first_at occ s a b.
Proof.
  intros H. destruct (find occ s) as [k|] eqn:E.
  - apply find_some in E as (a & b & ? & _). eauto.
  - exfalso. apply (proj1 (find_none _ _) E); auto.
Qed.

(** last occurrence of a one-character string *)
Lemma last_at_char c s a b : last_at [c] s a b -> s = a ++ c :: b /\ ~ In c b.
Proof.
  intros [E M]. split; auto. intros H. apply in_split in H as (u & v & ->).
  specialize (M (a ++ c :: u) v). simpl in E. rewrite E in M.
  specialize (M ltac:(rewrite <- app_assoc; auto)). rewrite app_length in M. simpl in M. lia.
Qed.
Lemma grab_last c s a b : last_at [c] s a b ->
  grabStrBeforeLastOccurance s [c] = Ok a /\ grabStrAfterLastOccurance s [c] = Ok b /\
  grabStrBeforeLastOccuranceInclusive s [c] = Ok (a ++ [c]) /\ grabStrAfterLastOccuranceInclusive s [c] = Ok (c :: b).
Proof.
  intros H. apply last_at_char in H as [-> H].
  assert (F : find_last_of [c] (a ++ c :: b) = Some (length a)).
  { apply find_last_of_app; [|now left]. intros x Hx [<-|[]]. auto. }
  unfold grabStrBeforeLastOccurance, grabStrAfterLastOccurance, grabStrBeforeLastOccuranceInclusive,
    grabStrAfterLastOccuranceInclusive. rewrite F.
  assert (E2 : a ++ c :: b = (a ++ [c]) ++ b) by (rewrite <- app_assoc; auto).
  repeat split.
  - apply substr_prefix; auto.
  - rewrite E2. apply substr1_rest. rewrite len_app. auto.
  - rewrite E2. apply substr_prefix. rewrite len_app. auto.
  - apply substr1_rest. auto.
Qed.
Lemma grab_last_none c s : ~ occurs [c] s ->
  grabStrBeforeLastOccurance s [c] = Ok s /\ grabStrAfterLastOccurance s [c] = Ok [] /\
  grabStrBeforeLastOccuranceInclusive s [c] = Ok s /\ grabStrAfterLastOccuranceInclusive s [c] = Ok [].
Proof.
  intros H. assert (F : find_last_of [c] s = None).
  { apply find_last_of_none. intros x Hx [<-|[]]. apply H. apply in_split in Hx as (u & v & ->).
    exists u, v. auto. }
  unfold grabStrBeforeLastOccurance, grabStrAfterLastOccurance, grabStrBeforeLastOccuranceInclusive,
    grabStrAfterLastOccuranceInclusive. rewrite F. auto.
Qed.
(** what the helpers do for every pattern: split at the last character that belongs to the pattern *)
Lemma grab_last_set set a c b : In c set -> (forall x, In x b -> ~ In x set) ->
  grabStrBeforeLastOccurance (a ++ c :: b) set = Ok a /\ grabStrAfterLastOccurance (a ++ c :: b) set = Ok b /\
  grabStrBeforeLastOccuranceInclusive (a ++ c :: b) set = Ok (a ++ [c]) /\
  grabStrAfterLastOccuranceInclusive (a ++ c :: b) set = Ok (c :: b).
Proof.
  intros Hc Hb. pose proof (find_last_of_app set a c b Hb Hc) as F.
  unfold grabStrBeforeLastOccurance, grabStrAfterLastOccurance, grabStrBeforeLastOccuranceInclusive,
    grabStrAfterLastOccuranceInclusive. rewrite F.
  assert (E2 : a ++ c :: b = (a ++ [c]) ++ b) by (rewrite <- app_assoc; auto).
  repeat split.
  - apply substr_prefix; auto.
  - rewrite E2. apply substr1_rest. rewrite len_app. auto.
  - rewrite E2. apply substr_prefix. rewrite len_app. auto.
  - apply substr1_rest. auto.
Qed.

(** ** isAlphabetical *)
Lemma is_alpha_in c : is_alpha c = true <-> In c letters.
Proof.
  split.
  - destruct c as [[] [] [] [] [] [] [] []]; vm_compute; intros H; try discriminate; tauto.
  - intros H. cbn in H. repeat (destruct H as [<-|H]; [reflexivity|]). destruct H.
Qed.
Lemma isAlphabetical_iff s : isAlphabetical s = true <-> s <> [] /\ forall c, In c s -> In c letters.
Proof.
  unfold isAlphabetical. rewrite andb_true_iff, forallb_forall, negb_true_iff, str_eqb_neq.
  split; intros [H1 H2]; split; auto; intros c Hc; apply is_alpha_in; auto.
Qed.

(** ** removeSpace *)
Lemma upd_app {A} (a : list A) x b y : upd (a ++ x :: b) (length a) y = a ++ y :: b.
Proof. induction a; simpl; congruence. Qed.
Lemma removeSpace_inv t : forall w g r fuel, ~ In NUL t -> (length t < fuel)%nat ->
  exists x, removeSpace_loop fuel (w ++ g ++ t ++ NUL :: r) (length w) (length (w ++ g))
             = Ok (w ++ without_blanks t ++ NUL :: x ++ r) /\
             length (w ++ g ++ t ++ NUL :: r) = length (w ++ without_blanks t ++ NUL :: x ++ r).
Proof.
  induction t as [|c t IH]; intros w g r fuel Hn Hf; (destruct fuel as [|fuel]; [simpl in Hf; lia|]).
  - cbn [removeSpace_loop app]. rewrite app_assoc.
    rewrite nth_error_app2, Nat.sub_diag by lia. cbn [nth_error].
    change (Ascii.eqb NUL " ") with false. change (Ascii.eqb NUL NUL) with true. cbv iota.
    rewrite <- app_assoc. destruct g as [|x0 g].
    + simpl app. rewrite upd_app. exists []. split; auto.
    + rewrite <- app_comm_cons, upd_app. exists (g ++ [NUL]). rewrite <- app_assoc. split; [reflexivity|].
      repeat (rewrite !app_length; simpl). lia.
  - cbn [removeSpace_loop]. replace (w ++ g ++ (c :: t) ++ NUL :: r) with ((w ++ g) ++ c :: t ++ NUL :: r)
      by (rewrite <- app_assoc; reflexivity).
    rewrite nth_error_app2, Nat.sub_diag by lia. cbn [nth_error].
    assert (Hc : Ascii.eqb c NUL = false).
    { apply Ascii.eqb_neq. intros ->. apply Hn; now left. }
    rewrite Hc. assert (Hn' : ~ In NUL t) by (intros H; apply Hn; now right).
    simpl in Hf. destruct (Ascii.eqb c " ") eqn:B.
    + unfold without_blanks. cbn [filter]. rewrite B. cbn [negb]. fold (without_blanks t).
      destruct (IH w (g ++ [c]) r fuel Hn') as (x' & E & L); [lia|].
      exists x'. rewrite <- !app_assoc in E, L. simpl in E, L.
      rewrite <- app_assoc. split; [|exact L]. rewrite <- E. f_equal.
      rewrite !app_length. simpl. lia.
    + unfold without_blanks. cbn [filter]. rewrite B. cbn [negb app]. fold (without_blanks t).
      replace ((w ++ g) ++ c :: t ++ NUL :: r) with (w ++ g ++ c :: t ++ NUL :: r) by (rewrite <- app_assoc; auto).
      destruct g as [|x0 g].
      * simpl app. rewrite upd_app.
        destruct (IH (w ++ [c]) [] r fuel Hn') as (x' & E & L); [lia|]. exists x'. split.
        -- etransitivity; [|etransitivity; [exact E|]].
           ++ f_equal; [rewrite <- !app_assoc; reflexivity|rewrite !app_length; simpl; lia|rewrite !app_length; simpl; lia].
           ++ f_equal. rewrite <- !app_assoc; reflexivity.
        -- revert L. repeat (rewrite !app_length; simpl). lia.
      * rewrite <- app_comm_cons, upd_app.
        destruct (IH (w ++ [c]) (g ++ [c]) r fuel Hn') as (x' & E & L); [lia|]. exists x'. split.
        -- etransitivity; [|etransitivity; [exact E|]].
           ++ f_equal; [rewrite <- !app_assoc; reflexivity|rewrite !app_length; simpl; lia|rewrite !app_length; simpl; rewrite ?app_length; simpl; lia].
           ++ f_equal. rewrite <- !app_assoc; reflexivity.
        -- revert L. rewrite !app_length. simpl. rewrite !app_length. simpl. rewrite ?app_length; simpl; lia.
Qed.
Lemma removeSpace_ok t r : ~ In NUL t ->
  exists x, removeSpace (t ++ NUL :: r) = Ok (without_blanks t ++ NUL :: x ++ r) /\
             length (without_blanks t ++ NUL :: x ++ r) = length (t ++ NUL :: r).
Proof.
  intros H. unfold removeSpace.
  destruct (removeSpace_inv t [] [] r (Datatypes.S (length (t ++ NUL :: r))) H) as (x' & E & L).
  { rewrite app_length; lia. }
  exists x'. simpl in E, L. auto.
Qed.
Lemma removeSpace_unterminated_loop t : forall b s2 w fuel, ~ In NUL b -> (length b <= s2 + t)%nat -> (t < fuel)%nat ->
  (w <= s2)%nat -> (s2 <= length b)%nat ->
  removeSpace_loop fuel b w s2 = Undef OutOfBounds.
Proof.
  induction t as [|t IH]; intros b s2 w fuel Hn Hl Hf Hw Hs; (destruct fuel as [|fuel]; [lia|]); cbn [removeSpace_loop].
  - assert (nth_error b s2 = None) as -> by (apply nth_error_None; lia). auto.
  - destruct (nth_error b s2) as [c|] eqn:E; auto.
    assert (Hlt : (s2 < length b)%nat) by (apply nth_error_Some; congruence).
    apply nth_error_In in E.
    assert (Ascii.eqb c NUL = false) as -> by (apply Ascii.eqb_neq; intros ->; auto).
    apply IH; try lia.
    + destruct (Ascii.eqb c " "); auto. intros H. apply Hn.
      clear - H E Hn. assert (forall b w, In NUL (upd b w c) -> NUL = c \/ In NUL b).
      { induction b0 as [|y b0 IHb]; intros [|w0] I; simpl in *; auto.
        - destruct I; auto.
        - destruct I as [I|I]; auto. apply IHb in I. tauto. }
      apply H0 in H as [H|H]; auto. congruence.
    + destruct (Ascii.eqb c " "); rewrite ?length_upd; lia.
    + destruct (Ascii.eqb c " "); lia.
    + destruct (Ascii.eqb c " "); rewrite ?length_upd; lia.
Qed.
