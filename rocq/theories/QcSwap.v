(** * Facts about refreshSwapOrder and updateSwapLists *)
From Verif Require Export QcModel QcSpec.
From Verif Require Import MatrixFacts MatrixCtor.
Open Scope Z_scope.

Definition ret (was is : Z) (p : Z * Z) : Z * Z := if was =? snd p then (fst p, is) else p.

Lemma ret_same w p : ret w w p = p.
Proof. unfold ret. destruct p as [a b]; simpl. destruct (Z.eqb_spec w b); subst; auto. Qed.
Lemma map_ret_same w l : map (ret w w) l = l.
Proof. induction l; simpl; [auto|]. rewrite ret_same, IHl. reflexivity. Qed.
Lemma map_fst_ret w s l : map fst (map (ret w s) l) = map fst l.
Proof. induction l as [|[a b] l IH]; simpl; auto. rewrite IH. unfold ret; simpl. destruct (w =? b); auto. Qed.

Lemma find_second_app w pre l : find_second w (pre ++ l) (length pre) = (length pre + find_second w l 0)%nat.
Proof. induction pre as [|a pre IH]; simpl; auto. Qed.

Lemma find_second_split w l :
  (find_second w l 0 = length l /\ forall p, In p l -> snd p <> w) \/
  exists s1 h s2, l = s1 ++ h :: s2 /\ snd h = w /\ find_second w l 0 = length s1 /\ forall p, In p s1 -> snd p <> w.
Proof.
  induction l as [|p l IH]; simpl; [left; split; auto; contradiction|].
  destruct (Z.eqb_spec w (snd p)) as [E|E].
  - right. exists [], p, l. repeat split; auto.
  - destruct IH as [[E1 E2]|(s1 & h & s2 & -> & E2 & E3 & E4)].
    + left. split; [rewrite E1; auto|]. intros q [->|Hq]; auto.
    + right. exists (p :: s1), h, s2. simpl. repeat split; auto.
      intros q [->|Hq]; auto.
Qed.

Lemma map_ret_none w s l : (forall p, In p l -> snd p <> w) -> map (ret w s) l = l.
Proof.
  induction l as [|p l IH]; intros H; simpl; auto. rewrite IH by (intros; apply H; simpl; auto).
  unfold ret. destruct (Z.eqb_spec w (snd p)); auto. exfalso; apply (H p); simpl; auto.
Qed.

Definition hits (w : Z) (l : list (Z * Z)) : nat := length (filter (fun p => w =? snd p) l).
Lemma hits_le w l : (hits w l <= length l)%nat.
Proof. unfold hits. induction l as [|p l IH]; simpl; auto. destruct (w =? snd p); simpl; lia. Qed.
Lemma hits_none w l : (forall p, In p l -> snd p <> w) -> hits w l = O.
Proof.
  unfold hits. induction l as [|p l IH]; intros H; simpl; auto.
  destruct (Z.eqb_spec w (snd p)) as [E|]; [exfalso; apply (H p); simpl; auto|]. apply IH. intros; apply H; simpl; auto.
Qed.
Lemma hits_app w l l' : hits w (l ++ l') = (hits w l + hits w l')%nat.
Proof. unfold hits. rewrite filter_app, app_length. reflexivity. Qed.

Lemma upd_app {X} (l : list X) y l' x : upd (l ++ y :: l') (length l) x = l ++ x :: l'.
Proof. induction l as [|a l IH]; simpl; auto. rewrite IH; auto. Qed.
Lemma nth_error_mid {X} (l : list X) y l' : nth_error (l ++ y :: l') (length l) = Some y.
Proof. induction l as [|a l IH]; simpl; auto. Qed.

Lemma retarget_ok w s : forall fuel pre suf,
  (hits w suf + 2 <= fuel)%nat -> (w <> s \/ hits w suf = O) ->
  retarget fuel w s (pre ++ suf) (length pre) = Ok (pre ++ map (ret w s) suf).
Proof.
  induction fuel as [|fuel IH]; intros pre suf Hf Hne; [lia|]. cbn [retarget].
  destruct (Nat.eqb_spec (length pre) (length (pre ++ suf))) as [E|E].
  - rewrite app_length in E. assert (suf = []) by (destruct suf; auto; simpl in E; lia). subst. reflexivity.
  - rewrite find_second_app.
    destruct (find_second_split w suf) as [[E1 E2]|(s1 & h & s2 & -> & E2 & E3 & E4)].
    + rewrite E1, <- app_length.
      assert (En : nth_error (pre ++ suf) (length (pre ++ suf)) = None) by (apply nth_error_None; lia).
      rewrite En, map_ret_none by auto.
      destruct fuel as [|fuel]; [lia|]. cbn [retarget]. rewrite Nat.eqb_refl. reflexivity.
    + rewrite E3, app_assoc, <- app_length, nth_error_mid, upd_app.
      destruct Hne as [Hne|Hne].
      2:{ unfold hits in Hne. rewrite filter_app in Hne. simpl in Hne. rewrite <- E2, Z.eqb_refl, app_length in Hne.
          simpl in Hne. lia. }
      rewrite hits_app in Hf. rewrite (hits_none w s1 E4) in Hf. unfold hits in Hf at 1. simpl filter in Hf.
      rewrite <- E2, Z.eqb_refl in Hf. simpl in Hf. rewrite E2 in Hf. fold (hits w s2) in Hf.
      rewrite IH; auto.
      * rewrite map_app, (map_ret_none w s s1 E4). cbn [map]. unfold ret at 1. simpl snd.
        destruct (Z.eqb_spec w s) as [Ew|_]; [contradiction|].
        unfold ret at 2. rewrite E2, Z.eqb_refl. rewrite <- !app_assoc. reflexivity.
      * unfold hits. simpl filter. destruct (Z.eqb_spec w s) as [Ew|_]; [contradiction|]. fold (hits w s2). lia.
Qed.

(** the loop that never ends *)
Lemma retarget_forever w : forall fuel l pos, (exists p k, (pos <= k)%nat /\ nth_error l k = Some p /\ snd p = w) ->
  retarget fuel w w l pos = NoFuel.
Proof.
  induction fuel as [|fuel IH]; intros l pos (p & k & Hk & Hp & Hw); auto. cbn [retarget].
  assert (Hlen : (k < length l)%nat) by (apply nth_error_Some; rewrite Hp; discriminate).
  destruct (Nat.eqb_spec pos (length l)) as [E|E]; [lia|].
  assert (Hl : l = firstn pos l ++ skipn pos l) by (symmetry; apply firstn_skipn).
  assert (Hfl : length (firstn pos l) = pos) by (rewrite firstn_length; lia).
  pose proof (find_second_app w (firstn pos l) (skipn pos l)) as Ef. rewrite firstn_skipn, Hfl in Ef. rewrite Ef. cbv zeta.
  assert (Hin : In p (skipn pos l)).
  { apply nth_error_In with (n := (k - pos)%nat).
    rewrite Hl in Hp. rewrite nth_error_app2 in Hp by lia. rewrite Hfl in Hp. exact Hp. }
  destruct (find_second_split w (skipn pos l)) as [[E1 E2]|(s1 & h & s2 & Es & E2 & E3 & E4)].
  { exfalso. apply (E2 p Hin Hw). }
  rewrite E3. assert (En : nth_error l (pos + length s1) = Some h).
  { rewrite Hl. rewrite <- Hfl at 3. rewrite Es, app_assoc, <- app_length, nth_error_mid. reflexivity. }
  rewrite En. assert (Hh : (fst h, w) = h) by (destruct h; simpl in *; subst; reflexivity).
  rewrite Hh. apply IH. exists h, (pos + length s1)%nat. split; auto. split; auto.
  rewrite nth_error_upd_eq; auto. apply nth_error_Some. rewrite En; discriminate.
Qed.

(** what refreshing computes: process the first [n] pairs from left to right *)
Fixpoint refr (n : nat) (l : list (Z * Z)) : list (Z * Z) :=
  match n, l with
  | S n', p :: t => p :: refr n' (map (ret (fst p) (snd p)) t)
  | _, _ => l
  end.
Lemma length_refr n : forall l, length (refr n l) = length l.
Proof. induction n as [|n IH]; intros [|p t]; simpl; auto. rewrite IH, map_length. reflexivity. Qed.
Fixpoint okn (n : nat) (l : list (Z * Z)) : Prop :=
  match n, l with
  | S n', p :: t => (fst p <> snd p \/ ~ In (fst p) (map snd t)) /\ okn n' (map (ret (fst p) (snd p)) t)
  | _, _ => True
  end.

Lemma not_in_hits w l : ~ In w (map snd l) -> hits w l = O.
Proof. intros H. apply hits_none. intros p Hp E. apply H. subst. apply in_map; auto. Qed.

Lemma for_up_cons {S} (body : Z -> S -> outcome S) (d : nat) (r : nat) s :
  for_up (Z.of_nat d + 1) (Z.of_nat (d + Datatypes.S r)) body s =
  (s' <- body (Z.of_nat d + 1) s ;; for_up (Z.of_nat (Datatypes.S d) + 1) (Z.of_nat (Datatypes.S d + r)) body s').
Proof.
  rewrite for_up_step by lia. replace (Z.of_nat (Datatypes.S d)) with (Z.of_nat d + 1) by lia.
  replace (Z.of_nat (Datatypes.S d + r)) with (Z.of_nat (d + Datatypes.S r)) by lia. reflexivity.
Qed.

Lemma pair_at_mid (done : list (Z * Z)) p t : pair_at (done ++ p :: t) (Z.of_nat (length done) + 1) = Ok p.
Proof.
  unfold pair_at. replace (Z.to_nat _) with (length done) by lia. rewrite nth_error_mid. reflexivity.
Qed.

Lemma snoc_cons {X} (l : list X) x l' : l ++ x :: l' = (l ++ [x]) ++ l'.
Proof. rewrite <- app_assoc. reflexivity. Qed.

Lemma refresh1_loop fuel : forall r rest done,
  length rest = r -> (length rest + 2 <= fuel)%nat -> okn r rest ->
  for_up (Z.of_nat (length done) + 1) (Z.of_nat (length done + r)) (fun i A =>
    pr <- pair_at A i ;; retarget fuel (fst pr) (snd pr) A (Z.to_nat i)) (done ++ rest)
  = Ok (done ++ refr r rest).
Proof.
  induction r as [|r IH]; intros rest done HL Hf Hok.
  - destruct rest; [|discriminate]. rewrite for_up_empty by lia. reflexivity.
  - destruct rest as [|p t]; [discriminate|]. simpl in HL. cbn [okn] in Hok. destruct Hok as [Hp Hok].
    rewrite for_up_cons, pair_at_mid. cbn [bind].
    rewrite snoc_cons. replace (Z.to_nat (Z.of_nat (length done) + 1)) with (length (done ++ [p]))
      by (rewrite app_length; simpl; lia).
    rewrite retarget_ok.
    + cbn [bind]. rewrite <- app_assoc. cbn [app]. rewrite snoc_cons.
      replace (Datatypes.S (length done)) with (length (done ++ [p])) by (rewrite app_length; simpl; lia).
      rewrite IH; auto.
      * cbn [refr]. rewrite <- app_assoc. reflexivity.
      * rewrite map_length; lia.
      * rewrite map_length. simpl in Hf. lia.
    + pose proof (hits_le (fst p) t). simpl in Hf. lia.
    + destruct Hp; auto. right. apply not_in_hits; auto.
Qed.

Lemma refresh1_ok fuel A : (length A + 2 <= fuel)%nat -> okn (length A) A ->
  refreshSwapOrder1 fuel A = Ok (refr (length A) A).
Proof.
  intros Hf Hok. unfold refreshSwapOrder1.
  pose proof (refresh1_loop fuel (length A) A [] eq_refl Hf Hok) as H. exact H.
Qed.

Lemma refresh2_loopA fuel : forall r rest done,
  length rest = r -> (length rest + 2 <= fuel)%nat ->
  for_up (Z.of_nat (length done) + 1) (Z.of_nat (length done + r)) (fun i A =>
    pr <- pair_at A i ;; if fst pr =? snd pr then Ok A else retarget fuel (fst pr) (snd pr) A (Z.to_nat i)) (done ++ rest)
  = Ok (done ++ refr r rest).
Proof.
  induction r as [|r IH]; intros rest done HL Hf.
  - destruct rest; [|discriminate]. rewrite for_up_empty by lia. reflexivity.
  - destruct rest as [|p t]; [discriminate|]. simpl in HL.
    rewrite for_up_cons, pair_at_mid. cbn [bind refr].
    assert (Hgo : for_up (Z.of_nat (Datatypes.S (length done)) + 1) (Z.of_nat (Datatypes.S (length done) + r))
      (fun i A => pr <- pair_at A i ;; if fst pr =? snd pr then Ok A else retarget fuel (fst pr) (snd pr) A (Z.to_nat i))
      (done ++ p :: map (ret (fst p) (snd p)) t) = Ok (done ++ p :: refr r (map (ret (fst p) (snd p)) t))).
    { rewrite (snoc_cons done p (map _ t)).
      replace (Datatypes.S (length done)) with (length (done ++ [p])) by (rewrite app_length; simpl; lia).
      rewrite IH; [rewrite <- app_assoc; reflexivity|rewrite map_length; lia|rewrite map_length; simpl in Hf; lia]. }
    destruct (Z.eqb_spec (fst p) (snd p)) as [E|E].
    + cbn [bind]. rewrite E, map_ret_same in Hgo. rewrite E, map_ret_same. exact Hgo.
    + rewrite snoc_cons at 1. replace (Z.to_nat (Z.of_nat (length done) + 1)) with (length (done ++ [p]))
        by (rewrite app_length; simpl; lia).
      rewrite retarget_ok; auto.
      * cbn [bind]. rewrite <- app_assoc. exact Hgo.
      * pose proof (hits_le (fst p) t). simpl in Hf. lia.
Qed.

Lemma refresh2_loopB fuel : forall r rest done A,
  length rest = r -> (length rest + length A + 2 <= fuel)%nat -> okn r (rest ++ A) ->
  exists B' A', for_up (Z.of_nat (length done) + 1) (Z.of_nat (length done + r)) (fun i BA =>
    pr <- pair_at (fst BA) i ;;
    B' <- retarget fuel (fst pr) (snd pr) (fst BA) (Z.to_nat i) ;;
    A' <- retarget fuel (fst pr) (snd pr) (snd BA) 0 ;;
    Ok (B', A')) (done ++ rest, A) = Ok (done ++ B', A') /\
  B' ++ A' = refr r (rest ++ A) /\ length B' = r /\ length A' = length A.
Proof.
  induction r as [|r IH]; intros rest done A HL Hf Hok.
  - destruct rest; [|discriminate]. rewrite for_up_empty by lia. exists [], A. auto.
  - destruct rest as [|p t]; [discriminate|]. simpl in HL. simpl app in Hok. cbn [okn] in Hok. destruct Hok as [Hp Hok].
    assert (Hp1 : fst p <> snd p \/ hits (fst p) t = O).
    { destruct Hp as [|Hp]; auto. right. apply not_in_hits. intros H; apply Hp. rewrite map_app, in_app_iff; auto. }
    assert (Hp2 : fst p <> snd p \/ hits (fst p) A = O).
    { destruct Hp as [|Hp]; auto. right. apply not_in_hits. intros H; apply Hp. rewrite map_app, in_app_iff; auto. }
    simpl in Hf. pose proof (hits_le (fst p) t). pose proof (hits_le (fst p) A).
    destruct (IH (map (ret (fst p) (snd p)) t) (done ++ [p]) (map (ret (fst p) (snd p)) A)) as (B' & A' & E & E1 & E2 & E3).
    { rewrite map_length; lia. } { rewrite !map_length; lia. }
    { rewrite <- map_app. exact Hok. }
    exists (p :: B'), A'. rewrite for_up_cons. cbn [fst snd]. rewrite pair_at_mid. cbn [bind].
    rewrite snoc_cons. replace (Z.to_nat (Z.of_nat (length done) + 1)) with (length (done ++ [p]))
      by (rewrite app_length; simpl; lia).
    rewrite retarget_ok by (auto; lia). cbn [bind].
    pose proof (retarget_ok (fst p) (snd p) fuel [] A) as HA. cbn [app length] in HA. rewrite HA by (auto; lia). cbn [bind].
    replace (Datatypes.S (length done)) with (length (done ++ [p])) by (rewrite app_length; simpl; lia).
    split.
    + rewrite E. rewrite <- app_assoc. reflexivity.
    + cbn [app refr length]. rewrite E1, map_app, E3, map_length, E2. auto.
Qed.

Lemma refr_app_split : forall (b : nat) l, (b <= length l)%nat ->
  forall a, refr (b + a) l = firstn b (refr b l) ++ refr a (skipn b (refr b l)).
Proof.
  induction b as [|b IH]; intros l HL a; auto.
  destruct l as [|p t]; [simpl in HL; lia|]. cbn [refr Nat.add firstn skipn app]. f_equal.
  apply IH. rewrite map_length. simpl in HL; lia.
Qed.

Lemma refresh2_ok fuel B A : (length B + length A + 2 <= fuel)%nat -> okn (length B) (B ++ A) ->
  exists B' A', refreshSwapOrder2 fuel B A = Ok (B', A') /\
    B' ++ A' = refr (length B + length A) (B ++ A) /\ length B' = length B.
Proof.
  intros Hf Hok. unfold refreshSwapOrder2.
  destruct (refresh2_loopB fuel (length B) B [] A eq_refl Hf Hok) as (B' & A1 & E & E1 & E2 & E3).
  cbn [length app Nat.add Z.of_nat] in E. change (0 + 1) with 1 in E. rewrite E. cbn [bind fst snd].
  pose proof (refresh2_loopA fuel (length A1) A1 [] eq_refl) as HA. cbn [length app Nat.add Z.of_nat] in HA.
  change (0 + 1) with 1 in HA. rewrite HA by lia. cbn [bind].
  exists B', (refr (length A1) A1). split; auto. split; auto.
  rewrite E3. rewrite refr_app_split by (rewrite app_length; lia).
  rewrite <- E1. rewrite <- E2. rewrite firstn_app, skipn_app, Nat.sub_diag, firstn_all, skipn_all, firstn_O, app_nil_r.
  reflexivity.
Qed.

(** ** The swaps *)
Section Run.
Context {X : Type}.
Implicit Types L : list X.

Definition at_ L (k : Z) : option X := if k <? 1 then None else nth_error L (Z.to_nat (k - 1)).

Fixpoint run (n : nat) (l : list (Z * Z)) L : outcome (list X) :=
  match n, l with
  | S n', p :: t => L' <- swap_blocks p L ;; run n' (map (ret (fst p) (snd p)) t) L'
  | _, _ => Ok L
  end.
Lemma run_refr n : forall l L, length l = n -> for_each (refr n l) swap_blocks L = run n l L.
Proof.
  induction n as [|n IH]; intros [|p t] L HL; auto; try discriminate.
  cbn [refr for_each run]. destruct (swap_blocks p L); cbn [bind]; auto. apply IH. rewrite map_length. simpl in HL; lia.
Qed.

Lemma list_at_ok L k : 1 <= k <= Z.of_nat (length L) -> exists x, list_at L k = Ok x /\ at_ L k = Some x.
Proof.
  intros Hk. unfold list_at, at_. destruct (Z.ltb_spec k 1); [lia|].
  destruct (nth_error L (Z.to_nat (k - 1))) eqn:E; eauto.
  apply nth_error_None in E. lia.
Qed.
Lemma list_put_ok L k x : 1 <= k <= Z.of_nat (length L) -> list_put L k x = Ok (upd L (Z.to_nat (k - 1)) x).
Proof. intros Hk. unfold list_put. destruct (list_at_ok L k Hk) as (y & E & _). rewrite E. reflexivity. Qed.
Lemma list_at_bad L k : k < 1 \/ Z.of_nat (length L) < k -> list_at L k = Undef BadIterator.
Proof.
  intros Hk. unfold list_at. destruct (Z.ltb_spec k 1); auto.
  destruct (nth_error L (Z.to_nat (k - 1))) eqn:E; auto.
  assert (Z.to_nat (k - 1) < length L)%nat by (apply nth_error_Some; congruence). lia.
Qed.

Lemma at_upd L k x j : 1 <= k <= Z.of_nat (length L) ->
  at_ (upd L (Z.to_nat (k - 1)) x) j = if j =? k then Some x else at_ L j.
Proof.
  intros Hk. unfold at_. destruct (Z.ltb_spec j 1).
  - destruct (Z.eqb_spec j k); auto. lia.
  - destruct (Z.eqb_spec j k) as [->|Hne].
    + rewrite nth_error_upd_eq by lia. reflexivity.
    + rewrite nth_error_upd_ne by lia. reflexivity.
Qed.

Lemma swap_ok L w s : 1 <= w <= Z.of_nat (length L) -> 1 <= s <= Z.of_nat (length L) ->
  exists L', swap_blocks (w, s) L = Ok L' /\ length L' = length L /\
    forall k, at_ L' k = if k =? w then at_ L s else if k =? s then at_ L w else at_ L k.
Proof.
  intros Hw Hs. unfold swap_blocks. cbn [fst snd]. destruct (Z.eqb_spec w s) as [->|Hne].
  - exists L. split; auto. split; auto. intros k. destruct (Z.eqb_spec k s); subst; auto.
  - destruct (list_at_ok L w Hw) as (x & Ex & Ax). destruct (list_at_ok L s Hs) as (y & Ey & Ay).
    rewrite Ex, Ey. cbn [bind]. rewrite list_put_ok by auto. cbn [bind]. rewrite list_put_ok by (rewrite length_upd; auto).
    eexists. split; [reflexivity|]. split; [rewrite !length_upd; auto|].
    intros k. rewrite at_upd by (rewrite length_upd; auto). rewrite at_upd by auto.
    destruct (Z.eqb_spec k s); destruct (Z.eqb_spec k w); auto; try lia; congruence.
Qed.

(** positive seconds are pairwise distinct *)
Definition pd (l : list (Z * Z)) : Prop :=
  forall i j p q, nth_error l i = Some p -> nth_error l j = Some q -> snd p = snd q -> 0 < snd p -> i = j.

Lemma pd_ret p t : pd (p :: t) -> 0 < fst p -> pd (map (ret (fst p) (snd p)) t).
Proof.
  intros H Hp i j a b Ha Hb E Hpos. rewrite nth_error_map in Ha, Hb.
  destruct (nth_error t i) as [a0|] eqn:Ea; simpl in Ha; [|discriminate]. inversion Ha; subst; clear Ha.
  destruct (nth_error t j) as [b0|] eqn:Eb; simpl in Hb; [|discriminate]. inversion Hb; subst; clear Hb.
  unfold ret in *. destruct (Z.eqb_spec (fst p) (snd a0)) as [Ka|Ka]; destruct (Z.eqb_spec (fst p) (snd b0)) as [Kb|Kb]; simpl in *.
  - assert (S i = S j); [|lia]. eapply H; simpl; eauto; lia.
  - exfalso. assert (O = S j); [|lia]. apply (H O (S j) p b0); simpl; auto; lia.
  - exfalso. assert (O = S i); [|lia]. apply (H O (S i) p a0); simpl; auto; lia.
  - assert (S i = S j); [|lia]. eapply H; simpl; eauto.
Qed.

Lemma pd_head p t : pd (p :: t) -> 0 < fst p -> fst p <> snd p \/ ~ In (fst p) (map snd t).
Proof.
  intros H Hp. destruct (Z.eq_dec (fst p) (snd p)) as [E|E]; auto. right. intros Hin.
  apply in_map_iff in Hin. destruct Hin as (q & Eq & Hq). apply In_nth_error in Hq. destruct Hq as (j & Hj).
  assert (O = S j); [|lia]. apply (H O (S j) p q); simpl; auto; lia.
Qed.

Lemma Forall_fst_ret (P : Z -> Prop) w s l : (forall p, In p l -> P (fst p)) -> forall p, In p (map (ret w s) l) -> P (fst p).
Proof.
  intros H p Hp. apply in_map_iff in Hp. destruct Hp as (q & <- & Hq). unfold ret. destruct (w =? snd q); simpl; apply H; auto.
Qed.

Lemma pd_okn n : forall l, pd l -> (forall p, In p l -> 0 < fst p) -> okn n l.
Proof.
  induction n as [|n IH]; intros [|p t] H Hf; cbn [okn]; auto.
  assert (Hp : 0 < fst p) by (apply Hf; simpl; auto). split; [apply pd_head; auto|].
  apply IH; [apply pd_ret; auto|]. apply Forall_fst_ret. intros; apply Hf; simpl; auto.
Qed.

Lemma run_ok n : forall l L, length l = n -> NoDup (map fst l) -> pd l ->
  (forall p, In p l -> 1 <= fst p <= Z.of_nat (length L) /\ 1 <= snd p <= Z.of_nat (length L)) ->
  exists L', run n l L = Ok L' /\ length L' = length L /\
    (forall p, In p l -> at_ L' (fst p) = at_ L (snd p)) /\
    (forall k, ~ In k (map fst l) -> ~ In k (map snd l) -> at_ L' k = at_ L k).
Proof.
  induction n as [|n IH]; intros l L HL Hnd Hpd Hr.
  - destruct l; [|discriminate]. exists L. simpl. repeat split; auto. contradiction.
  - destruct l as [|[w s] t]; [discriminate|]. simpl in HL. cbn [run]. cbn [fst snd].
    assert (H0 : 1 <= w <= Z.of_nat (length L) /\ 1 <= s <= Z.of_nat (length L)) by (apply (Hr (w, s)); simpl; auto).
    destruct H0 as [Hw Hs].
    destruct (swap_ok L w s Hw Hs) as (L1 & E1 & Len1 & A1). rewrite E1. cbn [bind].
    inversion Hnd as [|? ? Hni Hnd']; subst.
    assert (Hs_t : ~ In s (map snd t)).
    { intros Hin. apply in_map_iff in Hin. destruct Hin as (q & Eq & Hq). apply In_nth_error in Hq. destruct Hq as (j & Hj).
      assert (O = S j); [|lia]. apply (Hpd O (S j) (w, s) q); simpl; auto; lia. }
    destruct (IH (map (ret w s) t) L1) as (L2 & E2 & Len2 & A2 & B2).
    { rewrite map_length; lia. } { rewrite map_fst_ret; auto. } { apply (pd_ret (w, s) t Hpd). simpl; lia. }
    { intros p Hp. apply in_map_iff in Hp. destruct Hp as (q & <- & Hq).
      assert (Hq' := Hr q (or_intror Hq)). rewrite Len1. unfold ret. destruct (Z.eqb_spec w (snd q)); simpl; lia. }
    rewrite E2. exists L2. split; auto. split; [lia|].
    assert (Hw_t : ~ In w (map snd (map (ret w s) t))).
    { intros Hin. apply in_map_iff in Hin. destruct Hin as (q & Eq & Hq). apply in_map_iff in Hq.
      destruct Hq as (q0 & <- & Hq0). unfold ret in Eq. destruct (Z.eqb_spec w (snd q0)) as [K|K]; simpl in Eq.
      - subst s. apply Hs_t. rewrite K. apply in_map; auto.
      - congruence. }
    split.
    + intros p [<-|Hp].
      * simpl. rewrite B2; [|rewrite map_fst_ret; auto|auto]. rewrite A1, Z.eqb_refl. reflexivity.
      * pose proof (A2 (ret w s p) (in_map _ _ _ Hp)) as K.
        assert (Hsp : snd p <> s) by (intros K0; apply Hs_t; rewrite <- K0; apply in_map; auto).
        unfold ret in K. destruct (Z.eqb_spec w (snd p)) as [Kw|Kw]; cbn [fst snd] in K; rewrite K, A1.
        -- rewrite <- Kw, Z.eqb_refl. destruct (Z.eqb_spec s w) as [Ksw|]; auto. rewrite Ksw; auto.
        -- destruct (Z.eqb_spec (snd p) w); [congruence|]. destruct (Z.eqb_spec (snd p) s); [congruence|]. reflexivity.
    + simpl. intros k Hk1 Hk2. assert (k <> w /\ k <> s) as [Kw Ks] by (split; intros ->; auto).
      rewrite B2.
      * rewrite A1. destruct (Z.eqb_spec k w); [contradiction|]. destruct (Z.eqb_spec k s); [contradiction|]. reflexivity.
      * rewrite map_fst_ret; auto.
      * intros Hin. apply in_map_iff in Hin. destruct Hin as (q & Eq & Hq). apply in_map_iff in Hq.
        destruct Hq as (q0 & <- & Hq0). unfold ret in Eq. destruct (Z.eqb_spec w (snd q0)); simpl in Eq; [congruence|].
        apply Hk2. right. rewrite <- Eq. apply in_map; auto.
Qed.

(** an unmatched atom (-1) makes the swaps leave the list *)
Lemma run_undef n : forall l L, length l = n -> pd l ->
  (forall p, In p l -> 1 <= fst p <= Z.of_nat (length L) /\ (snd p = -1 \/ 1 <= snd p <= Z.of_nat (length L))) ->
  (exists p, In p l /\ snd p = -1) -> run n l L = Undef BadIterator.
Proof.
  induction n as [|n IH]; intros l L HL Hpd Hr (p0 & Hp0 & E0).
  - destruct l; [contradiction|discriminate].
  - destruct l as [|[w s] t]; [discriminate|]. simpl in HL. cbn [run fst snd].
    assert (H0 : 1 <= w <= Z.of_nat (length L) /\ (s = -1 \/ 1 <= s <= Z.of_nat (length L))) by (apply (Hr (w, s)); simpl; auto).
    destruct H0 as [Hw [Hs|Hs]].
    + subst s. unfold swap_blocks. cbn [fst snd]. destruct (Z.eqb_spec w (-1)); [lia|].
      destruct (list_at_ok L w Hw) as (x & Ex & _). rewrite Ex. cbn [bind]. rewrite list_at_bad by lia. reflexivity.
    + destruct (swap_ok L w s Hw Hs) as (L1 & E1 & Len1 & _). rewrite E1. cbn [bind].
      apply IH.
      * rewrite map_length; lia.
      * apply (pd_ret (w, s) t Hpd). simpl; lia.
      * intros p Hp. apply in_map_iff in Hp. destruct Hp as (q & <- & Hq).
        assert (Hq' := Hr q (or_intror Hq)). rewrite Len1. unfold ret. destruct (Z.eqb_spec w (snd q)); simpl; lia.
      * destruct Hp0 as [<-|Hp0]; [simpl in E0; lia|]. exists (ret w s p0). split; [apply in_map; auto|].
        unfold ret. destruct (Z.eqb_spec w (snd p0)); simpl; lia.
Qed.
End Run.

(** ** Pairs built from match vectors *)
Lemma number_from_length k m : length (number_from k m) = length m.
Proof. revert k; induction m as [|x m IH]; intros k; simpl; auto. Qed.
Lemma number_from_nth m : forall k i, nth_error (number_from k m) i =
  option_map (fun x => (k + Z.of_nat i, x)) (nth_error m i).
Proof.
  induction m as [|x m IH]; intros k [|i]; cbn [number_from nth_error option_map]; auto.
  - do 2 f_equal; lia.
  - rewrite IH. destruct (nth_error m i); cbn [option_map]; auto. do 2 f_equal. lia.
Qed.
Lemma number_from_snd m : forall k, map snd (number_from k m) = m.
Proof. induction m as [|x m IH]; intros k; simpl; auto. rewrite IH; auto. Qed.
Lemma number_from_fst m : forall k x, In x (map fst (number_from k m)) -> k <= x < k + Z.of_nat (length m).
Proof.
  induction m as [|y m IH]; intros k x; simpl; [contradiction|]. intros [<-|H]; [lia|].
  specialize (IH (k + 1) x H). lia.
Qed.
Lemma number_from_fst_nodup m : forall k, NoDup (map fst (number_from k m)).
Proof.
  induction m as [|y m IH]; intros k; simpl; constructor; auto.
  intros H. apply number_from_fst in H. lia.
Qed.
Lemma number_from_in m k p : In p (number_from k m) ->
  k <= fst p < k + Z.of_nat (length m) /\ nth_error m (Z.to_nat (fst p - k)) = Some (snd p).
Proof.
  intros H. split; [apply number_from_fst; apply in_map; auto|].
  apply In_nth_error in H. destruct H as (i & Hi). rewrite number_from_nth in Hi.
  destruct (nth_error m i) as [x|] eqn:E; simpl in Hi; [|discriminate]. inversion Hi; subst. cbn [fst snd].
  replace (Z.to_nat (k + Z.of_nat i - k)) with i by lia. auto.
Qed.

Lemma nodup_app {X} (l l' : list X) : NoDup l -> NoDup l' -> (forall x, In x l -> In x l' -> False) -> NoDup (l ++ l').
Proof.
  induction l as [|a l IH]; intros H1 H2 H3; simpl; auto. inversion H1; subst. constructor.
  - rewrite in_app_iff. intros [H|H]; [contradiction|]. apply (H3 a); simpl; auto.
  - apply IH; auto. intros x Hx Hx'. apply (H3 x); simpl; auto.
Qed.

Lemma nodup_no_repeat m : NoDup m -> no_repeat m.
Proof.
  intros H i j x Hi Hj _. rewrite NoDup_nth_error in H. apply H; [|congruence].
  apply nth_error_Some. congruence.
Qed.

Lemma pd_of l : no_repeat (map snd l) -> pd l.
Proof.
  intros H i j p q Hp Hq E Hpos. apply (H i j (snd p)); auto.
  - rewrite nth_error_map, Hp. reflexivity.
  - rewrite nth_error_map, Hq, E. reflexivity.
Qed.

Lemma no_repeat_comm a b : no_repeat (a ++ b) -> no_repeat (b ++ a).
Proof.
  intros H i j x Hi Hj Hx.
  assert (F : forall k, nth_error (b ++ a) k = Some x ->
    (k < length b /\ nth_error (a ++ b) (length a + k) = Some x)%nat \/
    (length b <= k /\ k - length b < length a /\ nth_error (a ++ b) (k - length b) = Some x)%nat).
  { intros k Hk. destruct (Nat.lt_ge_cases k (length b)) as [L|L].
    - left. split; auto. rewrite nth_error_app1 in Hk by auto. rewrite nth_error_app2 by lia.
      replace (length a + k - length a)%nat with k by lia. auto.
    - right. rewrite nth_error_app2 in Hk by auto.
      assert (k - length b < length a)%nat by (apply nth_error_Some; congruence).
      rewrite nth_error_app1 by auto. auto. }
  destruct (F i Hi) as [[Li Ki]|(Li & Li' & Ki)]; destruct (F j Hj) as [[Lj Kj]|(Lj & Lj' & Kj)];
    pose proof (H _ _ x Ki Kj Hx); lia.
Qed.

Section Refreshed.
Context {X : Type}.
Implicit Types L : list X.

(** two match vectors: monomer A (positions 1..|A|) and B (positions after) *)
Lemma refresh2_swaps mA mB fuel (L : list X) :
  no_repeat (mA ++ mB) -> (length mA + length mB + 2 <= fuel)%nat ->
  exists B' A', refreshSwapOrder2 fuel (pairsB mA mB) (pairsA mA) = Ok (B', A') /\
    updateSwapLists2 B' A' L = run (length (pairsB mA mB ++ pairsA mA)) (pairsB mA mB ++ pairsA mA) L /\
    pd (pairsB mA mB ++ pairsA mA).
Proof.
  intros Hn Hf. set (B := pairsB mA mB). set (A := pairsA mA).
  assert (Hsnd : map snd (B ++ A) = mB ++ mA).
  { rewrite map_app. unfold B, A, pairsB, pairsA. rewrite !number_from_snd. reflexivity. }
  assert (Hpd : pd (B ++ A)) by (apply pd_of; rewrite Hsnd; apply no_repeat_comm; auto).
  assert (HlB : length B = length mB) by apply number_from_length.
  assert (HlA : length A = length mA) by apply number_from_length.
  destruct (refresh2_ok fuel B A) as (B' & A' & E & E1 & E2); [lia| |].
  { apply pd_okn; auto. intros p Hp. apply in_app_iff in Hp. destruct Hp as [Hp|Hp]; apply number_from_in in Hp; lia. }
  exists B', A'. split; auto. split; auto.
  unfold updateSwapLists2. rewrite <- for_each_app, E1. rewrite app_length.
  apply run_refr. rewrite app_length. reflexivity.
Qed.

Lemma refresh1_swaps mA fuel (L : list X) :
  no_repeat mA -> (length mA + 2 <= fuel)%nat ->
  exists A', refreshSwapOrder1 fuel (pairsA mA) = Ok A' /\
    updateSwapLists1 A' L = run (length (pairsA mA)) (pairsA mA) L /\ pd (pairsA mA).
Proof.
  intros Hn Hf. assert (Hpd : pd (pairsA mA)).
  { apply pd_of. unfold pairsA. rewrite number_from_snd; auto. }
  assert (HlA : length (pairsA mA) = length mA) by apply number_from_length.
  exists (refr (length (pairsA mA)) (pairsA mA)). split; [|split; auto].
  - apply refresh1_ok; [lia|]. apply pd_okn; auto. intros p Hp. apply number_from_in in Hp. lia.
  - unfold updateSwapLists1. apply run_refr. reflexivity.
Qed.

Lemma run_pairs2 mA mB L : pd (pairsB mA mB ++ pairsA mA) ->
  (length mA + length mB <= length L)%nat ->
  Forall (fun x => 1 <= x <= Z.of_nat (length L)) (mA ++ mB) ->
  exists L', run (length (pairsB mA mB ++ pairsA mA)) (pairsB mA mB ++ pairsA mA) L = Ok L' /\ length L' = length L /\
    (forall i x, nth_error (mA ++ mB) i = Some x -> nth_error L' i = nth_error L (Z.to_nat (x - 1))) /\
    (forall k, (length mA + length mB <= k)%nat -> ~ In (Z.of_nat k + 1) (mA ++ mB) -> nth_error L' k = nth_error L k).
Proof.
  intros Hpd Hlen HF.
  destruct (run_ok (length (pairsB mA mB ++ pairsA mA)) (pairsB mA mB ++ pairsA mA) L eq_refl) as (L' & E & Len & HA & HB); auto.
  - rewrite map_app. apply nodup_app; try apply number_from_fst_nodup.
    intros x H1 H2. apply number_from_fst in H1. apply number_from_fst in H2. lia.
  - rewrite Forall_forall in HF. intros p Hp. apply in_app_iff in Hp. destruct Hp as [Hp|Hp]; apply number_from_in in Hp.
    + split; [lia|]. apply HF. apply in_app_iff. right. eapply nth_error_In. apply Hp.
    + split; [lia|]. apply HF. apply in_app_iff. left. eapply nth_error_In. apply Hp.
  - exists L'. split; auto. split; auto. split.
    + intros i x Hi. assert (Hx : 1 <= x) by (rewrite Forall_forall in HF; apply nth_error_In in Hi; specialize (HF x Hi); simpl in HF; lia).
      assert (Hp : In (Z.of_nat i + 1, x) (pairsB mA mB ++ pairsA mA)).
      { apply in_app_iff. destruct (Nat.lt_ge_cases i (length mA)) as [Li|Li].
        - right. rewrite nth_error_app1 in Hi by auto. apply nth_error_In with (n := i). unfold pairsA.
          rewrite number_from_nth, Hi. cbn [option_map]. do 2 f_equal. lia.
        - left. rewrite nth_error_app2 in Hi by auto. apply nth_error_In with (n := (i - length mA)%nat). unfold pairsB.
          rewrite number_from_nth, Hi. cbn [option_map]. do 2 f_equal. lia. }
      specialize (HA _ Hp). cbn [fst snd] in HA. unfold at_ in HA.
      destruct (Z.ltb_spec (Z.of_nat i + 1) 1); [lia|]. destruct (Z.ltb_spec x 1); [lia|].
      replace (Z.to_nat (Z.of_nat i + 1 - 1)) with i in HA by lia. exact HA.
    + intros k Hk Hni. specialize (HB (Z.of_nat k + 1)). unfold at_ in HB.
      destruct (Z.ltb_spec (Z.of_nat k + 1) 1); [lia|]. replace (Z.to_nat (Z.of_nat k + 1 - 1)) with k in HB by lia.
      apply HB.
      * rewrite map_app, in_app_iff. intros [H1|H1]; apply number_from_fst in H1; lia.
      * rewrite map_app, in_app_iff. unfold pairsA, pairsB. rewrite !number_from_snd. rewrite in_app_iff in Hni. tauto.
Qed.

Lemma run_pairs1 mA L : pd (pairsA mA) -> (length mA <= length L)%nat ->
  Forall (fun x => 1 <= x <= Z.of_nat (length L)) mA ->
  exists L', run (length (pairsA mA)) (pairsA mA) L = Ok L' /\ length L' = length L /\
    (forall i x, nth_error mA i = Some x -> nth_error L' i = nth_error L (Z.to_nat (x - 1))) /\
    (forall k, (length mA <= k)%nat -> ~ In (Z.of_nat k + 1) mA -> nth_error L' k = nth_error L k).
Proof.
  intros Hpd Hlen HF. pose proof (run_pairs2 mA [] L) as H. rewrite app_nil_r in H. cbn [length] in H.
  rewrite Nat.add_0_r in H. apply H; auto.
Qed.
End Refreshed.
