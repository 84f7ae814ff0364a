(** * Facts about splitMatrixIntoList and mergeListOfMatrices *)
From Verif Require Export QcSwap.
From Verif Require Import MatrixFacts MatrixCtor MatrixOps MatrixOps2.
Open Scope Z_scope.

Section Blocks.
Context {T : Type}.
Variable zero : T.
Implicit Types (m : mat T).

(** a block description: its size along the cutting direction and its content,
    [snd d x j] = element [j] along, [x] across *)
Notation desc := (Z * (Z -> Z -> T))%type.
Definition is_colblock (R : Z) m (d : desc) : Prop := denotes m R (fst d) 1 (fun r c _ => snd d r c).
Definition is_rowblock (C : Z) m (d : desc) : Prop := denotes m (fst d) C 1 (fun r c _ => snd d c r).

Fixpoint cut (o : Z) (b : list Z) (f : Z -> Z -> T) : list desc :=
  match b with [] => [] | n :: t => (n, fun x j => f x (o + j)) :: cut (o + n) t f end.
Fixpoint glue (D : list desc) (x c : Z) : T :=
  match D with [] => zero | d :: t => if c <=? fst d then snd d x c else glue t x (c - fst d) end.

Lemma total_nonneg b : Forall (fun n => 1 <= n) b -> 0 <= total b.
Proof. induction 1; simpl; lia. Qed.

Lemma vat_mid (done : list Z) d t : vat (done ++ d :: t) (Z.of_nat (length done) + 1 - 1) = Ok d.
Proof.
  unfold vat. destruct (Z.ltb_spec (Z.of_nat (length done) + 1 - 1) 0); [lia|].
  replace (Z.to_nat _) with (length done) by lia. rewrite nth_error_mid. reflexivity.
Qed.

Lemma iadd_ok a b : is_int (a + b) -> iadd a b = Ok (a + b).
Proof. apply ichk_ok. Qed.
Ltac ints := unfold is_int, INT_MIN; lia.

Lemma split_col_loop m R C f (Hm : denotes m R C 1 (fun r c _ => f r c)) (HR : 1 <= R) : forall rest done o acc,
  Forall (fun n => 1 <= n) rest -> 0 <= o -> o + total rest <= C ->
  exists L, for_up (Z.of_nat (length done) + 1) (Z.of_nat (length done + length rest)) (fun i s =>
      d <- vat (done ++ rest) (i - 1) ;;
      n <- Matrix_new2 zero (rows m) d ;;
      n' <- for_up 1 (rows m) (fun k n => for_up 1 d (fun j n =>
              c <- iadd (fst s) j ;; v <- get_elem2 m k c ;; set_elem2 v k j n) n) n ;;
      c' <- iadd (fst s) d ;;
      Ok (c', snd s ++ [n'])) (o, acc) = Ok (o + total rest, acc ++ L) /\
    Forall2 (is_colblock R) L (cut o rest f).
Proof.
  destruct (denotes_dims _ _ _ _ _ Hm) as (HRi & HCi & _ & HM). pose proof Hm as (_ & ER & EC & _).
  induction rest as [|d t IH]; intros done o acc HF Ho Ht.
  - exists []. rewrite for_up_empty by (simpl; lia). simpl. rewrite app_nil_r, Z.add_0_r. split; auto.
  - inversion HF as [|? ? Hd HF']; subst. simpl in Ht. pose proof (total_nonneg t HF').
    cbn [length]. rewrite for_up_cons, vat_mid. cbn [bind fst snd].
    destruct (Matrix_new2_ok zero (rows m) d) as (n & En & Dn); auto; [nia|]. rewrite En. cbn [bind].
    match goal with |- context [bind (for_up 1 (rows m) ?b n) _] =>
      destruct (writes_denotes (rows m) d 1 (fun i j s => exists i', 1 <= i' <= rows m /\ exists j', 1 <= j' <= d /\
        i = i' /\ j = j' /\ s = 1) (fun r c _ => f r (o + c)) (for_up 1 (rows m) b) n (fun _ _ _ => zero)
        (fun r c _ => f r (o + c))) with (2 := Dn) as (n' & En' & Dn') end.
    { apply writes_for; [bdec|]. intros i Hi. apply writes_for; [bdec|]. intros j Hj.
      rewrite iadd_ok by ints. cbn [bind]. rewrite (denotes_get2 _ _ _ _ _ _ _ Hm) by inr. cbn [bind].
      apply writes_set2 with (g := fun r c _ => f r (o + c)); auto. inr. }
    { intros r c s Hin. left; split; auto. exists r; split; [inr|]. exists c; inr. }
    rewrite En'. cbn [bind]. rewrite iadd_ok by ints. cbn [bind].
    destruct (IH (done ++ [d]) (o + d) (acc ++ [n']) HF' ltac:(lia) ltac:(lia)) as (L & EL & HL).
    exists (n' :: L). rewrite <- app_assoc in EL. cbn [app] in EL.
    replace (length (done ++ [d])) with (Datatypes.S (length done)) in EL by (rewrite app_length; simpl; lia).
    split.
    + etransitivity; [exact EL|]. rewrite <- app_assoc. cbn [app total fold_right].
      fold (total t). do 2 f_equal. lia.
    + cbn [cut]. constructor; auto.
Qed.

Lemma split_cols m R C f b : denotes m R C 1 (fun r c _ => f r c) -> 1 <= R ->
  Forall (fun n => 1 <= n) b -> total b <= C ->
  exists L, splitMatrixIntoList zero b m tagColumns = Ok L /\ Forall2 (is_colblock R) L (cut 0 b f).
Proof.
  intros Hm HR HF Ht. unfold splitMatrixIntoList. change (str_eqb tagColumns tagColumns) with true. cbv iota.
  destruct (split_col_loop m R C f Hm HR b [] 0 [] HF ltac:(lia) ltac:(lia)) as (L & E & H).
  cbn [length app Nat.add Z.of_nat] in E. change (0 + 1) with 1 in E. rewrite E. cbn [bind snd app]. eauto.
Qed.

Lemma split_row_loop m R C f (Hm : denotes m R C 1 (fun r c _ => f c r)) (HC : 1 <= C) : forall rest done o acc,
  Forall (fun n => 1 <= n) rest -> 0 <= o -> o + total rest <= R ->
  exists L, for_up (Z.of_nat (length done) + 1) (Z.of_nat (length done + length rest)) (fun i s =>
      d <- vat (done ++ rest) (i - 1) ;;
      n <- Matrix_new2 zero d (cols m) ;;
      n' <- for_up 1 (cols m) (fun k n => for_up 1 d (fun j n =>
              r <- iadd (fst s) j ;; v <- get_elem2 m r k ;; set_elem2 v j k n) n) n ;;
      r' <- iadd (fst s) d ;;
      Ok (r', snd s ++ [n'])) (o, acc) = Ok (o + total rest, acc ++ L) /\
    Forall2 (is_rowblock C) L (cut o rest f).
Proof.
  destruct (denotes_dims _ _ _ _ _ Hm) as (HRi & HCi & _ & HM). pose proof Hm as (_ & ER & EC & _).
  induction rest as [|d t IH]; intros done o acc HF Ho Ht.
  - exists []. rewrite for_up_empty by (simpl; lia). simpl. rewrite app_nil_r, Z.add_0_r. split; auto.
  - inversion HF as [|? ? Hd HF']; subst. simpl in Ht. pose proof (total_nonneg t HF').
    cbn [length]. rewrite for_up_cons, vat_mid. cbn [bind fst snd].
    destruct (Matrix_new2_ok zero d (cols m)) as (n & En & Dn); auto; [nia|]. rewrite En. cbn [bind].
    match goal with |- context [bind (for_up 1 (cols m) ?b n) _] =>
      destruct (writes_denotes d (cols m) 1 (fun i j s => exists i', 1 <= i' <= cols m /\ exists j', 1 <= j' <= d /\
        i = j' /\ j = i' /\ s = 1) (fun r c _ => f c (o + r)) (for_up 1 (cols m) b) n (fun _ _ _ => zero)
        (fun r c _ => f c (o + r))) with (2 := Dn) as (n' & En' & Dn') end.
    { apply writes_for; [bdec|]. intros i Hi. apply writes_for; [bdec|]. intros j Hj.
      rewrite iadd_ok by ints. cbn [bind]. rewrite (denotes_get2 _ _ _ _ _ _ _ Hm) by inr. cbn [bind].
      apply writes_set2 with (g := fun r c _ => f c (o + r)); auto. inr. }
    { intros r c s Hin. left; split; auto. exists c; split; [inr|]. exists r; inr. }
    rewrite En'. cbn [bind]. rewrite iadd_ok by ints. cbn [bind].
    destruct (IH (done ++ [d]) (o + d) (acc ++ [n']) HF' ltac:(lia) ltac:(lia)) as (L & EL & HL).
    exists (n' :: L). rewrite <- app_assoc in EL. cbn [app] in EL.
    replace (length (done ++ [d])) with (Datatypes.S (length done)) in EL by (rewrite app_length; simpl; lia).
    split.
    + etransitivity; [exact EL|]. rewrite <- app_assoc. cbn [app total fold_right].
      fold (total t). do 2 f_equal. lia.
    + cbn [cut]. constructor; auto.
Qed.

Lemma split_rows m R C f b : denotes m R C 1 (fun r c _ => f c r) -> 1 <= C ->
  Forall (fun n => 1 <= n) b -> total b <= R ->
  exists L, splitMatrixIntoList zero b m tagRows = Ok L /\ Forall2 (is_rowblock C) L (cut 0 b f).
Proof.
  intros Hm HR HF Ht. unfold splitMatrixIntoList. change (str_eqb tagRows tagColumns) with false.
  change (str_eqb tagRows tagRows) with true. cbv iota.
  destruct (split_row_loop m R C f Hm HR b [] 0 [] HF ltac:(lia) ltac:(lia)) as (L & E & H).
  cbn [length app Nat.add Z.of_nat] in E. change (0 + 1) with 1 in E. rewrite E. cbn [bind snd app]. eauto.
Qed.

(** ** Merge *)
Notation szs D := (map (@fst Z (Z -> Z -> T)) D).

Lemma merge_col_loop R C : 1 <= R -> R * C <= INT_MAX -> C <= INT_MAX -> forall L D o full h,
  Forall2 (is_colblock R) L D -> Forall (fun n => 1 <= n) (szs D) -> 0 <= o -> o + total (szs D) <= C ->
  denotes full R C 1 (fun r c _ => h r c) ->
  exists full', for_each L (fun b s =>
      if C <? fst s then Throw RuntimeError else
      full' <- for_up 1 (rows b) (fun i full =>
        if R <? i then Throw RuntimeError else
        for_up 1 (cols b) (fun j full =>
          v <- get_elem2 b i j ;; c <- iadd j (fst s) ;; set_elem2 v i c full) full) (snd s) ;;
      c' <- iadd (fst s) (cols b) ;;
      Ok (c', full')) (o, full) = Ok (o + total (szs D), full') /\
    denotes full' R C 1 (fun r c _ => if (o <? c) && (c <=? o + total (szs D)) then glue D r (c - o) else h r c).
Proof.
  intros HR HM HCi. induction L as [|b L IH]; intros D o full h HF Hsz Ho Ht Hfull.
  - inversion HF; subst. exists full. cbn [for_each]. simpl. rewrite Z.add_0_r. split; auto.
    eapply denotes_ext; [exact Hfull|]. intros r c s Hin. cbn beta.
    destruct (Z.ltb_spec o c), (Z.leb_spec c o); auto; lia.
  - inversion HF as [|? d ? D' Hb HF']; subst. cbn [map] in Hsz, Ht. inversion Hsz as [|? ? Hd Hsz']; subst.
    change (total (fst d :: szs D')) with (fst d + total (szs D')) in Ht. pose proof (total_nonneg _ Hsz') as Hnn.
    unfold is_colblock in Hb. pose proof Hb as (_ & ER & EC & _).
    cbn [for_each fst snd]. destruct (Z.ltb_spec C o); [lia|]. rewrite ER, EC.
    match goal with |- context [bind (for_up 1 R ?bd full) _] =>
      destruct (writes_denotes R C 1 (fun i j s => exists i', 1 <= i' <= R /\ exists j', 1 <= j' <= fst d /\
        i = i' /\ j = j' + o /\ s = 1) (fun r c _ => snd d r (c - o)) (for_up 1 R bd) full (fun r c _ => h r c)
        (fun r c _ => if (o <? c) && (c <=? o + fst d) then snd d r (c - o) else h r c)) with (2 := Hfull) as (f1 & E1 & D1) end.
    { apply writes_for; [bdec|]. intros i Hi. destruct (Z.ltb_spec R i); [lia|].
      apply writes_for; [bdec|]. intros j Hj.
      rewrite (denotes_get2 _ _ _ _ _ _ _ Hb) by inr. cbn [bind]. rewrite iadd_ok by ints. cbn [bind].
      apply writes_set2 with (g := fun r c _ => snd d r (c - o)); [inr|]. f_equal; lia. }
    { intros r c s Hin. destruct (Z.ltb_spec o c), (Z.leb_spec c (o + fst d)); cbn [andb].
      - left; split; auto. exists r; split; [inr|]. exists (c - o); inr.
      - right; split; auto. intros (i & Hi & j & Hj & K); lia.
      - right; split; auto. intros (i & Hi & j & Hj & K); lia.
      - right; split; auto. intros (i & Hi & j & Hj & K); lia. }
    rewrite E1. cbn [bind]. rewrite iadd_ok by ints. cbn [bind].
    destruct (IH D' (o + fst d) f1 _ HF' Hsz' ltac:(lia) ltac:(lia) D1) as (f2 & E2 & D2).
    exists f2. change (total (szs (d :: D'))) with (fst d + total (szs D')).
    split; [rewrite E2; do 2 f_equal; lia|].
    eapply denotes_ext; [exact D2|]. intros r c s Hin. cbn beta. cbn [glue].
    destruct (Z.ltb_spec (o + fst d) c), (Z.leb_spec c (o + fst d + total (szs D'))), (Z.ltb_spec o c),
      (Z.leb_spec c (o + (fst d + total (szs D')))), (Z.leb_spec c (o + fst d)), (Z.leb_spec (c - o) (fst d));
      cbn [andb]; auto; try lia. f_equal; lia.
Qed.

Lemma merge_cols L D R C : 1 <= R -> 1 <= C -> R * C <= INT_MAX -> C <= INT_MAX ->
  Forall2 (is_colblock R) L D -> Forall (fun n => 1 <= n) (szs D) -> total (szs D) <= C ->
  exists m, mergeListOfMatrices zero L R C tagColumns = Ok m /\
    denotes m R C 1 (fun r c _ => if c <=? total (szs D) then glue D r c else zero).
Proof.
  intros HR HC HM HCi HF Hsz Ht. unfold mergeListOfMatrices.
  destruct (Matrix_new2_ok zero R C) as (full & Ef & Df); auto. rewrite Ef. cbn [bind].
  change (str_eqb tagColumns tagColumns) with true. cbv iota.
  destruct (merge_col_loop R C HR HM HCi L D 0 full (fun _ _ => zero) HF Hsz ltac:(lia) ltac:(lia) Df) as (m & E & Dm).
  rewrite E. cbn [bind snd]. exists m; split; auto. eapply denotes_ext; [exact Dm|].
  intros r c s Hin. cbn beta. rewrite Z.add_0_l, Z.sub_0_r. destruct (Z.ltb_spec 0 c); [reflexivity|inr].
Qed.

Lemma merge_row_loop R C : 1 <= C -> R * C <= INT_MAX -> R <= INT_MAX -> forall L D o full h,
  Forall2 (is_rowblock C) L D -> Forall (fun n => 1 <= n) (szs D) -> 0 <= o -> o + total (szs D) <= R ->
  denotes full R C 1 (fun r c _ => h c r) ->
  exists full', for_each L (fun b s =>
      if R <? fst s then Throw RuntimeError else
      full' <- for_up 1 (cols b) (fun j full =>
        if C <? j then Throw RuntimeError else
        for_up 1 (rows b) (fun i full =>
          v <- get_elem2 b i j ;; r <- iadd (fst s) i ;; set_elem2 v r j full) full) (snd s) ;;
      r' <- iadd (fst s) (rows b) ;;
      Ok (r', full')) (o, full) = Ok (o + total (szs D), full') /\
    denotes full' R C 1 (fun r c _ => if (o <? r) && (r <=? o + total (szs D)) then glue D c (r - o) else h c r).
Proof.
  intros HR HM HCi. induction L as [|b L IH]; intros D o full h HF Hsz Ho Ht Hfull.
  - inversion HF; subst. exists full. cbn [for_each]. simpl. rewrite Z.add_0_r. split; auto.
    eapply denotes_ext; [exact Hfull|]. intros r c s Hin. cbn beta.
    destruct (Z.ltb_spec o r), (Z.leb_spec r o); auto; lia.
  - inversion HF as [|? d ? D' Hb HF']; subst. cbn [map] in Hsz, Ht. inversion Hsz as [|? ? Hd Hsz']; subst.
    change (total (fst d :: szs D')) with (fst d + total (szs D')) in Ht. pose proof (total_nonneg _ Hsz') as Hnn.
    unfold is_rowblock in Hb. pose proof Hb as (_ & ER & EC & _).
    cbn [for_each fst snd]. destruct (Z.ltb_spec R o); [lia|]. rewrite ER, EC.
    match goal with |- context [bind (for_up 1 C ?bd full) _] =>
      destruct (writes_denotes R C 1 (fun i j s => exists i', 1 <= i' <= C /\ exists j', 1 <= j' <= fst d /\
        j = i' /\ i = o + j' /\ s = 1) (fun r c _ => snd d c (r - o)) (for_up 1 C bd) full (fun r c _ => h c r)
        (fun r c _ => if (o <? r) && (r <=? o + fst d) then snd d c (r - o) else h c r)) with (2 := Hfull) as (f1 & E1 & D1) end.
    { apply writes_for; [bdec|]. intros i Hi. destruct (Z.ltb_spec C i); [lia|].
      apply writes_for; [bdec|]. intros j Hj.
      rewrite (denotes_get2 _ _ _ _ _ _ _ Hb) by inr. cbn [bind]. rewrite iadd_ok by ints. cbn [bind].
      eapply writes_iff; [|apply writes_set2 with (g := fun r c _ => snd d c (r - o)); [inr|f_equal; lia]].
      intros; cbn beta; tauto. }
    { intros r c s Hin. destruct (Z.ltb_spec o r), (Z.leb_spec r (o + fst d)); cbn [andb].
      - left; split; auto. exists c; split; [inr|]. exists (r - o); inr.
      - right; split; auto. intros (i & Hi & j & Hj & K); lia.
      - right; split; auto. intros (i & Hi & j & Hj & K); lia.
      - right; split; auto. intros (i & Hi & j & Hj & K); lia. }
    rewrite E1. cbn [bind]. rewrite iadd_ok by ints. cbn [bind].
    destruct (IH D' (o + fst d) f1 (fun c r => if (o <? r) && (r <=? o + fst d) then snd d c (r - o) else h c r)
      HF' Hsz' ltac:(lia) ltac:(lia) D1) as (f2 & E2 & D2).
    exists f2. change (total (szs (d :: D'))) with (fst d + total (szs D')).
    split; [rewrite E2; do 2 f_equal; lia|].
    eapply denotes_ext; [exact D2|]. intros r c s Hin. cbn beta. cbn [glue].
    destruct (Z.ltb_spec (o + fst d) r), (Z.leb_spec r (o + fst d + total (szs D'))), (Z.ltb_spec o r),
      (Z.leb_spec r (o + (fst d + total (szs D')))), (Z.leb_spec r (o + fst d)), (Z.leb_spec (r - o) (fst d));
      cbn [andb]; auto; try lia. f_equal; lia.
Qed.

Lemma merge_rows L D R C : 1 <= R -> 1 <= C -> R * C <= INT_MAX -> R <= INT_MAX ->
  Forall2 (is_rowblock C) L D -> Forall (fun n => 1 <= n) (szs D) -> total (szs D) <= R ->
  exists m, mergeListOfMatrices zero L R C tagRows = Ok m /\
    denotes m R C 1 (fun r c _ => if r <=? total (szs D) then glue D c r else zero).
Proof.
  intros HR HC HM HCi HF Hsz Ht. unfold mergeListOfMatrices.
  destruct (Matrix_new2_ok zero R C) as (full & Ef & Df); auto. rewrite Ef. cbn [bind].
  change (str_eqb tagRows tagColumns) with false. change (str_eqb tagRows tagRows) with true. cbv iota.
  destruct (merge_row_loop R C HC HM HCi L D 0 full (fun _ _ => zero) HF Hsz ltac:(lia) ltac:(lia) Df) as (m & E & Dm).
  rewrite E. cbn [bind snd]. exists m; split; auto. eapply denotes_ext; [exact Dm|].
  intros r c s Hin. cbn beta. rewrite Z.add_0_l, Z.sub_0_r. destruct (Z.ltb_spec 0 r); [reflexivity|inr].
Qed.

(** ** Cutting and gluing *)
Lemma cut_szs b f : forall o, szs (cut o b f) = b.
Proof. induction b as [|n b IH]; intros o; simpl; auto. rewrite IH; auto. Qed.

Lemma glue_cut b f x : forall o c, 1 <= c <= total b -> glue (cut o b f) x c = f x (o + c).
Proof.
  induction b as [|n b IH]; intros o c Hc; [simpl in Hc; lia|]. cbn [cut glue fst snd].
  change (total (n :: b)) with (n + total b) in Hc.
  destruct (Z.leb_spec c n); auto. rewrite IH by lia. f_equal. lia.
Qed.

Lemma glue_at D x : Forall (fun n => 1 <= n) (szs D) -> forall i d j, nth_error D i = Some d -> 1 <= j <= fst d ->
  glue D x (total (firstn i (szs D)) + j) = snd d x j.
Proof.
  induction D as [|d0 D IH]; intros HF i d j Hi Hj; [destruct i; discriminate|].
  cbn [map] in HF. inversion HF as [|? ? H0 HF']; subst. cbn [glue].
  destruct i as [|i]; simpl in Hi.
  - inversion Hi; subst. change (total (firstn 0 (szs (d :: D)))) with 0. rewrite Z.add_0_l.
    destruct (Z.leb_spec j (fst d)); auto; lia.
  - cbn [map firstn]. change (total (fst d0 :: firstn i (szs D))) with (fst d0 + total (firstn i (szs D))).
    assert (0 <= total (firstn i (szs D))).
    { apply total_nonneg. clear -HF'. revert i. induction HF'; intros [|i]; simpl; constructor; auto. }
    destruct (Z.leb_spec (fst d0 + total (firstn i (szs D)) + j) (fst d0)); [lia|].
    rewrite <- (IH HF' i d j Hi Hj). f_equal. lia.
Qed.

Lemma cut_nth b f : forall o i n, nth_error b i = Some n ->
  nth_error (cut o b f) i = Some (n, fun x j => f x (o + total (firstn i b) + j)).
Proof.
  induction b as [|n0 b IH]; intros o [|i] n Hi; simpl in Hi; try discriminate.
  - inversion Hi; subst. cbn [cut nth_error firstn]. change (total []) with 0. rewrite Z.add_0_r. reflexivity.
  - cbn [cut nth_error firstn]. rewrite (IH (o + n0) i n Hi).
    change (total (n0 :: firstn i b)) with (n0 + total (firstn i b)). rewrite Z.add_assoc. reflexivity.
Qed.

Lemma cut_length b f : forall o, length (cut o b f) = length b.
Proof. induction b as [|n b IH]; intros o; simpl; auto. Qed.
End Blocks.
