(** * Lemmas about the operations of the matrix model *)
From Verif Require Export MatrixCtor.
From Coq Require Import ZifyBool.

Section Ops.
Context {T : Type}.
Variable zero : T.
Implicit Types (m : mat T) (f g h : Z -> Z -> Z -> T).

Lemma writes_denotes R C S P g act m f h :
  writes R C S P g act -> denotes m R C S f ->
  (forall r c s, inside R C S r c s -> (P r c s /\ g r c s = h r c s) \/ (~ P r c s /\ f r c s = h r c s)) ->
  exists m', act m = Ok m' /\ denotes m' R C S h.
Proof.
  intros HW Hm HH. destruct (HW m f Hm) as (m' & f' & E & D & K).
  exists m'; split; auto. apply denotes_ext with (f := f'); auto.
  intros r c s Hin. destruct (K r c s Hin) as [K1 K2].
  destruct (HH r c s Hin) as [[HP <-]|[HP <-]]; auto.
Qed.

Ltac inr := unfold inside in *; lia.

(** ** Vectors *)
Lemma collect_ok {A} (x : Z -> outcome A) (v : Z -> A) n :
  0 <= n -> (forall i, 1 <= i <= n -> x i = Ok (v i)) ->
  exists l, for_up 1 n (fun i acc => a <- x i ;; Ok (acc ++ [a])) [] = Ok l /\ lists l n v.
Proof.
  intros Hn Hx.
  destruct (for_up_inv (fun i l => lists l (i - 1) v)
     (fun i acc => a <- x i ;; Ok (acc ++ [a])) 1 n []) as (l & E & H); [lia| | |].
  - split; simpl; auto. intros i Hi; lia.
  - intros i l Hi [HL HE]. rewrite Hx by lia. cbn [bind]. eexists; split; [reflexivity|].
    split. { rewrite app_length; simpl length; lia. }
    intros k Hk. destruct (Z.eq_dec k i) as [->|Hne].
    + rewrite nth_error_app2 by lia. replace (Z.to_nat (i - 1) - length l)%nat with O by lia. reflexivity.
    + rewrite nth_error_app1 by lia. apply HE; lia.
  - exists l; split; auto. replace (n + 1 - 1) with n in H by lia; auto.
Qed.

Lemma lists_vat {A} (l : list A) n v i : lists l n v -> 1 <= i <= n -> vat l (i - 1) = Ok (v i).
Proof. intros [HL HE] Hi. apply vat_ok; [lia|auto]. Qed.

Lemma get_row_ok m R C S f r : denotes m R C S f -> 1 <= r <= R -> 1 <= S ->
  exists v, get_row m r = Ok v /\ lists v C (fun j => f r j 1).
Proof.
  intros Hm Hr HS. unfold get_row. pose proof Hm as (Hwf & ER & EC & ES & _).
  rewrite EC. apply collect_ok.
  { destruct Hwf as [(?&?&?&?) _]; lia. }
  intros j Hj. eapply denotes_load; eauto; inr.
Qed.

Lemma get_col_ok m R C S f c : denotes m R C S f -> 1 <= c <= C -> 1 <= S ->
  exists v, get_col m c = Ok v /\ lists v R (fun i => f i c 1).
Proof.
  intros Hm Hr HS. unfold get_col. pose proof Hm as (Hwf & ER & EC & ES & _).
  rewrite ER. apply collect_ok.
  { destruct Hwf as [(?&?&?&?) _]; lia. }
  intros j Hj. eapply denotes_load; eauto; inr.
Qed.

Lemma set_row_ok m R C S f v w r : denotes m R C S f -> lists v C w -> 1 <= r <= R -> 1 <= S ->
  exists m', set_row zero v r m = Ok m' /\
    denotes m' R C S (fun i j s => if (i =? r) && (s =? 1) then w j else f i j s).
Proof.
  intros Hm Hv Hr HS. unfold set_row. pose proof Hm as (Hwf & ER & EC & ES & _).
  destruct Hv as [HL HE]. rewrite EC, HL, Z.eqb_refl. cbn [negb].
  eapply writes_denotes with (P := fun i j s => exists j', 1 <= j' <= C /\ i = r /\ j = j' /\ s = 1)
     (g := fun i j s => w j); [|exact Hm|].
  - apply writes_for; [bdec|]. intros j Hj.
    eapply writes_act_ext with (a1 := store (w j) r j 1).
    + intros m0 f0 (_ & -> & _). destruct (Z.leb_spec r R); [|lia].
      rewrite (lists_vat v C w) by (auto; split; auto). reflexivity.
    + apply writes_store with (g := fun i j s => w j); auto. inr.
  - intros i j s Hin. destruct (Z.eqb_spec i r); destruct (Z.eqb_spec s 1); simpl; subst;
      [left|right|right|right]; split; auto; try (intros (j' & K); lia).
    exists j; inr.
Qed.

Lemma set_col_ok m R C S f v w c : denotes m R C S f -> lists v R w -> 1 <= c <= C -> 1 <= S ->
  R = C ->
  exists m', set_col zero v c m = Ok m' /\
    denotes m' R C S (fun i j s => if (j =? c) && (s =? 1) then w i else f i j s).
Proof.
  intros Hm Hv Hr HS <-. unfold set_col. pose proof Hm as (Hwf & ER & EC & ES & _).
  destruct Hv as [HL HE]. rewrite ER, EC, HL, Z.eqb_refl. cbn [negb].
  eapply writes_denotes with (P := fun i j s => exists i', 1 <= i' <= R /\ i = i' /\ j = c /\ s = 1)
     (g := fun i j s => w i); [|exact Hm|].
  - apply writes_for; [bdec|]. intros i Hi.
    eapply writes_act_ext with (a1 := store (w i) i c 1).
    + intros m0 f0 (_ & _ & -> & _). destruct (Z.leb_spec c R); [|lia].
      rewrite (lists_vat v R w) by (auto; split; auto). reflexivity.
    + apply writes_store with (g := fun i j s => w i); auto. inr.
  - intros i j s Hin. destruct (Z.eqb_spec j c); destruct (Z.eqb_spec s 1); simpl; subst;
      [left|right|right|right]; split; auto; try (intros (j' & K); lia).
    exists i; inr.
Qed.

Lemma set_row_bad v r m : cols m <> Z.of_nat (length v) -> set_row zero v r m = Throw InvalidArgument.
Proof. intros H; unfold set_row. destruct (Z.eqb_spec (cols m) (Z.of_nat (length v))); [contradiction|auto]. Qed.
Lemma set_col_bad v r m : cols m <> Z.of_nat (length v) -> set_col zero v r m = Throw InvalidArgument.
Proof. intros H; unfold set_col. destruct (Z.eqb_spec (cols m) (Z.of_nat (length v))); [contradiction|auto]. Qed.

(** ** swaps *)
Lemma swap_row_ok m R C S f a b : denotes m R C S f -> 1 <= a <= R -> 1 <= b <= R -> 1 <= S ->
  exists m', swap_row zero a b m = Ok m' /\
    denotes m' R C S (fun i j s => if s =? 1 then
        if i =? a then f b j 1 else if i =? b then f a j 1 else f i j s else f i j s).
Proof.
  intros Hm Ha Hb HS. unfold swap_row. destruct (Z.eqb_spec a b) as [->|Hab].
  - exists m; split; auto. apply denotes_ext with (f := f); auto. intros r c s Hin.
    destruct (Z.eqb_spec s 1); auto. subst. destruct (Z.eqb_spec r b); subst; auto.
  - destruct (get_row_ok m R C S f a) as (va & Ea & La); auto.
    destruct (get_row_ok m R C S f b) as (vb & Eb & Lb); auto.
    rewrite Ea, Eb. cbn [bind].
    destruct (set_row_ok m R C S f va _ b Hm La) as (m1 & E1 & H1); auto.
    rewrite E1. cbn [bind].
    destruct (set_row_ok m1 R C S _ vb _ a H1 Lb) as (m2 & E2 & H2); auto.
    exists m2; split; auto. eapply denotes_ext; [exact H2|]. cbn beta.
    intros r c s Hin. destruct (Z.eqb_spec s 1); rewrite ?andb_true_r, ?andb_false_r; auto.
Qed.

Lemma swap_col_ok m R C S f a b : denotes m R C S f -> 1 <= a <= C -> 1 <= b <= C -> 1 <= S ->
  R = C \/ a = b ->
  exists m', swap_col zero a b m = Ok m' /\
    denotes m' R C S (fun i j s => if s =? 1 then
        if j =? a then f i b 1 else if j =? b then f i a 1 else f i j s else f i j s).
Proof.
  intros Hm Ha Hb HS Hsq. unfold swap_col. destruct (Z.eqb_spec a b) as [->|Hab].
  - exists m; split; auto. apply denotes_ext with (f := f); auto. intros r c s Hin.
    destruct (Z.eqb_spec s 1); auto. subst. destruct (Z.eqb_spec c b); subst; auto.
  - destruct Hsq as [Hsq|]; [|contradiction].
    destruct (get_col_ok m R C S f a) as (va & Ea & La); auto.
    destruct (get_col_ok m R C S f b) as (vb & Eb & Lb); auto.
    rewrite Ea, Eb. cbn [bind].
    destruct (set_col_ok m R C S f va _ b Hm La) as (m1 & E1 & H1); auto.
    rewrite E1. cbn [bind].
    destruct (set_col_ok m1 R C S _ vb _ a H1 Lb) as (m2 & E2 & H2); auto.
    exists m2; split; auto. eapply denotes_ext; [exact H2|]. cbn beta.
    intros r c s Hin. destruct (Z.eqb_spec s 1); rewrite ?andb_true_r, ?andb_false_r; auto.
Qed.

(** ** moves *)
Lemma shift_rows_up m R C S f a b : denotes m R C S f -> 1 <= a -> a < b <= R -> 1 <= S ->
  exists m', for_up a (b - 1) (fun r m =>
      for_up 1 (cols m) (fun c m => v <- get_elem2 m (r + 1) c ;; set_elem2 v r c m) m) m = Ok m' /\
    denotes m' R C S (fun i j s => if (s =? 1) && (a <=? i) && (i <? b) then f (i + 1) j 1 else f i j s).
Proof.
  intros Hm Ha Hb HS.
  destruct (for_up_inv (fun r m => denotes m R C S
     (fun i j s => if (s =? 1) && (a <=? i) && (i <? r) then f (i + 1) j 1 else f i j s))
     (fun r m => for_up 1 (cols m) (fun c m => v <- get_elem2 m (r + 1) c ;; set_elem2 v r c m) m)
     a (b - 1) m) as (m' & E & H'); [lia| | |].
  - eapply denotes_ext; [exact Hm|]. intros i j s Hin; cbn beta.
    destruct ((s =? 1) && (a <=? i) && (i <? a)) eqn:E; auto. lia.
  - intros r m0 Hr H0. pose proof H0 as (Hwf & _ & EC & _ & _). rewrite EC.
    destruct (for_up_inv (fun c m => denotes m R C S
      (fun i j s => if (s =? 1) && (a <=? i) && ((i <? r) || ((i =? r) && (j <? c))) then f (i + 1) j 1 else f i j s))
      (fun c m => v <- get_elem2 m (r + 1) c ;; set_elem2 v r c m) 1 C m0) as (m1 & E1 & H1).
    + destruct Hwf as [(?&?&?&?) _]; lia.
    + eapply denotes_ext; [exact H0|]. intros i j s Hin; cbn beta.
      replace ((i =? r) && (j <? 1)) with false by inr. rewrite orb_false_r; auto.
    + intros c m1 Hc H1. rewrite (denotes_get2 _ _ _ _ _ _ _ H1) by inr. cbn [bind].
      rewrite set_elem2_eq by (destruct H1 as (_&_&_&->&_); lia).
      match goal with |- context [set_elem3 ?v _ _ _ _] => set (v0 := v) end.
      destruct (denotes_set3 m1 R C S _ v0 r c 1 H1) as (m2 & E2 & H2); [inr|].
      exists m2; split; auto. eapply denotes_ext; [exact H2|]. cbn beta. intros i j s Hin.
      assert (Hv : v0 = f (r + 1) c 1).
      { unfold v0. match goal with |- (if ?b then _ else _) = _ => destruct b eqn:EB end; auto. lia. }
      clearbody v0. subst v0.
      destruct ((i =? r) && (j =? c) && (s =? 1)) eqn:E3.
      * assert (i = r) by lia. assert (j = c) by lia. assert (s = 1) by lia. subst.
        match goal with |- _ = (if ?b then _ else _) => destruct b eqn:EB end; auto. lia.
      * match goal with |- (if ?b then _ else _) = (if ?b' then _ else _) =>
          destruct b eqn:EB; destruct b' eqn:EB' end; auto; lia.
    + exists m1; split; auto. eapply denotes_ext; [exact H1|]. cbn beta. intros i j s Hin.
      match goal with |- (if ?b then _ else _) = (if ?b' then _ else _) =>
          destruct b eqn:EB; destruct b' eqn:EB' end; auto; inr.
  - exists m'; split; auto. eapply denotes_ext; [exact H'|]. cbn beta. intros i j s Hin.
    replace (b - 1 + 1) with b by lia. auto.
Qed.

Lemma shift_rows_down m R C S f a b : denotes m R C S f -> 1 <= b -> b < a <= R -> 1 <= S ->
  exists m', for_down a (b + 1) (fun r m =>
      for_up 1 (cols m) (fun c m => v <- get_elem2 m (r - 1) c ;; set_elem2 v r c m) m) m = Ok m' /\
    denotes m' R C S (fun i j s => if (s =? 1) && (b <? i) && (i <=? a) then f (i - 1) j 1 else f i j s).
Proof.
  intros Hm Ha Hb HS.
  destruct (for_down_inv (fun r m => denotes m R C S
     (fun i j s => if (s =? 1) && (r <? i) && (i <=? a) then f (i - 1) j 1 else f i j s))
     (fun r m => for_up 1 (cols m) (fun c m => v <- get_elem2 m (r - 1) c ;; set_elem2 v r c m) m)
     a (b + 1) m) as (m' & E & H'); [lia| | |].
  - eapply denotes_ext; [exact Hm|]. intros i j s Hin; cbn beta.
    destruct ((s =? 1) && (a <? i) && (i <=? a)) eqn:E; auto. lia.
  - intros r m0 Hr H0. pose proof H0 as (Hwf & _ & EC & _ & _). rewrite EC.
    destruct (for_up_inv (fun c m => denotes m R C S
      (fun i j s => if (s =? 1) && (i <=? a) && ((r <? i) || ((i =? r) && (j <? c))) then f (i - 1) j 1 else f i j s))
      (fun c m => v <- get_elem2 m (r - 1) c ;; set_elem2 v r c m) 1 C m0) as (m1 & E1 & H1).
    + destruct Hwf as [(?&?&?&?) _]; lia.
    + eapply denotes_ext; [exact H0|]. intros i j s Hin; cbn beta.
      match goal with |- (if ?b then _ else _) = (if ?b' then _ else _) =>
          destruct b eqn:EB; destruct b' eqn:EB' end; auto; inr.
    + intros c m1 Hc H1. rewrite (denotes_get2 _ _ _ _ _ _ _ H1) by inr. cbn [bind].
      rewrite set_elem2_eq by (destruct H1 as (_&_&_&->&_); lia).
      match goal with |- context [set_elem3 ?v _ _ _ _] => set (v0 := v) end.
      destruct (denotes_set3 m1 R C S _ v0 r c 1 H1) as (m2 & E2 & H2); [inr|].
      exists m2; split; auto. eapply denotes_ext; [exact H2|]. cbn beta. intros i j s Hin.
      assert (Hv : v0 = f (r - 1) c 1).
      { unfold v0. match goal with |- (if ?b then _ else _) = _ => destruct b eqn:EB end; auto. lia. }
      clearbody v0. subst v0.
      destruct ((i =? r) && (j =? c) && (s =? 1)) eqn:E3.
      * assert (i = r) by lia. assert (j = c) by lia. assert (s = 1) by lia. subst.
        match goal with |- _ = (if ?b then _ else _) => destruct b eqn:EB end; auto. lia.
      * match goal with |- (if ?b then _ else _) = (if ?b' then _ else _) =>
          destruct b eqn:EB; destruct b' eqn:EB' end; auto; lia.
    + exists m1; split; auto. eapply denotes_ext; [exact H1|]. cbn beta. intros i j s Hin.
      match goal with |- (if ?b then _ else _) = (if ?b' then _ else _) =>
          destruct b eqn:EB; destruct b' eqn:EB' end; auto; inr.
  - exists m'; split; auto. eapply denotes_ext; [exact H'|]. cbn beta. intros i j s Hin.
    replace (b + 1 - 1) with b by lia. auto.
Qed.

Lemma shift_cols_up m R C S f a b : denotes m R C S f -> 1 <= a -> a < b <= C -> 1 <= S ->
  exists m', for_up a (b - 1) (fun c m =>
      for_up 1 (rows m) (fun r m => v <- get_elem2 m r (c + 1) ;; set_elem2 v r c m) m) m = Ok m' /\
    denotes m' R C S (fun i j s => if (s =? 1) && (a <=? j) && (j <? b) then f i (j + 1) 1 else f i j s).
Proof.
  intros Hm Ha Hb HS.
  destruct (for_up_inv (fun r m => denotes m R C S
     (fun i j s => if (s =? 1) && (a <=? j) && (j <? r) then f i (j + 1) 1 else f i j s))
     (fun c m => for_up 1 (rows m) (fun r m => v <- get_elem2 m r (c + 1) ;; set_elem2 v r c m) m)
     a (b - 1) m) as (m' & E & H'); [lia| | |].
  - eapply denotes_ext; [exact Hm|]. intros i j s Hin; cbn beta.
    destruct ((s =? 1) && (a <=? j) && (j <? a)) eqn:E; auto. lia.
  - intros r m0 Hr H0. pose proof H0 as (Hwf & ER & _ & _ & _). rewrite ER.
    destruct (for_up_inv (fun c m => denotes m R C S
      (fun i j s => if (s =? 1) && (a <=? j) && ((j <? r) || ((j =? r) && (i <? c))) then f i (j + 1) 1 else f i j s))
      (fun c m => v <- get_elem2 m c (r + 1) ;; set_elem2 v c r m) 1 R m0) as (m1 & E1 & H1).
    + destruct Hwf as [(?&?&?&?) _]; lia.
    + eapply denotes_ext; [exact H0|]. intros i j s Hin; cbn beta.
      match goal with |- (if ?b then _ else _) = (if ?b' then _ else _) =>
          destruct b eqn:EB; destruct b' eqn:EB' end; auto; inr.
    + intros c m1 Hc H1. rewrite (denotes_get2 _ _ _ _ _ _ _ H1) by inr. cbn [bind].
      rewrite set_elem2_eq by (destruct H1 as (_&_&_&->&_); lia).
      match goal with |- context [set_elem3 ?v _ _ _ _] => set (v0 := v) end.
      destruct (denotes_set3 m1 R C S _ v0 c r 1 H1) as (m2 & E2 & H2); [inr|].
      exists m2; split; auto. eapply denotes_ext; [exact H2|]. cbn beta. intros i j s Hin.
      assert (Hv : v0 = f c (r + 1) 1).
      { unfold v0. match goal with |- (if ?b then _ else _) = _ => destruct b eqn:EB end; auto. lia. }
      clearbody v0. subst v0.
      destruct ((i =? c) && (j =? r) && (s =? 1)) eqn:E3.
      * assert (i = c) by lia. assert (j = r) by lia. assert (s = 1) by lia. subst.
        match goal with |- _ = (if ?b then _ else _) => destruct b eqn:EB end; auto. lia.
      * match goal with |- (if ?b then _ else _) = (if ?b' then _ else _) =>
          destruct b eqn:EB; destruct b' eqn:EB' end; auto; lia.
    + exists m1; split; auto. eapply denotes_ext; [exact H1|]. cbn beta. intros i j s Hin.
      match goal with |- (if ?b then _ else _) = (if ?b' then _ else _) =>
          destruct b eqn:EB; destruct b' eqn:EB' end; auto; inr.
  - exists m'; split; auto. eapply denotes_ext; [exact H'|]. cbn beta. intros i j s Hin.
    replace (b - 1 + 1) with b by lia. auto.
Qed.

Lemma shift_cols_down m R C S f a b : denotes m R C S f -> 1 <= b -> b < a <= C -> 1 <= S ->
  exists m', for_down a (b + 1) (fun c m =>
      for_up 1 (rows m) (fun r m => v <- get_elem2 m r (c - 1) ;; set_elem2 v r c m) m) m = Ok m' /\
    denotes m' R C S (fun i j s => if (s =? 1) && (b <? j) && (j <=? a) then f i (j - 1) 1 else f i j s).
Proof.
  intros Hm Ha Hb HS.
  destruct (for_down_inv (fun r m => denotes m R C S
     (fun i j s => if (s =? 1) && (r <? j) && (j <=? a) then f i (j - 1) 1 else f i j s))
     (fun c m => for_up 1 (rows m) (fun r m => v <- get_elem2 m r (c - 1) ;; set_elem2 v r c m) m)
     a (b + 1) m) as (m' & E & H'); [lia| | |].
  - eapply denotes_ext; [exact Hm|]. intros i j s Hin; cbn beta.
    destruct ((s =? 1) && (a <? j) && (j <=? a)) eqn:E; auto. lia.
  - intros r m0 Hr H0. pose proof H0 as (Hwf & ER & _ & _ & _). rewrite ER.
    destruct (for_up_inv (fun c m => denotes m R C S
      (fun i j s => if (s =? 1) && (j <=? a) && ((r <? j) || ((j =? r) && (i <? c))) then f i (j - 1) 1 else f i j s))
      (fun c m => v <- get_elem2 m c (r - 1) ;; set_elem2 v c r m) 1 R m0) as (m1 & E1 & H1).
    + destruct Hwf as [(?&?&?&?) _]; lia.
    + eapply denotes_ext; [exact H0|]. intros i j s Hin; cbn beta.
      match goal with |- (if ?b then _ else _) = (if ?b' then _ else _) =>
          destruct b eqn:EB; destruct b' eqn:EB' end; auto; inr.
    + intros c m1 Hc H1. rewrite (denotes_get2 _ _ _ _ _ _ _ H1) by inr. cbn [bind].
      rewrite set_elem2_eq by (destruct H1 as (_&_&_&->&_); lia).
      match goal with |- context [set_elem3 ?v _ _ _ _] => set (v0 := v) end.
      destruct (denotes_set3 m1 R C S _ v0 c r 1 H1) as (m2 & E2 & H2); [inr|].
      exists m2; split; auto. eapply denotes_ext; [exact H2|]. cbn beta. intros i j s Hin.
      assert (Hv : v0 = f c (r - 1) 1).
      { unfold v0. match goal with |- (if ?b then _ else _) = _ => destruct b eqn:EB end; auto. lia. }
      clearbody v0. subst v0.
      destruct ((i =? c) && (j =? r) && (s =? 1)) eqn:E3.
      * assert (i = c) by lia. assert (j = r) by lia. assert (s = 1) by lia. subst.
        match goal with |- _ = (if ?b then _ else _) => destruct b eqn:EB end; auto. lia.
      * match goal with |- (if ?b then _ else _) = (if ?b' then _ else _) =>
          destruct b eqn:EB; destruct b' eqn:EB' end; auto; lia.
    + exists m1; split; auto. eapply denotes_ext; [exact H1|]. cbn beta. intros i j s Hin.
      match goal with |- (if ?b then _ else _) = (if ?b' then _ else _) =>
          destruct b eqn:EB; destruct b' eqn:EB' end; auto; inr.
  - exists m'; split; auto. eapply denotes_ext; [exact H'|]. cbn beta. intros i j s Hin.
    replace (b + 1 - 1) with b by lia. auto.
Qed.

Lemma move_row_ok m R C S f a b : denotes m R C S f -> 1 <= a <= R -> 1 <= b <= R -> 1 <= S ->
  exists m', move_row zero a b m = Ok m' /\
    denotes m' R C S (fun i j s => if s =? 1 then f (moved a b i) j 1 else f i j s).
Proof.
  intros Hm Ha Hb HS. unfold move_row. destruct (Z.eqb_spec a b) as [->|Hab].
  - exists m; split; auto. eapply denotes_ext; [exact Hm|]. intros i j s Hin; cbn beta.
    destruct (Z.eqb_spec s 1); auto. subst. f_equal. unfold moved.
    destruct (Z.eqb_spec i b); auto. destruct ((b <=? i) && (i <? b)) eqn:E1; [lia|].
    destruct ((b <? i) && (i <=? b)) eqn:E2; [lia|]. auto.
  - destruct (get_row_ok m R C S f a) as (va & Ea & La); auto.
    rewrite Ea. cbn [bind]. destruct (Z.ltb_spec a b) as [Hlt|Hge].
    + destruct (shift_rows_up m R C S f a b) as (m1 & E1 & H1); auto; try lia.
      rewrite E1. cbn [bind].
      destruct (set_row_ok m1 R C S _ va _ b H1 La) as (m2 & E2 & H2); auto.
      exists m2; split; auto. eapply denotes_ext; [exact H2|]. cbn beta. intros i j s Hin.
      destruct (Z.eqb_spec s 1); rewrite ?andb_true_r, ?andb_false_r; simpl; auto.
      subst. unfold moved. destruct (Z.eqb_spec i b); auto.
      destruct ((a <=? i) && (i <? b)) eqn:EB; auto.
      destruct ((b <? i) && (i <=? a)) eqn:EB2; auto; lia.
    + destruct (shift_rows_down m R C S f a b) as (m1 & E1 & H1); auto; try lia.
      rewrite E1. cbn [bind].
      destruct (set_row_ok m1 R C S _ va _ b H1 La) as (m2 & E2 & H2); auto.
      exists m2; split; auto. eapply denotes_ext; [exact H2|]. cbn beta. intros i j s Hin.
      destruct (Z.eqb_spec s 1); rewrite ?andb_true_r, ?andb_false_r; simpl; auto.
      subst. unfold moved. destruct (Z.eqb_spec i b); auto.
      destruct ((a <=? i) && (i <? b)) eqn:EB; [lia|].
      destruct ((b <? i) && (i <=? a)) eqn:EB2; auto.
Qed.

Lemma move_col_ok m R C S f a b : denotes m R C S f -> 1 <= a <= C -> 1 <= b <= C -> 1 <= S ->
  R = C \/ a = b ->
  exists m', move_col zero a b m = Ok m' /\
    denotes m' R C S (fun i j s => if s =? 1 then f i (moved a b j) 1 else f i j s).
Proof.
  intros Hm Ha Hb HS Hsq. unfold move_col. destruct (Z.eqb_spec a b) as [->|Hab].
  - exists m; split; auto. eapply denotes_ext; [exact Hm|]. intros i j s Hin; cbn beta.
    destruct (Z.eqb_spec s 1); auto. subst. f_equal. unfold moved.
    destruct (Z.eqb_spec j b); auto. destruct ((b <=? j) && (j <? b)) eqn:E1; [lia|].
    destruct ((b <? j) && (j <=? b)) eqn:E2; [lia|]. auto.
  - destruct Hsq as [Hsq|]; [|contradiction].
    destruct (get_col_ok m R C S f a) as (va & Ea & La); auto.
    rewrite Ea. cbn [bind]. destruct (Z.ltb_spec a b) as [Hlt|Hge].
    + destruct (shift_cols_up m R C S f a b) as (m1 & E1 & H1); auto; try lia.
      rewrite E1. cbn [bind].
      destruct (set_col_ok m1 R C S _ va _ b H1 La) as (m2 & E2 & H2); auto.
      exists m2; split; auto. eapply denotes_ext; [exact H2|]. cbn beta. intros i j s Hin.
      destruct (Z.eqb_spec s 1); rewrite ?andb_true_r, ?andb_false_r; simpl; auto.
      subst. unfold moved. destruct (Z.eqb_spec j b); auto.
      destruct ((a <=? j) && (j <? b)) eqn:EB; auto.
      destruct ((b <? j) && (j <=? a)) eqn:EB2; auto; lia.
    + destruct (shift_cols_down m R C S f a b) as (m1 & E1 & H1); auto; try lia.
      rewrite E1. cbn [bind].
      destruct (set_col_ok m1 R C S _ va _ b H1 La) as (m2 & E2 & H2); auto.
      exists m2; split; auto. eapply denotes_ext; [exact H2|]. cbn beta. intros i j s Hin.
      destruct (Z.eqb_spec s 1); rewrite ?andb_true_r, ?andb_false_r; simpl; auto.
      subst. unfold moved. destruct (Z.eqb_spec j b); auto.
      destruct ((a <=? j) && (j <? b)) eqn:EB; [lia|].
      destruct ((b <? j) && (j <=? a)) eqn:EB2; auto.
Qed.
End Ops.
