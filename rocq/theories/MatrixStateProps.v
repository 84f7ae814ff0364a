(** * Property C92: Matrix functions that throw *)
From Verif Require Import MatrixProps.
From Verif Require Import MatrixReach MatrixStateModel.
Open Scope Z_scope.

(** what the caller sees of a call: the new object or the exception *)
Definition seen {T} (p : member T) (m : mat T) : outcome (mat T) := r <- p m ;; match snd r with None => Ok (fst r) | Some e => Throw e end.
Definition value_of {T} (zero : T) (o : call T) : mat T -> outcome (mat T) :=
  match o with
  | SetRow v r => set_row zero v r | SetCol v c => set_col zero v c | SwapRow a b => swap_row zero a b
  | SwapCol a b => swap_col zero a b | MoveRow a b => move_row zero a b | MoveCol a b => move_col zero a b end.

Lemma seen_seq {T} (a b : member T) m : seen (seq_ a b) m = (m' <- seen a m ;; seen b m').
Proof. unfold seen, seq_. destruct (a m) as [[m1 [e|]]| | | |]; cbn [bind fst snd]; reflexivity. Qed.
Lemma seen_reading {T A} (x : mat T -> outcome A) k (m : mat T) : seen (reading x k) m = (a <- x m ;; seen (k a) m).
Proof. unfold seen, reading. destruct (x m); cbn [bind fst snd]; reflexivity. Qed.
Lemma reading_ok {T A} (x : mat T -> outcome A) k (m : mat T) a : x m = Ok a -> reading x k m = k a m.
Proof. unfold reading. intros ->. reflexivity. Qed.
Lemma seen_writing {T} (f : mat T -> outcome (mat T)) m : seen (writing f) m = f m.
Proof. unfold seen, writing. destruct (f m); cbn [bind fst snd]; reflexivity. Qed.
Lemma seen_up {T} (body : Z -> member T) (b : Z -> mat T -> outcome (mat T)) : (forall i m, seen (body i) m = b i m) ->
  forall lo hi m, seen (each_up lo hi body) m = for_up lo hi b m.
Proof.
  intros H lo hi. unfold each_up, for_up. generalize (Z.to_nat (hi - lo + 1)). intros n. revert lo. induction n as [|n IH]; intros lo m; [reflexivity|].
  cbn [times_up for_n]. rewrite seen_seq, H. destruct (b lo m); cbn [bind]; auto.
Qed.
Lemma seen_down {T} (body : Z -> member T) (b : Z -> mat T -> outcome (mat T)) : (forall i m, seen (body i) m = b i m) ->
  forall hi lo m, seen (each_down hi lo body) m = for_down hi lo b m.
Proof.
  intros H hi lo. unfold each_down, for_down. generalize (Z.to_nat (hi - lo + 1)). intros n. revert hi. induction n as [|n IH]; intros hi m; [reflexivity|].
  cbn [times_dn for_dn]. rewrite seen_seq, H. destruct (b hi m); cbn [bind]; auto.
Qed.
Lemma seen_set_row {T} (zero : T) v r m : seen (set_row_on zero v r) m = set_row zero v r m.
Proof.
  unfold set_row_on, set_row. rewrite seen_reading. cbn [bind]. destruct (negb _); [reflexivity|].
  apply seen_up. intros j m0. rewrite seen_reading. cbn [bind]. destruct (r <=? rows m0); [|apply seen_writing].
  rewrite seen_reading. destruct (vat v (j - 1)); cbn [bind]; auto. apply seen_writing.
Qed.
Lemma seen_set_col {T} (zero : T) v c m : seen (set_col_on zero v c) m = set_col zero v c m.
Proof.
  unfold set_col_on, set_col. rewrite seen_reading. cbn [bind]. destruct (negb _); [reflexivity|]. rewrite seen_reading. cbn [bind].
  apply seen_up. intros j m0. rewrite seen_reading. cbn [bind]. destruct (c <=? cols m0); [|apply seen_writing].
  rewrite seen_reading. destruct (vat v (j - 1)); cbn [bind]; auto. apply seen_writing.
Qed.

(** functions that do not throw *)
Definition quiet {A} (x : outcome A) : Prop := forall e, x <> Throw e.
Lemma quiet_bind {A B} (x : outcome A) (k : A -> outcome B) : quiet x -> (forall a, x = Ok a -> quiet (k a)) -> quiet (bind x k).
Proof. intros H K e. destruct x; cbn [bind]; try discriminate; [apply (K _ eq_refl)|intros E; apply (H e0); reflexivity]. Qed.
Lemma quiet_ok {A} (a : A) : quiet (Ok a). Proof. intros e. discriminate. Qed.
Lemma quiet_up {X} (b : Z -> X -> outcome X) lo hi s : (forall i s, lo <= i <= hi -> quiet (b i s)) -> quiet (for_up lo hi b s).
Proof.
  unfold for_up. intros H. assert (K : forall i s, lo <= i < lo + Z.of_nat (Z.to_nat (hi - lo + 1)) -> quiet (b i s)) by (intros; apply H; lia). clear H. revert K.
  generalize (Z.to_nat (hi - lo + 1)); intros n; revert lo s. induction n as [|n IH]; intros lo0 s K; [apply quiet_ok|]. cbn [for_n]. apply quiet_bind; [apply K; lia|]. intros a _. apply IH. intros i s0 Hi. apply K. lia.
Qed.
Lemma quiet_down {X} (b : Z -> X -> outcome X) hi lo s : (forall i s, quiet (b i s)) -> quiet (for_down hi lo b s).
Proof.
  unfold for_down. intros H. generalize (Z.to_nat (hi - lo + 1)). intros n. revert hi s. induction n as [|n IH]; intros hi s; [apply quiet_ok|].
  cbn [for_dn]. apply quiet_bind; [apply H|]. intros a _. apply IH.
Qed.
Lemma quiet_ichk z : quiet (ichk z).
Proof. intros e. unfold ichk. destruct (is_intb z); discriminate. Qed.
Lemma quiet_index {T} (m : mat T) r c s : quiet (index m r c s).
Proof. unfold index, flat, isub, imul, iadd. repeat (apply quiet_bind; [apply quiet_ichk|intros ? _]); apply quiet_ichk. Qed.
Lemma quiet_store {T} (v : T) r c s m : quiet (store v r c s m).
Proof. unfold store. apply quiet_bind; [apply quiet_index|intros k _]. apply quiet_bind; [|intros; apply quiet_ok]. intros e. unfold wr. destruct (_ && _); discriminate. Qed.
Lemma quiet_load {T} (m : mat T) r c s : quiet (load m r c s).
Proof. unfold load. apply quiet_bind; [apply quiet_index|intros k _]. intros e. unfold rd. destruct (_ && _); try discriminate. destruct (nth_error _ _) as [[]|]; discriminate. Qed.
Lemma quiet_get2 {T} (m : mat T) r c : quiet (get_elem2 m r c).
Proof. unfold get_elem2. repeat match goal with |- context [if ?b then _ else _] => destruct b end; try (intros e; discriminate). apply quiet_load. Qed.
Lemma quiet_set2 {T} (v : T) r c m : quiet (set_elem2 v r c m).
Proof. unfold set_elem2. repeat match goal with |- context [if ?b then _ else _] => destruct b end; try (intros e; discriminate). apply quiet_store. Qed.
Lemma quiet_vat {A} (v : list A) k : 0 <= k < Z.of_nat (length v) -> quiet (vat v k).
Proof. intros H e. unfold vat. destruct (Z.ltb_spec k 0); [lia|]. destruct (nth_error v (Z.to_nat k)) eqn:E; [discriminate|]. apply nth_error_None in E. lia. Qed.
Lemma quiet_set_row {T} (zero : T) v r m : cols m = Z.of_nat (length v) -> quiet (set_row zero v r m).
Proof.
  intros H. unfold set_row. destruct (Z.eqb_spec (cols m) (Z.of_nat (length v))); [|contradiction]. cbn [negb]. apply quiet_up. intros j m0 Hj.
  destruct (r <=? rows m0); [|apply quiet_store]. apply quiet_bind; [apply quiet_vat; lia|]. intros a _. apply quiet_store.
Qed.
Lemma quiet_set_col {T} (zero : T) v c m : cols m = Z.of_nat (length v) -> rows m <= cols m -> quiet (set_col zero v c m).
Proof.
  intros H H2. unfold set_col. destruct (Z.eqb_spec (cols m) (Z.of_nat (length v))); [|contradiction]. cbn [negb]. apply quiet_up. intros j m0 Hj.
  destruct (c <=? cols m0); [|apply quiet_store]. apply quiet_bind; [apply quiet_vat; lia|]. intros a _. apply quiet_store.
Qed.
Lemma collected {T} (ld : Z -> outcome T) n v : 0 <= n -> for_up 1 n (fun i acc => x <- ld i ;; Ok (acc ++ [x])) [] = Ok v -> Z.of_nat (length v) = n.
Proof.
  intros Hn. unfold for_up. replace (n - 1 + 1) with n by lia. intros H.
  assert (G : forall k lo acc, for_n k lo (fun i acc => x <- ld i ;; Ok (acc ++ [x])) acc = Ok v -> length v = (length acc + k)%nat).
  { induction k as [|k IH]; intros lo acc E; cbn [for_n] in E; [injection E as <-; lia|]. apply bind_ok in E as (a & E1 & E). apply bind_ok in E1 as (x & _ & E1). injection E1 as <-.
    apply IH in E. rewrite app_length in E. cbn [length] in E. lia. }
  apply G in H. cbn [length] in H. lia.
Qed.
Lemma row_len {T} (m : mat T) r v : 0 <= cols m -> get_row m r = Ok v -> Z.of_nat (length v) = cols m.
Proof. intros H E. exact (collected _ _ _ H E). Qed.
Lemma col_len {T} (m : mat T) r v : 0 <= rows m -> get_col m r = Ok v -> Z.of_nat (length v) = rows m.
Proof. intros H E. exact (collected _ _ _ H E). Qed.
Lemma quiet_row {T} (m : mat T) r : quiet (get_row m r).
Proof. apply quiet_up. intros i s _. apply quiet_bind; [apply quiet_load|intros; apply quiet_ok]. Qed.
Lemma quiet_col {T} (m : mat T) r : quiet (get_col m r).
Proof. apply quiet_up. intros i s _. apply quiet_bind; [apply quiet_load|intros; apply quiet_ok]. Qed.
Lemma seen_ok {T} (p : member T) m m' : seen p m = Ok m' <-> p m = Ok (m', None).
Proof. unfold seen. destruct (p m) as [[m1 [e|]]| | | |]; cbn [bind fst snd]; split; intros H; try discriminate; injection H as ->; reflexivity. Qed.
Lemma seen_throw {T} (p : member T) m m' e : p m = Ok (m', Some e) -> seen p m = Throw e.
Proof. unfold seen. intros ->. reflexivity. Qed.
Lemma row_throw {T} (zero : T) v r m m' e : set_row_on zero v r m = Ok (m', Some e) -> m' = m.
Proof.
  intros H. destruct (Z.eq_dec (cols m) (Z.of_nat (length v))) as [E|E].
  - apply seen_throw in H. rewrite seen_set_row in H. destruct (quiet_set_row zero v r m E _ H).
  - unfold set_row_on, reading, throwing in H. destruct (Z.eqb_spec (cols m) (Z.of_nat (length v))); [contradiction|]. cbn [negb] in H. injection H as <- _. reflexivity.
Qed.
Lemma col_throw {T} (zero : T) v c m m' e : rows m <= cols m \/ Z.of_nat (length v) <> cols m -> set_col_on zero v c m = Ok (m', Some e) -> m' = m.
Proof.
  intros Hc H. destruct (Z.eq_dec (cols m) (Z.of_nat (length v))) as [E|E].
  - apply seen_throw in H. rewrite seen_set_col in H. destruct Hc as [Hc|Hc]; [|congruence]. destruct (quiet_set_col zero v c m E Hc _ H).
  - unfold set_col_on, reading, throwing in H. destruct (Z.eqb_spec (cols m) (Z.of_nat (length v))); [contradiction|]. cbn [negb] in H. injection H as <- _. reflexivity.
Qed.

(** ** C92 *)
(** the step-by-step functions return and throw as the functions of C12-C15 *)
Theorem C92_same : forall T (zero : T) o m, seen (run_call zero o) m = value_of zero o m.
Proof.
  intros T zero [v r|v c|a b|a b|a b|a b] m; cbn [run_call value_of].
  - apply seen_set_row.
  - apply seen_set_col.
  - unfold swap_row_on, swap_row. destruct (a =? b); [reflexivity|]. rewrite seen_reading. destruct (get_row m a); cbn [bind]; try reflexivity.
    rewrite seen_reading. destruct (get_row m b); cbn [bind]; try reflexivity. rewrite seen_seq, seen_set_row. destruct (set_row zero _ b m); cbn [bind]; auto. apply seen_set_row.
  - unfold swap_col_on, swap_col. destruct (a =? b); [reflexivity|]. rewrite seen_reading. destruct (get_col m a); cbn [bind]; try reflexivity.
    rewrite seen_reading. destruct (get_col m b); cbn [bind]; try reflexivity. rewrite seen_seq, seen_set_col. destruct (set_col zero _ b m); cbn [bind]; auto. apply seen_set_col.
  - unfold move_row_on, move_row. destruct (a =? b); [reflexivity|]. rewrite seen_reading. destruct (get_row m a) as [row| | | |]; cbn [bind]; try reflexivity. rewrite seen_seq.
    match goal with |- bind ?x _ = bind ?y _ => assert (E : x = y) end.
    { destruct (a <? b); [apply seen_up|apply seen_down]; intros i m0; rewrite seen_reading; cbn [bind]; apply seen_up; intros j m1; rewrite seen_reading;
      (destruct (get_elem2 m1 _ j); cbn [bind]; auto; apply seen_writing). }
    rewrite E. match goal with |- bind ?x _ = _ => destruct x end; cbn [bind]; auto. apply seen_set_row.
  - unfold move_col_on, move_col. destruct (a =? b); [reflexivity|]. rewrite seen_reading. destruct (get_col m a) as [col| | | |]; cbn [bind]; try reflexivity. rewrite seen_seq.
    match goal with |- bind ?x _ = bind ?y _ => assert (E : x = y) end.
    { destruct (a <? b); [apply seen_up|apply seen_down]; intros i m0; rewrite seen_reading; cbn [bind]; apply seen_up; intros j m1; rewrite seen_reading;
      (destruct (get_elem2 m1 j _); cbn [bind]; auto; apply seen_writing). }
    rewrite E. match goal with |- bind ?x _ = _ => destruct x end; cbn [bind]; auto. apply seen_set_col.
Qed.
Print Assumptions C92_same.

(** full property: [forall o m m' e, wf m -> run_call zero o m = Ok (m', Some e) -> m' = m].
    Proved for set_row, swap_row, swap_col, move_row on all matrices, for set_col when the matrix has at most as many rows as columns or
    the vector does not have one entry per column, and for move_col on square matrices *)
Definition covered {T} (o : call T) (m : mat T) : Prop :=
  match o with SetCol v _ => rows m <= cols m \/ Z.of_nat (length v) <> cols m | MoveCol _ _ => rows m = cols m | _ => True end.
Theorem C92_unchanged_partial : forall T (zero : T) o m m' e, wf m -> covered o m -> run_call zero o m = Ok (m', Some e) -> m' = m.
Proof.
  intros T zero o m m' e W Hc H. assert (W' : 0 <= rows m /\ 0 <= cols m) by (destruct W as [(?&?&_) _]; lia). clear W. destruct W' as [WR WC].
  destruct o as [v r|v c|a b|a b|a b|a b]; cbn [run_call covered] in *.
  - eapply row_throw; eauto.
  - eapply col_throw; eauto.
  - exfalso. apply seen_throw in H. pose proof (C92_same T zero (SwapRow a b) m) as Sm. cbn [run_call value_of] in Sm. rewrite Sm in H. clear Sm. unfold swap_row in H. destruct (a =? b); [discriminate|].
    revert H. apply quiet_bind; [apply quiet_row|]. intros u Eu. apply quiet_bind; [apply quiet_row|]. intros w Ew.
    apply quiet_bind; [apply quiet_set_row; symmetry; eapply row_len; eauto|]. intros m1 E1. apply quiet_set_row. apply set_row_shape in E1 as (_ & -> & _). symmetry. eapply row_len; eauto.
  - unfold swap_col_on in H. destruct (a =? b); [discriminate|]. unfold reading at 1 in H. destruct (get_col m a) as [u| | | |] eqn:Eu; try discriminate; [|destruct (quiet_col m a _ Eu)].
    unfold reading in H. destruct (get_col m b) as [w| | | |] eqn:Ew; try discriminate; [|destruct (quiet_col m b _ Ew)].
    apply col_len in Eu; auto. apply col_len in Ew; auto. unfold seq_ in H. destruct (set_col_on zero u b m) as [[m1 [e1|]]| | | |] eqn:E1; cbn [bind fst snd] in H; try discriminate.
    + injection H as <- _. eapply col_throw; [|exact E1]. lia.
    + exfalso. apply seen_throw in H. apply seen_ok in E1. rewrite seen_set_col in H, E1.
      destruct (Z.eq_dec (cols m) (Z.of_nat (length u))) as [E|E]; [|rewrite set_col_bad in E1 by auto; discriminate].
      apply set_col_shape in E1 as (Er & Ec & _). revert H. apply quiet_set_col; lia.
  - exfalso. apply seen_throw in H. pose proof (C92_same T zero (MoveRow a b) m) as Sm. cbn [run_call value_of] in Sm. rewrite Sm in H. clear Sm. unfold move_row in H. destruct (a =? b); [discriminate|].
    revert H. apply quiet_bind; [apply quiet_row|]. intros u Eu.
    assert (Q : forall d (r : Z) (m : mat T), quiet (for_up 1 (cols m) (fun c m => v <- get_elem2 m (r + d) c ;; set_elem2 v r c m) m)) by (intros d r m0; apply quiet_up; intros c m1 _; apply quiet_bind; [apply quiet_get2|intros; apply quiet_set2]).
    apply quiet_bind; [destruct (a <? b); [apply quiet_up; intros; apply Q|apply quiet_down; intros; apply (Q (-1))]|].
    intros m1 E1. apply quiet_set_row. assert (S1 : same_shape m m1).
    { destruct (a <? b); revert E1; [apply shape_for|apply shape_for_down]; intros i m2 m3; apply shape_for; intros j m4 m5 E; apply bind_ok in E as (? & _ & E); eapply set2_shape; eauto. }
    destruct S1 as (_ & -> & _). symmetry. eapply row_len; eauto.
  - exfalso. apply seen_throw in H. pose proof (C92_same T zero (MoveCol a b) m) as Sm. cbn [run_call value_of] in Sm. rewrite Sm in H. clear Sm. unfold move_col in H. destruct (a =? b); [discriminate|].
    revert H. apply quiet_bind; [apply quiet_col|]. intros u Eu.
    assert (Q : forall d (r : Z) (m : mat T), quiet (for_up 1 (rows m) (fun c m => v <- get_elem2 m c (r + d) ;; set_elem2 v c r m) m)) by (intros d r m0; apply quiet_up; intros c m1 _; apply quiet_bind; [apply quiet_get2|intros; apply quiet_set2]).
    apply quiet_bind; [destruct (a <? b); [apply quiet_up; intros; apply Q|apply quiet_down; intros; apply (Q (-1))]|].
    intros m1 E1. assert (S1 : same_shape m m1).
    { destruct (a <? b); revert E1; [apply shape_for|apply shape_for_down]; intros i m2 m3; apply shape_for; intros j m4 m5 E; apply bind_ok in E as (? & _ & E); eapply set2_shape; eauto. }
    destruct S1 as (Er & Ec & _). apply quiet_set_col; [rewrite Ec; rewrite (col_len m a u WR Eu); lia|lia].
Qed.
Print Assumptions C92_unchanged_partial.
Lemma times_app {T} (body : Z -> member T) k : forall n i m, times_up (k + n) i body m = seq_ (times_up k i body) (times_up n (i + Z.of_nat k) body) m.
Proof.
  induction k as [|k IH]; intros n i m; cbn [plus times_up].
  - unfold seq_, done. cbn [bind fst snd]. replace (i + Z.of_nat 0) with i by lia. reflexivity.
  - unfold seq_ at 1 2 3. destruct (body i m) as [[m1 [e|]]| | | |]; cbn [bind fst snd]; try reflexivity. rewrite IH. unfold seq_.
    replace (i + 1 + Z.of_nat k) with (i + Z.of_nat (S k)) by lia. reflexivity.
Qed.
(** refuted: set_col on a matrix with more rows than columns writes the entries it has and then throws out_of_range *)
Theorem C92_set_col_refuted : forall T (zero : T) m R C S f v w c, denotes m R C S f -> C < R -> lists v C w -> 1 <= c <= C -> 1 <= S ->
  exists m', run_call zero (SetCol v c) m = Ok (m', Some OutOfRange) /\
    denotes m' R C S (fun i j s => if (i <=? C) && (j =? c) && (s =? 1) then w i else f i j s).
Proof.
  intros T zero m R C S f v w c Hm HR Hv Hc HS. pose proof Hm as (Hwf & ER & EC & ES & _). cbn [run_call]. unfold set_col_on. rewrite (reading_ok _ _ _ C) by (rewrite EC; auto).
  destruct Hv as [HL HE]. rewrite HL, Z.eqb_refl. cbn [negb]. rewrite (reading_ok _ _ _ R) by (rewrite ER; auto). unfold each_up.
  replace (Z.to_nat (R - 1 + 1)) with (Z.to_nat C + Datatypes.S (Z.to_nat (R - C - 1)))%nat by lia. rewrite times_app.
  match goal with |- context [times_up (Z.to_nat C) 1 ?bd] => set (body := bd) end.
  destruct (for_up_inv (fun k m => denotes m R C S (fun i j s => if (i <? k) && (j =? c) && (s =? 1) then w i else f i j s)) (fun i => seen (body i)) 1 C m) as (m1 & E1 & H1).
  - lia.
  - eapply denotes_ext; [exact Hm|]. intros i j s (Hi & _). cbn beta. destruct (Z.ltb_spec i 1); [lia|]. reflexivity.
  - intros i m0 Hi H0. pose proof H0 as (_ & _ & EC0 & _). unfold body. rewrite seen_reading. cbn [bind]. rewrite EC0. destruct (Z.leb_spec c C); [|lia].
    rewrite seen_reading. rewrite (lists_vat v C w) by (auto; split; auto). cbn [bind]. rewrite seen_writing. destruct (denotes_store m0 R C S _ (w i) i c 1 H0) as (m2 & E2 & H2); [unfold inside; lia|]. 
    exists m2. split; [exact E2|]. eapply denotes_ext; [exact H2|]. intros i' j' s' Hin. cbn beta.
    destruct (Z.eqb_spec i' i); destruct (Z.eqb_spec j' c); destruct (Z.eqb_spec s' 1); destruct (Z.ltb_spec i' i); destruct (Z.ltb_spec i' (i + 1)); cbn [andb]; subst; auto; lia.
  - rewrite <- (seen_up body (fun i => seen (body i)) (fun _ _ => eq_refl)) in E1. unfold each_up in E1. replace (Z.to_nat (C - 1 + 1)) with (Z.to_nat C) in E1 by lia.
    apply seen_ok in E1. unfold seq_ at 1. rewrite E1. cbn [bind fst snd times_up]. pose proof H1 as (_ & _ & EC1 & _).
    exists m1. split.
    + unfold seq_, body at 1. rewrite (reading_ok _ _ _ C) by (rewrite EC1; auto). unfold reading. destruct (Z.leb_spec c C); [|lia]. rewrite vat_throws by (right; lia). reflexivity.
    + eapply denotes_ext; [exact H1|]. intros i j s _. cbn beta. destruct (Z.ltb_spec i (C + 1)); destruct (Z.leb_spec i C); auto; lia.
Qed.
Print Assumptions C92_set_col_refuted.
(** refuted: move_col on a matrix that is not square shifts the columns and then throws invalid_argument: the moved column is lost *)
Theorem C92_move_col_refuted : forall T (zero : T) m R C S f a b, denotes m R C S f -> R <> C -> 1 <= a <= C -> 1 <= b <= C -> a <> b -> 1 <= S ->
  exists m', run_call zero (MoveCol a b) m = Ok (m', Some InvalidArgument) /\
    denotes m' R C S (fun i j s => if (s =? 1) && negb (j =? b) then f i (moved a b j) 1 else f i j s).
Proof.
  intros T zero m R C S f a b Hm Hsq Ha Hb Hab HS. cbn [run_call]. unfold move_col_on. destruct (Z.eqb_spec a b) as [|_]; [contradiction|].
  destruct (get_col_ok m R C S f a) as (va & Ea & [La _]); auto. unfold reading at 1. rewrite Ea. unfold seq_.
  assert (Last : forall m1 f1, denotes m1 R C S f1 -> set_col_on zero va b m1 = Ok (m1, Some InvalidArgument)).
  { intros m1 f1 (_ & _ & EC & _). unfold set_col_on. rewrite (reading_ok _ _ _ C) by (rewrite EC; auto). rewrite La. destruct (Z.eqb_spec C R); [lia|]. reflexivity. }
  destruct (Z.ltb_spec a b) as [Hlt|Hge].
  - destruct (shift_cols_up m R C S f a b) as (m1 & E1 & H1); auto; try lia.
    match goal with |- context [each_up a (b - 1) ?bd] => set (body := bd) end.
    rewrite <- (seen_up body) in E1. { apply seen_ok in E1. rewrite E1. cbn [bind fst snd]. rewrite (Last _ _ H1). exists m1. split; [reflexivity|]. eapply denotes_ext; [exact H1|].
      intros i j s _. cbn beta. unfold moved. destruct (Z.eqb_spec s 1); cbn [andb]; [subst s|reflexivity]. destruct (Z.eqb_spec j b); cbn [negb].
      - subst. destruct (Z.leb_spec a b); destruct (Z.ltb_spec b b); cbn [andb]; auto; lia.
      - destruct ((a <=? j) && (j <? b)) eqn:Q; auto. destruct ((b <? j) && (j <=? a)) eqn:Q2; auto. lia. }
    intros i m0. unfold body. rewrite seen_reading. cbn [bind]. apply seen_up. intros r m2. rewrite seen_reading. destruct (get_elem2 m2 r (i + 1)); cbn [bind]; auto. apply seen_writing.
  - destruct (shift_cols_down m R C S f a b) as (m1 & E1 & H1); auto; try lia.
    match goal with |- context [each_down a (b + 1) ?bd] => set (body := bd) end.
    rewrite <- (seen_down body) in E1. { apply seen_ok in E1. rewrite E1. cbn [bind fst snd]. rewrite (Last _ _ H1). exists m1. split; [reflexivity|]. eapply denotes_ext; [exact H1|].
      intros i j s _. cbn beta. unfold moved. destruct (Z.eqb_spec s 1); cbn [andb]; [subst s|reflexivity]. destruct (Z.eqb_spec j b); cbn [negb].
      - subst. destruct (Z.ltb_spec b b); cbn [andb]; auto; lia.
      - destruct ((b <? j) && (j <=? a)) eqn:Q; destruct ((a <=? j) && (j <? b)) eqn:Q2; auto; lia. }
    intros i m0. unfold body. rewrite seen_reading. cbn [bind]. apply seen_up. intros r m2. rewrite seen_reading. destruct (get_elem2 m2 r (i - 1)); cbn [bind]; auto. apply seen_writing.
Qed.
Print Assumptions C92_move_col_refuted.
(** a 2 x 3 matrix: a vector that is too short is rejected and nothing changes; moving column 1 loses it; a 3 x 2 matrix: half a column is written *)
Example C92_example : exists m, denotes m 2 3 1 (ex_f ex23) /\ covered (SetRow [7; 8] 1) m /\ run_call 0 (SetRow [7; 8] 1) m = Ok (m, Some InvalidArgument) /\
  (r <- run_call 0 (MoveCol 1 3) m ;; row <- get_row (fst r) 1 ;; Ok (snd r, row)) = Ok (Some InvalidArgument, [2; 3; 3]) /\
  (m32 <- Matrix_of_vecs [[1; 2]; [3; 4]; [5; 6]] ;; r <- run_call 0 (SetCol [8; 9] 1) m32 ;; col <- get_col (fst r) 1 ;; Ok (snd r, col)) = Ok (Some OutOfRange, [8; 9; 5]).
Proof.
  destruct ex23_denotes as (m & E & H). exists m. vm_compute in E. injection E as <-.
  split; [exact H|]. split; [exact I|]. split; [reflexivity|]. split; vm_compute; reflexivity.
Qed.
