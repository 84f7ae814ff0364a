(** * Lemmas: changing the number of columns and shelves (C17) *)
From Verif Require Export MatrixFinal.
From Coq Require Import ZifyBool.
Open Scope Z_scope.

Lemma flat_any C S i j k : 0 <= C -> 1 <= S -> 1 <= i <= INT_MAX -> 1 <= j -> 1 <= k -> (i - 1) * C * S + (j - 1) * S + k <= INT_MAX ->
  flat C S i j k = Ok (pos3 C S i j k).
Proof.
  intros HC HS Hi Hj Hk HM. assert (MM : INT_MAX = 2147483647) by reflexivity. assert (MI : INT_MIN = -2147483648) by reflexivity.
  assert (A1 : 0 <= (i - 1) * C) by nia. assert (A2 : (i - 1) * C <= (i - 1) * C * S) by nia. assert (A3 : 0 <= (j - 1) * S) by nia.
  assert (A4 : j - 1 <= (j - 1) * S) by nia.
  unfold flat, pos3, isub, imul, iadd. repeat (rewrite ichk_ok by (unfold is_int; lia); cbn [bind]). reflexivity.
Qed.

Section Shape.
Context {T : Type}.
Variable zero : T.
Implicit Types (m : mat T) (f : Z -> Z -> Z -> T) (l : list (option T)).

(** a loop one of whose rounds writes outside the block *)
Definition safe_or_out (N : Z) (act : list (option T) -> outcome (list (option T))) : Prop :=
  forall l, Z.of_nat (length l) = N -> (exists l', act l = Ok l' /\ Z.of_nat (length l') = N) \/ act l = Undef OutOfBounds.
Definition always_out (N : Z) (act : list (option T) -> outcome (list (option T))) : Prop :=
  forall l, Z.of_nat (length l) = N -> act l = Undef OutOfBounds.
Lemma for_n_safe N body : forall n lo, (forall i, lo <= i < lo + Z.of_nat n -> safe_or_out N (body i)) -> safe_or_out N (for_n n lo body).
Proof.
  induction n as [|n IH]; intros lo H l Hl; cbn [for_n]; [left; eauto|].
  destruct (H lo ltac:(lia) l Hl) as [(l' & -> & Hl')| ->]; cbn [bind]; [|auto]. apply IH; auto. intros i Hi. apply H. lia.
Qed.
Lemma for_n_out N body i0 : forall n lo, (forall i, lo <= i < lo + Z.of_nat n -> safe_or_out N (body i)) -> lo <= i0 < lo + Z.of_nat n ->
  always_out N (body i0) -> always_out N (for_n n lo body).
Proof.
  induction n as [|n IH]; intros lo H Hi H0 l Hl; cbn [for_n]; [lia|].
  destruct (Z.eq_dec i0 lo) as [->|Ne]; [rewrite (H0 l Hl); reflexivity|].
  destruct (H lo ltac:(lia) l Hl) as [(l' & -> & Hl')| ->]; cbn [bind]; [|auto]. apply IH; auto; [|lia]. intros i Hi'. apply H. lia.
Qed.
Lemma up_safe N body lo hi : (forall i, lo <= i <= hi -> safe_or_out N (body i)) -> safe_or_out N (for_up lo hi body).
Proof. intros H. unfold for_up. apply for_n_safe. intros i Hi. apply H. lia. Qed.
Lemma up_out N body lo hi i0 : (forall i, lo <= i <= hi -> safe_or_out N (body i)) -> lo <= i0 <= hi -> always_out N (body i0) -> always_out N (for_up lo hi body).
Proof. intros H Hi H0. unfold for_up. apply (for_n_out N body i0); auto; [|lia]. intros i Hi'. apply H. lia. Qed.
Lemma wr_safe N k v : safe_or_out N (fun l => wr l k v).
Proof.
  intros l Hl. destruct (Z_le_dec 0 k) as [A|A]; [destruct (Z_lt_dec k N) as [B|B]|].
  - left. rewrite wr_ok by lia. eexists. split; [reflexivity|]. rewrite length_upd. auto.
  - right. apply wr_bad. lia.
  - right. apply wr_bad. lia.
Qed.
Lemma wr_out N k v : ~ (0 <= k < N) -> always_out N (fun l => wr l k v).
Proof. intros H l Hl. apply wr_bad. lia. Qed.
Lemma out_safe N act : always_out N act -> safe_or_out N act.
Proof. intros H l Hl. right. auto. Qed.

(** reading a block written up to [B] *)
Lemma zero_upto R C S N B l h i j k : fits R C S -> N = R * C * S -> cells_are l N h -> inside R C S i j k ->
  (forall e, 0 <= e < N -> (e < B -> h e = Some zero) /\ (~ e < B -> h e = None)) ->
  get_elem3 (mkMat R C S l) i j k = if pos3 C S i j k <? B then Ok zero else Undef Uninitialised.
Proof.
  intros HF -> [HL HN] Hin H. rewrite get_elem3_in by auto. unfold load, index. cbn [rows cols shel elem].
  destruct HF as (_ & _ & _ & HM). rewrite (flat_ok _ _ _ _ _ _ Hin HM). cbn [bind].
  pose proof (pos3_range _ _ _ _ _ _ Hin) as Hp. rewrite rd_nth by lia. rewrite HN by lia. destruct (H _ Hp) as [H1 H2].
  destruct (Z.ltb_spec (pos3 C S i j k) B) as [L|L]; [rewrite H1 by lia|rewrite H2 by lia]; reflexivity.
Qed.

(** ** columns *)
Lemma cols_grow m R C S f c : denotes m R C S f -> 1 <= R -> 1 <= C -> 1 <= S -> C < c -> R * c * S <= INT_MAX ->
  exists m', set_cols zero c m = Ok m' /\ wf m' /\ rows m' = R /\ cols m' = c /\ shel m' = S /\
    forall i j k, inside R c S i j k -> get_elem3 m' i j k = if pos3 c S i j k <? ((R - 1) * C + c) * S then Ok zero else Undef Uninitialised.
Proof.
  intros Hm HR HC HS Hc HM. unfold set_cols. shapes Hm. rewrite ER, EC, ES.
  destruct (denotes_dims _ _ _ _ _ Hm) as (?&?&?&HM0).
  destruct (Z.ltb_spec c 0); [lia|]. destruct (Z.ltb_spec C c); [|lia].
  assert (HF : fits R c S). { pose proof (mul3_bounds R c S). unfold fits; lia. }
  rewrite prod3_ok by auto. cbn [bind].
  destruct (@new_cells_are T (R * c * S)) as (l & El & Hl). { apply Z.mul_nonneg_nonneg; nia. }
  rewrite El. cbn [bind].
  assert (Bd : forall i j k, 1 <= i <= R -> 1 <= j <= c -> 1 <= k <= S -> (i - 1) * C * S + (j - 1) * S + k <= R * c * S).
  { intros i j k Hi Hj Hk. assert ((i - 1) * C <= (R - 1) * c) by nia. assert ((i - 1) * C * S <= (R - 1) * c * S) by nia. assert ((j - 1) * S <= (c - 1) * S) by nia. nia. }
  match goal with |- context [for_up 1 R ?b l] =>
    destruct (cwrites_for (R * c * S) (fun i e => exists j, 1 <= j <= c /\ exists k, 1 <= k <= S /\ e = pos3 C S i j k)
      (fun _ => zero) 1 R b) with (l := l) (h := fun _ : Z => @None T) as (l' & h' & E & Hl' & HH) end; auto.
  - bdec.
  - intros i Hi. apply cwrites_for; [bdec|]. intros j Hj. apply cwrites_for; [bdec|]. intros k Hk.
    intros l0 h0 Hl0. destruct (Z.leb_spec c C); [lia|]. unfold index. rewrite EC, ES. specialize (Bd i j k Hi Hj Hk).
    rewrite flat_any by lia. cbn [bind]. apply (cwrites_wr (R * c * S) _ (fun _ => zero)); auto.
    unfold pos3. assert (0 <= (i - 1) * C) by nia. assert (0 <= (i - 1) * C * S) by nia. assert (0 <= (j - 1) * S) by nia. lia.
  - rewrite E. cbn [bind]. eexists. split; [reflexivity|]. split; [split; [exact HF|exact (proj1 Hl')]|]. split; [reflexivity|]. split; [reflexivity|]. split; [reflexivity|].
    intros i j k Hin. apply (zero_upto R c S (R * c * S) _ l' h'); auto. intros e He. destruct (HH e He) as [H1' H2']. split; intros Le; [apply H1'|apply H2'].
    + assert (Q : e / S < (R - 1) * C + c) by (apply Z.div_lt_upper_bound; lia). assert (Q0 : 0 <= e / S) by (apply Z.div_pos; lia).
      pose proof (Z.div_mod e S ltac:(lia)) as De. pose proof (Z.mod_pos_bound e S ltac:(lia)) as Me.
      destruct (Z_lt_dec (e / S) (R * C)) as [Lt|Ge].
      * pose proof (Z.div_mod (e / S) C ltac:(lia)) as Dq. pose proof (Z.mod_pos_bound (e / S) C ltac:(lia)) as Mq.
        assert (e / S / C < R) by (apply Z.div_lt_upper_bound; lia). assert (0 <= e / S / C) by (apply Z.div_pos; lia).
        exists (e / S / C + 1). split; [lia|]. exists (e / S mod C + 1). split; [lia|]. exists (e mod S + 1). split; [lia|]. unfold pos3.
        replace (e / S / C + 1 - 1) with (e / S / C) by lia. replace (e / S mod C + 1 - 1) with (e / S mod C) by lia. nia.
      * exists R. split; [lia|]. exists (e / S - (R - 1) * C + 1). split; [nia|]. exists (e mod S + 1). split; [lia|]. unfold pos3. nia.
    + intros (i' & Hi' & j' & Hj' & k' & Hk' & ->). apply Le. unfold pos3. assert ((i' - 1) * C <= (R - 1) * C) by nia. assert ((i' - 1) * C * S <= (R - 1) * C * S) by nia.
      assert ((j' - 1) * S <= (c - 1) * S) by nia. nia.
Qed.

Lemma cols_shrink_out m R C S f c : denotes m R C S f -> 2 <= R -> 1 <= S -> 1 <= c < C -> set_cols zero c m = Undef OutOfBounds.
Proof.
  intros Hm HR HS Hc. unfold set_cols. shapes Hm. rewrite ER, EC, ES. destruct (denotes_dims _ _ _ _ _ Hm) as (?&?&?&HM0).
  destruct (Z.ltb_spec c 0); [lia|]. destruct (Z.ltb_spec C c); [lia|]. destruct (Z.ltb_spec c C); [|lia].
  assert (HF : fits R c S). { unfold fits. assert (R * c <= R * C) by nia. assert (R * c * S <= R * C * S) by nia. lia. }
  rewrite prod3_ok by auto. cbn [bind].
  destruct (@new_cells_are T (R * c * S)) as (l & El & Hl). { apply Z.mul_nonneg_nonneg; nia. }
  rewrite El. cbn [bind].
  assert (Leaf : forall i j k l0, inside R C S i j k -> (e <- index m i j k ;; v <- load m i j k ;; wr l0 e v) = wr l0 (pos3 C S i j k) (f i j k)).
  { intros i j k l0 Hin. destruct (index_ok m i j k Hwf) as [EI _]; [rewrite ER, EC, ES; auto|]. rewrite EI, EC, ES. cbn [bind].
    rewrite (denotes_load _ _ _ _ _ _ _ _ Hm Hin). reflexivity. }
  assert (Lf : forall i j k, 1 <= i <= R -> 1 <= j <= c -> 1 <= k <= S -> safe_or_out (R * c * S) (fun l0 => e <- index m i j k ;; v <- load m i j k ;; wr l0 e v)).
  { intros i j k Hi Hj Hk l0 Hl0. rewrite Leaf by inr. apply wr_safe; auto. }
  rewrite (up_out (R * c * S) _ 1 R R); [reflexivity| |lia| |exact (proj1 Hl)].
  - intros i Hi. apply up_safe. intros j Hj. apply up_safe. intros k Hk. apply Lf; auto.
  - apply (up_out _ _ 1 c c); [|lia|].
    + intros j Hj. apply up_safe. intros k Hk. apply Lf; auto. lia.
    + apply (up_out _ _ 1 S S); [|lia|].
      * intros k Hk. apply Lf; auto; lia.
      * intros l0 Hl0. rewrite Leaf by inr. apply (wr_out (R * c * S)); auto. unfold pos3.
        assert (A1 : (R - 1) * (c + 1) <= (R - 1) * C) by nia. assert (A2 : (R - 1) * (c + 1) * S <= (R - 1) * C * S) by nia.
        assert (A3 : (R - 1) * (c + 1) * S = R * c * S - c * S + (R - 1) * S) by ring. assert (A4 : S <= (R - 1) * S) by nia. lia.
Qed.

Lemma cols_shrink m R C S f c : denotes m R C S f -> 0 <= R -> 1 <= S -> 0 <= c < C -> R = 1 \/ c = 0 ->
  exists m', set_cols zero c m = Ok m' /\ denotes m' R c S f.
Proof.
  intros Hm HR HS Hc Hx. unfold set_cols. shapes Hm. rewrite ER, EC, ES. destruct (denotes_dims _ _ _ _ _ Hm) as (?&?&?&HM0).
  destruct (Z.ltb_spec c 0); [lia|]. destruct (Z.ltb_spec C c); [lia|]. destruct (Z.ltb_spec c C); [|lia].
  assert (HF : fits R c S). { unfold fits. assert (R * c <= R * C) by nia. assert (R * c * S <= R * C * S) by nia. lia. }
  rewrite prod3_ok by auto. cbn [bind].
  destruct (@new_cells_are T (R * c * S)) as (l & El & Hl). { apply Z.mul_nonneg_nonneg; nia. }
  rewrite El. cbn [bind].
  destruct (Z.eq_dec c 0) as [->|Nc].
  - assert (Em : forall n lo l, for_n n lo (fun i l => for_up 1 0 (fun j l => for_up 1 S (fun k l => e <- index m i j k ;; v <- load m i j k ;; wr l e v) l) l) l = Ok l).
    { induction n as [|n IH]; intros lo l0; cbn [for_n]; [reflexivity|]. rewrite for_up_empty by lia. cbn [bind]. apply IH. }
    unfold for_up at 1. rewrite Em. cbn [bind]. eexists. split; [reflexivity|]. apply denotes_cells with (h := fun _ => None); auto. intros i j k Hin. unfold inside in Hin. lia.
  - assert (R1 : R = 1) by lia. clear Hx. rewrite R1 in *. clear R1 R.
    set (gi := fun e => f 1 (e / S + 1) (e mod S + 1)).
    assert (Hgi : forall j k, 1 <= j -> 1 <= k <= S -> gi (pos3 C S 1 j k) = f 1 j k).
    { intros j k Hj Hk. unfold gi. replace (pos3 C S 1 j k) with ((k - 1) + (j - 1) * S) by (unfold pos3; lia).
      rewrite Z.div_add, Z.mod_add by lia. rewrite (Z.div_small (k - 1)), (Z.mod_small (k - 1)) by lia. f_equal; lia. }
    assert (Ps : forall j k, pos3 C S 1 j k = pos3 c S 1 j k) by (intros; unfold pos3; lia).
    match goal with |- context [for_up 1 1 ?b l] =>
      destruct (cwrites_for (1 * c * S) (fun i e => exists j, 1 <= j <= c /\ exists k, 1 <= k <= S /\ e = pos3 C S i j k)
        gi 1 1 b) with (l := l) (h := fun _ : Z => @None T) as (l' & h' & E & Hl' & HH) end; auto.
    + bdec.
    + intros i Hi. assert (i = 1) by lia. subst i. apply cwrites_for; [bdec|]. intros j Hj. apply cwrites_for; [bdec|]. intros k Hk.
      assert (Hin : inside 1 C S 1 j k) by inr. assert (Hin' : inside 1 c S 1 j k) by inr. intros l0 h0 Hl0.
      destruct (index_ok m 1 j k Hwf) as [EI _]. { rewrite ER, EC, ES; auto. }
      rewrite EI, EC, ES. cbn [bind]. rewrite (denotes_load _ _ _ _ _ _ _ _ Hm Hin). cbn [bind].
      rewrite <- Hgi by lia. apply (cwrites_wr (1 * c * S)); auto. rewrite Ps. apply pos3_range; auto.
    + rewrite E. cbn [bind]. eexists; split; [reflexivity|].
      apply denotes_cells with (h := h'); auto. intros i j k Hin. assert (i = 1) by inr. subst i.
      rewrite <- Hgi by inr. rewrite <- Ps. apply HH. { rewrite Ps. apply pos3_range; auto. }
      exists 1; split; [lia|]. exists j; split; [inr|]. exists k; inr.
Qed.

(** ** shelves *)
Lemma shel_grow m R C S f s : denotes m R C S f -> 1 <= R -> 1 <= C -> 1 <= S -> S < s -> R * C * s <= INT_MAX ->
  exists m', set_shel zero s m = Ok m' /\ wf m' /\ rows m' = R /\ cols m' = C /\ shel m' = s /\
    forall i j k, inside R C s i j k -> get_elem3 m' i j k = if pos3 C s i j k <? (R * C - 1) * S + s then Ok zero else Undef Uninitialised.
Proof.
  intros Hm HR HC HS Hs HM. unfold set_shel. shapes Hm. rewrite ER, EC, ES.
  destruct (denotes_dims _ _ _ _ _ Hm) as (?&?&?&HM0).
  destruct (Z.ltb_spec s 0); [lia|]. destruct (Z.ltb_spec S s); [|lia].
  assert (HF : fits R C s). { pose proof (mul3_bounds R C s). unfold fits; lia. }
  rewrite prod3_ok by (auto; left; lia). cbn [bind].
  destruct (@new_cells_are T (R * C * s)) as (l & El & Hl). { apply Z.mul_nonneg_nonneg; nia. }
  rewrite El. cbn [bind].
  assert (P1 : 1 <= R * C) by nia.
  assert (Bd : forall i j k, 1 <= i <= R -> 1 <= j <= C -> 1 <= k <= s -> (i - 1) * C * S + (j - 1) * S + k <= (R * C - 1) * S + s).
  { intros i j k Hi Hj Hk. assert ((i - 1) * C + (j - 1) <= R * C - 1) by nia. nia. }
  assert (Bt : (R * C - 1) * S + s <= R * C * s) by nia.
  match goal with |- context [for_up 1 R ?b l] =>
    destruct (cwrites_for (R * C * s) (fun i e => exists j, 1 <= j <= C /\ exists k, 1 <= k <= s /\ e = pos3 C S i j k)
      (fun _ => zero) 1 R b) with (l := l) (h := fun _ : Z => @None T) as (l' & h' & E & Hl' & HH) end; auto.
  - bdec.
  - intros i Hi. apply cwrites_for; [bdec|]. intros j Hj. apply cwrites_for; [bdec|]. intros k Hk.
    intros l0 h0 Hl0. destruct (Z.leb_spec s S); [lia|]. unfold index. rewrite EC, ES. specialize (Bd i j k Hi Hj Hk).
    rewrite flat_any by lia. cbn [bind]. apply (cwrites_wr (R * C * s) _ (fun _ => zero)); auto.
    unfold pos3. assert (0 <= (i - 1) * C) by nia. assert (0 <= (i - 1) * C * S) by nia. assert (0 <= (j - 1) * S) by nia. lia.
  - rewrite E. cbn [bind]. eexists. split; [reflexivity|]. split; [split; [exact HF|exact (proj1 Hl')]|]. split; [reflexivity|]. split; [reflexivity|]. split; [reflexivity|].
    intros i j k Hin. apply (zero_upto R C s (R * C * s) _ l' h'); auto. intros e He. destruct (HH e He) as [H1' H2']. split; intros Le; [apply H1'|apply H2'].
    + assert (Q0 : 0 <= e / S) by (apply Z.div_pos; lia).
      pose proof (Z.div_mod e S ltac:(lia)) as De. pose proof (Z.mod_pos_bound e S ltac:(lia)) as Me.
      assert (X : exists p, 0 <= p <= R * C - 1 /\ 0 <= e - p * S < s).
      { destruct (Z_lt_dec (e / S) (R * C)) as [Lt|Ge]; [exists (e / S); split; [lia|nia]|exists (R * C - 1); split; [lia|nia]]. }
      destruct X as (p & Hp & Hk). pose proof (Z.div_mod p C ltac:(lia)) as Dp. pose proof (Z.mod_pos_bound p C ltac:(lia)) as Mp.
      assert (p / C < R) by (apply Z.div_lt_upper_bound; lia). assert (0 <= p / C) by (apply Z.div_pos; lia).
      exists (p / C + 1). split; [lia|]. exists (p mod C + 1). split; [lia|]. exists (e - p * S + 1). split; [lia|]. unfold pos3.
      replace (p / C + 1 - 1) with (p / C) by lia. replace (p mod C + 1 - 1) with (p mod C) by lia. nia.
    + intros (i' & Hi' & j' & Hj' & k' & Hk' & ->). apply Le. unfold pos3. specialize (Bd i' j' k' Hi' Hj' Hk'). lia.
Qed.

Lemma shel_shrink_out m R C S f s : denotes m R C S f -> 1 <= R -> 1 <= C -> 2 <= R * C -> 1 <= s < S -> set_shel zero s m = Undef OutOfBounds.
Proof.
  intros Hm HR HC H2 Hs. unfold set_shel. shapes Hm. rewrite ER, EC, ES. destruct (denotes_dims _ _ _ _ _ Hm) as (?&?&?&HM0).
  destruct (Z.ltb_spec s 0); [lia|]. destruct (Z.ltb_spec S s); [lia|]. destruct (Z.ltb_spec s S); [|lia].
  assert (HF : fits R C s). { unfold fits. assert (R * C * s <= R * C * S) by nia. lia. }
  rewrite prod3_ok by (auto; left; lia). cbn [bind].
  destruct (@new_cells_are T (R * C * s)) as (l & El & Hl). { apply Z.mul_nonneg_nonneg; nia. }
  rewrite El. cbn [bind].
  assert (Leaf : forall i j k l0, inside R C S i j k -> (e <- index m i j k ;; v <- load m i j k ;; wr l0 e v) = wr l0 (pos3 C S i j k) (f i j k)).
  { intros i j k l0 Hin. destruct (index_ok m i j k Hwf) as [EI _]; [rewrite ER, EC, ES; auto|]. rewrite EI, EC, ES. cbn [bind].
    rewrite (denotes_load _ _ _ _ _ _ _ _ Hm Hin). reflexivity. }
  assert (Lf : forall i j k, 1 <= i <= R -> 1 <= j <= C -> 1 <= k <= s -> safe_or_out (R * C * s) (fun l0 => e <- index m i j k ;; v <- load m i j k ;; wr l0 e v)).
  { intros i j k Hi Hj Hk l0 Hl0. rewrite Leaf by inr. apply wr_safe; auto. }
  rewrite (up_out (R * C * s) _ 1 R R); [reflexivity| |lia| |exact (proj1 Hl)].
  - intros i Hi. apply up_safe. intros j Hj. apply up_safe. intros k Hk. apply Lf; auto.
  - apply (up_out _ _ 1 C C); [|lia|].
    + intros j Hj. apply up_safe. intros k Hk. apply Lf; auto. lia.
    + apply (up_out _ _ 1 s s); [|lia|].
      * intros k Hk. apply Lf; auto; lia.
      * intros l0 Hl0. rewrite Leaf by inr. apply (wr_out (R * C * s)); auto. unfold pos3.
        assert (A1 : (R * C - 1) * (s + 1) <= (R * C - 1) * S) by nia. assert (A2 : (R - 1) * C * S + (C - 1) * S = (R * C - 1) * S) by ring. lia.
Qed.

Lemma shel_shrink m R C S f s : denotes m R C S f -> 0 <= R -> 0 <= C -> 0 <= s < S -> (R = 1 /\ C = 1) \/ s = 0 ->
  exists m', set_shel zero s m = Ok m' /\ denotes m' R C s f.
Proof.
  intros Hm HR HC Hs Hx. unfold set_shel. shapes Hm. rewrite ER, EC, ES. destruct (denotes_dims _ _ _ _ _ Hm) as (?&?&?&HM0).
  destruct (Z.ltb_spec s 0); [lia|]. destruct (Z.ltb_spec S s); [lia|]. destruct (Z.ltb_spec s S); [|lia].
  assert (HF : fits R C s). { unfold fits. assert (0 <= R * C) by nia. assert (R * C * s <= R * C * S) by nia. lia. }
  assert (Hp : prod3 R C s = Ok (R * C * s)).
  { apply prod3_ok; auto. right. assert (0 <= R * C) by nia. assert (R * C * 1 <= R * C * S) by (apply Z.mul_le_mono_nonneg_l; lia). lia. }
  rewrite Hp. cbn [bind].
  destruct (@new_cells_are T (R * C * s)) as (l & El & Hl). { apply Z.mul_nonneg_nonneg; nia. }
  rewrite El. cbn [bind].
  destruct (Z.eq_dec s 0) as [->|Ns].
  - assert (E1 : forall n i lo l, for_n n lo (fun j l => for_up 1 0 (fun k l => e <- index m i j k ;; v <- load m i j k ;; wr l e v) l) l = Ok l).
    { induction n as [|n IH]; intros i lo l0; cbn [for_n]; [reflexivity|]. rewrite for_up_empty by lia. cbn [bind]. apply IH. }
    assert (E2 : forall n lo l, for_n n lo (fun i l => for_up 1 C (fun j l => for_up 1 0 (fun k l => e <- index m i j k ;; v <- load m i j k ;; wr l e v) l) l) l = Ok l).
    { induction n as [|n IH]; intros lo l0; cbn [for_n]; [reflexivity|]. unfold for_up at 1. rewrite E1. cbn [bind]. apply IH. }
    unfold for_up at 1. rewrite E2. cbn [bind]. eexists. split; [reflexivity|]. apply denotes_cells with (h := fun _ => None); auto. intros i j k Hin. unfold inside in Hin. lia.
  - assert (R = 1 /\ C = 1) as [R1 C1] by lia. clear Hx. rewrite R1, C1 in *. clear R1 C1 R C.
    set (gi := fun e => f 1 1 (e + 1)).
    assert (Hgi : forall k, gi (pos3 1 S 1 1 k) = f 1 1 k) by (intros k; unfold gi, pos3; f_equal; lia).
    match goal with |- context [for_up 1 1 ?b l] =>
      destruct (cwrites_for (1 * 1 * s) (fun i e => exists j, 1 <= j <= 1 /\ exists k, 1 <= k <= s /\ e = pos3 1 S i j k)
        gi 1 1 b) with (l := l) (h := fun _ : Z => @None T) as (l' & h' & E & Hl' & HH) end; auto.
    + bdec.
    + intros i Hi. assert (i = 1) by lia. subst i. apply cwrites_for; [bdec|]. intros j Hj. assert (j = 1) by lia. subst j. apply cwrites_for; [bdec|]. intros k Hk.
      assert (Hin : inside 1 1 S 1 1 k) by inr. intros l0 h0 Hl0.
      destruct (index_ok m 1 1 k Hwf) as [EI _]. { rewrite ER, EC, ES; auto. }
      rewrite EI, EC, ES. cbn [bind]. rewrite (denotes_load _ _ _ _ _ _ _ _ Hm Hin). cbn [bind].
      rewrite <- Hgi. apply (cwrites_wr (1 * 1 * s)); auto. unfold pos3. lia.
    + rewrite E. cbn [bind]. eexists; split; [reflexivity|].
      apply denotes_cells with (h := h'); auto. intros i j k Hin. assert (i = 1) by inr. assert (j = 1) by inr. subst i j.
      rewrite <- Hgi. replace (pos3 1 s 1 1 k) with (pos3 1 S 1 1 k) by (unfold pos3; lia). apply HH. { unfold pos3. inr. }
      exists 1; split; [lia|]. exists 1; split; [lia|]. exists k; inr.
Qed.
End Shape.
