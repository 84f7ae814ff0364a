(** * The heap model computes the values of the value model *)
From Verif Require Export HeapFacts.

Section HeapValue.
Context {T : Type}.
Variable A : arith T.
Notation zero := (a_zero A).
Implicit Types (st : store_ T).

(** The value-model meaning of a change of [x], seen in [st]. *)
Definition value_change st (ch : change T) (m : mat T) : outcome (mat T) :=
  match ch with
  | SetElem0 v => set_elem0 v m
  | SetElem1 v r => set_elem1 v r m
  | SetElem2 v r c => set_elem2 v r c m
  | SetElem3 v r c s => set_elem3 v r c s m
  | SetRow row r => set_row zero row r m
  | SetCol col c => set_col zero col c m
  | SwapRow a b => swap_row zero a b m
  | SwapCol a b => swap_col zero a b m
  | MoveRow a b => move_row zero a b m
  | MoveCol a b => move_col zero a b m
  | Resize r c => resize zero r c m
  | SetRows r => set_rows zero r m
  | SetCols c => set_cols zero c m
  | SetShel s => set_shel zero s m
  | AssignFrom y => match vars st y with
                    | Some hy => assign zero m (view (mem st) hy)
                    | None => Undef Uninitialised
                    end
  end.

Lemma set0_shape v (m m' : mat T) : set_elem0 v m = Ok m' -> same_shape m m'.
Proof.
  unfold set_elem0. intros E. apply bind_ok in E as (l & E1 & E). injection E as <-.
  repeat split. cbn. eapply wr_len; eauto.
Qed.
Lemma swap_row_shape a b (m m' : mat T) : swap_row zero a b m = Ok m' -> same_shape m m'.
Proof.
  unfold swap_row. destruct (a =? b); intros E; [injection E as <-; apply same_shape_refl|].
  apply bind_ok in E as (? & _ & E). apply bind_ok in E as (? & _ & E).
  apply bind_ok in E as (m1 & E1 & E). eapply same_shape_trans; eapply set_row_shape; eauto.
Qed.
Lemma swap_col_shape a b (m m' : mat T) : swap_col zero a b m = Ok m' -> same_shape m m'.
Proof.
  unfold swap_col. destruct (a =? b); intros E; [injection E as <-; apply same_shape_refl|].
  apply bind_ok in E as (? & _ & E). apply bind_ok in E as (? & _ & E).
  apply bind_ok in E as (m1 & E1 & E). eapply same_shape_trans; eapply set_col_shape; eauto.
Qed.
Lemma move_row_shape a b (m m' : mat T) : move_row zero a b m = Ok m' -> same_shape m m'.
Proof.
  unfold move_row. destruct (a =? b); intros E; [injection E as <-; apply same_shape_refl|].
  apply bind_ok in E as (? & _ & E). apply bind_ok in E as (m1 & E1 & E).
  eapply same_shape_trans; [|eapply set_row_shape; eauto]. clear E.
  destruct (a <? b).
  - revert E1. apply shape_for. intros i m2 m3. apply shape_for. intros j m4 m5 E.
    apply bind_ok in E as (? & _ & E). eapply set2_shape; eauto.
  - revert E1. apply shape_for_down. intros i m2 m3. apply shape_for. intros j m4 m5 E.
    apply bind_ok in E as (? & _ & E). eapply set2_shape; eauto.
Qed.
Lemma move_col_shape a b (m m' : mat T) : move_col zero a b m = Ok m' -> same_shape m m'.
Proof.
  unfold move_col. destruct (a =? b); intros E; [injection E as <-; apply same_shape_refl|].
  apply bind_ok in E as (? & _ & E). apply bind_ok in E as (m1 & E1 & E).
  eapply same_shape_trans; [|eapply set_col_shape; eauto]. clear E.
  destruct (a <? b).
  - revert E1. apply shape_for. intros i m2 m3. apply shape_for. intros j m4 m5 E.
    apply bind_ok in E as (? & _ & E). eapply set2_shape; eauto.
  - revert E1. apply shape_for_down. intros i m2 m3. apply shape_for. intros j m4 m5 E.
    apply bind_ok in E as (? & _ & E). eapply set2_shape; eauto.
Qed.

Lemma in_place_shape ch f (m m' : mat T) : in_place A ch = Some f -> f m = Ok m' -> same_shape m m'.
Proof.
  destruct ch; cbn; intros E; inversion E; subst; clear E;
    eauto using set0_shape, set1_shape, set2_shape, set3_shape, set_row_shape, set_col_shape,
      swap_row_shape, swap_col_shape, move_row_shape, move_col_shape.
Qed.

Lemma view_write_back st x h m : vars st x = Some h -> good st ->
  same_shape (view (mem st) h) m -> view (mem (write_back x h m st)) h = m.
Proof.
  intros E G (S1 & S2 & S3 & S4). unfold write_back. destruct m as [r c s l].
  cbn [view rows cols shel elem] in *. subst r c s.
  destruct (h_elem h) as [k|] eqn:Ek.
  - destruct (block (mem st) (Some k)) as [l0|] eqn:B.
    + unfold view. cbn [mem]. rewrite Ek, block_upd_same by (eapply G; eauto). reflexivity.
    + unfold view. rewrite Ek, B. destruct l; [reflexivity|discriminate].
  - unfold view. rewrite Ek. cbn. destruct l; [reflexivity|discriminate].
Qed.

Lemma in_place_value f x st st' h : good st -> vars st x = Some h ->
  (forall m m', f m = Ok m' -> same_shape m m') ->
  call_in_place f x st = Ok st' ->
  exists h', vars st' x = Some h' /\ f (view (mem st) h) = Ok (view (mem st') h').
Proof.
  intros G E Sh H. unfold call_in_place in H. apply bind_ok in H as (h' & E' & H).
  apply lookup_inv in E'. rewrite E in E'. injection E' as <-.
  apply bind_ok in H as (m & Hm & H). apply uaf_ok in Hm. injection H as <-.
  exists h. split; [now rewrite write_back_vars|]. rewrite view_write_back; auto.
Qed.

Lemma realloc_value f x st st' h : good st -> vars st x = Some h ->
  call_realloc f x st = Ok st' ->
  exists h', vars st' x = Some h' /\ f (view (mem st) h) = Ok (view (mem st') h').
Proof.
  intros G E H. unfold call_realloc in H. apply bind_ok in H as (h' & E' & H).
  apply lookup_inv in E'. rewrite E in E'. injection E' as <-.
  apply bind_ok in H as (m & Hm & H). apply uaf_ok in Hm.
  unfold replace_block, place in H. apply bind_ok in H as (M' & R & H). injection H as <-.
  eexists. cbn [vars mem]. split; [apply set_var_same|]. rewrite Hm. f_equal.
  unfold view. cbn [h_rows h_cols h_shel h_elem].
  assert (B : block M' (Some (length (mem st))) = Some (elem m)).
  { unfold delete in R. destruct (h_elem h) as [k|] eqn:Ek.
    - destruct (block _ _); [|discriminate]. injection R as <-.
      rewrite block_upd_other, block_new; auto. specialize (G x h k E Ek). lia.
    - injection R as <-. apply block_new. }
  rewrite B. now destruct m.
Qed.

Lemma copy_loop_shape (m t t' : mat T) :
  for_up 1 (rows m) (fun i t => for_up 1 (cols m) (fun j t =>
    v <- get_elem2 m i j ;; set_elem2 v i j t) t) t = Ok t' -> same_shape t t'.
Proof.
  apply shape_for. intros i m2 m3. apply shape_for. intros j m4 m5 E.
  apply bind_ok in E as (? & _ & E). eapply set2_shape; eauto.
Qed.

Theorem call_value st x h ch st' : good st -> vars st x = Some h -> ch <> AssignFrom x ->
  exec A (Change x ch) st = Ok st' ->
  exists h', vars st' x = Some h' /\ value_change st ch (view (mem st) h) = Ok (view (mem st') h').
Proof.
  intros G E Nx H. cbn [exec] in H.
  assert (IP : forall f, in_place A ch = Some f -> value_change st ch = f ->
     exists h', vars st' x = Some h' /\ value_change st ch (view (mem st) h) = Ok (view (mem st') h')).
  { intros f F ->. rewrite (call_in_place_eq A ch f) in H by auto.
    eapply in_place_value; eauto. intros m m'. eapply in_place_shape; eauto. }
  assert (SR : forall (neg : bool) (c : handle -> bool) f,
     (h <- lookup st x ;; if neg then Exit 1 else if c h then Ok st else call_realloc f x st) = Ok st' ->
     (neg = false -> c h = true -> f (view (mem st) h) = Ok (view (mem st) h)) ->
     exists h', vars st' x = Some h' /\ f (view (mem st) h) = Ok (view (mem st') h')).
  { intros neg c f K Hc. apply bind_ok in K as (h' & E' & K). apply lookup_inv in E'.
    rewrite E in E'. injection E' as <-. destruct neg; [discriminate|]. destruct (c h).
    - injection K as <-. exists h. auto.
    - eapply realloc_value; eauto. }
  destruct ch; try (eapply IP; reflexivity).
  - eapply realloc_value; eauto.
  - apply (SR (r <? 0) (fun h => r =? h_rows h)); auto. intros Q0 Q. apply Z.eqb_eq in Q.
    cbn [value_change]. unfold set_rows. cbn [view rows]. rewrite Q0, <- Q, Z.ltb_irrefl. reflexivity.
  - apply (SR (c <? 0) (fun h => c =? h_cols h)); auto. intros Q0 Q. apply Z.eqb_eq in Q.
    cbn [value_change]. unfold set_cols. cbn [view cols]. rewrite Q0, <- Q, Z.ltb_irrefl. reflexivity.
  - apply (SR (s <? 0) (fun h => s =? h_shel h)); auto. intros Q0 Q. apply Z.eqb_eq in Q.
    cbn [value_change]. unfold set_shel. cbn [view shel]. rewrite Q0, <- Q, Z.ltb_irrefl. reflexivity.
  - assert (Ny : y <> x) by congruence.
    destruct (assign_parts A y x st st' G Ny H) as (hy & st1 & h1 & t & Ey & R & E1 & L & -> & K & _).
    cbn [value_change]. rewrite Ey. pose proof R as R0.
    apply realloc_value with (h := h) in R as (h1' & E1' & R); auto.
    rewrite E1 in E1'. injection E1' as <-.
    assert (G1 : good st1) by (eapply good_moves; [exact G|eapply realloc_moves; exact R0]).
    destruct (K hy Ey) as [_ B].
    assert (Vy : view (mem st) hy = view (mem st1) hy) by (unfold view; now rewrite B).
    exists h1. split; [now rewrite write_back_vars|].
    unfold assign. rewrite Vy. change (rows (view (mem st1) hy)) with (h_rows hy) at 1.
    change (cols (view (mem st1) hy)) with (h_cols hy) at 1. rewrite R. cbn [bind].
    rewrite view_write_back; auto. eapply copy_loop_shape; eauto.
Qed.

(** A result variable holds the value the function computes. *)
Theorem result_value st x f st' : exec A (ResultInit x f) st = Ok st' ->
  exists m h', apply_func A st f = Ok m /\ vars st' x = Some h' /\ view (mem st') h' = m.
Proof.
  cbn [exec]. intros E. apply bind_ok in E as (m & Em & E). unfold place in E. injection E as <-.
  eexists m, _. split; auto. cbn [vars mem]. split; [apply set_var_same|].
  unfold view. cbn [h_rows h_cols h_shel h_elem]. rewrite block_new. now destruct m.
Qed.
End HeapValue.
