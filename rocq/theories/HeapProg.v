(** * Programs without copy construction: the heap behaves like a store of values *)
From Verif Require Export HeapValue.

Section HeapProg.
Context {T : Type}.
Variable A : arith T.
Notation zero := (a_zero A).
Implicit Types (st : store_ T) (vs : values T).

(** no pointer dangles *)
Definition live st : Prop := forall x h, vars st x = Some h -> dangling (mem st) h = false.
Definition all_apart st : Prop := forall x y, x <> y -> apart st x y.
Record inv st : Prop := { i_good : good st; i_live : live st; i_apart : all_apart st }.
Definition sim st vs : Prop := forall x, vs x = option_map (view (mem st)) (vars st x).

Lemma uaf_false {B} (o : outcome B) : uaf false o = o.
Proof. destruct o as [| | |[]|]; reflexivity. Qed.

Lemma sim_lookup st vs x : sim st vs ->
  (exists h, lookup st x = Ok h /\ vars st x = Some h /\ value_of vs x = Ok (view (mem st) h)) \/
  (lookup st x = Undef Uninitialised /\ value_of vs x = Undef Uninitialised).
Proof. intros S. unfold lookup, value_of. rewrite (S x). destruct (vars st x); cbn; eauto. Qed.

Lemma view_keeps st st' h : block (mem st') (h_elem h) = block (mem st) (h_elem h) -> view (mem st') h = view (mem st) h.
Proof. intros B. unfold view. now rewrite B. Qed.
Lemma dangling_keeps st st' h : block (mem st') (h_elem h) = block (mem st) (h_elem h) -> dangling (mem st') h = dangling (mem st) h.
Proof. intros B. unfold dangling. destruct (h_elem h); auto. now rewrite B. Qed.

(** a new object *)
Lemma declare_sim x h M st vs m : inv st -> sim st vs ->
  (h_elem h = None /\ M = mem st \/ exists b, h_elem h = Some (length (mem st)) /\ M = mem st ++ [Some b]) ->
  view M h = m -> let st' := mkStore (set_var x h (vars st)) M in inv st' /\ sim st' (put x m vs).
Proof.
  intros [G L P] S H V st'. destruct (declare_effect x h M st H G) as [G' D]. fold st' in G', D.
  assert (K : forall y, y <> x -> vars st' y = vars st y) by (intros y N; cbn; now apply set_var_other).
  assert (Ks : vars st' x = Some h) by apply set_var_same.
  split; [constructor; [exact G'| |]|].
  - intros y hy Ey. destruct (Nat.eq_dec y x) as [->|N].
    + rewrite Ks in Ey. injection Ey as <-. unfold dangling. destruct H as [[-> _]|(b & -> & ->)]; auto. cbn [mem st']. now rewrite block_new.
    + rewrite K in Ey by auto. destruct (D y N) as (Kp & _ & _). destruct (Kp hy Ey) as [_ B]. rewrite (dangling_keeps st); eauto.
  - intros y z N. destruct (Nat.eq_dec y x) as [->|Ny].
    + destruct (D z ltac:(congruence)) as (_ & _ & Q). intros hy hz k Ey Ez Ky Kz. eapply Q; eauto.
    + destruct (Nat.eq_dec z x) as [->|Nz]; [apply D; auto|]. destruct (D y Ny) as (_ & Q & _). apply Q, P, N.
  - intros y. unfold put. destruct (Nat.eqb_spec y x) as [->|N].
    + rewrite Ks. cbn. now rewrite V.
    + rewrite K, (S y) by auto. destruct (vars st y) as [hy|] eqn:Ey; auto. cbn [option_map].
      destruct (D y N) as (Kp & _ & _). destruct (Kp hy Ey) as [_ B]. f_equal. symmetry. now apply view_keeps.
Qed.

(** a changed object *)
Lemma moves_sim x st st' vs m h' : inv st -> sim st vs -> moves st x st' -> vars st' x = Some h' ->
  dangling (mem st') h' = false -> view (mem st') h' = m -> inv st' /\ sim st' (put x m vs).
Proof.
  intros [G L P] S M E Dg V. pose proof (good_moves _ _ _ G M) as G'.
  pose proof M as (K & _ & _).
  assert (Kp : forall y, y <> x -> keeps st y st') by (intros y N; eapply moves_keeps; eauto).
  split; [constructor; [exact G'| |]|].
  - intros y hy Ey. destruct (Nat.eq_dec y x) as [->|N]; [congruence|].
    rewrite K in Ey by auto. destruct (Kp y N hy Ey) as [_ B]. rewrite (dangling_keeps st); eauto.
  - intros y z N. destruct (Nat.eq_dec y x) as [->|Ny].
    + assert (Q : apart st' z x) by (eapply moves_apart; [exact G| |apply P|exact M]; congruence).
      intros hy hz k Ey Ez Ky Kz. eapply Q; eauto.
    + eapply moves_apart; [exact G|exact Ny|apply P, N|exact M].
  - intros y. unfold put. destruct (Nat.eqb_spec y x) as [->|N].
    + rewrite E. cbn. now rewrite V.
    + rewrite K, (S y) by auto. destruct (vars st y) as [hy|] eqn:Ey; auto. cbn [option_map].
      destruct (Kp y N hy Ey) as [_ B]. f_equal. symmetry. now apply view_keeps.
Qed.

Notation R := (fun st vs => inv st /\ sim st vs).
Lemma alike_refl {X} (o : outcome X) : alike_outcome eq o o.
Proof. destruct o; cbn; auto. Qed.

Lemma in_place_sim f x st vs h : inv st -> sim st vs -> vars st x = Some h ->
  (forall m m', f m = Ok m' -> same_shape m m') ->
  alike_outcome R (call_in_place f x st) (m' <- f (view (mem st) h) ;; Ok (put x m' vs)).
Proof.
  intros I S E Sh. unfold call_in_place, lookup. rewrite E. cbn [bind]. rewrite (i_live _ I x h E), uaf_false.
  destruct (f (view (mem st) h)) as [m'| | | |] eqn:F; cbn; auto.
  pose proof (Sh _ _ F) as Q. pose proof (view_write_back st x h m' E (i_good _ I) Q) as V.
  eapply moves_sim; eauto.
  - now apply write_back_moves.
  - now rewrite write_back_vars.
  - pose proof (i_live _ I x h E) as D. unfold write_back. destruct (h_elem h) as [k|] eqn:Ek; auto.
    destruct (block (mem st) (Some k)) eqn:B; auto. unfold dangling. rewrite Ek. cbn [mem]. rewrite block_upd_same; auto.
    eapply block_lt; eauto.
Qed.

Lemma realloc_sim f x st vs h : inv st -> sim st vs -> vars st x = Some h ->
  alike_outcome (fun st' vs' => inv st' /\ sim st' vs' /\ moves st x st') (call_realloc f x st) (m' <- f (view (mem st) h) ;; Ok (put x m' vs)).
Proof.
  intros I S E. pose proof (i_live _ I x h E) as D.
  assert (Q : forall m, exists st', replace_block x h m st = Ok st').
  { intros m. unfold replace_block, place. unfold delete. unfold dangling in D. destruct (h_elem h) as [k|] eqn:Ek; [|cbn; eauto].
    destruct (block (mem st) (Some k)) as [b|] eqn:B; [|discriminate]. rewrite block_app by (eapply block_lt; eauto). rewrite B. cbn. eauto. }
  assert (C : call_realloc f x st = m <- f (view (mem st) h) ;; replace_block x h m st).
  { unfold call_realloc, lookup. rewrite E. cbn [bind]. now rewrite D, uaf_false. }
  destruct (f (view (mem st) h)) as [m'| | | |] eqn:F; cbn [bind] in C |- *; rewrite C; [|cbn; auto..].
  destruct (Q m') as (st' & Q'). rewrite Q' in *. cbn [alike_outcome].
  destruct (realloc_value f x st st' h (i_good _ I) E C) as (h' & E' & F'). rewrite F in F'. injection F' as F'.
  assert (Mv : moves st x st') by (eapply realloc_moves; eauto).
  assert (X : inv st' /\ sim st' (put x m' vs)); [|intuition].
  eapply moves_sim; [exact I|exact S|exact Mv|exact E'| |auto].
  unfold replace_block, place in Q'. apply bind_ok in Q' as (M' & Q1 & Q2). injection Q2 as <-. cbn [vars mem] in *.
  rewrite set_var_same in E'. injection E' as <-. unfold dangling. cbn [h_elem].
  assert (B : block M' (Some (length (mem st))) = Some (elem m')).
  { unfold delete in Q1. destruct (h_elem h) as [k|] eqn:Ek.
    - destruct (block _ _); [|discriminate]. injection Q1 as <-.
      rewrite block_upd_other, block_new; auto. pose proof (i_good _ I x h k E Ek). lia.
    - injection Q1 as <-. apply block_new. }
  now rewrite B.
Qed.
Lemma weak {X Y} (Q Q' : X -> Y -> Prop) o o' : (forall x y, Q x y -> Q' x y) -> alike_outcome Q o o' -> alike_outcome Q' o o'.
Proof. destruct o, o'; cbn; auto. Qed.

Lemma sized_sim (neg : bool) (c : handle -> bool) f x st vs h : inv st -> sim st vs -> vars st x = Some h ->
  (neg = true -> f (view (mem st) h) = Exit 1) -> (neg = false -> c h = true -> f (view (mem st) h) = Ok (view (mem st) h)) ->
  alike_outcome R (h <- lookup st x ;; if neg then Exit 1 else if c h then Ok st else call_realloc f x st) (m' <- f (view (mem st) h) ;; Ok (put x m' vs)).
Proof.
  intros I S E H1 H2. unfold lookup. rewrite E. cbn [bind]. destruct neg; [rewrite H1 by auto; cbn; auto|].
  destruct (c h) eqn:Ec.
  - rewrite H2 by auto. cbn. split; [auto|]. intros y. unfold put. destruct (Nat.eqb_spec y x) as [->|N]; [rewrite E; auto|apply S].
  - eapply weak; [|apply realloc_sim; auto]. intros ? ? (Q1 & Q2 & _); auto.
Qed.

Lemma assign_sim y x st vs h : inv st -> sim st vs -> vars st x = Some h -> x <> y ->
  alike_outcome R (call_assign A y x st) (n <- value_of vs y ;; m' <- assign zero (view (mem st) h) n ;; Ok (put x m' vs)).
Proof.
  intros I S E N. unfold call_assign. destruct (sim_lookup st vs y S) as [(hy & -> & Ey & ->)|[-> ->]]; [|cbn; auto]. cbn [bind].
  unfold assign. change (rows (view (mem st) hy)) with (h_rows hy). change (cols (view (mem st) hy)) with (h_cols hy).
  pose proof (realloc_sim (resize zero (h_rows hy) (h_cols hy)) x st vs h I S E) as Q. fold (call_resize A (h_rows hy) (h_cols hy)) in Q.
  destruct (resize zero (h_rows hy) (h_cols hy) (view (mem st) h)) as [t| | | |] eqn:Rs; cbn [bind] in Q |- *;
    destruct (call_resize A (h_rows hy) (h_cols hy) x st) as [st1| | | |]; cbn in Q; try contradiction; cbn [bind]; auto.
  destruct Q as (I1 & S1 & Mv). pose proof Mv as (K & _ & _).
  assert (Ey1 : vars st1 y = Some hy) by (rewrite K; auto).
  destruct (moves_keeps st x st1 y (i_good _ I) ltac:(congruence) (i_apart _ I y x ltac:(congruence)) Mv hy Ey) as [_ B].
  unfold lookup. rewrite Ey1. cbn [bind]. rewrite (i_live _ I1 y hy Ey1), (view_keeps st st1 hy B).
  assert (X : exists h1, vars st1 x = Some h1 /\ view (mem st1) h1 = t).
  { specialize (S1 x). unfold put in S1. rewrite Nat.eqb_refl in S1. destruct (vars st1 x) as [h1|]; cbn in S1; [|discriminate]. exists h1. split; congruence. }
  destruct X as (h1 & E1 & V1). rewrite E1. cbn [bind]. rewrite V1, uaf_false.
  match goal with |- alike_outcome _ (bind ?f _) (bind ?g _) => change g with f; destruct f as [t'| | | |] eqn:Lp end; cbn; auto.
  assert (Sh : same_shape (view (mem st1) h1) t').
  { rewrite V1. eapply (copy_loop_shape (view (mem st) hy)). exact Lp. }
  assert (S0 : sim st1 (put x t vs)) by exact S1.
  assert (W : inv (write_back x h1 t' st1) /\ sim (write_back x h1 t' st1) (put x t' (put x t vs))).
  { apply (moves_sim x st1 (write_back x h1 t' st1) (put x t vs) t' h1); [exact I1|exact S0| | | |].
    - now apply write_back_moves.
    - now rewrite write_back_vars.
    - pose proof (i_live _ I1 x h1 E1) as D. unfold write_back. destruct (h_elem h1) as [k|] eqn:Ek; auto.
      destruct (block (mem st1) (Some k)) eqn:Bk; auto. unfold dangling. rewrite Ek. cbn [mem]. rewrite block_upd_same; auto.
      eapply block_lt; eauto.
    - apply view_write_back; auto. apply I1. }
  destruct W as [W1 W2]. split; [auto|]. intros z. rewrite <- (W2 z). unfold put. now destruct (Nat.eqb z x).
Qed.

Lemma change_sim x ch st vs : inv st -> sim st vs -> ch <> AssignFrom x ->
  alike_outcome R (exec A (Change x ch) st) (v_exec A (Change x ch) vs).
Proof.
  intros I S N. cbn [exec v_exec]. destruct (sim_lookup st vs x S) as [(h & Lk & E & Ev)|[Lk Ev]].
  2:{ rewrite Ev. cbn [bind]. destruct ch; cbn [call in_place]; unfold call_in_place, call_resize, call_realloc, call_set_rows, call_set_cols, call_set_shel, call_assign;
      try (rewrite Lk; cbn; auto). destruct (sim_lookup st vs y S) as [(hy & -> & _)|[-> _]]; [|cbn; auto]. cbn [bind].
      unfold call_resize, call_realloc. rewrite Lk. cbn. auto. }
  rewrite Ev. cbn [bind].
  assert (IP : forall f, in_place A ch = Some f -> v_change A vs ch = f -> alike_outcome R (call A ch x st) (m' <- v_change A vs ch (view (mem st) h) ;; Ok (put x m' vs))).
  { intros f F ->. rewrite (call_in_place_eq A ch f) by auto. apply in_place_sim; auto. intros m m'. eapply in_place_shape; eauto. }
  destruct ch; try (eapply IP; reflexivity); cbn [call v_change].
  - eapply weak; [|apply realloc_sim; auto]. intros ? ? (Q1 & Q2 & _); auto.
  - apply (sized_sim (r <? 0) (fun h => r =? h_rows h)); auto; unfold set_rows; cbn [view rows]; [intros ->; reflexivity|].
    intros -> Q. apply Z.eqb_eq in Q. rewrite <- Q, Z.ltb_irrefl. reflexivity.
  - apply (sized_sim (c <? 0) (fun h => c =? h_cols h)); auto; unfold set_cols; cbn [view cols]; [intros ->; reflexivity|].
    intros -> Q. apply Z.eqb_eq in Q. rewrite <- Q, Z.ltb_irrefl. reflexivity.
  - apply (sized_sim (s <? 0) (fun h => s =? h_shel h)); auto; unfold set_shel; cbn [view shel]; [intros ->; reflexivity|].
    intros -> Q. apply Z.eqb_eq in Q. rewrite <- Q, Z.ltb_irrefl. reflexivity.
  - assert (Q := assign_sim y x st vs h I S E ltac:(congruence)). destruct (value_of vs y); exact Q.
Qed.

Lemma place_sim x m st vs : inv st -> sim st vs ->
  let st' := (let '(h, M) := place (mem st) m in mkStore (set_var x h (vars st)) M) in inv st' /\ sim st' (put x m vs).
Proof.
  intros I S. unfold place. apply declare_sim; auto; [right; eauto|].
  unfold view. cbn [h_rows h_cols h_shel h_elem]. rewrite block_new. now destruct m.
Qed.
Lemma func_sim f st vs : inv st -> sim st vs -> apply_func A st f = v_func A vs f.
Proof.
  intros I S. destruct f; cbn [apply_func v_func];
    (destruct (sim_lookup st vs y S) as [(h & -> & E & ->)|[-> ->]]; [|reflexivity]; cbn [bind]);
    try (destruct (sim_lookup st vs z S) as [(h2 & -> & E2 & ->)|[-> ->]]; [|reflexivity]; cbn [bind]; rewrite (i_live _ I z h2 E2));
    rewrite (i_live _ I y h E); cbn [orb]; now rewrite uaf_false.
Qed.
Lemma new1_zero : exists m, Matrix_new1 zero 0 = Ok m /\ elem m = [].
Proof. eexists. split; [reflexivity|]. reflexivity. Qed.

Lemma exec_sim s st vs : inv st -> sim st vs -> plain s -> alike_outcome R (exec A s st) (v_exec A s vs).
Proof.
  intros I S P. destruct s as [x c|x y|x f|x ch].
  - cbn [exec v_exec]. assert (Q : construct A c = v_ctor A c) by (destruct c; reflexivity). rewrite Q.
    destruct (v_ctor A c) as [m| | | |] eqn:Ec; cbn [bind alike_outcome]; auto.
    assert (Z0 : c = New1 0 \/ declare x c m st = (let '(h, M) := place (mem st) m in mkStore (set_var x h (vars st)) M)).
    { destruct c as [| | |r| |]; auto. destruct r; auto. }
    destruct Z0 as [->| ->]; [|apply place_sim; auto]. cbn [declare].
    apply declare_sim; auto. unfold view. cbn [h_rows h_cols h_shel h_elem block]. cbn [v_ctor] in Ec.
    destruct new1_zero as (m0 & E0 & L0). rewrite E0 in Ec. injection Ec as <-. rewrite <- L0. now destruct m0.
  - destruct P.
  - cbn [exec v_exec]. rewrite (func_sim f st vs I S). destruct (v_func A vs f); cbn [bind alike_outcome]; auto.
    apply place_sim; auto.
  - apply change_sim; auto. intros ->. exact (P eq_refl).
Qed.

Lemma run_sim prog : forall st vs, inv st -> sim st vs -> Forall plain prog ->
  alike_outcome R (h_run A prog st) (v_run A prog vs).
Proof.
  induction prog as [|s l IH]; intros st vs I S F; [cbn; auto|]. cbn [h_run v_run].
  inversion F as [|? ? F1 F2]; subst. pose proof (exec_sim s st vs I S F1) as Q.
  destruct (exec A s st) as [st1| | | |], (v_exec A s vs) as [vs1| | | |]; cbn in Q; try contradiction; cbn; auto.
  destruct Q. apply IH; auto.
Qed.
Lemma inv_empty : inv (empty_store (T := T)).
Proof. constructor; [apply good_empty|intros x h E; discriminate|intros x y _ ha hw k E; discriminate]. Qed.
End HeapProg.
