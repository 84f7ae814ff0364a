(** * C88: pointers to elements *)
From Verif Require Import HeapPtrModel HeapValue MatrixFinal MatrixProps HeapProps.

(** The action does not declare [x] again and does not call one of the
    functions of [x] that give it another block. *)
Definition leaves {T} (x : nat) (a : action T) : Prop :=
  match a with
  | Stmt s => target s = x -> exists ch, s = Change x ch /\ keeps_block ch
  | Write _ _ => True
  end.

(** The functions of an object with handle [h] that give it another block. *)
Definition moves_block {T} (h : handle) (ch : change T) : Prop :=
  match ch with
  | AssignFrom _ => True
  | _ => allocates h ch
  end.

Section C88.
Context {T : Type}.
Variable A : arith T.
Implicit Types (st : store_ T) (p : pointer).

Lemma ptr_eq x r c st h p : vars st x = Some h -> get_elem_ptr x r c st = Ok p ->
  exists l, h_elem h = Some (p_block p) /\ block (mem st) (h_elem h) = Some l /\
            index (view (mem st) h) r c 1 = Ok (p_off p).
Proof.
  intros E G. unfold get_elem_ptr in G. apply bind_ok in G as (h' & E' & G). apply lookup_inv in E'.
  rewrite E in E'. injection E' as <-. apply bind_ok in G as (k & Ek & G).
  destruct (h_elem h) as [b|]; [|discriminate].
  destruct (block (mem st) (Some b)) as [l|] eqn:Eb; [|discriminate].
  destruct (_ && _); [|discriminate]. injection G as <-. cbn. exists l. auto.
Qed.

Lemma view_index st st' h r c s : index (view (mem st') h) r c s = index (view (mem st) h) r c s.
Proof. reflexivity. Qed.

(** reading through the pointer and asking the object *)
Lemma read_ask st h x r c p : vars st x = Some h -> 1 <= r <= h_rows h -> 1 <= c <= h_cols h ->
  h_elem h = Some (p_block p) -> index (view (mem st) h) r c 1 = Ok (p_off p) ->
  ask (GetElem2 r c) x st = (v <- ptr_read p st ;; Ok (inr [v])).
Proof.
  intros E Hr Hc Ek Ei. unfold ask, lookup. rewrite E. cbn [bind ask_view].
  unfold get_elem2. cbn [view rows cols].
  destruct (Z.ltb_spec r 1); [lia|]. destruct (Z.ltb_spec (h_rows h) r); [lia|].
  destruct (Z.ltb_spec c 1); [lia|]. destruct (Z.ltb_spec (h_cols h) c); [lia|].
  unfold load. rewrite Ei. cbn [bind]. unfold ptr_read, view, dangling. cbn [elem]. rewrite Ek.
  destruct (block (mem st) (Some (p_block p))) as [l|].
  - destruct (rd l (p_off p)) as [| | |u|]; try reflexivity. destruct u; reflexivity.
  - rewrite rd_nil. reflexivity.
Qed.

Lemma step_target st s st' x : good st -> step A st s st' -> (target s = x -> exists ch, s = Change x ch /\ keeps_block ch) ->
  vars st' x = vars st x.
Proof.
  intros G H L. destruct (Nat.eq_dec (target s) x) as [Ex|N].
  - destruct (L Ex) as (ch & -> & K). apply in_place_some with (A := A) in K as (f & F).
    inversion H as [? ? ? E|? ? ? E N|? ? ? ? ? h m F' E V Le]; subst; auto; [|now rewrite write_back_vars].
    cbn [exec] in E. rewrite (call_in_place_eq A ch f) in E by auto. unfold call_in_place in E.
    apply bind_ok in E as (h & Eh & E). apply bind_ok in E as (m & _ & E). injection E as <-. now rewrite write_back_vars.
  - inversion H as [? ? ? E|? ? ? E N'|? y ? ? ? h m F' E V Le]; subst; auto; [|now rewrite write_back_vars].
    destruct s as [y cc|y z|y f|y ch]; cbn [exec target] in *.
    + apply bind_ok in E as (m & _ & E). injection E as <-. unfold declare, place.
      destruct cc; cbn [vars]; try (now apply set_var_other; auto). destruct r; cbn [vars]; now apply set_var_other; auto.
    + apply bind_ok in E as (h & _ & E). injection E as <-. cbn. now apply set_var_other; auto.
    + apply bind_ok in E as (m & _ & E). unfold place in E. injection E as <-. cbn. now apply set_var_other; auto.
    + destruct (call_moves A ch y st st' G E) as (V & _). apply V. auto.
Qed.

Lemma good_write p v st st' : good st -> ptr_write p v st = Ok st' -> good st' /\ vars st' = vars st.
Proof.
  intros G E. unfold ptr_write in E. destruct (block _ _) as [l|]; [|discriminate].
  apply bind_ok in E as (l' & _ & E). injection E as <-. split; auto.
  intros x h k Ex Ek. cbn [vars mem] in *. rewrite length_upd. eauto.
Qed.

Lemma acts_keep st later st' x : acts A st later st' -> good st -> Forall (leaves x) later -> vars st' x = vars st x.
Proof.
  induction 1 as [st|st a st1 l st2 H1 H2 IH]; intros G F; auto.
  inversion F as [|? ? F1 F2]; subst.
  destruct H1 as [st s st1 S1|st p v st1 W1].
  - rewrite IH; auto; [|eapply good_step; eauto]. eapply step_target; eauto.
  - destruct (good_write _ _ _ _ G W1) as (G1 & V1). rewrite IH; auto. now rewrite V1.
Qed.

(** a freed block stays freed *)
Definition frees (M M' : list (option (list (option T)))) : Prop :=
  (length M <= length M')%nat /\
  forall k, (k < length M)%nat -> block M (Some k) = None -> block M' (Some k) = None.
Lemma frees_refl M : frees M M.
Proof. split; auto. Qed.
Lemma frees_trans M1 M2 M3 : frees M1 M2 -> frees M2 M3 -> frees M1 M3.
Proof. intros (L1 & F1) (L2 & F2). split; [lia|]. intros k Hk B. apply F2; [lia|]. now apply F1. Qed.
Lemma frees_app M b : frees M (M ++ [b]).
Proof. split; [rewrite app_length; lia|]. intros k Hk B. now rewrite block_app. Qed.
Lemma frees_upd M j l b : block M (Some j) = Some l -> frees M (upd M j b).
Proof.
  intros E. split; [now rewrite length_upd|]. intros k Hk B. rewrite block_upd_other; auto. intros ->. congruence.
Qed.
Lemma frees_write_back x h m st : frees (mem st) (mem (write_back x h m st)).
Proof.
  unfold write_back. destruct (h_elem h) as [k|]; [|apply frees_refl].
  destruct (block (mem st) (Some k)) eqn:E; [|apply frees_refl]. cbn [mem]. eapply frees_upd; eauto.
Qed.
Lemma frees_realloc f x st st' : call_realloc f x st = Ok st' -> frees (mem st) (mem st').
Proof.
  intros E. unfold call_realloc in E. apply bind_ok in E as (h & _ & E). apply bind_ok in E as (m & _ & E).
  unfold replace_block, place in E. apply bind_ok in E as (M' & D & E). injection E as <-. cbn [mem].
  eapply frees_trans; [apply (frees_app _ (Some (elem m)))|]. unfold delete in D.
  destruct (h_elem h) as [k|]; [|injection D as <-; apply frees_refl].
  destruct (block _ (Some k)) eqn:B; [|discriminate]. injection D as <-. eapply frees_upd; eauto.
Qed.
Lemma frees_same_realloc (neg : bool) (c : handle -> bool) f x st st' :
  (h <- lookup st x ;; if neg then Exit 1 else if c h then Ok st else call_realloc f x st) = Ok st' -> frees (mem st) (mem st').
Proof.
  intros E. apply bind_ok in E as (h & _ & E). destruct neg; [discriminate|]. destruct (c h).
  - injection E as <-. apply frees_refl.
  - eapply frees_realloc; eauto.
Qed.
Lemma frees_in_place f x st st' : call_in_place f x st = Ok st' -> frees (mem st) (mem st').
Proof.
  intros E. unfold call_in_place in E. apply bind_ok in E as (h & _ & E). apply bind_ok in E as (m & _ & E).
  injection E as <-. apply frees_write_back.
Qed.
Lemma frees_call ch x st st' : call A ch x st = Ok st' -> frees (mem st) (mem st').
Proof.
  intros E. destruct ch; cbn [call in_place] in E; try (eapply frees_in_place; exact E).
  - eapply frees_realloc; exact E.
  - exact (frees_same_realloc (r <? 0) (fun h => r =? h_rows h) _ _ _ _ E).
  - exact (frees_same_realloc (c <? 0) (fun h => c =? h_cols h) _ _ _ _ E).
  - exact (frees_same_realloc (s <? 0) (fun h => s =? h_shel h) _ _ _ _ E).
  - unfold call_assign in E. apply bind_ok in E as (hm & _ & E).
    apply bind_ok in E as (st1 & R & E). apply frees_realloc in R.
    apply bind_ok in E as (hm1 & _ & E). apply bind_ok in E as (h1 & _ & E). apply bind_ok in E as (t & _ & E).
    injection E as <-. eapply frees_trans; [exact R|]. apply frees_write_back.
Qed.
Lemma frees_act st a st' : act A st a st' -> frees (mem st) (mem st').
Proof.
  intros [st0 s st1 H|st0 p v st1 W].
  - destruct H as [st2 s st2' E|st2 s e E N|st2 x ch f e h m F E V L]; [|apply frees_refl|apply frees_write_back].
    destruct s as [x c|x y|x f|x ch].
    + apply exec_declare_inv in E as (h & M & -> & [(_ & ->)|(b & ? & ->)]); cbn [mem]; [apply frees_refl|apply frees_app].
    + cbn [exec] in E. apply bind_ok in E as (h & _ & E). injection E as <-. apply frees_refl.
    + apply exec_result_inv in E as (h & M & -> & b & _ & ->). apply frees_app.
    + eapply frees_call; exact E.
  - unfold ptr_write in W. destruct (block _ _) eqn:B; [|discriminate].
    apply bind_ok in W as (l' & _ & W). injection W as <-. cbn [mem]. eapply frees_upd; eauto.
Qed.
Lemma frees_acts st l st' : acts A st l st' -> frees (mem st) (mem st').
Proof.
  induction 1 as [st|st a st1 l st2 H1 H2 IH]; [apply frees_refl|]. eapply frees_trans; [eapply frees_act; eauto|exact IH].
Qed.
End C88.

(** For a matrix every element of which is set, the pointer exists and shows the element. *)
Theorem C88_element_partial :
  forall T st x h R C S (f : Z -> Z -> Z -> T) r c,
  vars st x = Some h -> denotes (view (mem st) h) R C S f -> inside R C S r c 1 ->
  exists p, get_elem_ptr x r c st = Ok p /\ ptr_read p st = Ok (f r c 1).
Proof.
  intros T st x h R C S f r c E (W & <- & <- & <- & D) I.
  destruct (index_ok _ _ _ _ W I) as (Ei & B). unfold get_elem_ptr, lookup. rewrite E. cbn [bind]. rewrite Ei. cbn [bind].
  specialize (D r c 1 I). rewrite get_elem3_in in D by auto. unfold load in D. rewrite Ei in D. cbn [bind] in D.
  unfold view in B, D. cbn [elem] in B, D. destruct (h_elem h) as [k|] eqn:Ek.
  2:{ cbn [block length] in B. lia. }
  destruct (block (mem st) (Some k)) as [l|] eqn:Eb.
  2:{ cbn [length] in B. lia. }
  cbn [view cols shel] in *.
  destruct (Z.leb_spec 0 (pos3 (h_cols h) (h_shel h) r c 1)); [|lia].
  destruct (Z.leb_spec (pos3 (h_cols h) (h_shel h) r c 1) (Z.of_nat (length l))); [|lia].
  cbn [andb]. eexists. split; [reflexivity|]. unfold ptr_read. cbn [p_block p_off]. now rewrite Eb.
Qed.
Print Assumptions C88_element_partial.

(** As long as the object is not declared again and none of its functions that
    give it another block is called, the pointer reads exactly what get_elem(r,c)
    of the object returns: after any history of statements on any variables,
    caught exceptions and writes through any pointers.  (If the block is freed
    through another object that shares it, both are a use after free.) *)
Theorem C88_follows_partial :
  forall T (A : arith T) st x h r c p later st',
  reachable A st -> vars st x = Some h -> 1 <= r <= h_rows h -> 1 <= c <= h_cols h ->
  get_elem_ptr x r c st = Ok p ->
  acts A st later st' -> Forall (leaves x) later ->
  ask (GetElem2 r c) x st' = (v <- ptr_read p st' ;; Ok (inr [v])).
Proof.
  intros T A st x h r c p later st' Rc E Hr Hc G H F. apply reachable_good in Rc.
  destruct (ptr_eq x r c st h p E G) as (l & Ek & _ & Ei).
  apply (read_ask st' h); auto. now rewrite (acts_keep A st later st' x).
Qed.
Print Assumptions C88_follows_partial.

(** Writing through the pointer is set_elem(v,r,c) of the object: the same
    program state results. *)
Theorem C88_write_partial :
  forall T (A : arith T) st x h r c p later st' v,
  reachable A st -> vars st x = Some h -> 1 <= r <= h_rows h -> 1 <= c <= h_cols h ->
  get_elem_ptr x r c st = Ok p ->
  acts A st later st' -> Forall (leaves x) later ->
  ptr_write p v st' = exec A (Change x (SetElem2 v r c)) st'.
Proof.
  intros T A st x h r c p later st' v Rc E Hr Hc G H F. apply reachable_good in Rc.
  destruct (ptr_eq x r c st h p E G) as (l & Ek & _ & Ei).
  assert (E' : vars st' x = Some h) by now rewrite (acts_keep A st later st' x).
  cbn [exec call in_place]. unfold call_in_place, lookup. rewrite E'. cbn [bind].
  unfold set_elem2. cbn [view rows cols].
  destruct (Z.ltb_spec (h_rows h) r); [lia|]. destruct (Z.ltb_spec r 1); [lia|].
  destruct (Z.ltb_spec (h_cols h) c); [lia|]. destruct (Z.ltb_spec c 1); [lia|].
  unfold store. change (index (view (mem st') h) r c 1) with (index (view (mem st) h) r c 1). rewrite Ei. cbn [bind].
  unfold ptr_write, view, dangling. cbn [elem rows cols shel]. rewrite Ek.
  destruct (block (mem st') (Some (p_block p))) as [l'|] eqn:Eb.
  - unfold wr. destruct (_ && _); cbn [bind uaf]; [|reflexivity].
    unfold write_back. rewrite Ek, Eb. reflexivity.
  - unfold wr. destruct (p_off p); reflexivity.
Qed.
Print Assumptions C88_write_partial.

(** Different elements have different addresses. *)
Theorem C88_distinct_partial :
  forall T st x h R C S (f : Z -> Z -> Z -> T) r c r' c' p p',
  vars st x = Some h -> denotes (view (mem st) h) R C S f -> inside R C S r c 1 -> inside R C S r' c' 1 ->
  get_elem_ptr x r c st = Ok p -> get_elem_ptr x r' c' st = Ok p' ->
  p = p' -> r = r' /\ c = c'.
Proof.
  intros T st x h R C S f r c r' c' p p' E (W & <- & <- & <- & D) I I' G G' <-.
  destruct (ptr_eq x r c st h p E G) as (_ & _ & _ & E1). destruct (ptr_eq x r' c' st h p E G') as (_ & _ & _ & E2).
  rewrite (proj1 (index_ok _ _ _ _ W I)) in E1. rewrite (proj1 (index_ok _ _ _ _ W I')) in E2.
  assert (Q : pos3 (h_cols h) (h_shel h) r c 1 = pos3 (h_cols h) (h_shel h) r' c' 1) by (cbn [view cols shel] in *; congruence).
  apply pos3_inj in Q; unfold inside in *; cbn [view cols shel] in *; try tauto; lia.
Qed.
Print Assumptions C88_distinct_partial.

(** ** What the pointer does not do *)

(** Every function that gives the object another block leaves the pointer
    dangling, for ever: whatever happens later, using it is a use after free,
    while the object itself is fine. *)
Theorem C88_dangles_refuted :
  forall T (A : arith T) st x h r c p ch st1 later st2,
  reachable A st -> vars st x = Some h -> get_elem_ptr x r c st = Ok p ->
  moves_block h ch -> exec A (Change x ch) st = Ok st1 -> acts A st1 later st2 ->
  ptr_read p st2 = Undef UseAfterFree /\ forall v, ptr_write p v st2 = Undef UseAfterFree.
Proof.
  intros T A st x h r c p ch st1 later st2 Rc E G Mb Ex H. apply reachable_good in Rc.
  destruct (ptr_eq x r c st h p E G) as (l & Ek & Eb & _).
  assert (L : (p_block p < length (mem st))%nat) by (eapply Rc; eauto).
  assert (Lk : lookup st x = Ok h) by (apply lookup_inv; auto).
  assert (Rl : forall f st', call_realloc f x st = Ok st' ->
             block (mem st') (Some (p_block p)) = None /\ (length (mem st) <= length (mem st'))%nat).
  { intros f st' Q. unfold call_realloc in Q. rewrite Lk in Q. cbn [bind] in Q. apply bind_ok in Q as (m & _ & Q).
    unfold replace_block, place in Q. apply bind_ok in Q as (M' & D & Q). injection Q as <-. cbn [mem].
    unfold delete in D. rewrite Ek in D. destruct (block (mem st ++ _) _); [|discriminate]. injection D as <-.
    rewrite length_upd, app_length. split; [|lia]. apply block_upd_same. rewrite app_length. lia. }
  assert (B : block (mem st1) (Some (p_block p)) = None /\ (length (mem st) <= length (mem st1))%nat).
  { destruct ch; cbn [moves_block allocates] in Mb; try contradiction; cbn [exec call] in Ex.
    - eapply Rl; exact Ex.
    - unfold call_set_rows in Ex. rewrite Lk in Ex. cbn [bind] in Ex. destruct (r0 <? 0); [discriminate|].
      destruct (Z.eqb_spec r0 (h_rows h)); [contradiction|]. eapply Rl; exact Ex.
    - unfold call_set_cols in Ex. rewrite Lk in Ex. cbn [bind] in Ex. destruct (c0 <? 0); [discriminate|].
      destruct (Z.eqb_spec c0 (h_cols h)); [contradiction|]. eapply Rl; exact Ex.
    - unfold call_set_shel in Ex. rewrite Lk in Ex. cbn [bind] in Ex. destruct (s <? 0); [discriminate|].
      destruct (Z.eqb_spec s (h_shel h)); [contradiction|]. eapply Rl; exact Ex.
    - unfold call_assign in Ex. apply bind_ok in Ex as (hm & _ & Ex). apply bind_ok in Ex as (s1 & Q & Ex).
      apply Rl in Q as (B1 & L1).
      apply bind_ok in Ex as (hm1 & _ & Ex). apply bind_ok in Ex as (h1 & _ & Ex). apply bind_ok in Ex as (t & _ & Ex).
      injection Ex as <-. destruct (frees_write_back x h1 t s1) as (L2 & F2). split; [apply F2; [lia|auto]|lia]. }
  destruct B as (B1 & L1). destruct (frees_acts A st1 later st2 H) as (L2 & F2).
  assert (B2 : block (mem st2) (Some (p_block p)) = None) by (apply F2; [lia|auto]).
  unfold ptr_read, ptr_write. rewrite B2. auto.
Qed.
Print Assumptions C88_dangles_refuted.

(** Positions outside the matrix are not rejected: the element after the last
    one of a row is the first one of the next row (get_elem exits there). *)
Theorem C88_unchecked_refuted :
  forall T st x h R C (f : Z -> Z -> Z -> T) r,
  vars st x = Some h -> denotes (view (mem st) h) R C 1 f -> 1 <= C -> 1 <= r < R ->
  ask (GetElem2 r (C + 1)) x st = Exit 1 /\
  exists p, get_elem_ptr x r (C + 1) st = Ok p /\ get_elem_ptr x (r + 1) 1 st = Ok p /\
            ptr_read p st = Ok (f (r + 1) 1 1).
Proof.
  intros T st x h R C f r E Dn HC Hr.
  assert (I : inside R C 1 (r + 1) 1 1) by (unfold inside; lia).
  destruct (C88_element_partial T st x h R C 1 f (r + 1) 1 E Dn I) as (p & G & Rd).
  destruct Dn as (W & D1 & D2 & D3 & D4). cbn [view rows cols shel] in *.
  split.
  - unfold ask, lookup. rewrite E. cbn [bind ask_view]. rewrite get_elem2_out; [reflexivity|]. cbn [view rows cols]. lia.
  - exists p. split; [|auto]. rewrite <- G. unfold get_elem_ptr, lookup. rewrite E. cbn [bind].
    assert (Q : index (view (mem st) h) r (C + 1) 1 = index (view (mem st) h) (r + 1) 1 1).
    { destruct W as ((F1 & F2 & F3 & F4) & Le). cbn [view rows cols shel] in *.
      rewrite (proj1 (index_ok (view (mem st) h) (r + 1) 1 1 (conj (conj F1 (conj F2 (conj F3 F4))) Le) ltac:(cbn [view rows cols shel]; rewrite D1, D2, D3; exact I))).
      unfold index, flat, pos3. cbn [view cols shel]. rewrite D2, D3. rewrite D1, D2, D3 in F4.
      assert (K1 : (r - 1) * C <= R * C) by nia. assert (K2 : 0 <= (r - 1) * C) by nia.
      assert (K3 : (r - 1) * C + C + 1 <= R * C) by nia. unfold INT_MAX in *.
unfold iadd, isub, imul. repeat (rewrite ichk_ok by (unfold is_int, INT_MIN, INT_MAX; nia); cbn [bind]). f_equal. nia. }
    rewrite Q. reflexivity.
Qed.
Print Assumptions C88_unchecked_refuted.

(** Non-vacuity: a 2x2 matrix, a pointer to (1,2), a history that writes
    through it and through the object and makes a second matrix; then a resize. *)
Fixpoint run_acts (l : list (action Z)) (st : store_ Z) : outcome (store_ Z) :=
  match l with
  | [] => Ok st
  | a :: l' => st1 <- match a with Stmt s => exec zA s st | Write p v => ptr_write p v st end ;; run_acts l' st1
  end.
Lemma run_acts_ok l : forall st st', run_acts l st = Ok st' -> acts zA st l st'.
Proof.
  induction l as [|a l IH]; cbn [run_acts]; intros st st' E.
  - injection E as <-. constructor.
  - apply bind_ok in E as (st1 & E1 & E2). econstructor; [|apply IH; exact E2].
    destruct a; [apply act_stmt, step_ok; exact E1|apply act_write; exact E1].
Qed.
Definition ptr12 : pointer := mkPtr 0 1.
Definition later12 : list (action Z) :=
  [Write ptr12 7; Stmt (Declare 1%nat New0); Stmt (Change 1%nat (AssignFrom 0%nat)); Stmt (Change 0%nat (SwapRow 1 2)); Write ptr12 8].
Example C88_example : exists st st' st2 : store_ Z,
  reachable zA st /\ get_elem_ptr 0%nat 1 2 st = Ok ptr12 /\ ptr_read ptr12 st = Ok 2 /\
  acts zA st later12 st' /\ Forall (leaves 0%nat) later12 /\
  ask (GetElem2 1 2) 0%nat st' = Ok (inr [8]) /\ ask (GetElem2 2 2) 0%nat st' = Ok (inr [7]) /\
  ask (GetElem2 1 2) 1%nat st' = Ok (inr [7]) /\
  exec zA (Change 0%nat (Resize 3 3)) st' = Ok st2 /\ ptr_read ptr12 st2 = Undef UseAfterFree.
Proof.
  destruct (run [Declare 0%nat (OfVecs [[1; 2]; [3; 4]])] empty_store) as [st| | | |] eqn:E0; try (vm_compute in E0; discriminate).
  destruct (run_acts later12 st) as [st'| | | |] eqn:E1; try (vm_compute in E0; injection E0 as <-; vm_compute in E1; discriminate).
  destruct (exec zA (Change 0%nat (Resize 3 3)) st') as [st2| | | |] eqn:E2;
    try (vm_compute in E0; injection E0 as <-; vm_compute in E1; injection E1 as <-; vm_compute in E2; discriminate).
  exists st, st', st2. split; [eexists; apply run_steps; exact E0|].
  assert (S1 : acts zA st later12 st') by (apply run_acts_ok; exact E1).
  vm_compute in E0. injection E0 as <-. split; [reflexivity|]. split; [reflexivity|]. split; [exact S1|]. clear S1.
  vm_compute in E1. injection E1 as <-. split.
  - unfold later12. repeat constructor; cbn; intros X; try discriminate. eexists. split; [reflexivity|exact I].
  - split; [vm_compute; reflexivity|]. split; [vm_compute; reflexivity|]. split; [vm_compute; reflexivity|]. split; auto.
    vm_compute in E2. injection E2 as <-. vm_compute. reflexivity.
Qed.
