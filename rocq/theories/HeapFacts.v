(** * Facts about the heap model *)
From Verif Require Export HeapSpec MatrixReach.

Section HeapFacts.
Context {T : Type}.
Variable A : arith T.
Implicit Types (st : store_ T) (M : list (option (list (option T)))) (h : handle).

Definition good st : Prop :=
  forall x h k, vars st x = Some h -> h_elem h = Some k -> (k < length (mem st))%nat.

(** Variables [a] and [w] do not lead to the same block. *)
Definition apart st (a w : nat) : Prop :=
  forall ha hw k, vars st a = Some ha -> vars st w = Some hw ->
    h_elem ha = Some k -> h_elem hw <> Some k.

Lemma good_empty : good empty_store.
Proof. intros x h k H. discriminate. Qed.

Lemma lookup_inv st x h : lookup st x = Ok h <-> vars st x = Some h.
Proof. unfold lookup. destruct (vars st x); split; intros E; inversion E; auto. Qed.

Lemma set_var_same x h f : set_var x h f x = Some h.
Proof. unfold set_var. now rewrite Nat.eqb_refl. Qed.
Lemma set_var_other x y h f : y <> x -> set_var x h f y = f y.
Proof. intros H. unfold set_var. apply Nat.eqb_neq in H. now rewrite H. Qed.

Lemma uaf_ok {B} bad (x : outcome B) b : uaf bad x = Ok b -> x = Ok b.
Proof. destruct x as [| | |u|]; cbn; auto. destruct u; auto. destruct bad; discriminate. Qed.

Lemma block_app M b k : (k < length M)%nat -> block (M ++ [b]) (Some k) = block M (Some k).
Proof. intros H. unfold block. now rewrite nth_error_app1. Qed.
Lemma block_new M b : block (M ++ [Some b]) (Some (length M)) = Some b.
Proof. unfold block. rewrite nth_error_app2, Nat.sub_diag by auto. reflexivity. Qed.
Lemma block_upd_other M j k b : j <> k -> block (upd M j b) (Some k) = block M (Some k).
Proof. intros H. unfold block. now rewrite nth_error_upd_ne. Qed.
Lemma block_upd_same M k b : (k < length M)%nat -> block (upd M k b) (Some k) = b.
Proof. intros H. unfold block. now rewrite nth_error_upd_eq. Qed.
Lemma block_lt M k l : block M (Some k) = Some l -> (k < length M)%nat.
Proof.
  unfold block. destruct (nth_error M k) eqn:E; [|discriminate]. intros _.
  apply nth_error_Some. congruence.
Qed.

(** ** The effect of a change on memory and variables *)

(** [moves st x st']: the change touched only the block of [x], possibly
    giving [x] a fresh one. *)
Definition moves st (x : nat) st' : Prop :=
  (forall y, y <> x -> vars st' y = vars st y) /\
  (length (mem st) <= length (mem st'))%nat /\
  exists h h', vars st x = Some h /\ vars st' x = Some h' /\
    (h_elem h' = h_elem h \/
     exists k, h_elem h' = Some k /\ (length (mem st) <= k < length (mem st'))%nat) /\
    forall k, (k < length (mem st))%nat -> h_elem h <> Some k ->
      block (mem st') (Some k) = block (mem st) (Some k).

Lemma write_back_moves x h m st : vars st x = Some h -> moves st x (write_back x h m st).
Proof.
  intros E. unfold write_back, moves.
  destruct (h_elem h) as [k|] eqn:Ek.
  - destruct (block (mem st) (Some k)) eqn:Eb.
    + cbn [vars mem]. rewrite length_upd. split; auto. split; auto.
      exists h, h. rewrite Ek. repeat split; auto.
      intros k0 H1 H2. apply block_upd_other. congruence.
    + split; auto. split; auto. exists h, h. repeat split; auto.
  - split; auto. split; auto. exists h, h. repeat split; auto.
Qed.

Lemma replace_block_moves x h m st st' :
  vars st x = Some h -> replace_block x h m st = Ok st' -> moves st x st'.
Proof.
  intros E H. unfold replace_block, place in H. apply bind_ok in H as (M' & H1 & H2).
  injection H2 as <-. unfold moves. cbn [vars mem].
  assert (L : length M' = S (length (mem st)) /\
    forall k, (k < length (mem st))%nat -> h_elem h <> Some k ->
      block M' (Some k) = block (mem st) (Some k)).
  { unfold delete in H1. destruct (h_elem h) as [j|].
    - destruct (block _ _); [|discriminate]. injection H1 as <-.
      rewrite length_upd, app_length. cbn [length]. split; [lia|]. intros k Hk N.
      rewrite block_upd_other by congruence. now apply block_app.
    - injection H1 as <-. rewrite app_length. cbn [length]. split; [lia|]. intros k Hk N. now apply block_app. }
  destruct L as [L1 L2]. split; [|split; [lia|]].
  - intros y Hy. now apply set_var_other.
  - eexists h, _. split; auto. split; [apply set_var_same|]. split; auto.
    right. exists (length (mem st)). cbn. split; auto. lia.
Qed.

Lemma moves_refl st x h : vars st x = Some h -> moves st x st.
Proof. intros E. split; auto. split; auto. exists h, h. repeat split; auto. Qed.

Lemma moves_trans st1 st2 st3 x : good st1 -> moves st1 x st2 -> moves st2 x st3 -> moves st1 x st3.
Proof.
  intros G (V1 & L1 & h1 & h2 & E1 & E2 & P1 & B1) (V2 & L2 & h2' & h3 & E2' & E3 & P2 & B2).
  rewrite E2 in E2'. injection E2' as <-.
  split; [intros y Hy; rewrite V2, V1; auto|]. split; [lia|].
  exists h1, h3. split; auto. split; auto. split.
  - destruct P2 as [P2|(k & P2 & K2)].
    + destruct P1 as [P1|(k & P1 & K1)]; [left; congruence|].
      right. exists k. rewrite P2, P1. split; auto. lia.
    + right. exists k. split; auto. lia.
  - intros k Hk N. rewrite B2; [now apply B1|lia|].
    destruct P1 as [->|(j & -> & K)]; auto. intros X. injection X as ->. lia.
Qed.

Lemma in_place_moves f x st st' : call_in_place f x st = Ok st' -> moves st x st'.
Proof.
  unfold call_in_place. intros E. apply bind_ok in E as (h & E1 & E). apply lookup_inv in E1.
  apply bind_ok in E as (m & _ & E). injection E as <-. now apply write_back_moves.
Qed.
Lemma realloc_moves f x st st' : call_realloc f x st = Ok st' -> moves st x st'.
Proof.
  unfold call_realloc. intros E. apply bind_ok in E as (h & E1 & E). apply lookup_inv in E1.
  apply bind_ok in E as (m & _ & E). eapply replace_block_moves; eauto.
Qed.

Lemma good_moves st x st' : good st -> moves st x st' -> good st'.
Proof.
  intros G (V & L & h & h' & E & E' & P & B) y hy k Ey Ek.
  destruct (Nat.eq_dec y x) as [->|N].
  - rewrite E' in Ey. injection Ey as <-. destruct P as [P|(j & P & K)].
    + rewrite P in Ek. specialize (G x h k E Ek). lia.
    + rewrite P in Ek. injection Ek as <-. lia.
  - rewrite V in Ey by auto. specialize (G y hy k Ey Ek). lia.
Qed.

Lemma same_realloc_moves (neg : bool) (c : handle -> bool) f x st st' :
  (h <- lookup st x ;; if neg then Exit 1 else if c h then Ok st else call_realloc f x st) = Ok st' -> moves st x st'.
Proof.
  intros E. apply bind_ok in E as (h & E1 & E). apply lookup_inv in E1.
  destruct neg; [discriminate|]. destruct (c h).
  - injection E as <-. eapply moves_refl; eauto.
  - eapply realloc_moves; eauto.
Qed.

Lemma call_moves ch x st st' : good st -> call A ch x st = Ok st' -> moves st x st'.
Proof.
  intros G E.
  destruct ch; cbn [call in_place] in E;
    try (eapply in_place_moves; exact E).
  - eapply realloc_moves; exact E.
  - exact (same_realloc_moves (r <? 0) (fun h => r =? h_rows h) _ _ _ _ E).
  - exact (same_realloc_moves (c <? 0) (fun h => c =? h_cols h) _ _ _ _ E).
  - exact (same_realloc_moves (s <? 0) (fun h => s =? h_shel h) _ _ _ _ E).
  - unfold call_assign in E. apply bind_ok in E as (hm & _ & E).
    apply bind_ok in E as (st1 & R & E). apply realloc_moves in R.
    apply bind_ok in E as (hm1 & _ & E). apply bind_ok in E as (h1 & E1 & E).
    apply lookup_inv in E1. apply bind_ok in E as (t & _ & E). injection E as <-.
    eapply moves_trans; eauto. now apply write_back_moves.
Qed.

(** ** Frame *)

(** [a] keeps its handle and its block. *)
Definition keeps st (a : nat) st' : Prop :=
  forall ha, vars st a = Some ha ->
    vars st' a = Some ha /\ block (mem st') (h_elem ha) = block (mem st) (h_elem ha).

Lemma keeps_trans st1 st2 st3 a : keeps st1 a st2 -> keeps st2 a st3 -> keeps st1 a st3.
Proof.
  intros H1 H2 ha E. destruct (H1 ha E) as [E1 B1]. destruct (H2 ha E1) as [E2 B2].
  split; congruence.
Qed.

Lemma moves_keeps st x st' a : good st -> a <> x -> apart st a x -> moves st x st' -> keeps st a st'.
Proof.
  intros G N P (V & L & h & h' & E & E' & _ & B) ha Ea. split; [rewrite V; auto|].
  destruct (h_elem ha) as [k|] eqn:Ek; [|reflexivity].
  apply B; [eapply G; eauto|]. eapply P; eauto.
Qed.

Lemma moves_apart st x st' a w : good st -> a <> x ->
  apart st a w -> moves st x st' -> apart st' a w.
Proof.
  intros G N P (V & L & h & h' & E & E' & Q & B) ha hw k Ea Ew Ka Kw.
  rewrite V in Ea by auto. specialize (G a ha k Ea Ka).
  destruct (Nat.eq_dec w x) as [->|Nw].
  - rewrite E' in Ew. injection Ew as <-. destruct Q as [Q|(j & Q & K)].
    + rewrite Q in Kw. exact (P ha h k Ea E Ka Kw).
    + rewrite Q in Kw. injection Kw as ->. lia.
  - rewrite V in Ew by auto. exact (P ha hw k Ea Ew Ka Kw).
Qed.

(** A declaration gives [x] a fresh block, or none. *)
Lemma declare_effect x h M st : (h_elem h = None /\ M = mem st \/
    exists b, h_elem h = Some (length (mem st)) /\ M = mem st ++ [Some b]) ->
  let st' := mkStore (set_var x h (vars st)) M in
  good st ->
  good st' /\ forall a, a <> x -> keeps st a st' /\
     (forall w, apart st a w -> apart st' a w) /\ apart st' a x.
Proof.
  intros H st' G.
  assert (L : (length (mem st) <= length M)%nat).
  { destruct H as [[_ ->]|(b & _ & ->)]; [lia|]. rewrite app_length. lia. }
  assert (F : forall a, a <> x -> apart st' a x).
  { intros a N ha hw k Ea Ew Ka Kw. cbn [st' vars] in *. rewrite set_var_other in Ea by auto.
    rewrite set_var_same in Ew. injection Ew as <-. specialize (G a ha k Ea Ka).
    destruct H as [[H _]|(b & H & _)]; rewrite H in Kw; [discriminate|]. injection Kw as <-. lia. }
  split.
  - intros y hy k Ey Ek. cbn [st' vars mem] in *. destruct (Nat.eq_dec y x) as [->|N].
    + rewrite set_var_same in Ey. injection Ey as <-.
      destruct H as [[H _]|(b & H & E)]; rewrite H in Ek; [discriminate|]. injection Ek as <-.
      subst M. rewrite app_length. cbn. lia.
    + rewrite set_var_other in Ey by auto. specialize (G y hy k Ey Ek). lia.
  - intros a N. split; [|split; [|exact (F a N)]].
    + intros ha Ea. cbn [st' vars mem]. rewrite set_var_other by auto. split; auto.
      destruct (h_elem ha) as [k|] eqn:Ek; [|reflexivity].
      destruct H as [[_ ->]|(b & _ & ->)]; [reflexivity|].
      apply block_app. eapply G; eauto.
    + intros w P. destruct (Nat.eq_dec w x) as [->|Nw]; [exact (F a N)|].
      intros ha hw k Ea Ew. cbn [st' vars] in *. rewrite set_var_other in Ea by auto.
      rewrite set_var_other in Ew by auto. apply P; auto.
Qed.

Lemma exec_declare_inv x c st st' : exec A (Declare x c) st = Ok st' ->
  exists h M, st' = mkStore (set_var x h (vars st)) M /\
    (h_elem h = None /\ M = mem st \/
     exists b, h_elem h = Some (length (mem st)) /\ M = mem st ++ [Some b]).
Proof.
  cbn [exec]. intros E. apply bind_ok in E as (m & _ & E). injection E as <-.
  assert (G : exists h M, (let '(h, M) := place (mem st) m in mkStore (set_var x h (vars st)) M)
     = mkStore (set_var x h (vars st)) M /\
    (h_elem h = None /\ M = mem st \/
     exists b, h_elem h = Some (length (mem st)) /\ M = mem st ++ [Some b])).
  { eexists _, _. split; [reflexivity|]. right. eexists. split; reflexivity. }
  unfold declare. destruct c; try exact G. destruct r; try exact G.
  eexists _, _. split; [reflexivity|]. left. split; reflexivity.
Qed.

Lemma exec_result_inv x f st st' : exec A (ResultInit x f) st = Ok st' ->
  exists h M, st' = mkStore (set_var x h (vars st)) M /\
    exists b, h_elem h = Some (length (mem st)) /\ M = mem st ++ [Some b].
Proof.
  cbn [exec]. intros E. apply bind_ok in E as (m & _ & E).
  unfold place in E. injection E as <-. eexists _, _. split; [reflexivity|].
  eexists. split; reflexivity.
Qed.

(** One step of a program that works on [W] only. *)
Definition separated st a (W : nat -> Prop) : Prop := ~ W a /\ forall w, W w -> apart st a w.

Lemma good_step st s st' : good st -> step A st s st' -> good st'.
Proof.
  intros G H. destruct H as [st s st' E|st s e E N|st x ch f e h m F E V L]; auto.
  - destruct s as [x c|x y|x f|x ch].
    + apply exec_declare_inv in E as (h & M & -> & H). now apply declare_effect.
    + cbn [exec] in E. apply bind_ok in E as (h & E1 & E). apply lookup_inv in E1.
      injection E as <-. intros z hz k Ez Ek. cbn [vars mem] in *.
      destruct (Nat.eq_dec z x) as [->|N].
      * rewrite set_var_same in Ez. injection Ez as <-. exact (G y h k E1 Ek).
      * rewrite set_var_other in Ez by auto. exact (G z hz k Ez Ek).
    + apply exec_result_inv in E as (h & M & -> & b & H1 & H2).
      apply declare_effect; auto. right. eauto.
    + apply good_moves with (st := st) (x := x); auto. eapply call_moves; eauto.
  - eapply good_moves; [exact G|]. now apply write_back_moves.
Qed.

Lemma good_steps st l st' : steps A st l st' -> good st -> good st'.
Proof. induction 1; eauto using good_step. Qed.

Lemma frame_step st s st' a W : good st -> step A st s st' ->
  separated st a W -> works_on W s -> keeps st a st' /\ separated st' a W.
Proof.
  intros G H [Na P] [Wt Wc].
  assert (MV : forall x, W x -> moves st x st' -> keeps st a st' /\ separated st' a W).
  { intros x Wx Mv. assert (N : a <> x) by (intros ->; auto). split.
    - eapply moves_keeps; eauto.
    - split; auto. intros w Ww. eapply moves_apart; eauto. }
  destruct H as [st s st' E|st s e E N|st x ch f e h m F E V L].
  - destruct s as [x c|x y|x f|x ch]; cbn [target] in Wt.
    + apply exec_declare_inv in E as (h & M & -> & H).
      destruct (declare_effect x h M st H G) as [_ D]. destruct (D a) as (D1 & D2 & D3); [intros ->; auto|].
      split; auto. split; auto.
    + assert (Wy : W y) by (eapply Wc; reflexivity).
      cbn [exec] in E. apply bind_ok in E as (h & E1 & E). apply lookup_inv in E1.
      injection E as <-. assert (N : a <> x) by (intros ->; auto). split.
      * intros ha Ea. cbn [vars mem]. rewrite set_var_other by auto. auto.
      * split; auto. intros w Ww ha hw k Ea Ew. cbn [vars mem] in *.
        rewrite set_var_other in Ea by auto. destruct (Nat.eq_dec w x) as [->|Nw].
        -- rewrite set_var_same in Ew. injection Ew as <-. exact (P y Wy ha h k Ea E1).
        -- rewrite set_var_other in Ew by auto. exact (P w Ww ha hw k Ea Ew).
    + apply exec_result_inv in E as (h & M & -> & b & H1 & H2).
      destruct (declare_effect x h M st) as [_ D]; auto. { right; eauto. }
      destruct (D a) as (D1 & D2 & D3); [intros ->; auto|]. split; auto. split; auto.
    + apply (MV x); auto. eapply call_moves; eauto.
  - split; [|split; auto]. intros ha Ea. auto.
  - apply (MV x); auto. now apply write_back_moves.
Qed.

Lemma frame_steps st l st' a W : steps A st l st' -> good st ->
  separated st a W -> Forall (works_on W) l -> keeps st a st'.
Proof.
  induction 1 as [st|st s st1 l st2 H1 H2 IH]; intros G S F.
  - intros ha E; auto.
  - inversion F as [|? ? F1 F2]; subst.
    destruct (frame_step st s st1 a W G H1 S F1) as [K1 S1].
    eapply keeps_trans; eauto. apply IH; auto. eapply good_step; eauto.
Qed.

Lemma keeps_ask st a st' ha q : vars st a = Some ha -> keeps st a st' -> ask q a st' = ask q a st.
Proof.
  intros Ea K. destruct (K ha Ea) as [E1 B]. unfold ask, lookup. rewrite E1, Ea. cbn [bind].
  assert (V : view (mem st') ha = view (mem st) ha) by (unfold view; now rewrite B).
  assert (D : dangling (mem st') ha = dangling (mem st) ha).
  { unfold dangling. destruct (h_elem ha); auto. now rewrite B. }
  now rewrite V, D.
Qed.

Lemma reachable_good st : reachable A st -> good st.
Proof. intros (prog & H). eapply good_steps; eauto using good_empty. Qed.

(** A block that is not [None] after [delete] of another pointer was live. *)
Lemma for_up_first {S} (body : Z -> S -> outcome S) lo hi s s' :
  lo <= hi -> for_up lo hi body s = Ok s' -> exists s1, body lo s = Ok s1.
Proof.
  intros H E. rewrite for_up_step in E by auto. apply bind_ok in E as (s1 & E1 & _). eauto.
Qed.

Lemma rd_nil k : @rd T [] k = Undef OutOfBounds.
Proof. unfold rd. cbn. destruct (0 <=? k) eqn:E; cbn; auto. destruct (k <? 0) eqn:E2; cbn; auto. apply Z.leb_le in E. apply Z.ltb_lt in E2. lia. Qed.

(** Assignment: the left-hand side ends up in a block of its own. *)
Lemma assign_parts a b st st1 : good st -> a <> b ->
  exec A (Change b (AssignFrom a)) st = Ok st1 ->
  exists ha st2 h1 t, vars st a = Some ha /\
    call_resize A (h_rows ha) (h_cols ha) b st = Ok st2 /\ vars st2 b = Some h1 /\
    (for_up 1 (rows (view (mem st2) ha)) (fun i t =>
      for_up 1 (cols (view (mem st2) ha)) (fun j t =>
        v <- get_elem2 (view (mem st2) ha) i j ;; set_elem2 v i j t) t) (view (mem st2) h1)) = Ok t /\
    st1 = write_back b h1 t st2 /\ keeps st a st2 /\ apart st2 a b.
Proof.
  intros G N E. cbn [exec call] in E. unfold call_assign in E.
  apply bind_ok in E as (ha & Ea & E). apply lookup_inv in Ea.
  apply bind_ok in E as (st2 & R & E). pose proof R as R0. apply bind_ok in E as (hm1 & E1 & E).
  apply lookup_inv in E1. apply bind_ok in E as (h1 & E2 & E). apply lookup_inv in E2.
  apply bind_ok in E as (t & El & E). injection E as <-.
  unfold call_resize, call_realloc in R. apply bind_ok in R as (hb & Eb & R). apply lookup_inv in Eb.
  apply bind_ok in R as (m & Rm & R). apply uaf_ok in Rm.
  assert (Mv : moves st b st2) by (eapply replace_block_moves; eauto).
  assert (G2 : good st2) by (eapply good_moves; eauto).
  destruct (Mv) as (V & L & _). rewrite V in E1 by auto. rewrite Ea in E1. injection E1 as <-.
  assert (D : 1 <= h_rows ha /\ 1 <= h_cols ha).
  { unfold resize in Rm. destruct (Z.ltb_spec (h_rows ha) 1); [discriminate|].
    destruct (Z.ltb_spec (h_cols ha) 1); [discriminate|]. lia. }
  (* the loop read at least one element of a *)
  assert (Lv : exists l, block (mem st2) (h_elem ha) = Some l).
  { destruct (block (mem st2) (h_elem ha)) as [l|] eqn:Bl; [eauto|]. exfalso.
    apply uaf_ok in El. cbn [view rows cols] in El.
    apply for_up_first in El as (s1 & El); [|lia]. apply for_up_first in El as (s2 & El); [|lia].
    apply bind_ok in El as (v & El & _). unfold get_elem2 in El. cbn [view rows cols] in El.
    repeat match type of El with context [if ?c then _ else _] => destruct c end; try discriminate.
    unfold load in El. apply bind_ok in El as (k & _ & El). unfold view in El. cbn [elem] in El.
    rewrite Bl in El. rewrite rd_nil in El. discriminate. }
  assert (Hb : apart st2 a b /\ keeps st a st2).
  { unfold replace_block, place in R. apply bind_ok in R as (M' & R1 & R2). injection R2 as <-.
    cbn [vars mem] in *. rewrite set_var_same in E2. injection E2 as <-. split.
    - intros ha' hb' k Ea' Eb' Ka Kb. cbn [vars] in *.
      rewrite set_var_other in Ea' by auto. rewrite set_var_same in Eb'. injection Eb' as <-.
      rewrite Ea in Ea'. injection Ea' as <-. injection Kb as <-.
      specialize (G a ha _ Ea Ka). lia.
    - eapply moves_keeps; eauto. intros ha' hb' k Ea' Eb' Ka Kb.
      rewrite Ea in Ea'. injection Ea' as <-. rewrite Eb in Eb'. injection Eb' as <-.
      unfold delete in R1. rewrite Kb in R1. destruct (block _ _) in R1; [|discriminate].
      injection R1 as <-. destruct Lv as (l' & Lv). rewrite Ka in Lv.
      rewrite block_upd_same in Lv; [discriminate|]. rewrite app_length.
      specialize (G a ha k Ea Ka). cbn. lia. }
  destruct Hb as [P K]. exists ha, st2, h1, t. apply uaf_ok in El. repeat (split; [assumption|]).
  split; [reflexivity|]. auto.
Qed.

Lemma assign_effect a b st st1 : good st -> a <> b ->
  exec A (Change b (AssignFrom a)) st = Ok st1 ->
  (exists ha, vars st a = Some ha) /\ keeps st a st1 /\ apart st1 a b.
Proof.
  intros G N E. destruct (assign_parts a b st st1 G N E) as (ha & st2 & h1 & t & Ea & R & E2 & _ & -> & K & P).
  split; [eauto|].
  assert (G2 : good st2) by (eapply good_moves; [exact G|eapply realloc_moves; exact R]).
  assert (Mv2 : moves st2 b (write_back b h1 t st2)) by now apply write_back_moves.
  split.
  - eapply keeps_trans; eauto. eapply moves_keeps; eauto.
  - eapply moves_apart; eauto.
Qed.

Lemma apart_undeclared st a w : vars st w = None -> apart st a w.
Proof. intros H ha hw k _ E. congruence. Qed.

Lemma around_separated st a b W : apart st a b -> around st a b W -> separated st a W.
Proof.
  intros P (Wb & Wa & H). split; auto. intros w Ww. destruct (H w Ww) as [->|E]; auto.
  now apply apart_undeclared.
Qed.

(** ** Copy construction *)

(** Both variables have the same handle. *)
Definition aliased st a b : Prop := exists h, vars st a = Some h /\ vars st b = Some h.

Lemma aliased_ask st a b q : aliased st a b -> ask q a st = ask q b st.
Proof. intros (h & E1 & E2). unfold ask, lookup. now rewrite E1, E2. Qed.

Lemma in_place_some ch : keeps_block ch -> exists f, in_place A ch = Some f.
Proof. destruct ch; cbn; intros []; eauto. Qed.

Lemma call_in_place_eq ch f x st : in_place A ch = Some f -> call A ch x st = call_in_place f x st.
Proof. destruct ch; cbn; intros E; inversion E; reflexivity. Qed.

Lemma write_back_vars x h m st : vars (write_back x h m st) = vars st.
Proof. unfold write_back. destruct (h_elem h); auto. destruct (block _ _); auto. Qed.

Lemma aliased_step st a b ch st' : keeps_block ch -> step A st (Change b ch) st' ->
  aliased st a b -> aliased st' a b.
Proof.
  intros K H. apply in_place_some in K as (f & F).
  remember (Change b ch) as s eqn:Es.
  destruct H as [st s st' E|st s e E N|st x ch' f' e h m F' E V L]; intros (h0 & E1 & E2).
  - subst s. cbn [exec] in E. rewrite (call_in_place_eq _ f) in E by auto.
    unfold call_in_place in E. apply bind_ok in E as (h & Eh & E). apply bind_ok in E as (m & _ & E).
    injection E as <-. exists h0. now rewrite !write_back_vars.
  - exists h0; auto.
  - exists h0. now rewrite !write_back_vars.
Qed.

Lemma aliased_steps l st st' a b : steps A st l st' ->
  Forall (fun s => exists ch, s = Change b ch /\ keeps_block ch) l ->
  aliased st a b -> aliased st' a b.
Proof.
  induction 1 as [st|st s st1 l st2 H1 H2 IH]; intros F Al; auto.
  inversion F as [|? ? F1 F2]; subst. destruct F1 as (ch & -> & K).
  apply IH; auto. eapply aliased_step; eauto.
Qed.

(** The changes that give the object another block. *)
Lemma realloc_dangles f st a b st' : good st -> a <> b -> aliased st a b ->
  call_realloc f b st = Ok st' ->
  exists h, vars st a = Some h /\ vars st' a = Some h /\ block (mem st') (h_elem h) = None.
Proof.
  intros G N (h & Ea & Eb) E. unfold call_realloc in E.
  apply bind_ok in E as (h' & E1 & E). apply lookup_inv in E1. rewrite Eb in E1. injection E1 as <-.
  apply bind_ok in E as (m & _ & E). exists h. split; auto.
  unfold replace_block, place in E. apply bind_ok in E as (M' & R & E). injection E as <-.
  cbn [vars mem]. rewrite set_var_other by auto. split; auto.
  unfold delete in R. destruct (h_elem h) as [k|] eqn:Ek.
  - destruct (block _ _); [|discriminate]. injection R as <-. apply block_upd_same.
    rewrite app_length. specialize (G a h k Ea Ek). lia.
  - reflexivity.
Qed.

(** Every element access through a dangling handle is undefined (when it does
    not exit because of its arguments). *)
Lemma dangling_elem st x h k : vars st x = Some h -> h_elem h = Some k ->
  block (mem st) (Some k) = None ->
  forall r c s v, ask (GetElem3 r c s) x st <> Ok (inr [v]).
Proof.
  intros E Ek B r c s v H. unfold ask, lookup in H. rewrite E in H. cbn [bind] in H.
  apply uaf_ok in H. cbn [ask_view] in H. apply bind_ok in H as (w & H & _).
  unfold get_elem3 in H. repeat match type of H with context [if ?c then _ else _] => destruct c end;
    try discriminate. unfold load in H. apply bind_ok in H as (j & _ & H).
  unfold view in H. cbn [elem] in H. rewrite Ek, B, rd_nil in H. discriminate.
Qed.

Lemma dangling_use_after_free st x h k : vars st x = Some h -> h_elem h = Some k ->
  block (mem st) (Some k) = None ->
  fits (h_rows h) (h_cols h) (h_shel h) ->
  forall r c s, inside (h_rows h) (h_cols h) (h_shel h) r c s ->
  ask (GetElem3 r c s) x st = Undef UseAfterFree.
Proof.
  intros E Ek B F r c s I. unfold ask, lookup. rewrite E. cbn [bind ask_view].
  unfold get_elem3. cbn [view rows cols shel]. destruct I as (I1 & I2 & I3).
  destruct (Z.ltb_spec r 1); [lia|]. destruct (Z.ltb_spec (h_rows h) r); [lia|].
  destruct (Z.ltb_spec c 1); [lia|]. destruct (Z.ltb_spec (h_cols h) c); [lia|].
  destruct (Z.ltb_spec s 1); [lia|]. destruct (Z.ltb_spec (h_shel h) s); [lia|].
  unfold load, index. cbn [cols shel view]. rewrite (flat_ok (h_rows h)) by (repeat split; try lia; apply F).
  cbn [bind]. unfold view. cbn [elem]. rewrite Ek, B, rd_nil. cbn [bind uaf].
  unfold dangling. now rewrite Ek, B.
Qed.
End HeapFacts.
