(** * C07: copies and memory *)
From Verif Require Import HeapValue MatrixProps.

(** ** Assignment and Matrix_copy

    [st] is any state a program can reach; [b] becomes a copy of [a]; then the
    program continues in any way that declares or changes only [b] and new
    variables made from [b].  No accessor of [a] can tell the difference. *)
Theorem C07_assignment_partial :
  forall T (A : arith T) st st1 st2 a b W later,
  reachable A st -> a <> b ->
  exec A (Change b (AssignFrom a)) st = Ok st1 ->
  around st1 a b W -> Forall (works_on W) later -> steps A st1 later st2 ->
  forall q, ask q a st2 = ask q a st.
Proof.
  intros T A st st1 st2 a b W later R N E Hw F H q.
  assert (G : good st) by (eapply reachable_good; eauto).
  destruct (assign_effect A a b st st1 G N E) as ((ha & Ea) & K & P).
  assert (G1 : good st1) by (eapply good_step; [exact G|apply step_ok; exact E]).
  eapply keeps_ask; [exact Ea|]. eapply keeps_trans; [exact K|].
  eapply frame_steps; eauto. eapply around_separated; eauto.
Qed.
Print Assumptions C07_assignment_partial.

(** The same for every function that returns a matrix (Matrix_copy first of all). *)
Theorem C07_matrix_copy_partial :
  forall T (A : arith T) st st1 st2 a b f W later,
  reachable A st -> a <> b -> (exists h, vars st a = Some h) ->
  exec A (ResultInit b f) st = Ok st1 ->
  around st1 a b W -> Forall (works_on W) later -> steps A st1 later st2 ->
  forall q, ask q a st2 = ask q a st.
Proof.
  intros T A st st1 st2 a b f W later R N (ha & Ea) E Hw F H q.
  assert (G : good st) by (eapply reachable_good; eauto).
  assert (G1 : good st1) by (eapply good_step; [exact G|apply step_ok; exact E]).
  pose proof (exec_result_inv A b f st st1 E) as (h & M & Q & bl & H1 & H2).
  destruct (declare_effect b h M st) as [_ D]; auto. { right; eauto. }
  destruct (D a N) as (K & _ & P). rewrite <- Q in *.
  eapply keeps_ask; [exact Ea|]. eapply keeps_trans; [exact K|].
  eapply frame_steps; eauto. eapply around_separated; eauto.
Qed.
Print Assumptions C07_matrix_copy_partial.

(** What the copies hold: with one shelf, [b = a] makes [b] answer like [a] did;
    Matrix_copy does for any number of shelves. *)
Theorem C07_assignment_value :
  forall T (A : arith T) st st1 a b ha hb R0 C0 S0 f0 R C f,
  reachable A st -> a <> b -> vars st a = Some ha -> vars st b = Some hb ->
  denotes (view (mem st) hb) R0 C0 S0 f0 -> 1 <= S0 ->
  denotes (view (mem st) ha) R C 1 f -> 1 <= R -> 1 <= C ->
  exec A (Change b (AssignFrom a)) st = Ok st1 ->
  exists hb', vars st1 b = Some hb' /\ denotes (view (mem st1) hb') R C 1 (fun r c _ => f r c 1).
Proof.
  intros T A st st1 a b ha hb R0 C0 S0 f0 R C f Rc N Ea Eb Db S0' Da HR HC E.
  apply reachable_good in Rc.
  destruct (call_value A st b hb (AssignFrom a) st1) as (hb' & E' & V); auto; [congruence|].
  exists hb'. split; auto. cbn [value_change] in V. rewrite Ea in V.
  destruct (C05_assign_partial T (a_zero A) _ R0 C0 S0 f0 _ R C f Db S0' Da HR HC) as (m' & Em & Dm).
  rewrite V in Em. injection Em as <-. exact Dm.
Qed.
Print Assumptions C07_assignment_value.

Theorem C07_matrix_copy_value :
  forall T (A : arith T) st st1 a b ha R C S f,
  vars st a = Some ha -> denotes (view (mem st) ha) R C S f -> 1 <= R -> 1 <= C -> 1 <= S ->
  exec A (ResultInit b (FCopy a)) st = Ok st1 ->
  exists hb, vars st1 b = Some hb /\ denotes (view (mem st1) hb) R C S f.
Proof.
  intros T A st st1 a b ha R C S f Ea D HR HC HS E.
  apply result_value in E as (m & hb & Em & Eb & V). exists hb. split; auto.
  cbn [apply_func] in Em. unfold lookup in Em. rewrite Ea in Em. cbn [bind] in Em. apply uaf_ok in Em.
  destruct (C06_copy T (a_zero A) _ R C S f D HR HC HS) as (m' & Em' & Dm).
  rewrite Em in Em'. injection Em' as <-. rewrite V. exact Dm.
Qed.
Print Assumptions C07_matrix_copy_value.

(** Every member function computes, on the matrix seen through its object, what
    the value model of C01-C19 says; so those theorems hold for variables of a
    program with a shared heap. *)
Theorem C07_calls_agree_with_values :
  forall T (A : arith T) st x h ch st', reachable A st -> vars st x = Some h -> ch <> AssignFrom x ->
  exec A (Change x ch) st = Ok st' ->
  exists h', vars st' x = Some h' /\
    value_change A st ch (view (mem st) h) = Ok (view (mem st') h').
Proof. intros. eapply call_value; eauto. eapply reachable_good; eauto. Qed.
Print Assumptions C07_calls_agree_with_values.

(** ** Copy construction is not independent *)

(** After [Matrix b(a)] the two objects answer every query alike, whatever
    in-place changes are made through [b]: a write through [b] is a write to [a]. *)
Theorem C07_copy_construction_shares :
  forall T (A : arith T) st st1 st2 a b later, a <> b ->
  exec A (CopyInit b a) st = Ok st1 ->
  Forall (fun s => exists ch, s = Change b ch /\ keeps_block ch) later ->
  steps A st1 later st2 ->
  forall q, ask q a st2 = ask q b st2.
Proof.
  intros T A st st1 st2 a b later N E F H q. apply aliased_ask. eapply aliased_steps; eauto.
  cbn [exec] in E. apply bind_ok in E as (h & E1 & E). apply lookup_inv in E1. injection E as <-.
  exists h. cbn [vars]. rewrite set_var_same, set_var_other; auto.
Qed.
Print Assumptions C07_copy_construction_shares.

(** The first change of [b] that allocates leaves [a] with a dangling pointer:
    every element access of [a] is a use after free. *)
Definition allocates {T} (h : handle) (ch : change T) : Prop :=
  match ch with
  | Resize _ _ => True
  | SetRows r => r <> h_rows h
  | SetCols c => c <> h_cols h
  | SetShel s => s <> h_shel h
  | _ => False
  end.

Theorem C07_copy_construction_dangles :
  forall T (A : arith T) st st1 st2 a b h ch R C S f, a <> b -> reachable A st ->
  vars st a = Some h -> denotes (view (mem st) h) R C S f -> 1 <= R * C * S ->
  exec A (CopyInit b a) st = Ok st1 ->
  allocates h ch -> exec A (Change b ch) st1 = Ok st2 ->
  forall r c s, inside R C S r c s ->
    ask (GetElem3 r c s) a st = Ok (inr [f r c s]) /\
    ask (GetElem3 r c s) a st2 = Undef UseAfterFree.
Proof.
  intros T A st st1 st2 a b h ch R C S f N Rc Ea D Pos E1 Al E2 r c s I.
  assert (G : good st) by (eapply reachable_good; eauto).
  assert (G1 : good st1) by (eapply good_step; [exact G|apply step_ok; exact E1]).
  destruct D as ((Fi & Le) & D1 & D2 & D3 & D4). cbn [view rows cols shel] in *. subst R C S.
  cbn [exec] in E1. apply bind_ok in E1 as (h' & E' & E1). apply lookup_inv in E'.
  rewrite Ea in E'. injection E' as <-. injection E1 as <-.
  split.
  { unfold ask, lookup. rewrite Ea. cbn [bind ask_view]. rewrite D4 by auto. reflexivity. }
  assert (Lk : lookup (mkStore (set_var b h (vars st)) (mem st)) b = Ok h).
  { apply lookup_inv. cbn. apply set_var_same. }
  assert (Al1 : aliased (mkStore (set_var b h (vars st)) (mem st)) a b).
  { exists h. cbn [vars]. rewrite set_var_same, set_var_other; auto. }
  assert (Q : exists g, call_realloc g b (mkStore (set_var b h (vars st)) (mem st)) = Ok st2).
  { destruct ch; cbn [allocates] in Al; try contradiction; cbn [exec call] in E2.
    - eexists. exact E2.
    - unfold call_set_rows in E2. rewrite Lk in E2. cbn [bind] in E2.
      destruct (r0 <? 0); [discriminate|]. destruct (Z.eqb_spec r0 (h_rows h)); [contradiction|]. eauto.
    - unfold call_set_cols in E2. rewrite Lk in E2. cbn [bind] in E2.
      destruct (c0 <? 0); [discriminate|]. destruct (Z.eqb_spec c0 (h_cols h)); [contradiction|]. eauto.
    - unfold call_set_shel in E2. rewrite Lk in E2. cbn [bind] in E2.
      destruct (s0 <? 0); [discriminate|]. destruct (Z.eqb_spec s0 (h_shel h)); [contradiction|]. eauto. }
  destruct Q as (g & Q). destruct (realloc_dangles g _ a b st2 G1 N Al1 Q) as (h0 & E0 & Ea2 & B).
  cbn [vars] in E0. rewrite set_var_other, Ea in E0 by auto. injection E0 as <-.
  destruct (h_elem h) as [k|] eqn:Ek.
  - exact (dangling_use_after_free st2 a h k Ea2 Ek B Fi r c s I).
  - exfalso. unfold view in Le. rewrite Ek in Le. cbn in Le. lia.
Qed.
Print Assumptions C07_copy_construction_dangles.

(** ** Witnesses *)
Definition zA : arith Z := mkArith Z 0 1 2 Z.add Z.sub Z.mul Z.div (fun x => x * x).

Fixpoint run (l : list (stmt Z)) (st : store_ Z) : outcome (store_ Z) :=
  match l with [] => Ok st | s :: l' => st1 <- exec zA s st ;; run l' st1 end.
Lemma run_steps l : forall st st', run l st = Ok st' -> steps zA st l st'.
Proof.
  induction l as [|s l IH]; cbn [run]; intros st st' E.
  - injection E as <-. constructor.
  - apply bind_ok in E as (st1 & E1 & E2). econstructor; [apply step_ok; exact E1|auto].
Qed.

Definition prog1 : list (stmt Z) :=
  [Declare 0%nat (OfVecs [[1; 2]; [3; 4]]); CopyInit 1%nat 0%nat].

(** Matrix b(a); b.set_elem(9,1,1): a.get_elem(1,1) is 9. *)
Theorem C07_copy_construction_refuted :
  exists st0 st1 st2 : store_ Z,
    reachable zA st0 /\ exec zA (CopyInit 1%nat 0%nat) st0 = Ok st1 /\
    exec zA (Change 1%nat (SetElem2 9 1 1)) st1 = Ok st2 /\
    ask (GetElem2 1 1) 0%nat st1 = Ok (inr [1]) /\ ask (GetElem2 1 1) 0%nat st2 = Ok (inr [9]).
Proof.
  destruct (run [Declare 0%nat (OfVecs [[1; 2]; [3; 4]])] empty_store) as [st0| | | |] eqn:E0;
    try (vm_compute in E0; discriminate).
  destruct (exec zA (CopyInit 1%nat 0%nat) st0) as [st1| | | |] eqn:E1;
    try (vm_compute in E0; injection E0 as <-; vm_compute in E1; discriminate).
  destruct (exec zA (Change 1%nat (SetElem2 9 1 1)) st1) as [st2| | | |] eqn:E2;
    try (vm_compute in E0; injection E0 as <-; vm_compute in E1; injection E1 as <-;
         vm_compute in E2; discriminate).
  exists st0, st1, st2. split; [eexists; apply run_steps; exact E0|]. split; auto. split; auto.
  vm_compute in E0. injection E0 as <-. vm_compute in E1. injection E1 as <-.
  vm_compute in E2. injection E2 as <-. split; vm_compute; reflexivity.
Qed.
Print Assumptions C07_copy_construction_refuted.

(** Assigning between the two copies frees the block that is being copied. *)
Theorem C07_assign_between_copies_refuted :
  exists st : store_ Z, steps zA empty_store prog1 st /\
    exec zA (Change 1%nat (AssignFrom 0%nat)) st = Undef UseAfterFree.
Proof.
  destruct (run prog1 empty_store) as [st| | | |] eqn:E; try (vm_compute in E; discriminate).
  exists st. split; [apply run_steps; exact E|]. vm_compute in E. injection E as <-. reflexivity.
Qed.
Print Assumptions C07_assign_between_copies_refuted.

(** Non-vacuity of the positive theorems: declare a and b, [b = a], then a
    history on b and a new variable, including copies of b, a resize, and a
    caught exception. *)
Definition later1 : list (stmt Z) :=
  [Change 1%nat (SetElem2 9 1 1); CopyInit 2%nat 1%nat; Change 2%nat (SwapRow 1 2);
   Change 1%nat (Resize 3 3); Change 1%nat (AssignFrom 0%nat)].
Definition W1 : nat -> Prop := fun n => n = 1%nat \/ n = 2%nat.
Example C07_example : exists st st1 st2 : store_ Z,
  reachable zA st /\ exec zA (Change 1%nat (AssignFrom 0%nat)) st = Ok st1 /\
  around st1 0%nat 1%nat W1 /\ Forall (works_on W1) later1 /\ steps zA st1 later1 st2 /\
  ask (GetElem2 1 1) 0%nat st2 = Ok (inr [1]) /\
  ask (GetElem2 1 1) 2%nat st2 = Undef UseAfterFree.
Proof.
  destruct (run [Declare 0%nat (OfVecs [[1; 2]; [3; 4]]); Declare 1%nat New0] empty_store)
    as [st| | | |] eqn:E0; try (vm_compute in E0; discriminate).
  destruct (exec zA (Change 1%nat (AssignFrom 0%nat)) st) as [st1| | | |] eqn:E1;
    try (vm_compute in E0; injection E0 as <-; vm_compute in E1; discriminate).
  destruct (run later1 st1) as [st2| | | |] eqn:E2;
    try (vm_compute in E0; injection E0 as <-; vm_compute in E1; injection E1 as <-;
         vm_compute in E2; discriminate).
  exists st, st1, st2. split; [eexists; apply run_steps; exact E0|]. split; auto.
  assert (S2 : steps zA st1 later1 st2) by (apply run_steps; exact E2).
  vm_compute in E0. injection E0 as <-. vm_compute in E1. injection E1 as <-.
  split; [|split; [|split; [exact S2|]]].
  - split; [left; reflexivity|]. split; [intros [X|X]; discriminate|].
    intros w [->| ->]; [left; reflexivity|right; reflexivity].
  - apply Forall_forall. unfold later1, W1. intros s0 H. cbn [In] in H.
    destruct H as [<-|[<-|[<-|[<-|[<-|[]]]]]]; (split; [cbn; auto|]); intros x y X;
      inversion X; auto.
  - vm_compute in E2. injection E2 as <-. split; vm_compute; reflexivity.
Qed.
