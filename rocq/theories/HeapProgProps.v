(** * C07: programs over several matrices *)
From Verif Require Import HeapProg MatrixProps MatrixShapeProps.

(** A program that never copy-constructs (and assigns no variable to itself) behaves
    as if every variable had a matrix of its own: it throws, exits or returns
    exactly when the functions of C01-C19 on the separate matrices do, and then every
    accessor of every variable answers as on its matrix. *)
Theorem C07_programs : forall T (A : arith T) prog, Forall plain prog ->
  alike_outcome (fun st vs => forall x, match vs x with
      | Some m => forall q, ask q x st = ask_view q m
      | None => vars st x = None
      end) (h_run A prog empty_store) (v_run A prog no_values).
Proof.
  intros T A prog F. eapply weak; [|apply run_sim; [apply inv_empty|intros x; reflexivity|exact F]].
  intros st vs [I S] x. rewrite (S x). destruct (vars st x) as [h|] eqn:E; cbn [option_map]; auto.
  intros q. unfold ask, lookup. rewrite E. cbn [bind]. rewrite (i_live _ I x h E). apply uaf_false.
Qed.
Print Assumptions C07_programs.

(** What the accessors answer. *)
Theorem C07_answers : forall T (m : mat T) R C S f, denotes m R C S f -> 1 <= R -> 1 <= C -> 1 <= S ->
  ask_view GetRows m = Ok (inl R) /\ ask_view GetCols m = Ok (inl C) /\ ask_view GetShel m = Ok (inl S) /\
  ask_view TotalElem m = Ok (inl (R * C * S)) /\
  (forall r c s, inside R C S r c s -> ask_view (GetElem3 r c s) m = Ok (inr [f r c s])) /\
  (forall r c, inside R C S r c 1 -> ask_view (GetElem2 r c) m = Ok (inr [f r c 1])) /\
  (forall r, inside R C S r 1 1 -> ask_view (GetElem1 r) m = Ok (inr [f r 1 1])) /\
  ask_view GetElem0 m = Ok (inr [f 1 1 1]) /\
  (forall r, 1 <= r <= R -> exists v, ask_view (GetRowVec r) m = Ok (inr v) /\ lists v C (fun j => f r j 1)) /\
  (forall c, 1 <= c <= C -> exists v, ask_view (GetColVec c) m = Ok (inr v) /\ lists v R (fun i => f i c 1)).
Proof.
  intros T m R C S f D HR HC HS. pose proof D as (W & E1 & E2 & E3 & G).
  assert (H1 : 1 <= rows m) by lia. assert (H2 : 1 <= cols m) by lia. assert (H3 : 1 <= shel m) by lia.
  pose proof (fun r c => proj1 (proj2 (C01_overloads T m (f 1 1 1) r c H1 H2 H3 W))) as O2.
  pose proof (fun r => proj1 (proj2 (proj2 (proj2 (C01_overloads T m (f 1 1 1) r 1 H1 H2 H3 W))))) as O1.
  pose proof (proj2 (proj2 (proj2 (proj2 (proj2 (C01_overloads T m (f 1 1 1) 1 1 H1 H2 H3 W)))))) as O0.
  destruct (C12_get_row_col T m R C S f D HS) as [Gr Gc]. cbn [ask_view]. rewrite E1, E2, E3.
  do 3 (split; [reflexivity|]). split; [rewrite (proj1 (C03_total_elem T m R C S f D HS)); reflexivity|].
  split; [intros r c s I; rewrite G by auto; reflexivity|].
  split; [intros r c I; rewrite O2, G by auto; reflexivity|].
  split; [intros r I; rewrite O1, G by auto; reflexivity|].
  split; [rewrite O0, G by (unfold inside; lia); reflexivity|]. split.
  - intros r Hr. destruct (Gr r Hr) as (v & -> & L). exists v. auto.
  - intros c Hc. destruct (Gc c Hc) as (v & -> & L). exists v. auto.
Qed.
Print Assumptions C07_answers.

(** a program with several variables, in integers *)
Definition zP : arith Z := mkArith Z 0 1 2 Z.add Z.sub Z.mul Z.div (fun x => x * x).
Definition program1 : list (stmt Z) :=
  [Declare 0%nat (OfVecs [[1; 2; 3]; [4; 5; 6]]); Declare 1%nat (New2 2 3); Change 1%nat (AssignFrom 0%nat);
   ResultInit 2%nat (FInvert 0%nat); Change 1%nat (SetElem2 9 1 1); ResultInit 3%nat (FMul 1%nat 2%nat);
   Declare 4%nat (New1 0); Change 2%nat (SwapRow 1 3); Change 0%nat (Resize 1 2)].
Example C07_program_example : Forall plain program1 /\
  match h_run zP program1 empty_store with
  | Ok st => ask (GetRowVec 1) 0%nat st = Ok (inr [1; 2]) /\ ask (GetRowVec 1) 1%nat st = Ok (inr [9; 2; 3]) /\
             ask (GetRowVec 1) 2%nat st = Ok (inr [3; 6]) /\ ask (GetRowVec 1) 3%nat st = Ok (inr [22; 64]) /\
             ask GetRows 4%nat st = Ok (inl 0)
  | _ => False
  end.
Proof. split; [repeat constructor; cbn; discriminate|vm_compute; repeat split]. Qed.
