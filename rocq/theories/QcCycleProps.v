(** * C23, C24 for every match vector: when unscrambling ends, and what it does then

    [trapped], [trapped2] (QcCycleSpec.v) say which match vectors make it run forever. *)
From Verif Require Import QcCycle MatrixCtor.
Open Scope Z_scope.

(** ** C23: exactly the vectors with a cycle that is entered from a later place never end *)
Theorem C23_dimer_exact_partial : forall T (zero : T) mA mB,
  (trapped2 mA mB -> forall fuel b (m : mat T) R C f, denotes m R C 1 (fun r c _ => f r c) -> 1 <= R ->
     Forall (fun n => 1 <= n) b -> total b <= C -> unscramble_Coef2 zero fuel mA mB b m = NoFuel) /\
  (~ trapped2 mA mB -> forall fuel b (m : mat T), (length mA + length mB + 2 <= fuel)%nat ->
     unscramble_Coef2 zero fuel mA mB b m <> NoFuel /\ unscramble_S2 zero fuel mA mB b m <> NoFuel).
Proof.
  intros T zero mA mB. split.
  - intros Tr fuel b m R C f Hm HR Hb Ht. exact (stuck2 zero fuel mA mB b m R C f Hm HR Hb Ht Tr).
  - intros Nt fuel b m Hf. split; [apply (ends2 zero); auto|]. unfold unscramble_S2. apply fin_bind; intros; apply (ends2 zero); auto.
Qed.
Print Assumptions C23_dimer_exact_partial.
Theorem C23_single_exact_partial : forall T (zero : T) mA,
  (trapped mA -> forall fuel b (m : mat T) R C f, denotes m R C 1 (fun r c _ => f r c) -> 1 <= R ->
     Forall (fun n => 1 <= n) b -> total b <= C -> unscramble_Coef1 zero fuel mA b m = NoFuel) /\
  (~ trapped mA -> forall fuel b (m : mat T), (length mA + 2 <= fuel)%nat ->
     unscramble_Coef1 zero fuel mA b m <> NoFuel /\ unscramble_S1 zero fuel mA b m <> NoFuel).
Proof.
  intros T zero mA. split.
  - intros Tr fuel b m R C f Hm HR Hb Ht. exact (stuck1 zero fuel mA b m R C f Hm HR Hb Ht Tr).
  - intros Nt fuel b m Hf. split; [apply (ends1 zero); auto|]. unfold unscramble_S1. apply fin_bind; intros; apply (ends1 zero); auto.
Qed.
Print Assumptions C23_single_exact_partial.

(** places 2 and 1 exchange their atoms and place 3 wants the atom of place 1: trapped; [2; 2] is not *)
Example C23_exact_example : trapped [2; 1; 1] /\ ~ trapped [2; 2] /\ trapped2 [3; 1] [3] /\ ~ trapped2 [1; 1] [2].
Proof.
  assert (S2 : forall x y, leads [2; 2] x y -> y = 2).
  { intros x y H. induction H as [i k [L E]|]; auto. destruct (Z.to_nat (i - 1)) as [|[|[|]]]; cbn in E; congruence. }
  assert (S3 : forall x y, leads ([1; 1] ++ [2]) x y -> y = 1 \/ y = 2).
  { intros x y H. induction H as [i k [L E]|]; auto. destruct (Z.to_nat (i - 1)) as [|[|[|[|]]]]; cbn in E; inversion E; auto. }
  split; [|split; [|split]].
  - assert (A1 : assigned [2; 1; 1] 1 2) by (split; [lia|reflexivity]). assert (A2 : assigned [2; 1; 1] 2 1) by (split; [lia|reflexivity]). assert (A3 : assigned [2; 1; 1] 3 1) by (split; [lia|reflexivity]).
    exists 2, 3. split; [eapply leads_more; [exact A2|apply leads_one; exact A1]|]. split; [|split; [lia|eapply leads_more; [exact A3|apply leads_one; exact A1]]].
    assert (S : forall x y, leads [2; 1; 1] x y -> y <= 2); [|intros v H; apply (S _ _ H)].
    intros x y H. induction H as [i k [L E]|]; auto. destruct (Z.to_nat (i - 1)) as [|[|[|[|]]]]; cbn in E; inversion E; lia.
  - intros (c & j & C & _ & L & Lj). apply S2 in C. subst c. apply leads_start in Lj. cbn in Lj. lia.
  - assert (A1 : assigned ([3; 1] ++ [3]) 1 3) by (split; [lia|reflexivity]). assert (A3 : assigned ([3; 1] ++ [3]) 3 3) by (split; [lia|reflexivity]).
    exists 3, 1. split; [apply leads_one; exact A3|]. split; [|split; [right; cbn; lia|apply leads_one; exact A1]].
    intros v H. assert (S : forall x y, leads ([3; 1] ++ [3]) x y -> x = 3 -> y = 3).
    { intros x y K. induction K as [i k G|i k z G K IH]; intros ->; assert (k = 3) by (eapply assigned_fun; eauto); auto. }
    rewrite (S 3 v H eq_refl). cbn. lia.
  - intros (c & j & C & Hin & _). pose proof (Hin c C) as R. cbn in R. destruct (S3 _ _ C); lia.
Qed.

(** ** C24: of the vectors that end, exactly those that name an atom for every place are safe;
    then every atom keeps all its columns (rows), in some order of the atoms *)
Theorem C24_dimer_exact_partial : forall T (zero : T) mA mB b, Forall (fun n => 1 <= n) b -> ~ trapped2 mA mB ->
  Forall (fun x => x = -1 \/ 1 <= x <= Z.of_nat (length b)) (mA ++ mB) ->
  (Forall (fun x => 1 <= x) (mA ++ mB) /\ (length mA + length mB <= length b)%nat ->
     exists ord, is_order (Z.of_nat (length b)) ord /\ forall fuel, (length mA + length mB + 2 <= fuel)%nat ->
       (forall (m : mat T) R f, denotes m R (total b) 1 (fun r c _ => f r c) -> 1 <= R -> 1 <= total b ->
          exists m' g, unscramble_Coef2 zero fuel mA mB b m = Ok m' /\ denotes m' R (total b) 1 (fun r c _ => g r c) /\ blocks_moved b ord f g) /\
       (forall (m : mat T) f, denotes m (total b) (total b) 1 (fun r c _ => f r c) -> 1 <= total b ->
          exists m' g, unscramble_S2 zero fuel mA mB b m = Ok m' /\ denotes m' (total b) (total b) 1 (fun r c _ => g r c) /\ blocks_moved2 b ord f g)) /\
  (~ (Forall (fun x => 1 <= x) (mA ++ mB) /\ (length mA + length mB <= length b)%nat) ->
     forall fuel (m : mat T) R f, (length mA + length mB + 2 <= fuel)%nat -> denotes m R (total b) 1 (fun r c _ => f r c) -> 1 <= R ->
       unscramble_Coef2 zero fuel mA mB b m = Undef BadIterator /\ unscramble_S2 zero fuel mA mB b m = Undef BadIterator).
Proof.
  intros T zero mA mB b Hb Nt Hr. split.
  - intros [Hp Hl]. destruct (order2 mA mB b Nt Hr Hp Hl) as (K & HK & H). exists K. split; auto. intros fuel Hf. specialize (H fuel Hf). split.
    + intros m R f Hm HR HC. unfold unscramble_Coef2. rewrite unscramble2_blocks.
      destruct (by_blocks_cols zero _ b m R (total b) f K Hm HR HC Hb eq_refl HK H) as (m' & E & D). exists m', (perm_fun zero b K f). split; auto. split; auto. apply perm_moved; auto.
    + intros m f Hm HN. unfold unscramble_S2. rewrite unscramble2_blocks.
      destruct (by_blocks_cols zero _ b m (total b) (total b) f K Hm HN HN Hb eq_refl HK H) as (m1 & E & D). rewrite E. cbn [bind]. rewrite unscramble2_blocks.
      destruct (by_blocks_rows zero _ b m1 (total b) (total b) (fun c r => perm_fun zero b K f r c) K D HN HN Hb eq_refl HK H) as (m2 & E2 & D2).
      exists m2. eexists. split; [exact E2|]. split; [exact D2|]. apply (perm_moved2 zero); auto.
  - intros Nb fuel m R f Hf Hm HR.
    assert (U : unscramble2 zero fuel mA mB b m tagColumns = Undef BadIterator).
    { rewrite unscramble2_blocks. apply (by_blocks_undef zero _ b m R (total b) f Hm HR Hb ltac:(lia)). intros X L HL. apply (outside2 mA mB (length b)); auto. }
    split; [exact U|]. unfold unscramble_S2. rewrite U. reflexivity.
Qed.
Print Assumptions C24_dimer_exact_partial.
Theorem C24_single_exact_partial : forall T (zero : T) mA b, Forall (fun n => 1 <= n) b -> ~ trapped mA ->
  Forall (fun x => x = -1 \/ 1 <= x <= Z.of_nat (length b)) mA ->
  (Forall (fun x => 1 <= x) mA /\ (length mA <= length b)%nat ->
     exists ord, is_order (Z.of_nat (length b)) ord /\ forall fuel, (length mA + 2 <= fuel)%nat ->
       (forall (m : mat T) R f, denotes m R (total b) 1 (fun r c _ => f r c) -> 1 <= R -> 1 <= total b ->
          exists m' g, unscramble_Coef1 zero fuel mA b m = Ok m' /\ denotes m' R (total b) 1 (fun r c _ => g r c) /\ blocks_moved b ord f g) /\
       (forall (m : mat T) f, denotes m (total b) (total b) 1 (fun r c _ => f r c) -> 1 <= total b ->
          exists m' g, unscramble_S1 zero fuel mA b m = Ok m' /\ denotes m' (total b) (total b) 1 (fun r c _ => g r c) /\ blocks_moved2 b ord f g)) /\
  (~ (Forall (fun x => 1 <= x) mA /\ (length mA <= length b)%nat) ->
     forall fuel (m : mat T) R f, (length mA + 2 <= fuel)%nat -> denotes m R (total b) 1 (fun r c _ => f r c) -> 1 <= R ->
       unscramble_Coef1 zero fuel mA b m = Undef BadIterator /\ unscramble_S1 zero fuel mA b m = Undef BadIterator).
Proof.
  intros T zero mA b Hb Nt Hr. split.
  - intros [Hp Hl]. destruct (order1 mA b Nt Hr Hp Hl) as (K & HK & H). exists K. split; auto. intros fuel Hf. specialize (H fuel Hf). split.
    + intros m R f Hm HR HC. unfold unscramble_Coef1. rewrite unscramble1_blocks.
      destruct (by_blocks_cols zero _ b m R (total b) f K Hm HR HC Hb eq_refl HK H) as (m' & E & D). exists m', (perm_fun zero b K f). split; auto. split; auto. apply perm_moved; auto.
    + intros m f Hm HN. unfold unscramble_S1. rewrite unscramble1_blocks.
      destruct (by_blocks_cols zero _ b m (total b) (total b) f K Hm HN HN Hb eq_refl HK H) as (m1 & E & D). rewrite E. cbn [bind]. rewrite unscramble1_blocks.
      destruct (by_blocks_rows zero _ b m1 (total b) (total b) (fun c r => perm_fun zero b K f r c) K D HN HN Hb eq_refl HK H) as (m2 & E2 & D2).
      exists m2. eexists. split; [exact E2|]. split; [exact D2|]. apply (perm_moved2 zero); auto.
  - intros Nb fuel m R f Hf Hm HR.
    assert (U : unscramble1 zero fuel mA b m tagColumns = Undef BadIterator).
    { rewrite unscramble1_blocks. apply (by_blocks_undef zero _ b m R (total b) f Hm HR Hb ltac:(lia)). intros X L HL. apply (outside1 mA (length b)); auto. }
    split; [exact U|]. unfold unscramble_S1. rewrite U. reflexivity.
Qed.
Print Assumptions C24_single_exact_partial.
Example C24_exact_example : (m <- Matrix_of_vecs [[1; 2; 3]] ;; unscramble_Coef1 0 4 [2; 2] [1; 1; 1] m) = Matrix_of_vecs [[2; 1; 3]] /\
  (m <- Matrix_of_vecs [[1; 2; 3]] ;; unscramble_Coef2 0 6 [2; 3] [-1] [1; 1; 1] m) = Undef BadIterator.
Proof. split; reflexivity. Qed.
