(** * Termination and safety of the whole unscramble functions *)
From Verif Require Export QcFinal.
From Verif Require Import MatrixFacts.
Open Scope Z_scope.

Definition fin {X} (x : outcome X) : Prop := x <> NoFuel.
Lemma fin_ok {X} (x : X) : fin (Ok x). Proof. discriminate. Qed.
Lemma fin_throw {X} e : fin (@Throw X e). Proof. discriminate. Qed.
Lemma fin_exit {X} e : fin (@Exit X e). Proof. discriminate. Qed.
Lemma fin_undef {X} e : fin (@Undef X e). Proof. discriminate. Qed.
Lemma fin_bind {X Y} (x : outcome X) (k : X -> outcome Y) : fin x -> (forall a, fin (k a)) -> fin (bind x k).
Proof. unfold fin. destruct x; simpl; intros; try discriminate; auto. Qed.
Lemma fin_for_up {S} lo hi (b : Z -> S -> outcome S) s : (forall i s, fin (b i s)) -> fin (for_up lo hi b s).
Proof.
  intros H. unfold for_up. generalize (Z.to_nat (hi - lo + 1)) as n. intros n; revert lo s.
  induction n; intros; simpl; [apply fin_ok|]. apply fin_bind; auto.
Qed.
Lemma fin_for_each {X S} (l : list X) (b : X -> S -> outcome S) : (forall x s, fin (b x s)) -> forall s, fin (for_each l b s).
Proof. intros H. induction l; intros; simpl; [apply fin_ok|]. apply fin_bind; auto. Qed.
Lemma fin_if {X} (c : bool) (x y : outcome X) : fin x -> fin y -> fin (if c then x else y).
Proof. destruct c; auto. Qed.
Lemma fin_ichk z : fin (ichk z). Proof. unfold ichk. destruct (is_intb z); discriminate. Qed.
Lemma fin_vat {X} (l : list X) k : fin (vat l k).
Proof. unfold vat. destruct (k <? 0); [discriminate|]. destruct (nth_error l (Z.to_nat k)); discriminate. Qed.
Lemma fin_rd {T} (l : list (option T)) k : fin (rd l k).
Proof. unfold rd. destruct (_ && _); [|discriminate]. destruct (nth_error l (Z.to_nat k)) as [[|]|]; discriminate. Qed.
Lemma fin_wr {T} (l : list (option T)) k v : fin (wr l k v).
Proof. unfold wr. destruct (_ && _); discriminate. Qed.
Lemma fin_list_at {X} (l : list X) k : fin (list_at l k).
Proof. unfold list_at. destruct (k <? 1); [discriminate|]. destruct (nth_error l (Z.to_nat (k - 1))); discriminate. Qed.
Ltac fin := repeat (first [ apply fin_ok | apply fin_throw | apply fin_exit | apply fin_undef
  | apply fin_ichk | apply fin_vat | apply fin_rd | apply fin_wr | apply fin_list_at | assumption
  | apply fin_if | apply fin_bind; [|intros] | apply fin_for_up; intros | apply fin_for_each; intros ]).

Section S.
Context {T : Type}.
Variable zero : T.
Implicit Types (m : mat T).
Lemma fin_new2 r c : fin (Matrix_new2 zero r c).
Proof. unfold Matrix_new2, new_cells, imul, isub, iadd. fin. Qed.
Lemma fin_get2 m r c : fin (get_elem2 m r c).
Proof. unfold get_elem2, load, index, flat, imul, isub, iadd. fin. Qed.
Lemma fin_set2 m v r c : fin (set_elem2 v r c m).
Proof. unfold set_elem2, store, index, flat, imul, isub, iadd. fin. Qed.
Lemma fin_split b m tag : fin (splitMatrixIntoList zero b m tag).
Proof. unfold splitMatrixIntoList, iadd. fin; first [apply fin_new2|apply fin_get2|apply fin_set2]. Qed.
Lemma fin_merge L R C tag : fin (mergeListOfMatrices zero L R C tag).
Proof. unfold mergeListOfMatrices, iadd. fin; first [apply fin_new2|apply fin_get2|apply fin_set2]. Qed.
Lemma fin_swap {X} p (L : list X) : fin (swap_blocks p L).
Proof. unfold swap_blocks, list_put. fin. Qed.

Lemma unscramble2_terminates fuel mA mB basis m tag : no_repeat (mA ++ mB) -> (length mA + length mB + 2 <= fuel)%nat ->
  unscramble2 zero fuel mA mB basis m tag <> NoFuel.
Proof.
  intros Hn Hf. destruct (refresh_terminates2 mA mB fuel Hn Hf) as (r & E).
  change (fin (unscramble2 zero fuel mA mB basis m tag)). unfold unscramble2, splitCoefsUpByAtoms, createNewMatrix.
  apply fin_bind; [apply fin_split|intros]. rewrite E. cbn [bind].
  apply fin_bind; [|intros; apply fin_merge]. unfold updateSwapLists2. fin; apply fin_swap.
Qed.
Lemma unscramble1_terminates fuel mA basis m tag : no_repeat mA -> (length mA + 2 <= fuel)%nat ->
  unscramble1 zero fuel mA basis m tag <> NoFuel.
Proof.
  intros Hn Hf. destruct (refresh_terminates1 mA fuel Hn Hf) as (r & E).
  change (fin (unscramble1 zero fuel mA basis m tag)). unfold unscramble1, splitCoefsUpByAtoms, createNewMatrix.
  apply fin_bind; [apply fin_split|intros]. rewrite E. cbn [bind].
  apply fin_bind; [|intros; apply fin_merge]. unfold updateSwapLists1. fin; apply fin_swap.
Qed.

Lemma Coef2_terminates fuel mA mB basis m S : no_repeat (mA ++ mB) -> (length mA + length mB + 2 <= fuel)%nat ->
  unscramble_Coef2 zero fuel mA mB basis m <> NoFuel /\ unscramble_S2 zero fuel mA mB basis S <> NoFuel.
Proof.
  intros Hn Hf. split; [apply unscramble2_terminates; auto|]. unfold unscramble_S2.
  apply fin_bind; intros; apply unscramble2_terminates; auto.
Qed.
Lemma Coef1_terminates fuel mA basis m S : no_repeat mA -> (length mA + 2 <= fuel)%nat ->
  unscramble_Coef1 zero fuel mA basis m <> NoFuel /\ unscramble_S1 zero fuel mA basis S <> NoFuel.
Proof.
  intros Hn Hf. split; [apply unscramble1_terminates; auto|]. unfold unscramble_S1.
  apply fin_bind; intros; apply unscramble1_terminates; auto.
Qed.

Lemma Coef2_diverges fuel mA mB' b m R C f : denotes m R C 1 (fun r c _ => f r c) -> 1 <= R ->
  Forall (fun n => 1 <= n) b -> total b <= C -> In (Z.of_nat (length mA) + 1) mA ->
  unscramble_Coef2 zero fuel mA (Z.of_nat (length mA) + 1 :: mB') b m = NoFuel.
Proof.
  intros Hm HR Hb Ht Hin. unfold unscramble_Coef2, unscramble2, splitCoefsUpByAtoms.
  destruct (split_cols zero m R C f b Hm HR Hb Ht) as (L & E & _). rewrite E. cbn [bind].
  rewrite refresh_diverges2 by auto. reflexivity.
Qed.
Lemma Coef1_diverges fuel mA' b m R C f : denotes m R C 1 (fun r c _ => f r c) -> 1 <= R ->
  Forall (fun n => 1 <= n) b -> total b <= C -> In 1 mA' ->
  unscramble_Coef1 zero fuel (1 :: mA') b m = NoFuel.
Proof.
  intros Hm HR Hb Ht Hin. unfold unscramble_Coef1, unscramble1, splitCoefsUpByAtoms.
  destruct (split_cols zero m R C f b Hm HR Hb Ht) as (L & E & _). rewrite E. cbn [bind].
  rewrite refresh_diverges1 by auto. reflexivity.
Qed.

Lemma Coef2_unmatched fuel mA mB b m R C f : denotes m R C 1 (fun r c _ => f r c) -> 1 <= R ->
  Forall (fun n => 1 <= n) b -> total b <= C -> no_repeat (mA ++ mB) -> (length mA + length mB + 2 <= fuel)%nat ->
  (length mA + length mB <= length b)%nat ->
  Forall (fun x => x = -1 \/ 1 <= x <= Z.of_nat (length b)) (mA ++ mB) -> In (-1) (mA ++ mB) ->
  unscramble_Coef2 zero fuel mA mB b m = Undef BadIterator.
Proof.
  intros Hm HR Hb Ht Hn Hf Hl HF Hin. unfold unscramble_Coef2, unscramble2, splitCoefsUpByAtoms.
  destruct (split_cols zero m R C f b Hm HR Hb Ht) as (L & E & HL). rewrite E. cbn [bind].
  apply F2_length in HL. rewrite cut_length in HL. rewrite <- HL in HF, Hl.
  pose proof (refresh_unmatched2 fuel mA mB L Hn Hf Hl HF Hin) as K.
  destruct (refreshSwapOrder2 fuel (pairsB mA mB) (pairsA mA)); cbn [bind] in *; try discriminate; try (inversion K; reflexivity).
  rewrite K. reflexivity.
Qed.
Lemma Coef1_unmatched fuel mA b m R C f : denotes m R C 1 (fun r c _ => f r c) -> 1 <= R ->
  Forall (fun n => 1 <= n) b -> total b <= C -> no_repeat mA -> (length mA + 2 <= fuel)%nat ->
  (length mA <= length b)%nat ->
  Forall (fun x => x = -1 \/ 1 <= x <= Z.of_nat (length b)) mA -> In (-1) mA ->
  unscramble_Coef1 zero fuel mA b m = Undef BadIterator.
Proof.
  intros Hm HR Hb Ht Hn Hf Hl HF Hin. unfold unscramble_Coef1, unscramble1, splitCoefsUpByAtoms.
  destruct (split_cols zero m R C f b Hm HR Hb Ht) as (L & E & HL). rewrite E. cbn [bind].
  apply F2_length in HL. rewrite cut_length in HL. rewrite <- HL in HF, Hl.
  pose proof (refresh_unmatched1 fuel mA L Hn Hf Hl HF Hin) as K.
  destruct (refreshSwapOrder1 fuel (pairsA mA)); cbn [bind] in *; try discriminate; try (inversion K; reflexivity).
  rewrite K. reflexivity.
Qed.
End S.
