(** * Matrices and the transfer integral: where undefined behaviour can come from *)
From Verif Require Export MatrixCtor MatrixOps2 QcModel.
Open Scope Z_scope.

(** [o] ends with a value of [P], with an undefined behaviour of [U], or with none of the two *)
Definition good {A} (U : ubkind -> Prop) (P : A -> Prop) (o : outcome A) : Prop :=
  match o with Ok a => P a | Undef u => U u | _ => True end.
Lemma good_bind {A B} U (P : A -> Prop) (Q : B -> Prop) (x : outcome A) k : good U P x -> (forall a, P a -> good U Q (k a)) -> good U Q (bind x k).
Proof. destruct x; cbn [good bind]; auto. Qed.
Lemma good_weak {A} U (P Q : A -> Prop) (x : outcome A) : good U P x -> (forall a, P a -> Q a) -> good U Q x.
Proof. destruct x; cbn [good]; auto. Qed.
Lemma good_for_n {S0} U (I : S0 -> Prop) body n : forall lo s, I s -> (forall i s, lo <= i < lo + Z.of_nat n -> I s -> good U I (body i s)) -> good U I (for_n n lo body s).
Proof.
  induction n as [|n IH]; intros lo s Is H; cbn [for_n]; [exact Is|]. eapply good_bind; [apply H; [lia|auto]|]. intros a Ia. apply IH; [auto|]. intros i t Hi It. apply H; [lia|auto].
Qed.
Lemma good_up {S0} U (I : S0 -> Prop) body lo hi s : I s -> (forall i s, lo <= i <= hi -> I s -> good U I (body i s)) -> good U I (for_up lo hi body s).
Proof. intros Is H. apply good_for_n; [auto|]. intros i t Hi It. apply H; [lia|auto]. Qed.
Lemma good_each {X S0} U (I : S0 -> Prop) body (l : list X) : forall s, I s -> (forall x s, In x l -> I s -> good U I (body x s)) -> good U I (for_each l body s).
Proof.
  induction l as [|x l IH]; intros s Is H; cbn [for_each]; [exact Is|]. eapply good_bind; [apply H; [left; auto|auto]|]. intros a Ia. apply IH; [auto|]. intros y t Hy It. apply H; [right; auto|auto].
Qed.
Lemma good_ichk (U : ubkind -> Prop) z : (U SignedOverflow \/ is_int z) -> good U (fun k => k = z) (ichk z).
Proof. intros [H|H]; [unfold ichk; destruct (is_intb z); cbn [good]; auto|rewrite ichk_ok by auto; reflexivity]. Qed.
Lemma good_vat {X} U (l : list X) k : good U (fun x => In x l) (vat l k).
Proof. unfold vat. destruct (_ <? _); [exact I|]. destruct (nth_error _ _) eqn:E; [eapply nth_error_In; eauto|exact I]. Qed.

(** every element is there and initialised, and the elements can be counted *)
Definition full {T} (m : mat T) : Prop :=
  0 <= rows m /\ 0 <= cols m /\ shel m = 1 /\ Z.of_nat (length (elem m)) = rows m * cols m /\ Forall (fun o => o <> None) (elem m) /\ rows m * cols m <= INT_MAX /\ cols m <= INT_MAX.
Definition sized {T} (r c : Z) (m : mat T) : Prop := full m /\ rows m = r /\ cols m = c.
Lemma denotes_sized {T} (m : mat T) R C f : denotes m R C 1 f -> sized R C m.
Proof.
  intros ((F & L) & HR & HC & HS & G). rewrite HR, HC, HS in *. destruct F as (F1 & F2 & F3 & F4). split; [|auto]. red. rewrite HR, HC, HS. split; [lia|]. split; [lia|]. split; [auto|]. split; [rewrite L; lia|]. split; [|lia].
  apply Forall_forall. intros o I. apply In_nth_error in I as (k & Hk). assert (Kl : (k < length (elem m))%nat) by (apply nth_error_Some; congruence).
  assert (Kz : 0 <= Z.of_nat k < R * C) by lia. set (i := Z.of_nat k / C + 1). set (j := Z.of_nat k mod C + 1).
  assert (C0 : 0 < C) by nia. pose proof (Z.div_mod (Z.of_nat k) C ltac:(lia)) as Dm. pose proof (Z.mod_pos_bound (Z.of_nat k) C C0) as Mb.
  assert (In1 : inside R C 1 i j 1). { unfold inside, i, j. assert (0 <= Z.of_nat k / C) by (apply Z.div_pos; lia). assert (Z.of_nat k / C < R) by (apply Z.div_lt_upper_bound; nia). lia. }
  pose proof (G i j 1 In1) as Gi. rewrite get_elem3_in in Gi by (rewrite HR, HC, HS; auto). unfold load in Gi.
  destruct (index_ok m i j 1) as [Ei _]; [split; [rewrite HR, HC, HS; repeat split; lia|rewrite HR, HC, HS; lia]|rewrite HR, HC, HS; auto|]. rewrite Ei in Gi.
  cbn [bind] in Gi. unfold pos3 in Gi. rewrite HC, HS in Gi. replace ((i - 1) * C * 1 + (j - 1) * 1 + 1 - 1) with (Z.of_nat k) in Gi by (unfold i, j; nia).
  unfold rd in Gi. destruct (_ && _); [|discriminate]. rewrite Nat2Z.id, Hk in Gi. intros ->. discriminate.
Qed.

Section Mat.
Context {T : Type} (zero : T) (U : ubkind -> Prop).
Local Notation ok P := (good U P).
Implicit Type (m : mat T).
Definition any {X} (_ : X) : Prop := True.

Lemma good_iadd a b : (U SignedOverflow \/ is_int (a + b)) -> ok (fun k => k = a + b) (iadd a b). Proof. apply good_ichk; auto. Qed.
Lemma good_isub a b : (U SignedOverflow \/ is_int (a - b)) -> ok (fun k => k = a - b) (isub a b). Proof. apply good_ichk; auto. Qed.
Lemma good_imul a b : (U SignedOverflow \/ is_int (a * b)) -> ok (fun k => k = a * b) (imul a b). Proof. apply good_ichk; auto. Qed.
Lemma good_rd (l : list (option T)) k : Forall (fun o => o <> None) l -> 0 <= k < Z.of_nat (length l) -> ok any (rd l k).
Proof.
  intros F H. unfold rd. destruct (Z.leb_spec 0 k); [|lia]. destruct (Z.ltb_spec k (Z.of_nat (length l))); [|lia]. cbn [andb].
  destruct (nth_error l (Z.to_nat k)) as [[v|]|] eqn:E; [exact I| |].
  - apply nth_error_In in E. rewrite Forall_forall in F. destruct (F _ E eq_refl).
  - apply nth_error_None in E. lia.
Qed.
Lemma upd_init (l : list (option T)) k v : Forall (fun o => o <> None) l -> Forall (fun o => o <> None) (upd l k (Some v)).
Proof. intros F. revert k. induction F as [|o l Ho F IH]; intros [|k]; cbn [upd]; constructor; auto. discriminate. Qed.
Lemma upd_len {X} (l : list X) k v : length (upd l k v) = length l.
Proof. revert k. induction l as [|o l IH]; intros [|k]; cbn [upd length]; auto. Qed.
Lemma full_index m r c : full m -> 1 <= r <= rows m -> 1 <= c <= cols m -> index m r c 1 = Ok (pos3 (cols m) 1 r c 1) /\ 0 <= pos3 (cols m) 1 r c 1 < Z.of_nat (length (elem m)).
Proof.
  intros (R0 & C0 & S1 & L & F & B & B') Hr Hc. pose proof (index_ok m r c 1) as X. rewrite S1 in X. apply X; clear X.
  - split; [|rewrite L, S1; lia]. unfold fits. rewrite S1. change INT_MAX with 2147483647 in *. split; [nia|]. split; [lia|]. split; [lia|nia].
  - unfold inside. lia.
Qed.
Lemma full_load m r c : full m -> 1 <= r <= rows m -> 1 <= c <= cols m -> ok any (load m r c 1).
Proof.
  intros Fm Hr Hc. destruct (full_index m r c Fm Hr Hc) as [Ei B]. unfold load. rewrite Ei. cbn [bind]. apply good_rd; [apply Fm|exact B].
Qed.
Lemma full_store v m r c : full m -> 1 <= r <= rows m -> 1 <= c <= cols m -> ok (sized (rows m) (cols m)) (store v r c 1 m).
Proof.
  intros Fm Hr Hc. destruct (full_index m r c Fm Hr Hc) as [Ei B]. unfold store. rewrite Ei. cbn [bind].
  unfold wr. destruct (Z.leb_spec 0 (pos3 (cols m) 1 r c 1)); [|lia]. destruct (Z.ltb_spec (pos3 (cols m) 1 r c 1) (Z.of_nat (length (elem m)))); [|lia]. cbn [andb bind good].
  split; [|cbn [rows cols]; auto]. destruct Fm as (R0 & C0 & S1 & L & F & B1 & B2). unfold full. cbn [rows cols shel elem]. rewrite upd_len. repeat (split; [reflexivity || assumption|]). split; [apply upd_init; assumption|auto].
Qed.
Lemma good_get2 m r c : full m -> ok any (get_elem2 m r c).
Proof.
  intros F. unfold get_elem2. destruct (Z.ltb_spec r 1); [exact I|]. destruct (Z.ltb_spec (rows m) r); [exact I|]. destruct (Z.ltb_spec c 1); [exact I|]. destruct (Z.ltb_spec (cols m) c); [exact I|].
  apply full_load; auto.
Qed.
Lemma good_set2 R C v r c m : sized R C m -> ok (sized R C) (set_elem2 v r c m).
Proof.
  intros (F & <- & <-). unfold set_elem2. destruct (Z.ltb_spec (rows m) r); [exact I|]. destruct (Z.ltb_spec r 1); [exact I|]. destruct (Z.ltb_spec (cols m) c); [exact I|]. destruct (Z.ltb_spec c 1); [exact I|].
  apply full_store; auto.
Qed.
Lemma good_get3 m r c s : full m -> ok any (get_elem3 m r c s).
Proof.
  intros F. pose proof F as (_ & _ & S1 & _). unfold get_elem3. destruct (Z.ltb_spec r 1); [exact I|]. destruct (Z.ltb_spec (rows m) r); [exact I|]. destruct (Z.ltb_spec c 1); [exact I|]. destruct (Z.ltb_spec (cols m) c); [exact I|].
  destruct (Z.ltb_spec s 1); [exact I|]. destruct (Z.ltb_spec (shel m) s); [exact I|]. assert (s = 1) by lia. subst s. apply full_load; auto.
Qed.
Lemma good_set3 R C v r c s m : sized R C m -> ok (sized R C) (set_elem3 v r c s m).
Proof.
  intros (F & <- & <-). pose proof F as (_ & _ & S1 & _). unfold set_elem3. destruct (Z.ltb_spec (rows m) r); [exact I|]. destruct (Z.ltb_spec r 1); [exact I|]. destruct (Z.ltb_spec (cols m) c); [exact I|]. destruct (Z.ltb_spec c 1); [exact I|].
  destruct (Z.ltb_spec (shel m) s); [exact I|]. destruct (Z.ltb_spec s 1); [exact I|]. assert (s = 1) by lia. subst s. apply full_store; auto.
Qed.
Lemma good_new0 : ok (fun m => exists f, denotes m 1 1 1 f) (Matrix_new0 zero).
Proof. destruct (Matrix_new0_ok zero) as (m & -> & D). cbn [good]. eauto. Qed.
Lemma good_new2 r c : (U SignedOverflow \/ r * c <= INT_MAX) -> ok (sized r c) (Matrix_new2 zero r c).
Proof.
  intros HS. destruct (Z.lt_ge_cases r 1); [rewrite Matrix_new2_bad by auto; exact I|]. destruct (Z.lt_ge_cases c 1); [rewrite Matrix_new2_bad by auto; exact I|].
  destruct (Z.le_gt_cases (r * c) INT_MAX) as [B|B].
  - destruct (Matrix_new2_ok zero r c) as (m & -> & D); auto. cbn [good]. eapply denotes_sized; eauto.
  - unfold Matrix_new2. destruct (Z.ltb_spec r 1); [lia|]. destruct (Z.ltb_spec c 1); [lia|]. unfold imul, ichk, is_intb. destruct (Z.leb_spec (r * c) INT_MAX); [lia|]. rewrite andb_false_r. destruct HS as [HS|HS]; [exact HS|lia].
Qed.
Lemma good_new3 r c : (U SignedOverflow \/ r * c <= INT_MAX) -> ok (sized r c) (Matrix_new3 zero r c 1).
Proof.
  intros HS. destruct (Z.lt_ge_cases r 1); [rewrite Matrix_new3_bad by auto; exact I|]. destruct (Z.lt_ge_cases c 1); [rewrite Matrix_new3_bad by auto; exact I|].
  destruct (Z.le_gt_cases (r * c) INT_MAX) as [B|B].
  - destruct (Matrix_new3_ok zero r c 1) as (m & -> & D); try lia. cbn [good]. eapply denotes_sized; eauto.
  - unfold Matrix_new3, prod3. destruct (Z.ltb_spec r 1); [lia|]. destruct (Z.ltb_spec c 1); [lia|]. cbn [Z.ltb Z.compare]. unfold imul at 1, ichk, is_intb. destruct (Z.leb_spec (r * c) INT_MAX); [lia|]. rewrite andb_false_r. destruct HS as [HS|HS]; [exact HS|lia].
Qed.
Lemma good_of_vec (v : list T) : (U SignedOverflow \/ Z.of_nat (length v) <= INT_MAX) -> ok (sized (Z.of_nat (length v)) 1) (Matrix_of_vec v).
Proof.
  intros HS. destruct (Z.le_gt_cases (Z.of_nat (length v)) INT_MAX) as [B|B].
  - destruct (Matrix_of_vec_ok zero v B) as (m & -> & D). cbn [good]. eapply denotes_sized; eauto.
  - unfold Matrix_of_vec. unfold imul at 1, ichk, is_intb. destruct (Z.leb_spec (Z.of_nat (length v) * 1) INT_MAX); [lia|]. rewrite andb_false_r. destruct HS as [HS|HS]; [exact HS|lia].
Qed.
Lemma good_of_vecs (vv : list (list T)) : (U SignedOverflow \/ Z.of_nat (length vv) * Z.of_nat (length (hd [] vv)) <= INT_MAX) -> ok full (Matrix_of_vecs vv).
Proof.
  intros HS. destruct vv as [|v0 vv]; [exact I|]. cbn [hd] in HS. set (n := Z.of_nat (length (v0 :: vv))) in *. set (c := Z.of_nat (length v0)) in *.
  assert (Hn : 1 <= n) by (unfold n; cbn [length]; lia). assert (Hc : 0 <= c) by (unfold c; lia).
  destruct (Z.le_gt_cases (n * c) INT_MAX) as [B|B].
  - destruct (Z.eq_dec c 0) as [Z0|Z0].
    + unfold Matrix_of_vecs. unfold vat; cbn [nth_error Z.ltb Z.compare Z.to_nat bind]. fold n c. rewrite Z0. unfold imul. rewrite Z.mul_0_r. change (ichk 0) with (@Ok Z 0). cbn [bind]. change (@new_cells T 0) with (@Ok (list (option T)) []). cbn [bind].
      eapply good_bind; [apply (good_each U (fun p : Z * list (option T) => snd p = []))|]; [reflexivity| |].
      * intros v [r l'] _ Hl. cbn [snd] in Hl. subst l'. destruct (Z.eqb_spec (Z.of_nat (length v)) 0) as [L0|L0]; cbn [negb]; [|exact I]. destruct v; [reflexivity|cbn [length] in L0; lia].
      * intros [r l] Hl. cbn [snd] in *. subst l. cbn [good]. unfold full. cbn [rows cols shel elem length]. change INT_MAX with 2147483647. repeat split; try lia. constructor.
    + assert (n <= INT_MAX) by nia. assert (c <= INT_MAX) by nia.
      destruct (Forall_dec (fun v : list T => Z.of_nat (length v) = c) (fun v => Z.eq_dec _ _) (v0 :: vv)) as [F|F].
      * destruct (Matrix_of_vecs_ok zero v0 vv c) as (m & -> & D); auto. cbn [good]. eapply denotes_sized; eauto.
      * rewrite Matrix_of_vecs_ragged; [exact I|auto..].
  - unfold Matrix_of_vecs. unfold vat; cbn [nth_error Z.ltb Z.compare Z.to_nat bind]. fold n c. unfold imul, ichk, is_intb. destruct (Z.leb_spec (n * c) INT_MAX); [lia|]. rewrite andb_false_r. cbn [bind good]. destruct HS as [HS|HS]; [exact HS|lia].
Qed.
Lemma good_assign this m f : denotes this 1 1 1 f -> full m -> ok (sized (rows m) (cols m)) (assign zero this m).
Proof.
  intros D F. unfold assign. eapply good_bind with (P := sized (rows m) (cols m)).
  - destruct (Z.lt_ge_cases (rows m) 1); [rewrite resize_bad by auto; exact I|]. destruct (Z.lt_ge_cases (cols m) 1); [rewrite resize_bad by auto; exact I|].
    pose proof F as (_ & _ & _ & _ & _ & B & _).
    destruct (resize_ok zero 1 1 1 f (rows m) (cols m) this D) as (m' & -> & D'); try lia. cbn [good]. eapply denotes_sized; eauto.
  - intros t Ft. apply good_up; [auto|]. intros i t1 _ F1. apply good_up; [auto|]. intros j t2 _ F2. eapply good_bind; [apply good_get2; auto|]. intros v _. apply good_set2; auto.
Qed.
Lemma good_invert m : full m -> ok (sized (cols m) (rows m)) (invert zero m).
Proof.
  intros F. unfold invert. destruct (negb _); [exact I|]. eapply good_bind; [apply good_new2; right; rewrite Z.mul_comm; apply F|]. intros m2 F2. apply good_up; [auto|]. intros i t1 _ F1. apply good_up; [auto|]. intros j t2 _ F3.
  eapply good_bind; [apply good_get2; auto|]. intros v _. apply good_set2; auto.
Qed.
Lemma good_getRow m R : full m -> ok (sized 1 (cols m)) (getRow zero m R).
Proof.
  intros F. pose proof F as (_ & _ & S1 & _ & _ & _ & B). unfold getRow. destruct (_ <? _); [exact I|]. rewrite S1. eapply good_bind; [apply good_new3; right; lia|]. intros m2 F2. apply good_up; [auto|]. intros i t1 _ F1. apply good_up; [auto|]. intros j t2 _ F3.
  eapply good_bind; [apply good_get3; auto|]. intros v _. apply good_set3; auto.
Qed.
Lemma good_diag m : full m -> (U SignedOverflow \/ (rows m * rows m <= INT_MAX /\ cols m * cols m <= INT_MAX)) -> ok (fun d => full d /\ rows d = cols d /\ (rows d = rows m \/ rows d = cols m)) (Matrix_diag zero m).
Proof.
  intros F HS. unfold Matrix_diag. destruct (_ && _); [exact I|]. destruct (1 <? shel m); [exact I|]. cbv zeta.
  destruct (_ <? _).
  - eapply good_weak with (P := sized (cols m) (cols m)); [|intros d (Fd & Rd & Cd); split; [auto|split; [congruence|auto]]].
    eapply good_bind; [apply good_new2; tauto|]. intros m2 F2; apply good_up; [auto|]; intros i t1 _ F1; eapply good_bind; [apply good_get2; auto|]; intros v _; apply good_set2; auto.
  - eapply good_weak with (P := sized (rows m) (rows m)); [|intros d (Fd & Rd & Cd); split; [auto|split; [congruence|auto]]].
    eapply good_bind; [apply good_new2; tauto|]. intros m2 F2; apply good_up; [auto|]; intros i t1 _ F1; eapply good_bind; [apply good_get2; auto|]; intros v _; apply good_set2; auto.
Qed.
Lemma good_cat m1 m2 : full m1 -> full m2 -> (U SignedOverflow \/ (rows m1 + rows m2 <= INT_MAX /\ (rows m1 + rows m2) * cols m1 <= INT_MAX)) ->
  ok (fun m => full m /\ (cols m = 1 \/ cols m = cols m1)) (Matrix_concatenate_rows zero m1 m2).
Proof.
  intros F1 F2 HS. pose proof F1 as (R1 & _ & S1 & _). pose proof F2 as (R2 & _). unfold Matrix_concatenate_rows.
  assert (N0 : ok (fun m => full m /\ (cols m = 1 \/ cols m = cols m1)) (Matrix_new0 zero)) by (eapply good_weak; [apply good_new0|]; intros m (f & D); apply denotes_sized in D; destruct D as (D1 & D2 & D3); auto).
  destruct (negb _); [exact N0|]. destruct (negb _); [exact N0|]. rewrite S1. eapply good_bind; [apply good_iadd|].
  { destruct HS as [HS|HS]; [auto|right]. unfold is_int. change INT_MIN with (-2147483648). lia. }
  intros n ->. eapply good_weak with (P := sized (rows m1 + rows m2) (cols m1)); [|intros m (Fm & _ & Cm); auto].
  eapply good_bind; [apply good_new3; tauto|]. intros m3 F3. eapply good_bind with (P := sized (rows m1 + rows m2) (cols m1)).
  - do 3 (apply good_up; [auto|]; intros ? ? _ ?). eapply good_bind; [apply good_get3; auto|]. intros v _. apply good_set3; auto.
  - intros m4 F4. do 3 (apply good_up; [auto|]; intros ? ? _ ?). eapply good_bind; [apply good_get3; auto|]. intros v _. apply good_set3; auto.
Qed.
End Mat.
Lemma good_mul {T} (A : arith T) (U : ubkind -> Prop) (m1 m2 : mat T) : (U SignedOverflow \/ rows m1 * cols m2 <= INT_MAX) -> full m1 -> full m2 -> good U (sized (rows m1) (cols m2)) (mat_mul A m1 m2).
Proof.
  intros HS F1 F2. unfold mat_mul. destruct (_ || _); [exact I|]. destruct (negb _); [exact I|]. eapply good_bind; [apply good_new2; auto|]. intros m3 F3.
  do 2 (apply good_up; [auto|]; intros ? ? _ ?). eapply good_bind with (P := any).
  - apply good_up; [exact I|]. intros. eapply good_bind; [apply good_get2; auto|]. intros. eapply good_bind; [apply good_get2; auto|]. intros. exact I.
  - intros. apply good_set2; auto.
Qed.
