(** * Reading a file of any content: where undefined behaviour can come from *)
From Verif Require Export MatrixCtor ReaderMissing ReaderSafeSpec.
Open Scope Z_scope.

Definition safe {A} (Q : Prop) (o : outcome A) : Prop := forall u, o = Undef u -> u = SignedOverflow /\ Q.
Lemma safe_bind {A B} Q (x : outcome A) (k : A -> outcome B) : safe Q x -> (forall a, x = Ok a -> safe Q (k a)) -> safe Q (bind x k).
Proof. intros Hx Hk u E. destruct x; cbn [bind] in E; try discriminate; [exact (Hk a eq_refl u E)|apply Hx; congruence]. Qed.
Lemma safe_ok {A} Q (a : A) : safe Q (Ok a). Proof. intros u E; discriminate. Qed.
Lemma safe_throw {A} Q e : safe Q (@Throw A e). Proof. intros u E; discriminate. Qed.
Lemma safe_exit {A} Q e : safe Q (@Exit A e). Proof. intros u E; discriminate. Qed.
Lemma safe_nofuel {A} Q : safe Q (@NoFuel A). Proof. intros u E; discriminate. Qed.
Lemma safe_weak {A} (Q Q' : Prop) (o : outcome A) : (Q -> Q') -> safe Q o -> safe Q' o.
Proof. intros H S u E. destruct (S u E). auto. Qed.
Lemma safe_all {A} Q (o : outcome A) : defined o -> safe Q o.
Proof. intros H u E. destruct (H u E). Qed.
#[export] Hint Resolve safe_ok safe_throw safe_exit safe_nofuel : core.
Lemma safe_for_each {X S} Q (P : S -> Prop) body (l : list X) s : (forall x t, P t -> safe Q (body x t)) -> (forall x t t', P t -> body x t = Ok t' -> P t') -> P s -> safe Q (for_each l body s).
Proof.
  intros H1 H2. revert s. induction l as [|x l IH]; intros s Ps; cbn [for_each]; [auto|]. apply safe_bind; [auto|]. intros t E. apply IH. eauto.
Qed.
Lemma for_each_keeps {X S} (P : S -> Prop) body (l : list X) s s' : (forall x t t', P t -> body x t = Ok t' -> P t') -> P s -> for_each l body s = Ok s' -> P s'.
Proof.
  intros H2. revert s. induction l as [|x l IH]; intros s Ps; cbn [for_each]; [intros E; injection E as <-; auto|]. intros E. apply bind_ok in E as (t & E1 & E). eauto.
Qed.
Lemma safe_for_up {S} Q (P : S -> Prop) body lo hi s : (forall i t, P t -> safe Q (body i t)) -> (forall i t t', P t -> body i t = Ok t' -> P t') -> P s -> safe Q (for_up lo hi body s).
Proof.
  intros H1 H2. unfold for_up. generalize (Z.to_nat (hi - lo + 1)). intros n. revert lo s. induction n as [|n IH]; intros lo s Ps; cbn [for_n]; [auto|].
  apply safe_bind; [auto|]. intros t E. apply IH. eauto.
Qed.

(** ** streams *)
(** lines that can still be read *)
Definition todo (f : fstate) : Z := if s_good (fid f) then 1 + line_ends (left_in (fid f)) else 0.
(** characters that can still be read *)
Definition left (f : fstate) : Z := if s_good (fid f) then len (left_in (fid f)) else 0.
Lemma ends_nonneg t : 0 <= line_ends t. Proof. unfold line_ends. lia. Qed.
Lemma ends_app a b : line_ends (a ++ b) = line_ends a + line_ends b.
Proof. unfold line_ends. rewrite count_occ_app. lia. Qed.
Lemma ends_skipn k t : line_ends (skipn k t) <= line_ends t.
Proof. rewrite <- (firstn_skipn k t) at 2. rewrite ends_app. pose proof (ends_nonneg (firstn k t)). lia. Qed.
Lemma ends_len t : line_ends t <= len t.
Proof. unfold line_ends, len. pose proof (count_occ_bound Ascii.ascii_dec nl t). lia. Qed.
Lemma todo_nonneg f : 0 <= todo f. Proof. unfold todo. pose proof (ends_nonneg (left_in (fid f))). destruct (s_good _); lia. Qed.
Lemma left_nonneg f : 0 <= left f. Proof. unfold left, len. destruct (s_good _); lia. Qed.
Lemma todo_all f : todo f <= 1 + line_ends (s_all (fid f)).
Proof. unfold todo, left_in. pose proof (ends_skipn (s_pos (fid f)) (s_all (fid f))). pose proof (ends_nonneg (s_all (fid f))). destruct (s_good _); lia. Qed.
Lemma left_all f : left f <= len (s_all (fid f)).
Proof. unfold left, left_in, len. rewrite skipn_length. destruct (s_good _); lia. Qed.
(** [getline] reads a line, or finds nothing *)
Lemma getl_cases f l l' f' : getl f l = (l', f') ->
  (todo f' + 1 <= todo f /\ len l' + left f' <= left f) \/
  (s_good (fid f) = true /\ l' = [] /\ s_good (fid f') = false) \/ (s_good (fid f) = false /\ l' = l /\ s_good (fid f') = false /\ s_fail (fid f') = true).
Proof.
  unfold getl, s_getline. destruct (s_good (fid f)) eqn:G; cbn [negb].
  - destruct (skipn (s_pos (fid f)) (s_all (fid f))) as [|c t] eqn:Sk.
    + intros E; inversion E; subst. right. left. auto.
    + set (rest := c :: t) in *. destruct (take_while_split (fun c => negb (Ascii.eqb c nl)) rest) as (r & Er). set (w := take_while _ rest) in *.
      assert (Lr : length rest = (length w + length r)%nat) by (rewrite Er at 1; apply app_length).
      destruct (Nat.ltb_spec (length w) (length rest)) as [H|H]; intros E; inversion E; subst; left; unfold todo, left; rewrite G; cbn [fid]; unfold left_in; cbn [s_pos s_all s_good s_eof s_fail negb andb].
      * assert (N1 : exists r', r = nl :: r').
        { clear -Er Lr H. subst w. clear Lr. revert H. generalize dependent r. induction rest as [|x y IH]; cbn [take_while] in *; intros r Er H; [cbn in H; lia|].
          destruct (Ascii.eqb_spec x nl) as [->|Nx]; cbn [negb] in *; [cbn in Er; exists y; auto|]. cbn [app length] in *. injection Er as Er. apply IH; [auto|lia]. }
        destruct N1 as (r' & ->). 
        assert (S2 : skipn (s_pos (fid f) + length w + 1) (s_all (fid f)) = r').
        { rewrite <- Nat.add_assoc. apply (skipn_more _ _ _ (w ++ [nl])); [rewrite Sk, Er, <- app_assoc; reflexivity|]. rewrite app_length. reflexivity. }
        rewrite S2, Sk. fold rest. rewrite Er, ends_app. change (nl :: r') with ([nl] ++ r'). rewrite ends_app. change (line_ends [nl]) with 1.
        pose proof (ends_nonneg w). unfold len. rewrite !app_length. cbn [length]. split; lia.
      * unfold s_good; cbn [s_eof s_fail negb andb]. rewrite Sk. fold rest. pose proof (ends_nonneg rest). unfold len. rewrite Lr. split; lia.
  - intros E; inversion E; subst. right. right. cbn [fid]. unfold s_good, set_fail; cbn [s_eof s_fail]. rewrite andb_false_r. auto.
Qed.

(** ** matrices *)
Definition flat1 {T} (m : mat T) : Prop := wf m /\ shel m = 1.
Lemma set2_safe {T} Q (v : T) r c m : flat1 m -> safe Q (set_elem2 v r c m) /\ (forall m', set_elem2 v r c m = Ok m' -> flat1 m').
Proof.
  intros [W S1]. unfold set_elem2.
  destruct (Z.ltb_spec (rows m) r); [split; [auto|intros ? E; discriminate]|]. destruct (Z.ltb_spec r 1); [split; [auto|intros ? E; discriminate]|].
  destruct (Z.ltb_spec (MatrixModel.cols m) c); [split; [auto|intros ? E; discriminate]|]. destruct (Z.ltb_spec c 1); [split; [auto|intros ? E; discriminate]|].
  destruct (store_ok m v r c 1 W) as (m2 & -> & W2 & _ & _ & S2 & _); [unfold inside; lia|]. split; [auto|]. intros m' E. injection E as <-. split; [auto|congruence].
Qed.
Lemma new2_safe {T} (z : T) n : safe (INT_MAX < n * n) (Matrix_new2 z n n) /\ (forall m, Matrix_new2 z n n = Ok m -> flat1 m).
Proof.
  destruct (Z.ltb_spec n 1) as [H|H].
  - rewrite Matrix_new2_bad by auto. split; [auto|intros ? E; discriminate].
  - destruct (Z.le_gt_cases (n * n) INT_MAX) as [B|B].
    + destruct (Matrix_new2_ok z n n) as (m & -> & D); auto. split; [auto|]. intros m' E. injection E as <-. destruct D as (W & _ & _ & S1 & _). split; auto.
    + unfold Matrix_new2. destruct (Z.ltb_spec n 1); [lia|]. cbn [orb]. unfold imul, ichk, is_intb. destruct (Z.leb_spec (n * n) INT_MAX); [lia|]. rewrite andb_false_r. cbn [bind].
      split; [|intros ? E; discriminate]. intros u E. injection E as <-. split; [auto|lia].
Qed.
Lemma vecs_safe {T} (z : T) (vv : list (list T)) : safe (exists v0 r, vv = v0 :: r /\ INT_MAX < Z.of_nat (length vv) * Z.of_nat (length v0)) (Matrix_of_vecs vv).
Proof.
  destruct vv as [|v0 vv]; [apply safe_throw|]. set (n := Z.of_nat (length (v0 :: vv))). set (c := Z.of_nat (length v0)).
  assert (Hn : 1 <= n) by (unfold n; cbn [length]; lia). assert (Hc : 0 <= c) by (unfold c; lia).
  destruct (Z.le_gt_cases (n * c) INT_MAX) as [B|B].
  - destruct (Z.eq_dec c 0) as [Z0|Z0].
    + (* no columns *)
      unfold Matrix_of_vecs. unfold vat; cbn [nth_error Z.ltb Z.compare Z.to_nat bind]. fold n c. rewrite Z0. unfold imul. rewrite Z.mul_0_r. change (ichk 0) with (@Ok Z 0). cbn [bind].
      apply safe_bind; [intros u E; vm_compute in E; discriminate|]. intros l El. apply safe_bind; [|auto].
      apply (safe_for_each _ (fun _ => True)); auto. intros v [r l'] _. destruct (Z.eqb_spec (Z.of_nat (length v)) 0) as [L0|L0]; cbn [negb]; [|auto].
      destruct v; [cbn; auto|cbn [length] in L0; lia].
    + assert (n <= INT_MAX) by nia. assert (c <= INT_MAX) by nia.
      destruct (Forall_dec (fun v : list T => Z.of_nat (length v) = c) (fun v => Z.eq_dec _ _) (v0 :: vv)) as [F|F].
      * destruct (Matrix_of_vecs_ok z v0 vv c) as (m & -> & _); auto.
      * rewrite Matrix_of_vecs_ragged; auto.
  - unfold Matrix_of_vecs. unfold vat; cbn [nth_error Z.ltb Z.compare Z.to_nat bind]. fold n c. unfold imul, ichk, is_intb. destruct (Z.leb_spec (n * c) INT_MAX); [lia|]. rewrite andb_false_r. cbn [bind].
    intros u E. injection E as <-. split; [auto|]. exists v0, vv. split; [auto|lia].
Qed.

(** ** text *)
Lemma substr_safe Q s p n : safe Q (substr s p n). Proof. unfold substr. destruct (_ <? _); auto. Qed.
Lemma stoi_safe Q s : safe Q (stoi s).
Proof. unfold stoi. destruct (match drop_while is_space s with [] => _ | _ => _ end) as [sg s2]. destruct s2 as [|c t]; [auto|]. destruct (is_digit c); [|auto]. cbv zeta. destruct (is_intb _); auto. Qed.
Lemma vat_safe {A} Q (l : list A) k : safe Q (vat l k).
Proof. unfold vat. destruct (_ <? _); [auto|]. destruct (nth_error _ _); auto. Qed.
Lemma glue_safe Q fuel : forall s p items, safe Q (glue_loop fuel s p items).
Proof.
  induction fuel as [|n IH]; intros s p items; cbn [glue_loop]; (destruct p as [p|]; [|auto]); [auto|].
  destruct (if (p =? 0)%nat then _ else _) as [[token s1] p1]. apply IH.
Qed.
Lemma energies_safe Q line : safe Q (splitStEnergies line).
Proof.
  unfold splitStEnergies. destruct (_ =? _)%nat; [auto|]. apply (safe_for_each _ (fun _ => True)); auto. intros s items _. destruct (find _ _); [apply glue_safe|auto].
Qed.

Section Safe.
Context (N : nums) (Hstod : sound_stod N).
Ltac gl := match goal with |- context [getl ?f ?l] => let E := fresh "G" in destruct (getl f l) as [? ?] eqn:E end.
Ltac nx := match goal with |- context [next ?i ?w] => destruct (next i w) as [? ?] end.
Lemma stod_safe Q s : safe Q (n_stod N s). Proof. apply safe_all. intros u. apply Hstod. Qed.
Lemma coef_safe Q s : safe Q (coef_of N s).
Proof.
  unfold coef_of, grabStrBeforeFirstOccurance, grabStrAfterFirstOccurance.
  apply safe_bind; [destruct (find _ _); [apply substr_safe|auto]|]. intros a _. apply safe_bind; [destruct (find _ _); [unfold substr1; destruct (_ <? _); auto|auto]|]. intros b _.
  apply safe_bind; [apply stod_safe|]. intros x _. apply safe_bind; [apply stod_safe|auto].
Qed.
Lemma ao_values_safe Q fuel : forall i vs, safe Q (ao_values N fuel i vs).
Proof. induction fuel as [|n IH]; intros i vs; cbn [ao_values]; [auto|]. destruct (i_eof i); [auto|]. nx. apply safe_bind; [apply stod_safe|auto]. Qed.
Lemma ov_values_safe Q fuel : forall i vs, safe Q (ov_values N fuel i vs).
Proof. induction fuel as [|n IH]; intros i vs; cbn [ov_values]; [auto|]. destruct (i_eof i); [auto|]. nx. apply safe_bind; [apply coef_safe|auto]. Qed.
Lemma ao_inner_safe Q fuel : forall line e o an et f orb, safe Q (ao_inner N fuel line e o an et f orb).
Proof.
  induction fuel as [|n IH]; intros line e o an et f orb; cbn [ao_inner]; [auto|]. destruct (isAlphabetical e); [auto|]. do 2 nx.
  apply safe_bind; [apply ao_values_safe|]. intros vs _. gl. do 3 nx. destruct (foundSubStrInStr _ _); auto.
Qed.
Lemma ao_outer_safe Q fuel : forall line an f orb, safe Q (ao_outer N fuel line an f orb).
Proof.
  induction fuel as [|n IH]; intros line an f orb; cbn [ao_outer]; [auto|]. do 4 nx. apply safe_bind; [apply ao_values_safe|]. intros vs _. gl.
  apply safe_bind; [apply vat_safe|]. intros c9 _. apply safe_bind; [apply vat_safe|]. intros c10 _. apply safe_bind; [apply ao_inner_safe|]. intros [[[l2 b] f2] o2] _. destruct (b || _); auto.
Qed.
Lemma ov_first_safe Q fuel : forall f line c k acc, safe Q (ov_first N fuel f line c k acc).
Proof.
  induction fuel as [|n IH]; intros f line c k acc; cbn [ov_first]; [auto|]. gl. nx. apply safe_bind; [apply stoi_safe|]. intros z _. destruct (negb _); [auto|].
  apply safe_bind; [apply ov_values_safe|auto].
Qed.
Lemma next_again l c w i : next (iss l) c = (w, i) -> exists i', next (iss l) w = (w, i').
Proof. unfold next, iss. cbn [i_eof i_fail orb i_rest]. destruct (extract l) as [[x r]|]; intros E; inversion E; subst; eauto. Qed.
(** every row of the first block is a line of its own *)
Lemma first_again fuel : forall f line c k acc x, stoi c = Ok k -> (exists i, next (iss line) c = (c, i)) -> ov_first N fuel f line c k acc = Ok x -> snd (fst x) <= k + todo f.
Proof.
  induction fuel as [|n IH]; intros f line c k acc x Hc Hl H; [discriminate|]. cbn [ov_first] in H.
  destruct (getl f line) as [l1 f1] eqn:G. pose proof (todo_nonneg f) as T0.
  destruct (next (iss l1) c) as [w i] eqn:Nx. apply bind_ok in H as (z & Hz & H). destruct (Z.eqb_spec z (k + 1)) as [->|Nz]; cbn [negb] in H; [|injection H as <-; cbn; lia].
  apply bind_ok in H as (row & _ & H). apply getl_cases in G as [[T _]|[(G1 & -> & G2)|(G1 & -> & _)]].
  - apply IH in H; [lia|auto|]. eapply next_again; eauto.
  - cbn in Nx. injection Nx as <- <-. rewrite Hc in Hz. injection Hz as Hz. lia.
  - destruct Hl as (i' & Hl). rewrite Hl in Nx. injection Nx as <- <-. rewrite Hc in Hz. injection Hz as Hz. lia.
Qed.
Lemma first_count fuel f line acc x : ov_first N fuel f line [] 0 acc = Ok x -> snd (fst x) <= Z.max 1 (todo f).
Proof.
  intros H. destruct fuel as [|n]; [discriminate|]. cbn [ov_first] in H. pose proof (todo_nonneg f) as T0.
  destruct (getl f line) as [l1 f1] eqn:G. destruct (next (iss l1) []) as [w i] eqn:Nx. apply bind_ok in H as (z & Hz & H).
  destruct (Z.eqb_spec z (0 + 1)) as [->|Nz]; cbn [negb] in H; [|injection H as <-; cbn; lia]. apply bind_ok in H as (row & _ & H).
  apply first_again in H; [|auto|eapply next_again; eauto]. apply getl_cases in G as [[T _]|[(G1 & _ & G2)|(G1 & _ & G2 & _)]]; [lia| |]; unfold todo in H; rewrite G2 in H; lia.
Qed.
Lemma fill_safe Q rows m : flat1 m -> safe Q (ov_fill N rows m) /\ (forall m', ov_fill N rows m = Ok m' -> flat1 m').
Proof.
  intros F. unfold ov_fill.
  set (body := fun row (p : Z * mat (num N)) => _).
  assert (B : forall row p, flat1 (snd p) -> safe Q (body row p) /\ (forall p', body row p = Ok p' -> flat1 (snd p'))).
  { intros row [r m0] F0. unfold body. set (inner := fun val (q : Z * mat (num N)) => _).
    assert (I : forall v p, flat1 (snd p) -> safe Q (inner v p) /\ (forall p', inner v p = Ok p' -> flat1 (snd p'))).
    { intros v [c m1] F1. unfold inner. cbn [snd] in F1. split.
      - apply safe_bind; [apply (set2_safe Q v r c m1 F1)|]. intros m2 E2. pose proof (proj2 (set2_safe Q v r c m1 F1) _ E2) as F2.
        apply safe_bind; [|auto]. destruct (negb _); [apply (set2_safe Q v c r m2 F2)|auto].
      - intros p' E. apply bind_ok in E as (m2 & E2 & E). pose proof (proj2 (set2_safe Q v r c m1 F1) _ E2) as F2. apply bind_ok in E as (m3 & E3 & E). injection E as <-. cbn [snd].
        destruct (negb _); [eapply (set2_safe Q v c r m2 F2); eauto|injection E3 as <-; auto]. }
    split.
    - apply safe_bind; [|auto]. apply (safe_for_each _ (fun p => flat1 (snd p))); [intros; apply I; auto|intros x t t' Ft; apply (proj2 (I x t Ft))|exact F0].
    - intros p' E. apply bind_ok in E as (q & E1 & E). injection E as <-. cbn [snd]. eapply (for_each_keeps (fun p => flat1 (snd p))); cycle 2; [exact E1| |exact F0]. intros x t t' Ft. apply (proj2 (I x t Ft)). }
  split.
  - apply safe_bind; [|auto]. apply (safe_for_each _ (fun p => flat1 (snd p))); [intros; apply B; auto|intros x t t' Ft; apply (proj2 (B x t Ft))|exact F].
  - intros m' E. apply bind_ok in E as (q & E1 & E). injection E as <-. eapply (for_each_keeps (fun p => flat1 (snd p))); cycle 2; [exact E1| |exact F]. intros x t t' Ft. apply (proj2 (B x t Ft)).
Qed.
Lemma ov_row_safe Q fuel : forall i r c m, flat1 m -> safe Q (ov_row N fuel i r c m) /\ (forall m', ov_row N fuel i r c m = Ok m' -> flat1 m').
Proof.
  induction fuel as [|n IH]; intros i r c m F; cbn [ov_row]; [split; [auto|intros ? E; discriminate]|]. destruct (i_eof i); [split; [auto|intros m' E; injection E as <-; auto]|].
  nx. split.
  - apply safe_bind; [apply coef_safe|]. intros v _. apply safe_bind; [apply set2_safe; auto|]. intros m2 E2. pose proof (proj2 (set2_safe Q v r c m F) _ E2) as F2.
    apply safe_bind; [destruct (negb _); [apply (set2_safe Q v c r m2 F2)|auto]|]. intros m3 E3. apply IH. destruct (negb _); [eapply (set2_safe Q v c r m2 F2); eauto|injection E3 as <-; auto].
  - intros m' E. apply bind_ok in E as (v & _ & E). apply bind_ok in E as (m2 & E2 & E). pose proof (proj2 (set2_safe Q v r c m F) _ E2) as F2. apply bind_ok in E as (m3 & E3 & E).
    eapply IH; [|exact E]. destruct (negb _); [eapply (set2_safe Q v c r m2 F2); eauto|injection E3 as <-; auto].
Qed.
Lemma overlap_safe fuel f d : safe (46340 < todo f) (OverlapSectionReader N fuel f d).
Proof.
  unfold OverlapSectionReader. gl. apply safe_bind; [apply ov_first_safe|]. intros [[[f1 l1] k] rows] E. apply first_count in E. cbn [fst snd] in E.
  assert (T : todo f0 <= todo f). { pose proof (todo_nonneg f) as Tn. apply getl_cases in G as [[T _]|[(_ & _ & G2)|(_ & _ & G2 & _)]]; [lia| |]; unfold todo at 1; rewrite G2; lia. }
  assert (B : INT_MAX < k * k -> 1 <= k -> 46340 < todo f). { intros Hk K1. change INT_MAX with 2147483647 in Hk. assert (46340 < k) by nia. lia. }
  destruct (new2_safe (n_zero N) k) as [S1 F1]. apply safe_bind.
  { intros u Eu. destruct (S1 u Eu) as [-> Hk]. split; [auto|]. destruct (Z.le_gt_cases 1 k) as [K1|K1]; [auto|]. rewrite Matrix_new2_bad in Eu by lia. discriminate. }
  intros m E1. apply F1 in E1. destruct (fill_safe (46340 < todo f) rows m E1) as [S2 F2]. apply safe_bind; [auto|]. intros m1 E2. apply F2 in E2. cbv zeta.
  set (Qt := 46340 < todo f). set (body := fun section (p : fstate * str * mat (num N)) => _).
  assert (Bd : forall s p, flat1 (snd p) -> safe Qt (body s p) /\ (forall p', body s p = Ok p' -> flat1 (snd p'))).
  { intros sec p Fp. unfold body. set (inner := fun sectionCoef (q : fstate * str * mat (num N)) => _).
    assert (I : forall s p, flat1 (snd p) -> safe Qt (inner s p) /\ (forall p', inner s p = Ok p' -> flat1 (snd p'))).
    { intros j [[fq lq] mq] Fq. unfold inner. gl. nx. cbn [snd] in Fq. match goal with |- context [ov_row N ?a ?b ?c ?d ?e] => destruct (ov_row_safe Qt a b c d e Fq) as [S3 F3] end. split.
      - apply safe_bind; auto.
      - intros p' Ep. apply bind_ok in Ep as (m' & E3 & Ep). injection Ep as <-. cbn [snd]. auto. }
    split.
    - apply safe_bind; [|intros [[fq lq] mq] _; gl; auto]. apply (safe_for_up _ (fun p => flat1 (snd p))); [intros; apply I; auto|intros x t t' Ft; apply (proj2 (I x t Ft))|exact Fp].
    - intros p' Ep. apply bind_ok in Ep as ([[fq lq] mq] & E3 & Ep). destruct (getl fq lq) as [lz fz]. injection Ep as <-. cbn [snd].
      assert (R : flat1 (snd (fq, lq, mq))); [|exact R]. eapply (for_up_keeps (fun p => flat1 (snd p))); [|exact E3|exact Fp]. intros x t t' Et Ft. eapply (proj2 (I x t Ft)); eauto. }
  apply safe_bind; [|intros [[fq lq] mq] _; auto].
  apply (safe_for_up _ (fun p => flat1 (snd p))); [intros; apply Bd; auto|intros x t t' Ft; apply (proj2 (Bd x t Ft))|exact E2].
Qed.
Lemma oe_safe Q fuel : forall ty f line oe h, safe Q (oe_loop N fuel ty f line oe h).
Proof.
  induction fuel as [|n IH]; intros ty f line oe h; cbn [oe_loop]; [auto|]. gl. destruct (s_fail _); [auto|]. cbv zeta. destruct (_ || _); [|auto]. apply safe_bind; [apply energies_safe|auto].
Qed.
Lemma coord_safe Q fuel : forall f line X Y Z, safe Q (coord_loop N fuel f line X Y Z).
Proof.
  induction fuel as [|n IH]; intros f line X Y Z; cbn [coord_loop]; [auto|]. destruct (foundSubStrInStr _ _); [auto|]. cbv zeta.
  do 3 (apply safe_bind; [apply vat_safe|intros ? _]; apply safe_bind; [apply stod_safe|intros ? _]). gl. apply IH.
Qed.
Lemma log_section_safe fuel tag f d : safe (46340 < todo f) (log_section N fuel tag f d).
Proof.
  unfold log_section. destruct (str_eqb tag $"AOFunction"); [|destruct (str_eqb tag $"Overlap"); [apply overlap_safe|destruct (str_eqb tag $"OEAlpha"); [|destruct (str_eqb tag $"OEBeta")]]].
  - unfold AOFunctionSectionReader. gl. gl. apply safe_bind; [apply ao_outer_safe|]. intros [fz oz] _. auto.
  - unfold ReadOrbEnergies. apply safe_bind; [apply oe_safe|]. intros [[fz oz] h2] _. auto.
  - unfold ReadOrbEnergies. apply safe_bind; [apply oe_safe|]. intros [[fz oz] h2] _. auto.
  - unfold CoordSectionReader. do 3 gl. apply safe_bind; [apply coord_safe|]. intros [fz oz] _. auto.
Qed.
Lemma section_text fuel tag f d f' d' : In tag log_readers -> log_section N fuel tag f d = Ok (f', d') -> same_text f f'.
Proof.
  intros I H. assert (K : exists k, tag = tag_of k).
  { cbn in I. destruct I as [<-|[<-|[<-|[<-|[<-|[]]]]]]; [exists KPopulation|exists KCoordinates|exists KAlpha|exists KBeta|exists KOverlap]; reflexivity. }
  destruct K as (k & ->). apply section_only in H. tauto.
Qed.
Lemma loop_safe {M} headers (rd : nat -> str -> fstate -> M -> outcome (fstate * M)) (Q : Prop) t :
  (forall fuel tag line f d, startSection_ headers line = Some tag -> s_all (fid f) = t -> todo f <= line_ends t -> safe Q (rd fuel tag f d)) ->
  (forall fuel tag line f d f' d', startSection_ headers line = Some tag -> rd fuel tag f d = Ok (f', d') -> same_text f f') ->
  forall fuel f line d, s_all (fid f) = t -> safe Q (read_loop headers rd fuel f line d).
Proof.
  intros H1 H2. induction fuel as [|n IH]; intros f line d Ht; cbn [read_loop]; [auto|].
  destruct (getl f line) as [l1 f1] eqn:G. pose proof (getl_text f line l1 f1 G) as [St _]. destruct (s_fail (fid f1)) eqn:Fl; [auto|].
  assert (T1 : s_all (fid f1) = t) by (unfold same_text in St; congruence).
  assert (Td : todo f1 <= line_ends t).
  { pose proof (todo_all f) as Ta. rewrite Ht in Ta. pose proof (ends_nonneg t). apply getl_cases in G as [[T _]|[(_ & _ & G2)|(_ & _ & G2 & _)]]; [lia| |]; unfold todo; rewrite G2; lia. }
  apply safe_bind.
  - destruct (startSection_ headers l1) as [tag|] eqn:Ss; [|auto]. eapply H1; eauto.
  - intros [f2 d2] E. apply IH. pose proof (tell_text f2) as Tl. unfold same_text in Tl. rewrite Tl. destruct (startSection_ headers l1) as [tag|] eqn:Ss; [|injection E as <- <-; auto].
    apply (H2 _ _ _ _ _ _ _ Ss) in E. unfold same_text in E. congruence.
Qed.
Lemma log_safe files fuel r : safe (exists t, files (lr_name N r) = Some t /\ 46340 < line_ends t) (log_read N files fuel r).
Proof.
  unfold log_read, read. destruct (files (lr_name N r)) as [t|] eqn:Hf; [|apply safe_throw]. apply safe_bind; [apply safe_bind; [|intros; apply safe_ok]|intros; apply safe_ok].
  apply (loop_safe log_headers (log_section N) _ t); [| |reflexivity].
  - intros fu tag line f d _ _ Td. eapply safe_weak; [|apply log_section_safe]. intros Q. exists t. split; [auto|lia].
  - intros fu tag line f d f' d' Ss E. apply start_kind in Ss as (k & -> & _). apply section_only in E. tauto.
Qed.

(** ** pun files *)
Lemma gaus_safe fuel : forall line indent vs, 0 <= indent -> indent <= len line -> safe (INT_MAX < len line) (gaus_loop N fuel line indent vs) /\
  (forall vs', gaus_loop N fuel line indent vs = Ok vs' -> 15 * Z.of_nat (length vs') <= 15 * Z.of_nat (length vs) + (len line - indent)).
Proof.
  induction fuel as [|n IH]; intros line indent vs H0 Hi; cbn [gaus_loop]; [split; [auto|intros ? E; discriminate]|].
  destruct (Z.leb_spec 15 (size_t (len line - indent))) as [L|L]; [|split; [auto|intros ? E; injection E as <-; lia]].
  assert (C : indent + 15 <= len line).
  { destruct (Z.le_gt_cases (indent + 15) (len line)); [auto|]. unfold size_t in L. rewrite Z.mod_small in L by (unfold SIZE_MOD; lia). lia. }
  split.
  - apply safe_bind; [apply substr_safe|]. intros s1 _. apply safe_bind; [apply stod_safe|]. intros x1 _. apply safe_bind; [apply substr_safe|]. intros s2 _. apply safe_bind; [apply stod_safe|]. intros x2 _.
    unfold iadd, ichk, is_intb. destruct (Z.leb_spec INT_MIN (indent + 15)) as [A|A]; [|change INT_MIN with (-2147483648) in A; lia]. destruct (Z.leb_spec (indent + 15) INT_MAX) as [B|B]; cbn [andb bind].
    + apply IH; lia.
    + intros u E. injection E as <-. split; [auto|lia].
  - intros vs' E. do 4 (apply bind_ok in E as (? & _ & E)). apply bind_ok in E as (i2 & Ei & E). unfold iadd, ichk in Ei. destruct (is_intb _); [|discriminate]. injection Ei as <-.
    apply (proj2 (IH line (indent + 15) _ ltac:(lia) C)) in E. rewrite app_length in E. cbn [length] in E. lia.
Qed.
Lemma gaus_line line : safe (INT_MAX < len line) (readGausCoefLine N line) /\ (forall vs, readGausCoefLine N line = Ok vs -> 15 * Z.of_nat (length vs) <= len line).
Proof.
  unfold readGausCoefLine. assert (0 <= len line) by (unfold len; lia). destruct (gaus_safe (S (length line)) line 0 [] ltac:(lia) ltac:(lia)) as [S1 B1]. split; [auto|].
  intros vs E. apply B1 in E. cbn [length] in E. lia.
Qed.
Definition short (t line : str) : Prop := len line <= len t.
Lemma getl_short f l l' f' t : getl f l = (l', f') -> s_all (fid f) = t -> short t l -> short t l' /\ s_all (fid f') = t.
Proof.
  intros G Ht Hl. apply getl_text in G as [St [->|O]]; unfold same_text in St; (split; [|congruence]); [auto|]. destruct O as (a & b & E). unfold short, len. rewrite <- Ht, E, !app_length. lia.
Qed.
Lemma inner_safe t fuel : forall f line row b k, s_all (fid f) = t -> short t line -> safe (INT_MAX < len t) (coef_inner N fuel f line row b k).
Proof.
  induction fuel as [|n IH]; intros f line row b k Ht Hl; cbn [coef_inner]; [auto|]. destruct (foundSubStrInStr _ _); [auto|]. destruct (_ && _); [auto|].
  apply safe_bind; [eapply safe_weak; [|apply gaus_line]; unfold short in Hl; lia|]. intros coef _. gl. destruct (getl_short _ _ _ _ _ G Ht Hl). apply IH; auto.
Qed.
(** after the end of the file the first row never ends *)
Lemma inner_stuck fuel : forall f line row k x, s_good (fid f) = false -> foundSubStrInStr line $" MO OE" = false -> coef_inner N fuel f line row false k <> Ok x.
Proof.
  induction fuel as [|n IH]; intros f line row k x Hg Hm; cbn [coef_inner]; [discriminate|]. rewrite Hm. cbn [andb]. intros E. apply bind_ok in E as (coef & _ & E).
  destruct (getl f line) as [l1 f1] eqn:G. pose proof (getl_cases _ _ _ _ G) as [[T _]|[(G1 & _)|(_ & -> & G2 & _)]]; [|congruence|eapply IH; eauto].
  unfold todo in T. rewrite Hg in T. pose proof (todo_nonneg f1) as Tn. unfold todo in Tn. lia.
Qed.
(** the first row *)
Lemma inner_first fuel : forall f line row k x, coef_inner N fuel f line row false k = Ok x -> 15 * Z.of_nat (length (snd x)) <= 15 * Z.of_nat (length row) + len line + left f.
Proof.
  induction fuel as [|n IH]; intros f line row k x E; [discriminate|]. cbn [coef_inner] in E. pose proof (left_nonneg f) as L0. assert (0 <= len line) by (unfold len; lia).
  destruct (foundSubStrInStr line $" MO OE") eqn:Hm; [injection E as <-; cbn [snd]; lia|]. cbn [andb] in E. apply bind_ok in E as (coef & Ec & E). apply (proj2 (gaus_line line)) in Ec.
  destruct (getl f line) as [l1 f1] eqn:G. pose proof (getl_cases _ _ _ _ G) as [[_ T]|[(G1 & -> & G2)|(_ & -> & G2 & _)]].
  - apply IH in E. rewrite app_length in E. lia.
  - exfalso. eapply inner_stuck; [exact G2| |exact E]. reflexivity.
  - exfalso. eapply inner_stuck; [exact G2|exact Hm|exact E].
Qed.
(** [coef_inner] reads forward *)
Lemma inner_todo fuel : forall f line row b k x, coef_inner N fuel f line row b k = Ok x -> todo (snd (fst x)) <= todo f.
Proof.
  induction fuel as [|n IH]; intros f line row b k x E; [discriminate|]. cbn [coef_inner] in E.
  destruct (foundSubStrInStr line $" MO OE"); [injection E as <-; cbn; lia|]. destruct (_ && _); [injection E as <-; cbn; lia|]. apply bind_ok in E as (coef & _ & E).
  destruct (getl f line) as [l1 f1] eqn:G. apply IH in E. pose proof (todo_nonneg f) as T0. pose proof (getl_cases _ _ _ _ G) as [[T _]|[(_ & _ & G2)|(_ & _ & G2 & _)]]; [lia| |]; unfold todo at 2 in E; rewrite G2 in E; lia.
Qed.
(** nothing is left: no line with the name of the spin follows *)
Lemma inner_empty fuel : forall f row b k x, s_good (fid f) = false -> coef_inner N fuel f [] row b k = Ok x -> fst (fst x) = [].
Proof.
  induction fuel as [|n IH]; intros f row b k x Hg E; [discriminate|]. cbn [coef_inner] in E. change (foundSubStrInStr [] $" MO OE") with false in E. cbn [andb] in E.
  destruct (_ && _); [injection E as <-; auto|]. apply bind_ok in E as (coef & _ & E). destruct (getl f []) as [l1 f1] eqn:G.
  pose proof (getl_cases _ _ _ _ G) as [[T _]|[(G1 & _)|(_ & -> & G2 & _)]]; [|congruence|eapply IH; eauto]. unfold todo in T. rewrite Hg in T. pose proof (todo_nonneg f1) as Tn. unfold todo in Tn. lia.
Qed.
Lemma outer_safe t ty fuel : forall f b k acc, s_all (fid f) = t -> safe (INT_MAX < len t) (coef_outer N fuel ty f b k acc).
Proof.
  induction fuel as [|n IH]; intros f b k acc Ht; cbn [coef_outer]; [auto|]. gl. destruct (getl_short _ _ _ _ t G Ht) as [Sh Ht1]; [unfold short, len; cbn; lia|].
  apply safe_bind; [apply inner_safe; auto|]. intros [[l2 f2] row] E. apply coef_inner_text in E. unfold same_text in E. cbn [fst snd] in E. cbv zeta. destruct (foundSubStrInStr _ _); [|auto]. apply IH. congruence.
Qed.
Lemma outer_rows ty fuel : ty <> [] -> forall f b k acc x, coef_outer N fuel ty f b k acc = Ok x -> Z.of_nat (length (snd x)) <= Z.of_nat (length acc) + 1 + todo f /\ exists rest, snd x = acc ++ rest.
Proof.
  intros Nt. induction fuel as [|n IH]; intros f b k acc x E; [discriminate|]. cbn [coef_outer] in E. destruct (getl f []) as [l1 f1] eqn:G. pose proof (todo_nonneg f) as T0.
  apply bind_ok in E as ([[l2 f2] row] & Ei & E). cbv zeta in E. destruct (foundSubStrInStr l2 ty) eqn:Hf.
  - pose proof (inner_todo _ _ _ _ _ _ _ Ei) as Ti. cbn [fst snd] in Ti. apply IH in E as (E & rest & Er). rewrite app_length in E. cbn [length] in E.
    split; [|exists ([row] ++ rest); rewrite Er, <- app_assoc; reflexivity].
    assert (Stop : s_good (fid f1) = false -> l1 = [] -> False).
    { intros G2 ->. apply inner_empty in Ei; [|auto]. cbn in Ei. subst l2. apply found_occurs in Hf as (a & c & Hf). destruct a; [|discriminate]. cbn in Hf. destruct ty; [auto|discriminate]. }
    pose proof (getl_cases _ _ _ _ G) as [[T _]|[(_ & -> & G2)|(_ & -> & G2 & _)]]; [lia| |]; exfalso; auto.
  - injection E as <-. cbn [snd]. rewrite app_length. cbn [length]. split; [lia|eauto].
Qed.
Lemma outer_first ty fuel f x : coef_outer N fuel ty f false 0 [] = Ok x -> exists v0 r, snd x = v0 :: r /\ 15 * Z.of_nat (length v0) <= left f.
Proof.
  intros E. destruct fuel as [|n]; [discriminate|]. cbn [coef_outer] in E. destruct (getl f []) as [l1 f1] eqn:G. pose proof (left_nonneg f) as T0.
  apply bind_ok in E as ([[l2 f2] row] & Ei & E). apply inner_first in Ei. cbn [snd length] in Ei. cbv zeta in E.
  assert (B : 15 * Z.of_nat (length row) <= left f).
  { pose proof (getl_cases _ _ _ _ G) as [[_ T]|[(_ & -> & G2)|(_ & -> & G2 & _)]]; [lia| |]; unfold left at 1 in Ei; rewrite G2 in Ei; change (len []) with 0 in Ei; lia. }
  destruct (foundSubStrInStr l2 ty).
  - destruct ty as [|c0 ty0].
    + exists row. assert (K : exists rest, snd x = ([] ++ [row]) ++ rest); [|destruct K as (rest & K); exists rest; auto].
      clear -E. revert E. generalize ([] ++ [row]) as acc. generalize (Z.of_nat (length row)) as k. generalize true as b. revert f2. clear. induction n as [|n IH]; intros f2 b k acc E; [discriminate|]. cbn [coef_outer] in E. destruct (getl f2 []) as [l1 f1].
      apply bind_ok in E as ([[l2 f3] row2] & _ & E). cbv zeta in E. destruct (foundSubStrInStr l2 []); [apply IH in E as (rest & ->); exists ([row2] ++ rest); rewrite <- app_assoc; reflexivity|injection E as <-; exists [row2]; reflexivity].
    + apply outer_rows in E as (_ & rest & E); [|discriminate]. exists row, rest. auto.
  - injection E as <-. exists row, []. auto.
Qed.
Definition vast (t : str) : Prop := INT_MAX < len t \/ 15 * INT_MAX < (line_ends t + 1) * len t.
Lemma pun_section_safe t fuel (beta : bool) f d : s_all (fid f) = t -> todo f <= line_ends t -> safe (vast t) (ReadCoef N fuel (spin_name beta) f d).
Proof.
  intros Ht Td. unfold ReadCoef. apply safe_bind; [eapply safe_weak; [|apply (outer_safe t); auto]; left; auto|]. intros [f1 vv] E.
  pose proof (outer_rows (spin_name beta) fuel ltac:(destruct beta; discriminate) _ _ _ _ _ E) as [Nr _]. apply outer_first in E as (v0 & r & Ev & Lv). cbn [snd length] in *.
  apply safe_bind; [|auto]. eapply safe_weak; [|apply (vecs_safe (n_zero N))]. intros (v1 & r1 & E1 & B). right. rewrite Ev in E1. injection E1 as <- <-.
  pose proof (left_all f) as La. rewrite Ht in La. pose proof (ends_nonneg t). nia.
Qed.
Lemma pun_safe files fuel r : safe (exists t, files (pr_name N r) = Some t /\ vast t) (pun_read N files fuel r).
Proof.
  unfold pun_read, read. destruct (files (pr_name N r)) as [t|] eqn:Hf; [|apply safe_throw]. apply safe_bind; [apply safe_bind; [|intros; apply safe_ok]|intros; apply safe_ok].
  assert (K : forall tag line, startSection_ pun_headers line = Some tag -> exists beta : bool, forall n f d, pun_section N n tag f d = ReadCoef N n (spin_name beta) f d).
  { intros tag line Ss. apply start_some in Ss as (a & ps & b & E & _). assert (I : In (tag, ps) pun_headers) by (rewrite E; apply in_or_app; right; left; auto).
    destruct I as [I|[I|[]]]; injection I as <- <-; [exists false|exists true]; reflexivity. }
  apply (loop_safe pun_headers (pun_section N) _ t); [| |reflexivity].
  - intros fu tag line f d Ss Ht Td. destruct (K _ _ Ss) as (beta & ->). eapply safe_weak; [|apply (pun_section_safe t); auto]. eauto.
  - intros fu tag line f d f' d' Ss E. destruct (K _ _ Ss) as (beta & Kb). rewrite Kb in E. unfold ReadCoef in E. apply bind_ok in E as ([fz vv] & E1 & E). apply bind_ok in E as (m & _ & E). injection E as <- <-.
    apply coef_outer_text in E1. exact E1.
Qed.
End Safe.
