(** * AOFunctionSectionReader on a population table *)
From Verif Require Import ParserWf.
From Verif Require Export ReaderOverlap.
From Verif Require Export StrSpec StrModel.
Open Scope Z_scope.

Section Pop.
Context (N : nums).
Notation num := (num N).
Notation orbs := (list ((Z * str) * smap (list num))).

Definition store (k : Z) (elem : str) (rows : list (str * list num)) (orb : orbs) : orbs :=
  fold_left (fun o r => o_set (k, elem) (fst r) (snd r) o) rows orb.
Fixpoint store_all (k : Z) (atoms : list (atom N)) (orb : orbs) : orbs :=
  match atoms with [] => orb | (elem, rows) :: t => store_all (k + 1) t (store k elem rows orb) end.

Lemma ao_values_ok ts vs : Forall2 (fun t v => n_stod N t = Ok v) ts vs -> forall fuel i acc, holds i ts -> (length ts < fuel)%nat -> ao_values N fuel i acc = Ok (acc ++ vs).
Proof.
  induction 1 as [|t x ts vs Ht H IH]; intros fuel i acc Hh Hf; (destruct fuel as [|fuel]; [cbn [length] in Hf; lia|]); cbn [ao_values].
  - destruct Hh as (_ & -> & _). rewrite app_nil_r. reflexivity.
  - destruct (next_holds i t ts [] Hh) as (i' & E & Hh'). destruct Hh as (_ & -> & _). rewrite E, Ht. cbn [bind].
    rewrite (IH fuel i'); [|auto|cbn [length] in Hf; lia]. rewrite <- app_assoc. reflexivity.
Qed.
Lemma row_words l ws w : table_row l ws -> In w ws -> word w.
Proof. intros [H _] I. apply words_split in H. subst. pose proof (splitSt_words l) as F. rewrite Forall_forall in F. auto. Qed.
Lemma third l a b c ws x : table_row l (a :: b :: c :: ws) -> exists i j k, next (iss l) x = (a, i) /\ next i a = (b, j) /\ next j b = (c, k).
Proof.
  intros H. destruct (next_holds _ _ _ x (holds_iss _ _ _ H)) as (i & E1 & H1). destruct (next_holds _ _ _ a H1) as (j & E2 & H2). destruct (next_holds _ _ _ b H2) as (k & E3 & _).
  exists i, j, k. auto.
Qed.
(** the line after the rows of an atom *)
Definition next_atom (l : str) : Prop :=
  is_line l /\ (occurs population_over l \/ (~ occurs population_over l /\ exists a b c ws, table_row l (a :: b :: c :: ws) /\ alphabetic c)).
Lemma inner_ok k elem nx rest tail : next_atom nx -> forall ls rows, Forall2 (other_row N) ls rows ->
  forall fuel cur others f orb orbType e2, cur :: others = ls ++ [nx] -> at_ f (others ++ rest) tail ->
  (match ls with [] => alphabetic e2 | _ => ~ alphabetic e2 end) -> (length ls < fuel)%nat ->
  exists b f', ao_inner N fuel cur e2 orbType k elem f orb = Ok (nx, b, f', store k elem rows orb) /\ at_ f' rest tail /\ (b = true -> occurs population_over nx).
Proof.
  intros [Lnx Hnx] ls rows H. induction H as [|l r ls rows Hr H IH]; intros fuel cur others f orb orbType e2 Ec Hat Ha Hf; (destruct fuel as [|fuel]; [cbn [length] in Hf; lia|]); cbn [ao_inner].
  - cbn [app] in Ec. inversion Ec; subst. rewrite (proj2 (alphabetic_iff e2) Ha). cbn [app] in Hat. exists false, f. split; [auto|]. split; [auto|discriminate].
  - cbn [app] in Ec. inversion Ec; subst cur others. rewrite (proj2 (alphabetic_not e2) Ha).
    destruct Hr as (Ll & Nl & (no & t & ts & Hrow & Hts & Nt) & _).
    destruct (next_holds _ _ _ [] (holds_iss _ _ _ Hrow)) as (i1 & -> & H1). destruct (next_holds _ _ _ orbType H1) as (i2 & -> & H2).
    pose proof (row_bound _ _ Hrow) as Bd. cbn [length] in Bd.
    rewrite (ao_values_ok (t :: ts) (snd r) Hts _ i2 [] H2) by (cbn [length]; lia). cbn [bind app].
    destruct (ls ++ [nx]) as [|l2 others] eqn:Eq; [destruct ls; discriminate|]. cbn [app] in Hat.
    assert (L2 : is_line l2). { destruct H as [|? ? ? ? Hr2 _]; cbn [app] in Eq; inversion Eq; subst; auto. destruct Hr2; auto. }
    destruct (getl_line f l2 (others ++ rest) tail l Hat L2) as (f2 & -> & Hat2 & _).
    destruct (next (iss l2) e2) as [e3 j1] eqn:N1. destruct (next j1 e3) as [e4 j2] eqn:N2. destruct (next j2 e4) as [e5 j3] eqn:N3.
    change ao_end with population_over.
    destruct (foundSubStrInStr l2 population_over) eqn:Fo.
    + apply found_iff in Fo. assert (ls = [] /\ rows = []) as [-> ->].
      { inversion H as [|? ? ? ? Hr2 ?]; subst; auto. cbn [app] in Eq. inversion Eq; subst. destruct Hr2 as (_ & N4 & _). contradiction. }
      cbn [app] in Eq. inversion Eq; subst. exists true, f2. split; [reflexivity|]. split; [exact Hat2|auto].
    + apply found_not in Fo.
      destruct (IH fuel l2 others f2 (o_set (k, elem) (fst r) (snd r) orb) (fst r) (trim e5) eq_refl Hat2) as (b & f3 & E3 & Hat3 & Hb); [|cbn [length] in Hf; lia|exists b, f3; split; [exact E3|auto]].
      assert (T3 : forall a b c ws, table_row l2 (a :: b :: c :: ws) -> trim e5 = c).
      { intros a b c ws Ht. destruct (third _ _ _ _ _ e2 Ht) as (x & y & z & A1 & A2 & A3). rewrite A1 in N1. inversion N1; subst. rewrite A2 in N2. inversion N2; subst. rewrite A3 in N3. inversion N3; subst.
        apply trim_word. eapply row_words; [exact Ht|]. right; right; left; auto. }
      inversion H as [|? r2 ls2 rows2 Hr2 ?]; subst.
      * cbn [app] in Eq. inversion Eq; subst. destruct Hnx as [C|(_ & a & b & c & ws & Ht & Hc)]; [contradiction|]. rewrite (T3 _ _ _ _ Ht). auto.
      * cbn [app] in Eq. inversion Eq; subst. destruct Hr2 as (_ & _ & (no2 & t2 & ts2 & Hrow2 & _ & Nt2) & _). rewrite (T3 _ _ _ _ Hrow2). auto.
Qed.
Lemma column_chars l : length (column l) = 2%nat -> exists a b, column l = [a; b] /\ sat l 9 = Ok a /\ sat l 10 = Ok b.
Proof.
  unfold column. intros H. destruct (skipn 9 l) as [|a [|b t]] eqn:E; try discriminate H. exists a, b. split; [auto|].
  assert (Q : forall i, nth_error l (9 + i) = nth_error (a :: b :: t) i).
  { intros i. rewrite <- E. clear. revert l. generalize 9%nat. intros n. induction n as [|n IH]; intros l; [auto|]. destruct l; cbn [Nat.add nth_error skipn]; [now rewrite ?nth_error_nil; destruct i|auto]. }
  split; unfold sat; apply vat_ok; try lia; [exact (Q 0%nat)|exact (Q 1%nat)].
Qed.
Lemma outer_ok e rest tail : population_end e -> forall atoms lines, population N atoms lines -> atoms <> [] ->
  forall fuel k cur others f orb, cur :: others = lines ++ [e] -> at_ f (others ++ rest) tail -> (length lines < fuel)%nat ->
  exists f', ao_outer N fuel cur k f orb = Ok (f', store_all k atoms orb) /\ at_ f' rest tail.
Proof.
  intros (Le & Oe & ee & Ce & Se & Ae) atoms lines H. induction H as [|elem label vs rows l ls atoms lines Hf Ho H IH]; intros Ne fuel k cur others f orb Ec Hat Hl; [congruence|].
  destruct fuel as [|fuel]; [cbn [length] in Hl; lia|]. cbn [ao_outer]. cbn [app] in Ec. inversion Ec; subst cur others. clear Ec.
  destruct Hf as (Ll & Nl & (no & an & ts & Hrow & Hts) & Hel & _).
  destruct (next_holds _ _ _ [] (holds_iss _ _ _ Hrow)) as (i1 & -> & H1). destruct (next_holds _ _ _ [] H1) as (i2 & -> & H2).
  destruct (next_holds _ _ _ an H2) as (i3 & -> & H3). destruct (next_holds _ _ _ [] H3) as (i4 & -> & H4).
  pose proof (row_bound _ _ Hrow) as Bd. cbn [length] in Bd.
  rewrite (ao_values_ok ts vs Hts _ i4 [] H4) by lia. cbn [bind app].
  set (orb1 := o_set (k, elem) label vs orb).
  (* what follows the rows of this atom *)
  assert (Hx : exists nx more, lines ++ [e] = nx :: more /\ next_atom nx /\ length (column nx) = 2%nat /\ (exists x, stripped (column nx) x /\ alphabetic x) /\ (atoms = [] -> nx = e) /\ (atoms <> [] -> ~ occurs population_over nx)).
  { destruct H as [|elem2 label2 vs2 rows2 l2 ls2 atoms2 lines2 Hf2 Ho2 H2'].
    - exists e, []. split; [auto|]. split; [split; auto|]. split; [auto|]. split; [eauto|]. split; [auto|congruence].
    - destruct Hf2 as (La & Na & (no2 & an2 & ts2 & Hrow2 & _) & Hel2 & x & Cx & Sx & Ax). exists l2, ((ls2 ++ lines2) ++ [e]). split; [auto|].
      split; [split; [auto|]; right; split; [auto|]; exists no2, an2, elem2, (label2 :: ts2); auto|]. split; [auto|]. split; [eauto|]. split; [discriminate|auto]. }
  destruct Hx as (nx & more & Enx & Hnx & Cx & (x & Sx & Ax) & Hend & Hcont).
  replace (((ls ++ lines) ++ [e]) ++ rest) with (ls ++ (lines ++ [e]) ++ rest) in Hat by now rewrite <- !app_assoc. rewrite Enx in Hat. cbn [app] in Hat.
  assert (Hat' : exists cur others, cur :: others = ls ++ [nx] /\ at_ f (cur :: others ++ (more ++ rest)) tail /\ is_line cur /\ length (column cur) = 2%nat /\
     match ls with [] => alphabetic (trim (column cur)) | _ => ~ alphabetic (trim (column cur)) end).
  { destruct Ho as [|l2 r2 ls2 rows2 (L2 & _ & _ & C2 & W2) Ho2].
    - exists nx, []. split; [auto|]. split; [exact Hat|]. split; [apply Hnx|]. split; [auto|]. rewrite (trim_stripped _ _ Sx). auto.
    - exists l2, (ls2 ++ [nx]). split; [auto|]. split; [cbn [app] in Hat; rewrite <- !app_assoc in *; exact Hat|]. split; [auto|]. split; [auto|].
      assert (Tw : trim (column l2) = []). { apply trim_stripped. exists (column l2), []. rewrite !app_nil_r. split; [auto|]. split; [apply white_nil|]. split; [auto|]. split; intros c u; [discriminate|destruct u; discriminate]. }
      rewrite Tw. intros [A _]. congruence. }
  destruct Hat' as (cur & others & Ecur & Hat' & Lcur & Ccur & Hcur).
  destruct (getl_line f cur _ tail l Hat' Lcur) as (f1 & -> & Hat1 & _).
  destruct (column_chars cur Ccur) as (a & b & Eab & E9 & E10). rewrite E9. cbn [bind]. rewrite E10. cbn [bind]. rewrite <- Eab.
  destruct (inner_ok k elem nx (more ++ rest) tail Hnx ls rows Ho fuel cur others f1 orb1 label (trim (column cur)) Ecur Hat1 Hcur) as (bb & f2 & E2 & Hat2 & Hbb).
  { cbn [length] in Hl. rewrite app_length in Hl. lia. }
  rewrite E2. cbn [bind]. change ao_end with population_over. cbn [store_all]. change (store k elem ((label, vs) :: rows) orb) with (store k elem rows orb1).
  destruct atoms as [|at2 atoms].
  - rewrite (Hend eq_refl) in *. rewrite (proj2 (found_iff e population_over) Oe), orb_true_r. 
    assert (more = []) as ->. { inversion H; subst. cbn [app] in Enx. inversion Enx; auto. }
    exists f2. split; [auto|exact Hat2].
  - assert (Nx : ~ occurs population_over nx) by (apply Hcont; discriminate). rewrite (proj2 (found_not _ _) Nx). destruct bb; [exfalso; auto|]. change (false || false) with false. cbv iota.
    apply (IH ltac:(discriminate) fuel (k + 1) nx more f2 (store k elem rows orb1) (eq_sym Enx) Hat2). cbn [length] in Hl. rewrite app_length in Hl. lia.
Qed.
Lemma ao_section_ok a ls e atoms rest tail fuel f (d : logd N) : is_line a -> atoms <> [] -> population N atoms ls -> population_end e ->
  at_ f (a :: ls ++ [e] ++ rest) tail -> (length ls < fuel)%nat ->
  exists f', AOFunctionSectionReader N fuel f d = Ok (f', mkLog N (homoLevel N d) (store_all 1 atoms (orb_ N d)) (S_ N d) (OREnergies N d) (xyz N d)) /\ at_ f' rest tail.
Proof.
  intros La Ne H He Hat Hf. unfold AOFunctionSectionReader. destruct (getl_line _ _ _ _ [] Hat La) as (f1 & -> & Hat1 & _).
  destruct (ls ++ [e]) as [|l lines] eqn:E0; [destruct ls; discriminate|]. rewrite app_assoc, E0 in Hat1. cbn [app] in Hat1.
  assert (Ll : is_line l). { destruct H as [|? ? ? ? ? ? ? ? (Hl & _)]; [congruence|]. cbn [app] in E0. inversion E0; subst; auto. }
  destruct (getl_line _ _ _ _ a Hat1 Ll) as (f2 & -> & Hat2 & _).
  destruct (outer_ok e rest tail He atoms ls H Ne fuel 1 l lines f2 (orb_ N d) (eq_sym E0) Hat2 Hf) as (f3 & -> & Hat3).
  cbn [bind]. eauto.
Qed.

(** ** the map of populations *)
Definition above (k : Z) (orb : orbs) : Prop := Forall (fun kv => k < fst (fst kv)) orb.
Definition below (k : Z) (orb : orbs) : Prop := Forall (fun kv => fst (fst kv) < k) orb.
(** one atom: what its map finds is what its rows say *)
Definition says (lm : smap (list num)) (rows : list (str * list num)) : Prop :=
  sorted lm /\ forall l, m_find l lm = match List.find (fun r => str_eqb l (fst r)) rows with Some r => Some (snd r) | None => None end.

Definition same_labels (a b : list (str * list num)) : Prop := map fst a = map fst b.
Definition put (rows : list (str * list num)) (lm : smap (list num)) : smap (list num) := fold_left (fun m r => m_set (fst r) (snd r) m) rows lm.
Lemma o_set_at k elem label v pre lm after : below k pre -> o_set (k, elem) label v (pre ++ ((k, elem), lm) :: after) = pre ++ ((k, elem), m_set label v lm) :: after.
Proof.
  induction pre as [|[[k' e'] lm'] t IH]; intros B; cbn [app o_set].
  - unfold key_eqb. cbn [fst snd]. rewrite Z.eqb_refl, str_eqb_refl. reflexivity.
  - inversion B as [|? ? B1 B2]; subst. cbn [fst] in B1. unfold key_eqb, key_ltb. cbn [fst snd].
    destruct (Z.eqb_spec k k'); [lia|]. destruct (Z.ltb_spec k k'); [lia|]. cbn [andb orb]. f_equal. auto.
Qed.
Lemma o_set_new k elem label (v : list num) pre : below k pre -> o_set (k, elem) label v pre = pre ++ [((k, elem), m_set label v [])].
Proof.
  induction pre as [|[[k' e'] lm'] t IH]; intros B; cbn [app o_set]; [reflexivity|].
  inversion B as [|? ? B1 B2]; subst. cbn [fst] in B1. unfold key_eqb, key_ltb. cbn [fst snd].
  destruct (Z.eqb_spec k k'); [lia|]. destruct (Z.ltb_spec k k'); [lia|]. cbn [andb orb]. f_equal. auto.
Qed.
Lemma store_at k elem rows : forall pre lm after, below k pre -> store k elem rows (pre ++ ((k, elem), lm) :: after) = pre ++ ((k, elem), put rows lm) :: after.
Proof.
  unfold store, put. induction rows as [|r t IH]; intros pre lm after B; cbn [fold_left]; [auto|]. rewrite o_set_at by auto. apply IH; auto.
Qed.
Lemma store_new k elem r rows pre : below k pre -> store k elem (r :: rows) pre = pre ++ [((k, elem), put (r :: rows) [])].
Proof.
  intros B. unfold store. cbn [fold_left]. rewrite o_set_new by auto. apply (store_at k elem rows pre _ [] B).
Qed.
Lemma put_sorted rows : forall lm, sorted lm -> sorted (put rows lm).
Proof. unfold put. induction rows as [|r t IH]; intros lm S0; cbn [fold_left]; auto. apply IH, sorted_set, S0. Qed.
Definition lookup (l : str) (rows : list (str * list num)) : option (list num) := match List.find (fun r => str_eqb l (fst r)) rows with Some r => Some (snd r) | None => None end.
Lemma lookup_in l rows v : NoDup (map fst rows) -> (lookup l rows = Some v <-> In (l, v) rows).
Proof.
  unfold lookup. induction rows as [|[l' v'] t IH]; intros Nd; cbn [List.find fst]; [split; [discriminate|intros []]|].
  cbn [map fst] in Nd. inversion Nd as [|? ? N1 N2]; subst. destruct (str_eqb_spec l l') as [->|Ne].
  - cbn [snd]. split; [intros H; inversion H; left; auto|]. intros [H|H]; [inversion H; auto|]. exfalso. apply N1. apply in_map_iff. exists (l', v). auto.
  - rewrite IH by auto. split; [right; auto|]. intros [H|H]; [inversion H; congruence|auto].
Qed.
Lemma lookup_none l rows : lookup l rows = None <-> ~ In l (map fst rows).
Proof.
  unfold lookup. induction rows as [|[l' v'] t IH]; cbn [List.find fst map In]; [tauto|].
  destruct (str_eqb_spec l l') as [->|Ne]; [split; [discriminate|tauto]|]. rewrite IH. intuition congruence.
Qed.
Lemma put_find rows : NoDup (map fst rows) -> forall lm l, m_find l (put rows lm) = match lookup l rows with Some v => Some v | None => m_find l lm end.
Proof.
  unfold put. induction rows as [|[l' v'] t IH]; intros Nd lm l; cbn [fold_left]; [reflexivity|].
  cbn [map fst] in Nd. inversion Nd as [|? ? N1 N2]; subst. rewrite IH by auto. cbn [fst snd]. rewrite find_set.
  unfold lookup at 2. cbn [List.find fst]. destruct (str_dec l l') as [->|Ne].
  - rewrite str_eqb_refl. cbn [snd]. rewrite (proj2 (lookup_none l' t) N1). reflexivity.
  - destruct (str_eqb_spec l l'); [congruence|]. reflexivity.
Qed.
Lemma says_lookup lm rows : says lm rows <-> sorted lm /\ forall l, m_find l lm = lookup l rows.
Proof. reflexivity. Qed.
Lemma says_new rows : NoDup (map fst rows) -> says (put rows []) rows.
Proof.
  intros Nd. apply says_lookup. split; [apply put_sorted; exact I|]. intros l. rewrite put_find by auto. destruct (lookup l rows); reflexivity.
Qed.
Lemma says_again lm rows0 rows : NoDup (map fst rows) -> same_labels rows0 rows -> says lm rows0 -> says (put rows lm) rows.
Proof.
  intros Nd Sl [So Hf]. apply says_lookup. split; [apply put_sorted; auto|]. intros l. rewrite put_find by auto. destruct (lookup l rows) eqn:L; auto.
  rewrite Hf. apply (lookup_none l rows0). rewrite Sl. apply lookup_none; auto.
Qed.
Lemma sorted_nodup {V} (m : smap V) : sorted m -> NoDup (map fst m).
Proof.
  induction m as [|it t IH]; cbn [sorted map]; intros H; constructor; [|apply IH, H]. destruct H as [H _]. rewrite Forall_forall in H.
  intros I. apply in_map_iff in I as (x & E & I). specialize (H x I). rewrite E, ltb_irrefl in H. discriminate.
Qed.
Lemma find_keys {V} (m : smap V) l : In l (map fst m) <-> m_find l m <> None.
Proof.
  induction m as [|[k v] t IH]; cbn [map fst m_find In]; [tauto|]. destruct (str_eqb_spec l k) as [->|Ne].
  - split; [discriminate|auto].
  - rewrite <- IH. intuition congruence.
Qed.
Lemma says_length lm rows : NoDup (map fst rows) -> says lm rows -> length lm = length rows.
Proof.
  intros Nd [So Hf]. pose proof (sorted_nodup lm So) as Nl.
  assert (Q : forall l, In l (map fst lm) <-> In l (map fst rows)).
  { intros l. rewrite find_keys, Hf. fold (lookup l rows). pose proof (lookup_none l rows) as Q. destruct (lookup l rows) eqn:L; [|tauto].
    split; [intros _|intros _; discriminate]. destruct (in_dec (list_eq_dec ascii_dec) l (map fst rows)) as [I|NI]; auto. apply Q in NI. congruence. }
  rewrite <- (map_length fst lm), <- (map_length fst rows). apply Nat.le_antisymm; apply NoDup_incl_length; auto; intros l; apply Q.
Qed.
(** all atoms *)
Fixpoint keyed (k : Z) (atoms : list (atom N)) (orb : orbs) : Prop :=
  match atoms, orb with
  | [], [] => True
  | (elem, rows) :: ta, (key, lm) :: to => key = (k, elem) /\ says lm rows /\ keyed (k + 1) ta to
  | _, _ => False
  end.
Lemma below_snoc k pre key lm : below k pre -> fst key = k -> below (k + 1) (pre ++ [(key, lm)]).
Proof.
  intros B E. apply Forall_app. split; [eapply Forall_impl; [|exact B]; cbv beta; intros; lia|]. constructor; [|constructor]. cbn [fst]. lia.
Qed.
Lemma store_all_new atoms : Forall (fun a => snd a <> []) atoms -> distinct_labels N atoms -> forall k pre, below k pre -> exists new, store_all k atoms pre = pre ++ new /\ keyed k atoms new.
Proof.
  intros Ne Nd. induction atoms as [|[elem rows] t IH]; intros k pre B; cbn [store_all]; [exists []; rewrite app_nil_r; split; [reflexivity|exact I]|].
  inversion Ne as [|? ? N1 N2]; subst. inversion Nd as [|? ? D1 D2]; subst. cbn [snd] in *. destruct rows as [|r rows]; [congruence|].
  rewrite store_new by auto. destruct (IH N2 D2 (k + 1) (pre ++ [(k, elem, put (r :: rows) [])])) as (new & E & K); [apply below_snoc; auto|].
  rewrite E. exists ((k, elem, put (r :: rows) []) :: new). rewrite <- app_assoc. split; [auto|]. cbn [keyed]. split; [auto|]. split; [apply says_new; auto|auto].
Qed.
Lemma store_all_again atoms : distinct_labels N atoms -> forall atoms0, same_basis N atoms0 atoms -> forall k pre old, below k pre -> keyed k atoms0 old ->
  exists new, store_all k atoms (pre ++ old) = pre ++ new /\ keyed k atoms new.
Proof.
  intros Nd. induction atoms as [|[elem rows] t IH]; intros atoms0 Sb k pre old B K; inversion Sb as [|[e0 rows0] ? t0 ? [S1 S2] S3]; subst; cbn [store_all].
  - exists []. destruct old; [split; [reflexivity|exact I]|destruct K].
  - destruct old as [|[key lm] old]; [destruct K|]. cbn [keyed] in K. destruct K as (-> & Sy & K). cbn [fst snd] in *. subst e0. inversion Nd as [|? ? D1 D2]; subst. cbn [snd] in D1.
    rewrite store_at by auto.
    destruct (IH D2 t0 S3 (k + 1) (pre ++ [(k, elem, put rows lm)]) old) as (new & E & K2); [apply below_snoc; auto|auto|].
    rewrite <- app_assoc in E. cbn [app] in E. rewrite E, <- app_assoc. exists ((k, elem, put rows lm) :: new). split; [auto|]. cbn [keyed]. split; [auto|]. split; [eapply says_again; eauto|auto].
Qed.
Lemma keyed_counts atoms : distinct_labels N atoms -> forall k orb, keyed k atoms orb -> map (fun kv => Z.of_nat (length (snd kv))) orb = map (fun a => Z.of_nat (length (snd a))) atoms.
Proof.
  induction 1 as [|[elem rows] t D1 D2 IH]; intros k orb K; destruct orb as [|[key lm] orb]; cbn [keyed] in K; [reflexivity|destruct K|destruct K|].
  destruct K as (_ & Sy & K). cbn [map snd]. rewrite (says_length lm rows D1 Sy). f_equal. eapply IH; eauto.
Qed.
Lemma population_rows atoms ls : population N atoms ls -> Forall (fun a => snd a <> []) atoms.
Proof. induction 1; constructor; auto. discriminate. Qed.
End Pop.
