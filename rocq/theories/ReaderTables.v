(** * C69 for any number of population tables *)
From Coq Require Import Sorted.
From Verif Require Import ParserWf ReaderExample.
From Verif Require Export ReaderProps.
From Verif Require Export StrSpec StrModel.
Open Scope Z_scope.

(** ** specification *)
(** atom numbers and elements in the order of std::map<pair<int,string>,...>:
    by number, then alphabetically by element *)
Definition key_before (x y : Z * str) : Prop := fst x < fst y \/ (fst x = fst y /\ str_ltb (snd x) (snd y) = true).
(** some population table of the file gives its k-th atom the element [el] and a basis function labelled [l] *)
Definition shown N (items : list (item N)) (k : Z) (el l : str) : Prop :=
  exists h a ls e atoms rows, In (Population N h a ls e atoms) items /\ 1 <= k /\
    nth_error atoms (Z.to_nat (k - 1)) = Some (el, rows) /\ In l (map fst rows).
(** a list of (number, element) with the different labels shown for it *)
Definition tabulates N (items : list (item N)) (tab : list ((Z * str) * list str)) : Prop :=
  StronglySorted key_before (map fst tab) /\
  Forall (fun e => NoDup (snd e) /\ snd e <> []) tab /\
  forall k el l, (exists ls, In ((k, el), ls) tab /\ In l ls) <-> shown N items k el l.

(** ** proof *)
Section Tables.
Context (N : nums).
Notation num := (num N).
Notation orbs := (list ((Z * str) * smap (list num))).

Definition tidy (o : orbs) : Prop :=
  StronglySorted key_before (map fst o) /\ Forall (fun e => sorted (snd e) /\ snd e <> []) o.
Definition has (o : orbs) (k : Z) (el l : str) : Prop := exists lm, In ((k, el), lm) o /\ In l (map fst lm).

Lemma key_trans a b c : key_before a b -> key_before b c -> key_before a c.
Proof.
  unfold key_before. intros [H|[H1 H2]] [K|[K1 K2]]; try (left; lia). right. split; [lia|]. eapply ltb_trans; eauto.
Qed.
Lemma key_irrefl a : ~ key_before a a.
Proof. intros [H|[_ H]]; [lia|]. rewrite ltb_irrefl in H. discriminate. Qed.
Lemma key_eqb_iff a b : key_eqb a b = true <-> a = b.
Proof.
  unfold key_eqb. rewrite andb_true_iff, Z.eqb_eq, str_eqb_eq. destruct a, b; cbn [fst snd]. split; [intros [-> ->]; auto|intros E; inversion E; auto].
Qed.
Lemma key_ltb_iff a b : key_ltb a b = true <-> key_before a b.
Proof. unfold key_ltb, key_before. rewrite orb_true_iff, andb_true_iff, Z.ltb_lt, Z.eqb_eq. tauto. Qed.
Lemma key_total a b : key_before a b \/ a = b \/ key_before b a.
Proof.
  unfold key_before. destruct a as [k e], b as [k' e']; cbn [fst snd]. destruct (Z.lt_trichotomy k k') as [H|[->|H]]; auto.
  destruct (ltb_total e e') as [H|[->|H]]; auto.
Qed.

Lemma set_labels (lm : smap (list num)) x v l : In l (map fst (m_set x v lm)) <-> l = x \/ In l (map fst lm).
Proof. rewrite (find_keys (m_set _ _ _)), (find_keys lm), find_set. destruct (str_dec l x) as [->|Ne]; intuition congruence. Qed.

Lemma o_set_in key x (v : list num) : forall o : orbs, StronglySorted key_before (map fst o) ->
  forall key' lm', In (key', lm') (o_set key x v o) <->
    (key' <> key /\ In (key', lm') o) \/
    (key' = key /\ ((exists lm, In (key, lm) o /\ lm' = m_set x v lm) \/ ((forall lm, ~ In (key, lm) o) /\ lm' = [(x, v)]))).
Proof.
  induction o as [|[k0 l0] t IH]; intros S key' lm'; cbn [o_set].
  - cbn [In]. split.
    + intros [E|[]]. inversion E; subst. right. split; auto.
    + intros [[_ []]|[-> [(lm & [] & _)|[_ ->]]]]. auto.
  - cbn [map fst] in S. inversion S as [|? ? S1 S2]; subst. rewrite Forall_forall in S2.
    assert (Nin : forall y lm, In (y, lm) t -> key_before k0 y) by (intros y lm I; apply S2; apply (in_map fst _ _ I)).
    destruct (key_eqb key k0) eqn:Eq.
    + apply key_eqb_iff in Eq. subst k0. cbn [In]. split.
      * intros [E|I].
        -- inversion E; subst. right. split; auto. left. exists l0. auto.
        -- left. split; [|auto]. intros ->. exact (key_irrefl _ (Nin _ _ I)).
      * intros [[Ne [E|I]]|[-> [(lm & [E|I] & ->)|[Hn _]]]].
        -- inversion E; subst; congruence.
        -- auto.
        -- inversion E; subst; auto.
        -- exfalso. exact (key_irrefl _ (Nin _ _ I)).
        -- exfalso. apply (Hn l0). auto.
    + assert (Ne0 : key <> k0) by (intros ->; rewrite (proj2 (key_eqb_iff k0 k0) eq_refl) in Eq; discriminate).
      destruct (key_ltb key k0) eqn:Lt.
      * apply key_ltb_iff in Lt.
        assert (Hn : forall lm, ~ In (key, lm) ((k0, l0) :: t)).
        { intros lm [E|I]; [inversion E; congruence|]. exact (key_irrefl _ (key_trans _ _ _ Lt (Nin _ _ I))). }
        cbn [In]. split.
        -- intros [E|I]; [inversion E; subst; right; split; auto|]. left. split; [|exact I]. intros ->. exact (Hn _ I).
        -- intros [[Ne I]|[-> [(lm & I & _)|[_ ->]]]]; auto. exfalso; exact (Hn _ I).
      * cbn [In]. rewrite (IH S1). split.
        -- intros [E|[[Ne I]|[-> [(lm & I & ->)|[Hn ->]]]]].
           ++ inversion E; subst. left. split; auto.
           ++ left; auto.
           ++ right. split; auto. left. exists lm. auto.
           ++ right. split; auto. right. split; auto. intros lm [E|I]; [inversion E; congruence|exact (Hn _ I)].
        -- intros [[Ne [E|I]]|[-> [(lm & [E|I] & ->)|[Hn ->]]]].
           ++ inversion E; subst. auto.
           ++ right; left; auto.
           ++ inversion E; congruence.
           ++ right; right. split; auto. left. exists lm. auto.
           ++ right; right. split; auto. right. split; auto. intros lm I. apply (Hn lm); auto.
Qed.

Lemma o_set_keys key x (v : list num) : forall (o : orbs) y, In y (map fst (o_set key x v o)) -> y = key \/ In y (map fst o).
Proof.
  induction o as [|[k0 l0] t IH]; intros y; cbn [o_set map fst In]; [intuition|].
  destruct (key_eqb key k0); [cbn [map fst In]; tauto|]. destruct (key_ltb key k0); [cbn [map fst In]; intuition|].
  cbn [map fst In]. intros [H|H]; auto. apply IH in H. tauto.
Qed.
Lemma o_set_tidy key x (v : list num) o : tidy o -> tidy (o_set key x v o).
Proof.
  intros [S F]. split.
  - clear F. induction o as [|[k0 l0] t IH]; cbn [o_set map fst]; [repeat constructor|]. cbn [map fst] in S. inversion S as [|? ? S1 S2]; subst.
    destruct (key_eqb key k0) eqn:Eq; [exact S|]. destruct (key_ltb key k0) eqn:Lt.
    + apply key_ltb_iff in Lt. constructor; [exact S|]. constructor; [exact Lt|]. rewrite Forall_forall in *. intros y Hy. eapply key_trans; eauto.
    + cbn [map fst]. constructor; [apply IH; auto|]. rewrite Forall_forall in *. intros y Hy. apply o_set_keys in Hy as [->|Hy]; auto.
      destruct (key_total key k0) as [H|[->|H]]; auto; [apply key_ltb_iff in H; congruence|].
      rewrite (proj2 (key_eqb_iff k0 k0) eq_refl) in Eq. discriminate.
  - rewrite Forall_forall in *. intros [key' lm'] I. apply o_set_in in I; auto. cbn [snd].
    destruct I as [[_ I]|[-> [(lm & I & ->)|[_ ->]]]].
    + apply F in I. exact I.
    + apply F in I. destruct I as [I1 I2]. cbn [snd] in *. split; [apply sorted_set; auto|].
      intros E0. assert (Q : In x (map fst (m_set x v lm))) by (apply set_labels; auto). rewrite E0 in Q. exact Q.
    + split; [cbn [sorted]; auto|discriminate].
Qed.
Lemma o_set_has key x (v : list num) o k el l : tidy o -> has (o_set key x v o) k el l <-> ((k, el) = key /\ l = x) \/ has o k el l.
Proof.
  intros [S F]. unfold has. split.
  - intros (lm' & I & Hl). apply o_set_in in I; auto. destruct I as [[_ I]|[E [(lm & I & ->)|[_ ->]]]].
    + right. exists lm'; auto.
    + apply set_labels in Hl as [->|Hl]; auto. right. exists lm. rewrite E. auto.
    + destruct Hl as [<-|[]]. auto.
  - assert (Dec : forall key0, (exists lm, In (key0, lm) o) \/ forall lm, ~ In (key0, lm) o).
    { intros key0. clear. induction o as [|[k0 l0] t IH]; [right; intros lm []|]. destruct (key_eqb key0 k0) eqn:Eq.
      - apply key_eqb_iff in Eq. subst. left. exists l0. now left.
      - destruct IH as [(lm & I)|H]; [left; exists lm; now right|]. right. intros lm [E|I]; [|exact (H _ I)]. inversion E; subst.
        rewrite (proj2 (key_eqb_iff key0 key0) eq_refl) in Eq. discriminate. }
    intros [[E ->]|(lm & I & Hl)].
    + destruct (Dec key) as [(lm & I)|H].
      * exists (m_set x v lm). split; [|apply set_labels; auto]. apply o_set_in; auto. right. split; auto. left. exists lm; auto.
      * exists [(x, v)]. split; [|now left]. apply o_set_in; auto.
    + destruct (key_eqb (k, el) key) eqn:Eq.
      * apply key_eqb_iff in Eq. exists (m_set x v lm). split; [|apply set_labels; auto]. apply o_set_in; auto. right. split; auto. left. exists lm. rewrite <- Eq. auto.
      * exists lm. split; auto. apply o_set_in; auto. left. split; auto. intros E0. rewrite E0, (proj2 (key_eqb_iff key key) eq_refl) in Eq. discriminate.
Qed.

Lemma store_has k0 e0 rows : forall o, tidy o -> tidy (store N k0 e0 rows o) /\
  forall k el l, has (store N k0 e0 rows o) k el l <-> (k = k0 /\ el = e0 /\ In l (map fst rows)) \/ has o k el l.
Proof.
  unfold store. induction rows as [|r rows IH]; intros o T; cbn [fold_left map In].
  - split; auto. intros; tauto.
  - destruct (IH _ (o_set_tidy (k0, e0) (fst r) (snd r) o T)) as [T' H]. split; auto. intros k el l. rewrite H, o_set_has by auto. split.
    + intros [(-> & -> & I)|[[E ->]|Ho]]; auto. inversion E; auto.
    + intros [(-> & -> & [<-|I])|Ho]; auto.
Qed.
Lemma store_all_has atoms : forall k0 o, tidy o -> tidy (store_all N k0 atoms o) /\
  forall k el l, has (store_all N k0 atoms o) k el l <->
    (exists rows, k0 <= k /\ nth_error atoms (Z.to_nat (k - k0)) = Some (el, rows) /\ In l (map fst rows)) \/ has o k el l.
Proof.
  induction atoms as [|[e0 rows0] t IH]; intros k0 o T; cbn [store_all].
  - split; auto. intros. split; auto. intros [(rows & _ & E & _)|H]; auto. destruct (Z.to_nat (k - k0)); discriminate.
  - destruct (store_has k0 e0 rows0 o T) as [T1 H1]. destruct (IH (k0 + 1) _ T1) as [T2 H2]. split; auto.
    intros k el l. rewrite H2, H1. split.
    + intros [(rows & L & E & I)|[(-> & -> & I)|Ho]]; auto.
      * left. exists rows. split; [lia|]. replace (Z.to_nat (k - k0)) with (S (Z.to_nat (k - (k0 + 1)))) by lia. auto.
      * left. exists rows0. split; [lia|]. rewrite Z.sub_diag. auto.
    + intros [(rows & L & E & I)|Ho]; auto. destruct (Z.eq_dec k k0) as [->|Ne].
      * rewrite Z.sub_diag in E. cbn [Z.to_nat nth_error] in E. inversion E; subst. auto.
      * left. exists rows. split; [lia|]. replace (Z.to_nat (k - k0)) with (S (Z.to_nat (k - (k0 + 1)))) in E by lia. auto.
Qed.
Lemma effects_has items d d' : effects N items d d' -> tidy (orb_ N d) -> tidy (orb_ N d') /\
  forall k el l, has (orb_ N d') k el l <-> shown N items k el l \/ has (orb_ N d) k el l.
Proof.
  induction 1 as [|it t d d1 d2 He H IH]; intros T.
  - split; auto. intros. split; auto. intros [(? & ? & ? & ? & ? & ? & [] & _)|Ho]; auto.
  - assert (Sh : forall k el l, shown N (it :: t) k el l <-> shown N [it] k el l \/ shown N t k el l).
    { intros. unfold shown. split.
      - intros (h & a & ls & e & atoms & rows & [I|I] & R); [left|right]; exists h, a, ls, e, atoms, rows; split; auto; now left.
      - intros [(h & a & ls & e & atoms & rows & I & R)|(h & a & ls & e & atoms & rows & I & R)]; exists h, a, ls, e, atoms, rows; split; auto; [destruct I as [I|[]]; now left|now right]. }
    assert (One : tidy (orb_ N d1) /\ forall k el l, has (orb_ N d1) k el l <-> shown N [it] k el l \/ has (orb_ N d) k el l).
    { assert (Same : orb_ N d1 = orb_ N d -> ~ is_population N it -> tidy (orb_ N d1) /\ forall k el l, has (orb_ N d1) k el l <-> shown N [it] k el l \/ has (orb_ N d) k el l).
      { intros -> Np. split; auto. intros. split; auto. intros [(h & a & ls & e & atoms & rows & [I|[]] & _)|Ho]; auto. subst it. exfalso; apply Np; exact I. }
      destruct it as [| | | |h a ls e atoms]; cbn [effect] in He.
      - apply Same; [subst; auto|intros []].
      - apply Same; [subst; auto|intros []].
      - apply Same; [subst; auto|intros []].
      - apply Same; [destruct He as (m & _ & ->); auto|intros []].
      - subst d1. cbn [orb_]. destruct (store_all_has atoms 1 (orb_ N d) T) as [T1 H1]. split; auto. intros k el l. rewrite H1. split.
        + intros [(rows & L & E & I)|Ho]; auto. left. exists h, a, ls, e, atoms, rows. split; [now left|]. auto.
        + intros [(h' & a' & ls' & e' & atoms' & rows & [I|[]] & L & E & J)|Ho]; auto. injection I as _ _ _ _ <-. left. exists rows. auto. }
    destruct One as [T1 H1]. destruct (IH T1) as [T2 H2]. split; auto. intros k el l. rewrite H2, H1, Sh. tauto.
Qed.
End Tables.

(** ** C69: every file, any number of tables

    There is one count per different (atom number, element) shown in any table,
    ordered by number and then by element; it is the number of different labels
    shown for it in all tables together.  Two tables that disagree about an
    element therefore give more counts than there are atoms. *)
Theorem C69_exact_partial : forall N name r files content items, LogReader_new N name = Ok r -> files name = Some content -> log_file N items content ->
  exists bound, forall fuel, (bound <= fuel)%nat -> exists r' tab, log_read N files fuel r = Ok r' /\ tabulates N items tab /\
    getBasisFuncCount N r' = map (fun e => Z.of_nat (length (snd e))) tab.
Proof.
  intros N name r files content items Hn Hf Hl. exists (length content + 2)%nat. intros fuel Hfuel.
  destruct (read_log N name r files content _ fuel Hn Hf Hl Hfuel) as (r' & -> & E). exists r'. unfold getBasisFuncCount.
  apply effects_has in E; [|split; constructor]. destruct E as [[S F] H].
  match goal with |- context [map _ (orb_ N ?d)] => set (o := orb_ N d) in * end. clearbody o.
  exists (map (fun e => (fst e, map fst (snd e))) o). split; [auto|]. split; [|rewrite map_map; apply map_ext; intros [key lm]; cbn [snd]; now rewrite map_length].
  split; [rewrite map_map; exact S|]. split.
  - rewrite Forall_forall in *. intros x Hx. apply in_map_iff in Hx as ([key lm] & <- & I). destruct (F _ I) as [F1 F2]. cbn [fst snd] in *.
    split; [apply sorted_nodup; auto|]. destruct lm; [congruence|discriminate].
  - intros k el l.
    assert (H0 : has N o k el l <-> shown N items k el l).
    { rewrite H. split; auto. intros [X|(lm & [] & _)]; exact X. }
    rewrite <- H0. unfold has. split.
    + intros (ls & I & Hin). apply in_map_iff in I as ([key lm] & Q & I). inversion Q; subst. exists lm. auto.
    + intros (lm & I & Hin). exists (map fst lm). split; auto. apply in_map_iff. exists ((k, el), lm). auto.
Qed.
Print Assumptions C69_exact_partial.
(** the list is determined by the file, up to the order of the labels of one entry *)
Theorem C69_unique : forall N items tab tab', tabulates N items tab -> tabulates N items tab' ->
  map (fun e => (fst e, length (snd e))) tab = map (fun e => (fst e, length (snd e))) tab'.
Proof.
  intros N items tab tab' (S & F & H) (S' & F' & H').
  assert (G : forall k el l, (exists ls, In ((k, el), ls) tab /\ In l ls) <-> (exists ls, In ((k, el), ls) tab' /\ In l ls)) by (intros; rewrite H, H'; tauto).
  clear H H'. revert tab' S' F' G. induction tab as [|[[k el] ls] tab IH]; intros tab' S' F' G.
  - destruct tab' as [|[[k el] ls] tab']; auto. exfalso. inversion F' as [|? ? [_ F1] _]; subst. cbn [snd] in F1. destruct ls as [|l ls]; [congruence|].
    destruct (proj2 (G k el l)) as (? & [] & _). exists (l :: ls). split; now left.
  - destruct tab' as [|[[k' el'] ls'] tab'].
    + exfalso. inversion F as [|? ? [_ F1] _]; subst. cbn [snd] in F1. destruct ls as [|l ls]; [congruence|].
      destruct (proj1 (G k el l)) as (? & [] & _). exists (l :: ls). split; now left.
    + cbn [map fst] in S, S'. inversion S as [|? ? S1 S2]; subst. inversion S' as [|? ? S1' S2']; subst. rewrite Forall_forall in S2, S2'.
      inversion F as [|? ? [F0 F1] F2]; subst. inversion F' as [|? ? [F0' F1'] F2']; subst. cbn [snd] in *.
      assert (In1 : forall y lm, In (y, lm) tab -> key_before (k, el) y) by (intros y lm I; apply S2, (in_map fst _ _ I)).
      assert (In2 : forall y lm, In (y, lm) tab' -> key_before (k', el') y) by (intros y lm I; apply S2', (in_map fst _ _ I)).
      assert (K : (k, el) = (k', el')).
      { destruct ls as [|l ls]; [congruence|]. destruct ls' as [|l' ls']; [congruence|].
        destruct (proj1 (G k el l)) as (x & [X|X] & _); [exists (l :: ls); split; now left|congruence|].
        destruct (proj2 (G k' el' l')) as (x' & [X'|X'] & _); [exists (l' :: ls'); split; now left|congruence|].
        exfalso. exact (key_irrefl _ (key_trans _ _ _ (In1 _ _ X') (In2 _ _ X))). }
      inversion K; subst k' el'.
      assert (Ls : forall l, In l ls <-> In l ls').
      { intros l. split; intros I.
        - destruct (proj1 (G k el l)) as (x & [X|X] & J); [exists ls; split; auto; now left|inversion X; subst; auto|exfalso; exact (key_irrefl _ (In2 _ _ X))].
        - destruct (proj2 (G k el l)) as (x & [X|X] & J); [exists ls'; split; auto; now left|inversion X; subst; auto|exfalso; exact (key_irrefl _ (In1 _ _ X))]. }
      cbn [map fst snd]. f_equal.
      * f_equal. apply Nat.le_antisymm; apply NoDup_incl_length; auto; intros l I; apply Ls; auto.
      * apply IH; auto. intros k0 e0 l. split.
        -- intros (x & I & J). destruct (proj1 (G k0 e0 l)) as (y & [Y|Y] & J'); [exists x; split; auto; now right| |exists y; auto].
           inversion Y; subst. exfalso. exact (key_irrefl _ (In1 _ _ I)).
        -- intros (x & I & J). destruct (proj2 (G k0 e0 l)) as (y & [Y|Y] & J'); [exists x; split; auto; now right| |exists y; auto].
           inversion Y; subst. exfalso. exact (key_irrefl _ (In2 _ _ I)).
Qed.
Print Assumptions C69_unique.
Example C69_exact_example : log_file D ex_items ex_log /\
  tabulates D ex_items [((1, $"C"), [$"1S"; $"2S"; $"2PX"]); ((2, $"H"), [$"1S"])].
Proof.
  split; [exact ex_log_ok|]. split; [|split].
  - repeat constructor; cbn [fst snd]; lia.
  - repeat constructor; cbn [In]; intuition discriminate.
  - intros k el l. split.
    + intros (ls & [E|[E|[]]] & Hl); injection E as <- <- <-.
      * unfold shown, ex_items. do 4 eexists. exists ex_atoms, [($"1S", [(199222, -5)]); ($"2S", [(117000, -5)]); ($"2PX", [(100000, -5)])].
        split; [unfold ex_population; cbn [In]; do 6 right; left; reflexivity|]. split; [lia|]. split; [reflexivity|]. exact Hl.
      * unfold shown, ex_items. do 4 eexists. exists ex_atoms, [($"1S", [(49800, -5)])].
        split; [unfold ex_population; cbn [In]; do 6 right; left; reflexivity|]. split; [lia|]. split; [reflexivity|]. exact Hl.
    + intros (h & a & ls & e & atoms & rows & I & L & E & J). unfold ex_items, ex_coord, ex_overlap, ex_energies, ex_population in I. cbn [In] in I.
      repeat (destruct I as [I|I]; [discriminate I || (injection I as _ _ _ _ <-)|]); [|destruct I].
      destruct (Z.to_nat (k - 1)) as [|[|n]] eqn:Ek; cbn [nth_error ex_atoms] in E.
      * injection E as <- <-. eexists. split; [left; replace k with 1 by lia; reflexivity|exact J].
      * injection E as <- <-. eexists. split; [right; left; replace k with 2 by lia; reflexivity|exact J].
      * destruct n; discriminate E.
Qed.
