(** * What files contain, for two readings of the numbers in them

    If every text that the numbers [N1] accept is accepted by [N2] with a related
    value, then files that contain data for [N1] contain related data for [N2]. *)
From Verif Require Export MainSpec.
From Verif Require Export StrSpec StrModel.
Open Scope Z_scope.

Lemma Forall2_map_ex {A B C} (P : A -> B -> Prop) (Q : A -> C -> Prop) (R : B -> C -> Prop) xs ys :
  (forall x y, P x y -> exists z, Q x z /\ R y z) -> Forall2 P xs ys -> exists zs, Forall2 Q xs zs /\ Forall2 R ys zs.
Proof.
  intros H. induction 1 as [|x y xs ys HP _ (zs & IH1 & IH2)]; [exists []; split; constructor|].
  destruct (H x y HP) as (z & Q1 & R1). exists (z :: zs). split; constructor; auto.
Qed.
Lemma Forall2_len {A B} (P : A -> B -> Prop) xs ys : Forall2 P xs ys -> length xs = length ys.
Proof. induction 1; cbn [length]; auto. Qed.
Lemma Forall2_concat {A B} (P : A -> B -> Prop) xss yss : Forall2 (Forall2 P) xss yss -> Forall2 P (concat xss) (concat yss).
Proof. induction 1; cbn [concat]; [constructor|]. apply Forall2_app; auto. Qed.
Lemma Forall2_in_l {A B} (P : A -> B -> Prop) xs ys x : Forall2 P xs ys -> In x xs -> exists y, In y ys /\ P x y.
Proof. induction 1 as [|a b xs ys HP _ IH]; intros I; [destruct I|]; destruct I as [<-|I]; [exists b; split; [left; auto|auto]|]. destruct (IH I) as (y & ? & ?). exists y. split; [right; auto|auto]. Qed.
Lemma Forall2_in_r {A B} (P : A -> B -> Prop) xs ys y : Forall2 P xs ys -> In y ys -> exists x, In x xs /\ P x y.
Proof. induction 1 as [|a b xs ys HP _ IH]; intros I; [destruct I|]; destruct I as [<-|I]; [exists a; split; [left; auto|auto]|]. destruct (IH I) as (x & ? & ?). exists x. split; [right; auto|auto]. Qed.
Lemma Forall2_split {A B} (P : A -> B -> Prop) a x b ys : Forall2 P (a ++ x :: b) ys -> exists a' y b', ys = a' ++ y :: b' /\ Forall2 P a a' /\ P x y /\ Forall2 P b b'.
Proof.
  revert ys. induction a as [|c a IH]; intros ys H; cbn [app] in H.
  - inversion H as [|? y ? b' H1 H2]; subst. exists [], y, b'. repeat split; auto.
  - inversion H as [|? y ? ys' H1 H2]; subst. destruct (IH _ H2) as (a' & z & b' & -> & Q1 & Q2 & Q3). exists (y :: a'), z, b'. repeat split; auto.
Qed.

Section Para.
Context (N1 N2 : nums) (Rel : num N1 -> num N2 -> Prop).
Context (Hstod : forall s x, n_stod N1 s = Ok x -> exists y, n_stod N2 s = Ok y /\ Rel x y).
Context (Hatof : forall s, Rel (n_atof N1 s) (n_atof N2 s)).
Context (Hcoef : forall a b x y, n_stod N1 a = Ok x -> n_stod N1 b = Ok y ->
  exists x' y', n_stod N2 a = Ok x' /\ n_stod N2 b = Ok y' /\ Rel (n_mul N1 x (n_pow10 N1 y)) (n_mul N2 x' (n_pow10 N2 y'))).

Definition prel (p : num N1 * num N1 * num N1) (q : num N2 * num N2 * num N2) : Prop :=
  Rel (fst (fst p)) (fst (fst q)) /\ Rel (snd (fst p)) (snd (fst q)) /\ Rel (snd p) (snd q).
Lemma coord_para l p : coord_row N1 l p -> exists q, coord_row N2 l q /\ prel p q.
Proof.
  intros (L & T & a & b & c & x & y & z & rest & W & E1 & E2 & E3).
  destruct (Hstod _ _ E1) as (x' & X1 & X2). destruct (Hstod _ _ E2) as (y' & Y1 & Y2). destruct (Hstod _ _ E3) as (z' & Z1 & Z2).
  exists (x', y', z'). split; [|repeat split; auto]. split; [auto|]. split; [auto|]. exists a, b, c, x, y, z, rest. auto.
Qed.
Definition erel (d : bool * list (num N1)) (e : bool * list (num N2)) : Prop := fst d = fst e /\ Forall2 Rel (snd d) (snd e).
Lemma energy_para beta l d : energy_line N1 beta l d -> exists e, energy_line N2 beta l e /\ erel d e.
Proof.
  intros (L & M & ws & es & W & E & V). exists (fst d, map (n_atof N2) es). split.
  - split; [auto|]. split; [auto|]. exists ws, es. auto.
  - split; [reflexivity|]. rewrite V. cbn [snd]. clear V E W. induction es; constructor; auto.
Qed.
(** a function for the value of a D number *)
Fixpoint at_D (s : str) : str * str :=
  match s with [] => ([], []) | c :: t => if Ascii.eqb c "D" then ([], t) else let '(a, b) := at_D t in (c :: a, b) end.
Lemma at_D_first s a b : first_at $"D" s a b -> at_D s = (a, b).
Proof.
  intros (E & F). subst s. revert F. induction a as [|c a IH]; intros F.
  - cbn [app at_D list_ascii_of_string]. rewrite Ascii.eqb_refl. reflexivity.
  - cbn [app at_D]. destruct (Ascii.eqb_spec c "D") as [->|Nc].
    + exfalso. specialize (F [] (a ++ $"D" ++ b)). cbn [length app] in F. specialize (F eq_refl). lia.
    + rewrite IH; [reflexivity|]. intros x y Exy. specialize (F (c :: x) y). cbn [app length] in F. rewrite Exy in F. specialize (F eq_refl). lia.
Qed.
Definition d_value (s : str) : num N2 :=
  let '(a, b) := at_D s in match n_stod N2 a, n_stod N2 b with Ok x, Ok y => n_mul N2 x (n_pow10 N2 y) | _, _ => n_zero N2 end.
Lemma coef_para s v : coef_text N1 s v -> coef_text N2 s (d_value s) /\ Rel v (d_value s).
Proof.
  intros (a & b & x & y & F & Ex & Ey & ->). destruct (Hcoef _ _ _ _ Ex Ey) as (x' & y' & X & Y & H).
  assert (E : d_value s = n_mul N2 x' (n_pow10 N2 y')) by (unfold d_value; rewrite (at_D_first _ _ _ F), X, Y; reflexivity).
  rewrite E. split; [|exact H]. exists a, b, x', y'. auto.
Qed.
Definition orel (n : Z) (v : Z -> Z -> num N1) (w : Z -> Z -> num N2) : Prop := forall i j, 1 <= j <= i -> i <= n -> Rel (v i j) (w i j).
Lemma overlap_para n v ls : overlap_table N1 n v ls -> exists w, overlap_table N2 n w ls /\ orel n v w.
Proof.
  intros (t & L & C). exists (fun i j => d_value (t i j)). split.
  - exists t. split; [auto|]. intros i j Hj Hi. exact (proj1 (coef_para _ _ (C i j Hj Hi))).
  - intros i j Hj Hi. exact (proj2 (coef_para _ _ (C i j Hj Hi))).
Qed.
Lemma stods_para ts vs : Forall2 (fun t v => n_stod N1 t = Ok v) ts vs -> exists ws, Forall2 (fun t v => n_stod N2 t = Ok v) ts ws.
Proof. intros H. destruct (Forall2_map_ex _ (fun t v => n_stod N2 t = Ok v) Rel _ _ Hstod H) as (ws & W & _). eauto. Qed.
(** the same atoms and labels *)
Definition arel (x : atom N1) (y : atom N2) : Prop := fst x = fst y /\ map fst (snd x) = map fst (snd y).
Lemma other_para l r : other_row N1 l r -> exists q, other_row N2 l q /\ fst r = fst q.
Proof.
  intros (L & O & (no & t & ts & T & F & A) & C). destruct (stods_para _ _ F) as (ws & W). exists (fst r, ws). split; [|reflexivity].
  split; [auto|]. split; [auto|]. split; [exists no, t, ts; auto|auto].
Qed.
Lemma population_para atoms ls : population N1 atoms ls -> exists atoms', population N2 atoms' ls /\ Forall2 arel atoms atoms'.
Proof.
  induction 1 as [|elem label vs rows l ls atoms lines F O P (atoms' & P' & R')]; [exists []; split; constructor|].
  destruct F as (L & Ov & (no & at_ & ts & T & F) & A & C). destruct (stods_para _ _ F) as (ws & W).
  destruct (Forall2_map_ex _ (other_row N2) (fun r q => fst r = fst q) _ _ other_para O) as (rows' & O' & Q).
  exists ((elem, (label, ws) :: rows') :: atoms'). split.
  - constructor; auto. split; [auto|]. split; [auto|]. split; [|auto]. exists no, at_, ts. auto.
  - constructor; [|auto]. split; [reflexivity|]. cbn [map snd fst]. f_equal. clear -Q. induction Q; cbn [map]; congruence.
Qed.
(** related items *)
Definition irel (i : item N1) (j : item N2) : Prop :=
  match i, j with
  | Other _ l, Other _ l' => l = l'
  | Coordinates _ h a b rows e ps, Coordinates _ h' a' b' rows' e' qs => (h, a, b, rows, e) = (h', a', b', rows', e') /\ Forall2 prel ps qs
  | Eigenvalues _ beta ls vs, Eigenvalues _ beta' ls' ws => beta = beta' /\ ls = ls' /\ Forall2 erel vs ws
  | Overlaps _ h ls after n v, Overlaps _ h' ls' after' n' w => (h, ls, after, n) = (h', ls', after', n') /\ orel n v w
  | Population _ h a ls e atoms, Population _ h' a' ls' e' atoms' => (h, a, ls, e) = (h', a', ls', e') /\ Forall2 arel atoms atoms'
  | _, _ => False
  end.
Lemma item_para it rest tail : item_ok N1 it rest tail -> exists jt, item_ok N2 jt rest tail /\ irel it jt /\ item_lines N2 jt = item_lines N1 it.
Proof.
  destruct it as [l|h a b rows e ps|beta ls vs|h ls after n v|h a ls e atoms]; cbn [item_ok].
  - intros H. exists (Other N2 l). cbn [item_ok irel item_lines]. auto.
  - intros (H1 & H2 & H3 & H4 & H5 & H6). destruct (Forall2_map_ex _ _ prel _ _ coord_para H5) as (qs & Q1 & Q2).
    exists (Coordinates N2 h a b rows e qs). cbn [item_ok irel item_lines]. split; [tauto|]. split; [auto|reflexivity].
  - intros (H1 & H2 & H3). destruct (Forall2_map_ex _ _ erel _ _ (energy_para beta) H2) as (ws & W1 & W2).
    exists (Eigenvalues N2 beta ls ws). cbn [item_ok irel item_lines]. split; [tauto|]. split; [auto|reflexivity].
  - intros (H1 & H2 & H3 & H4 & H5 & H6). destruct (overlap_para _ _ _ H5) as (w & W1 & W2).
    exists (Overlaps N2 h ls after n w). cbn [item_ok irel item_lines]. split; [tauto|]. split; [auto|reflexivity].
  - intros (H1 & H2 & H3 & H4 & H5 & H6). destruct (population_para _ _ H5) as (atoms' & P1 & P2).
    exists (Population N2 h a ls e atoms'). cbn [item_ok irel item_lines]. split; [|split; [auto|reflexivity]].
    assert (atoms' <> []) by (intros ->; inversion P2; subst; auto). tauto.
Qed.
Lemma log_lines_para tail items lines : log_lines N1 tail items lines -> exists items', log_lines N2 tail items' lines /\ Forall2 irel items items'.
Proof.
  induction 1 as [|it items lines H _ (items' & L & R)]; [exists []; split; constructor|]. destruct (item_para _ _ _ H) as (jt & J1 & J2 & J3).
  exists (jt :: items'). split; [rewrite <- J3; constructor; auto|constructor; auto].
Qed.
Lemma last_para (P : item N1 -> Prop) (Q : item N2 -> Prop) items items' it : (forall i j, irel i j -> P i <-> Q j) -> Forall2 irel items items' ->
  last_item N1 P items it -> exists jt, last_item N2 Q items' jt /\ irel it jt.
Proof.
  intros PQ F (a & b & -> & Hit & Hb). destruct (Forall2_split _ _ _ _ _ F) as (a' & jt & b' & -> & F1 & F2 & F3).
  exists jt. split; [|auto]. exists a', b'. split; [auto|]. split; [apply (PQ _ _ F2); auto|]. intros jt' I K.
  destruct (Forall2_in_r _ _ _ _ F3 I) as (it' & I1 & I2). apply (Hb it' I1). apply (PQ _ _ I2). exact K.
Qed.
Lemma irel_coordinates i j : irel i j -> is_coordinates N1 i <-> is_coordinates N2 j.
Proof. destruct i, j; cbn; tauto. Qed.
Lemma irel_overlaps i j : irel i j -> is_overlaps N1 i <-> is_overlaps N2 j.
Proof. destruct i, j; cbn; tauto. Qed.
Lemma irel_population i j : irel i j -> is_population N1 i <-> is_population N2 j.
Proof. destruct i, j; cbn; tauto. Qed.
Lemma irel_eigenvalues beta i j : irel i j -> is_eigenvalues N1 beta i <-> is_eigenvalues N2 beta j.
Proof. destruct i, j; cbn; try tauto. intros (-> & _ & _). tauto. Qed.
Lemma erel_all vs ws : Forall2 erel vs ws -> Forall2 Rel (concat (map snd vs)) (concat (map snd ws)) /\
  length (concat (map snd (filter fst vs))) = length (concat (map snd (filter fst ws))).
Proof.
  induction 1 as [|v w vs ws [E F] _ [IH1 IH2]]; [split; [constructor|reflexivity]|]. cbn [map concat filter]. split; [apply Forall2_app; auto|].
  rewrite <- E. destruct (fst v); [|auto]. cbn [map concat]. rewrite !app_length, IH2, (Forall2_len _ _ _ F). reflexivity.
Qed.
Lemma arel_lengths xs ys : Forall2 arel xs ys -> map (fun x => Z.of_nat (length (snd x))) xs = map (fun y => Z.of_nat (length (snd y))) ys.
Proof. induction 1 as [|x y xs ys [_ E] _ IH]; [reflexivity|]. cbn [map]. rewrite IH. f_equal. f_equal. rewrite <- (map_length fst (snd x)), <- (map_length fst (snd y)), E. reflexivity. Qed.
Lemma same_basis_para a b a' b' : Forall2 arel a a' -> Forall2 arel b b' -> same_basis N1 a b -> same_basis N2 a' b'.
Proof.
  intros Fa Fb H. revert a' b' Fa Fb. induction H as [|x y a b [H1 H2] _ IH]; intros a' b' Fa Fb; inversion Fa as [|? x' ? ? [A1 A2] A3]; inversion Fb as [|? y' ? ? [B1 B2] B3]; subst; constructor.
  - split; congruence.
  - apply IH; auto.
Qed.
Lemma distinct_para a a' : Forall2 arel a a' -> distinct_labels N1 a -> distinct_labels N2 a'.
Proof.
  unfold distinct_labels. induction 1 as [|x y a a' [_ E] _ IH]; intros H; [constructor|]. inversion H; subst. constructor; [rewrite <- E; auto|auto].
Qed.

Context (disk : str -> option str).
Lemma log_para name k items en occ pts ba : log_says N1 disk name k items en occ pts ba ->
  exists items' en' pts', log_says N2 disk name k items' en' occ pts' ba /\ Forall2 irel items items' /\ Forall2 Rel en en' /\ Forall2 prel pts pts'.
Proof.
  intros [H1 (content & Hd & lines & tail & Ec & Tl & Tm & H2) (ls & vs & H3 & -> & ->) (h & a & b & rows & e & H4) H5].
  destruct (log_lines_para _ _ _ H2) as (items' & L & F).
  destruct (last_para _ (is_eigenvalues N2 (is_beta k)) _ _ _ (irel_eigenvalues (is_beta k)) F H3) as (jt & J1 & J2).
  destruct (last_para _ (is_coordinates N2) _ _ _ irel_coordinates F H4) as (ct & C1 & C2).
  destruct jt as [|?|beta' ls' ws|?|?]; cbn [irel] in J2; try contradiction. destruct J2 as (<- & <- & Ew).
  destruct ct as [|h' a' b' rows' e' qs|?|?|?]; cbn [irel] in C2; try contradiction. destruct C2 as (_ & Eq).
  destruct (erel_all _ _ Ew) as [W1 W2].
  exists items', (concat (map snd ws)), qs. split; [|auto]. constructor.
  - auto.
  - exists content. split; [auto|]. exists lines, tail. auto.
  - exists ls, ws. split; [auto|]. split; [auto|]. rewrite W2. reflexivity.
  - exists h', a', b', rows', e'. auto.
  - destruct H5 as [(h0 & a0 & ls0 & e0 & atoms & I0 & I1 & I2)|[H5 H6]]; [left|right].
    + destruct (Forall2_in_l _ _ _ _ F I0) as (jt & K1 & K2). destruct jt as [|?|?|?|h1 a1 ls1 e1 atoms1]; cbn [irel] in K2; try contradiction. destruct K2 as (_ & K2).
      exists h1, a1, ls1, e1, atoms1. split; [auto|]. split; [|rewrite I2; apply arel_lengths; auto].
      intros h2 a2 ls2 e2 atoms2 I3. destruct (Forall2_in_r _ _ _ _ F I3) as (it & M1 & M2). destruct it as [|?|?|?|h3 a3 ls3 e3 atoms3]; cbn [irel] in M2; try contradiction. destruct M2 as (_ & M2).
      destruct (I1 _ _ _ _ _ M1) as [S1 S2]. split; [eapply same_basis_para; eauto|eapply distinct_para; eauto].
    + split; [|auto]. intros jt I K. destruct (Forall2_in_r _ _ _ _ F I) as (it & M1 & M2). apply (H5 it M1). apply (irel_population _ _ M2). exact K.
Qed.
Lemma overlap_says_para items items' n v : Forall2 irel items items' -> overlap_says N1 items n v -> exists w, overlap_says N2 items' n w /\ orel n v w.
Proof.
  intros F (h & ls & after & H). destruct (last_para _ (is_overlaps N2) _ _ _ irel_overlaps F H) as (jt & J1 & J2).
  destruct jt as [|?|?|h' ls' after' n' w|?]; cbn [irel] in J2; try contradiction. destruct J2 as (E & W).
  assert (n = n') as <- by exact (f_equal snd E). exists w. split; [|auto]. exists h', ls', after'. auto.
Qed.

(** pun files *)
Lemma field_para f v : field N1 f v -> exists w, field N2 f w /\ Rel v w.
Proof.
  intros (L & m & e & x & y & S1 & S2 & E1 & E2 & ->). destruct (Hcoef _ _ _ _ E1 E2) as (x' & y' & X & Y & R). eexists. split; [|exact R].
  split; [auto|]. exists m, e, x', y'. auto.
Qed.
Lemma coef_line_para l vs : coef_line N1 l vs -> exists ws, coef_line N2 l ws /\ Forall2 Rel vs ws.
Proof.
  intros (L & O & B & Nv & fs & rest & E & R & F). destruct (Forall2_map_ex _ _ Rel _ _ field_para F) as (ws & W1 & W2). exists ws. split; [|auto].
  split; [auto|]. split; [auto|]. split; [auto|]. split; [intros ->; inversion W2; subst; auto|]. exists fs, rest. auto.
Qed.
Lemma orbital_para ls row : orbital N1 ls row -> exists row', orbital N2 ls row' /\ Forall2 Rel row row'.
Proof.
  intros (vss & F & -> & Nr). destruct (Forall2_map_ex _ _ (Forall2 Rel) _ _ coef_line_para F) as (wss & W1 & W2). pose proof (Forall2_concat _ _ _ W2) as Q. exists (concat wss). split; [|auto].
  exists wss. split; [auto|]. split; [auto|]. intros E. rewrite E in Q. inversion Q. auto.
Qed.
Lemma orbitals_para spin n lines rows : orbitals N1 spin n lines rows -> exists rows', orbitals N2 spin n lines rows' /\ Forall2 (Forall2 Rel) rows rows'.
Proof.
  induction 1 as [|h ls row lines rows Hh H1 H2 H3 H4 _ (rows' & IH1 & IH2)]; [exists []; split; constructor|].
  destruct (orbital_para _ _ H3) as (row' & R1 & R2). exists (row' :: rows'). split; [|constructor; auto]. constructor; auto. rewrite <- (Forall2_len _ _ _ R2). auto.
Qed.
Definition pirel (i : pitem N1) (j : pitem N2) : Prop :=
  match i, j with
  | POther _ l, POther _ l' => l = l'
  | Coefs _ k h ls after rows, Coefs _ k' h' ls' after' rows' => k = k' /\ (h, ls, after) = (h', ls', after') /\ Forall2 (Forall2 Rel) rows rows'
  | _, _ => False
  end.
Lemma pitem_para it rest tail : pitem_ok N1 it rest tail -> exists jt, pitem_ok N2 jt rest tail /\ pirel it jt /\ pitem_lines N2 jt = pitem_lines N1 it.
Proof.
  destruct it as [l|k h ls after rows]; cbn [pitem_ok].
  - intros H. exists (POther N2 l). cbn [pitem_ok pirel pitem_lines]. auto.
  - intros (H1 & H2 & H3 & (ls1 & row1 & ls2 & rows2 & E1 & E2 & E3 & E4) & H5 & H6 & H7 & H8).
    destruct (orbital_para _ _ E3) as (row1' & O1 & O2). destruct (orbitals_para _ _ _ _ E4) as (rows2' & O3 & O4).
    pose proof (Forall2_len _ _ _ O2) as L1. pose proof (Forall2_len _ _ _ O4) as L2. subst rows. cbn [length hd] in *.
    exists (Coefs N2 k h ls after (row1' :: rows2')). cbn [pitem_ok pirel pitem_lines length hd]. split; [|split; [split; [auto|split; [auto|constructor; auto]]|auto]].
    split; [auto|]. split; [auto|]. split; [auto|]. split.
    + exists ls1, row1', ls2, rows2'. split; [auto|]. split; [auto|]. split; [auto|]. rewrite <- L1. auto.
    + rewrite <- L1, <- L2. auto.
Qed.
Lemma pun_lines_para tail items lines : pun_lines N1 tail items lines -> exists items', pun_lines N2 tail items' lines /\ Forall2 pirel items items'.
Proof.
  induction 1 as [|it items lines H _ (items' & L & R)]; [exists []; split; constructor|]. destruct (pitem_para _ _ _ H) as (jt & J1 & J2 & J3).
  exists (jt :: items'). split; [rewrite <- J3; constructor; auto|constructor; auto].
Qed.
Lemma pun_para name k rows : pun_says N1 disk name k rows -> exists rows', pun_says N2 disk name k rows' /\ Forall2 (Forall2 Rel) rows rows'.
Proof.
  intros (O & content & items & Hd & (lines & tail & Ec & T1 & T2 & L) & (a & b & h & ls & after & -> & Hb)).
  destruct (pun_lines_para _ _ _ L) as (items' & L' & F). destruct (Forall2_split _ _ _ _ _ F) as (a' & jt & b' & -> & F1 & F2 & F3).
  destruct jt as [|k' h' ls' after' rows']; cbn [pirel] in F2; [contradiction|]. destruct F2 as (<- & _ & F2).
  exists rows'. split; [|auto]. split; [auto|]. eexists content, _. split; [auto|]. split; [exists lines, tail; eauto|].
  exists a', b', h', ls', after'. split; [reflexivity|]. intros h2 ls2 after2 rows2 I. destruct (Forall2_in_r _ _ _ _ F3 I) as (it & I1 & I2).
  destruct it as [|k3 h3 ls3 after3 rows3]; cbn [pirel] in I2; [contradiction|]. destruct I2 as (-> & _). apply (Hb _ _ _ _ I1).
Qed.

(** ** the six files *)
Record drel (d : data N1) (e : data N2) : Prop := {
  dr_c1 : Forall2 (Forall2 Rel) (coef1 N1 d) (coef1 N2 e); dr_c2 : Forall2 (Forall2 Rel) (coef2 N1 d) (coef2 N2 e); dr_cP : Forall2 (Forall2 Rel) (coefP N1 d) (coefP N2 e);
  dr_e1 : Forall2 Rel (en1 N1 d) (en1 N2 e); dr_e2 : Forall2 Rel (en2 N1 d) (en2 N2 e); dr_eP : Forall2 Rel (enP N1 d) (enP N2 e);
  dr_o1 : occ1 N1 d = occ1 N2 e; dr_o2 : occ2 N1 d = occ2 N2 e; dr_oP : occP N1 d = occP N2 e;
  dr_a1 : Forall2 prel (at1 N1 d) (at1 N2 e); dr_a2 : Forall2 prel (at2 N1 d) (at2 N2 e); dr_aP : Forall2 prel (atP N1 d) (atP N2 e);
  dr_b1 : ba1 N1 d = ba1 N2 e; dr_b2 : ba2 N1 d = ba2 N2 e; dr_bP : baP N1 d = baP N2 e;
  dr_n : size N1 d = size N2 e; dr_S : orel (size N1 d) (over N1 d) (over N2 e) }.
Lemma contain_para p d : contain N1 disk p d -> exists e, contain N2 disk p e /\ drel d e.
Proof.
  intros (k1 & k2 & kP & i1 & i2 & iP & S1 & S2 & SP & P1 & P2 & PP & L1 & L2 & LP & O).
  destruct (pun_para _ _ _ P1) as (c1 & C1 & C1'). destruct (pun_para _ _ _ P2) as (c2 & C2 & C2'). destruct (pun_para _ _ _ PP) as (cP & CP & CP').
  destruct (log_para _ _ _ _ _ _ _ L1) as (i1' & e1 & a1 & M1 & _ & M1' & M1''). destruct (log_para _ _ _ _ _ _ _ L2) as (i2' & e2 & a2 & M2 & _ & M2' & M2'').
  destruct (log_para _ _ _ _ _ _ _ LP) as (iP' & eP & aP & MP & MF & MP' & MP''). destruct (overlap_says_para _ _ _ _ MF O) as (w & W1 & W2).
  exists (mkData N2 c1 c2 cP e1 e2 eP (occ1 N1 d) (occ2 N1 d) (occP N1 d) a1 a2 aP (ba1 N1 d) (ba2 N1 d) (baP N1 d) (size N1 d) w). split.
  - exists k1, k2, kP, i1', i2', iP'. cbn [coef1 coef2 coefP en1 en2 enP occ1 occ2 occP at1 at2 atP ba1 ba2 baP size over]. repeat (split; [assumption|]). assumption.
  - constructor; auto.
Qed.
Lemma width_rel r r' : Forall2 (Forall2 Rel) r r' -> width N1 r = width N2 r'.
Proof. intros H. unfold width. inversion H as [|? ? ? ? H1 _]; [reflexivity|]. cbn [hd]. rewrite (Forall2_len _ _ _ H1). reflexivity. Qed.
Lemma count_rel {A B} (P : A -> B -> Prop) l l' : Forall2 P l l' -> count l = count l'.
Proof. intros H. unfold count. rewrite (Forall2_len _ _ _ H). reflexivity. Qed.
Lemma belong_para cp d e : drel d e -> belong N1 cp d -> belong N2 cp e.
Proof.
  intros R [H1 H2 H3 H4 H5 H6]. destruct R.
  constructor; rewrite <- ?(count_rel _ _ _ dr_e3), <- ?(count_rel _ _ _ dr_e4), <- ?(count_rel _ _ _ dr_eP0), <- ?(count_rel _ _ _ dr_c3), <- ?(count_rel _ _ _ dr_c4), <- ?(count_rel _ _ _ dr_cP0),
    <- ?(count_rel _ _ _ dr_a3), <- ?(count_rel _ _ _ dr_a4), <- ?(count_rel _ _ _ dr_aP0), <- ?(width_rel _ _ dr_c3), <- ?(width_rel _ _ dr_c4), <- ?(width_rel _ _ dr_cP0), <- ?dr_n0; auto.
Qed.
Lemma rows_para p d e r1 r2 : drel d e -> rows_asked N1 p d r1 r2 -> rows_asked N2 p e r1 r2.
Proof. intros R [H1 H2]. destruct R. split; rewrite <- ?(count_rel _ _ _ dr_e3), <- ?(count_rel _ _ _ dr_e4), <- ?dr_o3, <- ?dr_o4; auto. Qed.
End Para.
