(** * Sections that do not occur in a file: whatever the file contains *)
From Verif Require Export ArgsFacts ReaderFacts ReaderMissingSpec.
Open Scope Z_scope.

Definition same_text (f f' : fstate) : Prop := s_all (fid f') = s_all (fid f).
Lemma same_text_refl f : same_text f f. Proof. reflexivity. Qed.
Lemma same_text_trans f g h : same_text f g -> same_text g h -> same_text f h. Proof. unfold same_text. congruence. Qed.
Lemma take_while_split (p : ascii -> bool) s : exists r, s = take_while p s ++ r.
Proof. induction s as [|c t [r IH]]; [exists []; reflexivity|]. cbn [take_while]. destruct (p c); [exists r; cbn; congruence|exists (c :: t); reflexivity]. Qed.
Lemma getl_text f l l' f' : getl f l = (l', f') -> same_text f f' /\ (l' = l \/ occurs l' (s_all (fid f))).
Proof.
  unfold getl, s_getline, same_text. destruct (s_good (fid f)); cbn [negb]; [|intros E; inversion E; subst; cbn; auto].
  destruct (skipn (s_pos (fid f)) (s_all (fid f))) as [|c t] eqn:Sk.
  - intros E; inversion E; subst. cbn. split; auto. right. exists [], (s_all (fid f)). reflexivity.
  - intros E. destruct (take_while_split (fun c => negb (Ascii.eqb c nl)) (c :: t)) as (r & Er).
    assert (O : occurs (take_while (fun c => negb (Ascii.eqb c nl)) (c :: t)) (s_all (fid f))).
    { exists (firstn (s_pos (fid f)) (s_all (fid f))), r. rewrite <- Er, <- Sk. symmetry. apply firstn_skipn. }
    destruct (_ <? _)%nat; inversion E; subst; cbn [fid s_all]; auto.
Qed.
Lemma getl_same f l : same_text f (snd (getl f l)).
Proof. destruct (getl f l) as [l' f'] eqn:E. eapply getl_text; eauto. Qed.
Lemma tell_text f : same_text f (tell f).
Proof. unfold tell, s_tellg, same_text. destruct (s_good (fid f)); reflexivity. Qed.
Lemma seek_text f : same_text f (seek f).
Proof. unfold seek, s_seekg, same_text. destruct (s_fail (fid f)); [reflexivity|]. destruct (pos_ f); reflexivity. Qed.
Lemma for_up_keeps {S} (P : S -> Prop) body lo hi s s' : (forall i t t', body i t = Ok t' -> P t -> P t') ->
  for_up lo hi body s = Ok s' -> P s -> P s'.
Proof.
  intros H. unfold for_up. generalize (Z.to_nat (hi - lo + 1)). intros n. revert lo s. induction n as [|n IH]; intros lo s E Ps.
  - cbn in E. injection E as <-. exact Ps.
  - cbn in E. apply bind_ok in E as (t & E1 & E). eapply IH; eauto.
Qed.

Section Missing.
Context (N : nums).
Ltac bk H := let x := fresh "x" in apply bind_ok in H as (x & ?H & H).
Ltac gl H := match type of H with context [getl ?f ?l] => let E := fresh "G" in pose proof (getl_same f l) as E; destruct (getl f l) as [? ?]; cbn [snd] in E end.
Ltac nx H := match type of H with context [next ?i ?w] => destruct (next i w) as [? ?] end.
Ltac chain := repeat match goal with H : same_text ?a ?b |- same_text ?a _ => eapply same_text_trans; [exact H|]; clear H end; apply same_text_refl.

Lemma ao_inner_text fuel : forall line e o an et f orb x, ao_inner N fuel line e o an et f orb = Ok x -> same_text f (snd (fst x)).
Proof.
  induction fuel as [|n IH]; intros line e o an et f orb x H; [discriminate|]. cbn [ao_inner] in H.
  destruct (isAlphabetical e); [injection H as <-; apply same_text_refl|]. do 2 nx H. bk H. gl H. do 3 nx H.
  destruct (foundSubStrInStr _ _); [injection H as <-; exact G|]. eapply same_text_trans; [exact G|]. eapply IH; eauto.
Qed.
Lemma ao_outer_text fuel : forall line an f orb x, ao_outer N fuel line an f orb = Ok x -> same_text f (fst x).
Proof.
  induction fuel as [|n IH]; intros line an f orb x H; [discriminate|]. cbn [ao_outer] in H.
  do 4 nx H. bk H. gl H. bk H. bk H. bk H. destruct x3 as [[[l2 se] f2] orb2]. apply ao_inner_text in H3. cbn [fst snd] in H3.
  destruct (se || _); [injection H as <-; cbn; eapply same_text_trans; eauto|]. apply IH in H.
  eapply same_text_trans; [exact G|]. eapply same_text_trans; [exact H3|exact H].
Qed.
Lemma ov_first_text fuel : forall f line c k acc x, ov_first N fuel f line c k acc = Ok x -> same_text f (fst (fst (fst x))).
Proof.
  induction fuel as [|n IH]; intros f line c k acc x H; [discriminate|]. cbn [ov_first] in H.
  gl H. nx H. bk H. destruct (negb _); [injection H as <-; exact G|]. bk H. eapply same_text_trans; [exact G|]. eapply IH; eauto.
Qed.
Lemma oe_loop_text fuel : forall ty f line oe h x, oe_loop N fuel ty f line oe h = Ok x -> same_text f (fst (fst x)).
Proof.
  induction fuel as [|n IH]; intros ty f line oe h x H; [discriminate|]. cbn [oe_loop] in H.
  gl H. destruct (s_fail _); [injection H as <-; exact G|]. destruct (_ || _); [|injection H as <-; exact G].
  bk H. eapply same_text_trans; [exact G|]. eapply same_text_trans; [apply tell_text|]. eapply IH; eauto.
Qed.
Lemma coord_loop_text fuel : forall f line X Y Z x, coord_loop N fuel f line X Y Z = Ok x -> same_text f (fst x).
Proof.
  induction fuel as [|n IH]; intros f line X Y Z x H; [discriminate|]. cbn [coord_loop] in H.
  destruct (foundSubStrInStr _ _); [injection H as <-; apply same_text_refl|]. do 6 bk H. gl H. eapply same_text_trans; [exact G|]. eapply IH; eauto.
Qed.
Lemma coef_inner_text fuel : forall f line row b k x, coef_inner N fuel f line row b k = Ok x -> same_text f (snd (fst x)).
Proof.
  induction fuel as [|n IH]; intros f line row b k x H; [discriminate|]. cbn [coef_inner] in H.
  destruct (foundSubStrInStr _ _); [injection H as <-; apply same_text_refl|]. destruct (_ && _); [injection H as <-; apply same_text_refl|].
  bk H. gl H. eapply same_text_trans; [exact G|]. eapply IH; eauto.
Qed.
Lemma coef_outer_text fuel : forall ty f b k acc x, coef_outer N fuel ty f b k acc = Ok x -> same_text f (fst x).
Proof.
  induction fuel as [|n IH]; intros ty f b k acc x H; [discriminate|]. cbn [coef_outer] in H.
  gl H. bk H. destruct x0 as [[l2 f2] row]. apply coef_inner_text in H0. cbn [fst snd] in H0. 
  destruct (foundSubStrInStr _ _); [|injection H as <-; cbn; eapply same_text_trans; eauto].
  eapply same_text_trans; [exact G|]. eapply same_text_trans; [exact H0|]. eapply IH; eauto.
Qed.

(** what a section of kind [k] can change *)
Definition only (k : kind) (d d' : logd N) : Prop :=
  (k <> KPopulation -> orb_ N d' = orb_ N d) /\ (k <> KCoordinates -> xyz N d' = xyz N d) /\ (k <> KOverlap -> S_ N d' = S_ N d) /\
  (forall beta, k <> (if beta : bool then KBeta else KAlpha) -> m_find (spin_name beta) (OREnergies N d') = m_find (spin_name beta) (OREnergies N d) /\
     m_find (spin_name beta) (homoLevel N d') = m_find (spin_name beta) (homoLevel N d)).
Lemma section_only fuel k f d f' d' : log_section N fuel (tag_of k) f d = Ok (f', d') -> same_text f f' /\ only k d d'.
Proof.
  intros H. destruct k; cbn [tag_of] in H.
  - change (log_section N fuel $"AOFunction" f d) with (AOFunctionSectionReader N fuel f d) in H. unfold AOFunctionSectionReader in H.
    gl H. gl H. bk H. destruct x as [fz o2]. injection H as <- <-. apply ao_outer_text in H0. cbn [fst] in H0. split; [chain|].
    split; [congruence|]. cbn. auto.
  - change (log_section N fuel $"Coord" f d) with (CoordSectionReader N fuel f d) in H. unfold CoordSectionReader in H.
    gl H. gl H. gl H. bk H. destruct x as [fz o2]. injection H as <- <-. apply coord_loop_text in H0. cbn [fst] in H0. split; [chain|].
    split; [auto|]. split; [congruence|]. cbn. auto.
  - change (log_section N fuel $"OEAlpha" f d) with (ReadOrbEnergies N fuel $"Alpha" f d) in H. unfold ReadOrbEnergies in H.
    bk H. destruct x as [[fz oe] h]. injection H as <- <-. apply oe_loop_text in H0. cbn [fst] in H0. pose proof (seek_text f) as S1. pose proof (seek_text fz) as S2. split; [chain|].
    split; [auto|]. split; [auto|]. split; [auto|]. intros [|] Q; [|congruence]. cbn [OREnergies homoLevel]. rewrite !find_set_ne by discriminate. auto.
  - change (log_section N fuel $"OEBeta" f d) with (ReadOrbEnergies N fuel $"Beta" f d) in H. unfold ReadOrbEnergies in H.
    bk H. destruct x as [[fz oe] h]. injection H as <- <-. apply oe_loop_text in H0. cbn [fst] in H0. pose proof (seek_text f) as S1. pose proof (seek_text fz) as S2. split; [chain|].
    split; [auto|]. split; [auto|]. split; [auto|]. intros [|] Q; [congruence|]. cbn [OREnergies homoLevel]. rewrite !find_set_ne by discriminate. auto.
  - change (log_section N fuel $"Overlap" f d) with (OverlapSectionReader N fuel f d) in H. unfold OverlapSectionReader in H.
    gl H. bk H. destruct x as [[[fz lz] k2] c2]. apply ov_first_text in H0. cbn [fst] in H0. bk H. bk H. cbv zeta in H. bk H. destruct x1 as [[fy l3] m3]. injection H as <- <-.
    assert (Q : same_text fz fy).
    { assert (P : (fun p : fstate * str * mat (num N) => same_text fz (fst (fst p))) (fy, l3, m3)); [|exact P].
      eapply (for_up_keeps (fun p : fstate * str * mat (num N) => same_text fz (fst (fst p)))); [|exact H3|apply same_text_refl]. clear. intros i [[fa la] ma] [[fb lb] mb] E P. cbn [fst] in *.
      bk E. destruct x as [[fc lc] mc]. gl E. injection E as <- <- <-. eapply same_text_trans; [|exact G]. clear G.
      assert (P2 : (fun p : fstate * str * mat (num N) => same_text fz (fst (fst p))) (fc, lc, mc)); [|exact P2].
      eapply (for_up_keeps (fun p : fstate * str * mat (num N) => same_text fz (fst (fst p)))); [|exact E0|exact P]. clear. intros j [[fa la] ma] [[fb lb] mb] E P. cbn [fst] in *.
      gl E. nx E. bk E. injection E as <- <- <-. eapply same_text_trans; [exact P|exact G]. }
    split; [chain|]. split; [auto|]. split; [auto|]. split; [congruence|]. cbn. auto.
Qed.

Lemma occurs_trans a b c : occurs a b -> occurs b c -> occurs a c.
Proof. intros (x & y & ->) (z & w & ->). exists (z ++ x), (y ++ w). now rewrite <- !app_assoc. Qed.
Lemma marks_nonempty k p : In p (marks k) -> p <> [].
Proof. destruct k; cbn; intuition (subst; discriminate). Qed.

(** nothing of kind [k] changed *)
Definition kept (k : kind) (d d' : logd N) : Prop :=
  match k with
  | KPopulation => orb_ N d' = orb_ N d
  | KCoordinates => xyz N d' = xyz N d
  | KOverlap => S_ N d' = S_ N d
  | KAlpha => m_find $"Alpha" (OREnergies N d') = m_find $"Alpha" (OREnergies N d) /\ m_find $"Alpha" (homoLevel N d') = m_find $"Alpha" (homoLevel N d)
  | KBeta => m_find $"Beta" (OREnergies N d') = m_find $"Beta" (OREnergies N d) /\ m_find $"Beta" (homoLevel N d') = m_find $"Beta" (homoLevel N d)
  end.
Lemma kept_refl k d : kept k d d. Proof. destruct k; cbn; auto. Qed.
Lemma kept_trans k a b c : kept k a b -> kept k b c -> kept k a c.
Proof. destruct k; cbn; intuition congruence. Qed.
Lemma only_kept k k' d d' : only k' d d' -> k' <> k -> kept k d d'.
Proof. intros (A & B & C & D) Q. destruct k; cbn; [auto|auto|apply (D false)|apply (D true)|auto]; auto. Qed.
Lemma start_kind l tag : startSection_ log_headers l = Some tag -> exists k, tag = tag_of k /\ has_mark k l.
Proof.
  intros H. apply start_some in H as (a & ps & b & E & (p & Ip & Op) & _). 
  assert (I : In (tag, ps) log_headers) by (rewrite E; apply in_or_app; right; left; auto).
  rewrite log_headers_eq in I. apply in_map_iff in I as (k & E2 & _). injection E2 as <- <-. exists k. split; [auto|]. exists p. auto.
Qed.
Lemma loop_kept k fuel : forall f line d f' d', absent k (s_all (fid f)) -> (line = [] \/ occurs line (s_all (fid f))) ->
  read_loop log_headers (log_section N) fuel f line d = Ok (f', d') -> kept k d d'.
Proof.
  induction fuel as [|n IH]; intros f line d f' d' Ab Ln H; [discriminate|]. cbn [read_loop] in H.
  destruct (getl f line) as [l1 f1] eqn:G. apply getl_text in G as [St Lo].
  assert (Ln1 : l1 = [] \/ occurs l1 (s_all (fid f))) by (destruct Lo as [->|Lo]; auto).
  destruct (s_fail (fid f1)); [injection H as <- <-; apply kept_refl|]. bk H. destruct x as [f2 d2].
  assert (Q : same_text f1 f2 /\ kept k d d2).
  { destruct (startSection_ log_headers l1) as [tag|] eqn:Ss; [|injection H0 as <- <-; split; [apply same_text_refl|apply kept_refl]].
    apply start_kind in Ss as (k' & -> & p & Ip & Op). apply section_only in H0 as [T O]. split; [auto|].
    apply (only_kept k k'); auto. intros ->. destruct Ln1 as [->|Ln1].
    - destruct Op as (a & b & Op). destruct a; [|discriminate]. cbn in Op. destruct p; [|discriminate]. exact (marks_nonempty _ _ Ip eq_refl).
    - apply (Ab p Ip). eapply occurs_trans; eauto. }
  destruct Q as [T2 K2]. eapply kept_trans; [exact K2|].
  assert (T3 : s_all (fid (tell f2)) = s_all (fid f)). { pose proof (tell_text f2) as Tl. unfold same_text in *. congruence. }
  apply IH in H; [exact H| |]; rewrite T3; auto.
Qed.
Lemma read_kept k files r fuel r' t : files (lr_name N r) = Some t -> absent k t -> log_read N files fuel r = Ok r' -> kept k (lr_data N r) (lr_data N r').
Proof.
  intros Hf Ab H. unfold log_read, read in H. rewrite Hf in H. bk H. injection H as <-. bk H0. destruct x0 as [f' d']. injection H0 as <-. cbn [fst snd lr_data].
  eapply loop_kept; [| |eassumption]; cbn; auto.
Qed.

(** pun files *)
Lemma pun_loop_kept (beta : bool) fuel : forall f line c f' c', ~ occurs (pun_mark beta) (s_all (fid f)) -> (line = [] \/ occurs line (s_all (fid f))) ->
  read_loop pun_headers (pun_section N) fuel f line c = Ok (f', c') -> m_find (spin_name beta) c' = m_find (spin_name beta) c.
Proof.
  induction fuel as [|n IH]; intros f line c f' c' Ab Ln H; [discriminate|]. cbn [read_loop] in H.
  destruct (getl f line) as [l1 f1] eqn:G. apply getl_text in G as [St Lo].
  assert (Ln1 : l1 = [] \/ occurs l1 (s_all (fid f))) by (destruct Lo as [->|Lo]; auto).
  destruct (s_fail (fid f1)); [injection H as <- <-; auto|]. bk H. destruct x as [f2 c2].
  assert (Q : same_text f1 f2 /\ m_find (spin_name beta) c2 = m_find (spin_name beta) c).
  { destruct (startSection_ pun_headers l1) as [tag|] eqn:Ss; [|injection H0 as <- <-; split; [apply same_text_refl|auto]].
    assert (K : exists b, tag = (if b : bool then $"CoefBeta" else $"CoefAlpha") /\ occurs (pun_mark b) l1).
    { apply start_some in Ss as (a & ps & b & E & (p & Ip & Op) & _).
      assert (I : In (tag, ps) pun_headers) by (rewrite E; apply in_or_app; right; left; auto).
      destruct I as [I|[I|[]]]; injection I as <- <-; destruct Ip as [<-|[]]; [exists false|exists true]; auto. }
    destruct K as (b & -> & Ob).
    assert (Nb : b <> beta).
    { intros ->. destruct Ln1 as [->|Ln1]; [|apply Ab; eapply occurs_trans; eauto]. destruct Ob as (x & y & Ob). destruct x, beta; discriminate. }
    assert (R : pun_section N n (if b then $"CoefBeta" else $"CoefAlpha") f1 c = ReadCoef N n (spin_name b) f1 c) by (destruct b; reflexivity).
    rewrite R in H0. unfold ReadCoef in H0. bk H0. destruct x as [fz v]. apply coef_outer_text in H1. cbn [fst] in H1. bk H0. injection H0 as <- <-.
    split; [exact H1|]. apply find_set_ne. destruct b, beta; try congruence; discriminate. }
  destruct Q as [T2 K2]. rewrite <- K2.
  assert (T3 : s_all (fid (tell f2)) = s_all (fid f)). { pose proof (tell_text f2) as Tl. unfold same_text in *. congruence. }
  apply IH in H; [exact H| |]; rewrite T3; auto.
Qed.
Lemma pun_read_kept (beta : bool) files r fuel r' t : files (pr_name N r) = Some t -> ~ occurs (pun_mark beta) t -> pun_read N files fuel r = Ok r' ->
  getCoefsMatrix N r' (spin_name beta) = getCoefsMatrix N r (spin_name beta).
Proof.
  intros Hf Ab H. unfold pun_read, read in H. rewrite Hf in H. bk H. injection H as <-. bk H0. destruct x0 as [f' d']. injection H0 as <-. unfold getCoefsMatrix. cbn [fst snd coefs].
  erewrite pun_loop_kept; [reflexivity| | |eassumption]; cbn; auto.
Qed.
End Missing.
