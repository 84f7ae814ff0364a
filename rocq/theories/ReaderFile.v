(** * LogReader::read on whole files *)
From Verif Require Export ReaderPop.
From Verif Require Export StrSpec StrModel.
Open Scope Z_scope.

Section File.
Context (N : nums).
Notation num := (num N).
Implicit Types (d : logd N) (it : item N).

Definition coords_of (pts : list (num * num * num)) : list (list num) := [map (fun p => fst (fst p)) pts; map (fun p => snd (fst p)) pts; map snd pts].
(** what an item does to the data *)
Definition effect it d d' : Prop :=
  match it with
  | Other _ _ => d' = d
  | Coordinates _ _ _ _ _ _ pts => d' = mkLog N (homoLevel N d) (orb_ N d) (S_ N d) (OREnergies N d) (coords_of pts)
  | Eigenvalues _ beta _ vals => d' = mkLog N (m_set (spin_name beta) (occ_count N vals) (homoLevel N d)) (orb_ N d) (S_ N d)
      (m_set (spin_name beta) (concat (map snd vals)) (OREnergies N d)) (xyz N d)
  | Overlaps _ _ _ _ n v => exists m, denotes m n n 1 (fun r c _ => v (Z.max r c) (Z.min r c)) /\
      d' = mkLog N (homoLevel N d) (orb_ N d) (Some m) (OREnergies N d) (xyz N d)
  | Population _ _ _ _ _ atoms => d' = mkLog N (homoLevel N d) (store_all N 1 atoms (orb_ N d)) (S_ N d) (OREnergies N d) (xyz N d)
  end.
Inductive effects : list (item N) -> logd N -> logd N -> Prop :=
| eff_nil : forall d, effects [] d d
| eff_cons : forall it t d d1 d2, effect it d d1 -> effects t d1 d2 -> effects (it :: t) d d2.
Lemma effects_app a b d d' : effects (a ++ b) d d' <-> exists d1, effects a d d1 /\ effects b d1 d'.
Proof.
  revert d. induction a as [|it a IH]; intros d; cbn [app].
  - split; [intros H; exists d; split; [constructor|auto]|intros (d1 & H & H2); inversion H; subst; auto].
  - split.
    + intros H. inversion H; subst. apply IH in H5 as (d2 & H5 & H6). exists d2. split; [econstructor; eauto|auto].
    + intros (d1 & H & H2). inversion H; subst. econstructor; [eauto|]. apply IH. eauto.
Qed.
Lemma population_lines atoms ls : population N atoms ls -> Forall is_line ls.
Proof.
  induction 1 as [|elem label vs rows l ls atoms lines (Ll & _) Ho H IH]; constructor; [auto|]. apply Forall_app. split; [|auto].
  clear - Ho. induction Ho as [|l r ls rows (Ll & _) H IH]; constructor; auto.
Qed.
Lemma item_is_lines it rest tail : item_ok N it rest tail -> Forall is_line (item_lines N it).
Proof.
  assert (F1 : forall l, is_line l -> Forall is_line [l]) by (intros; constructor; auto).
  destruct it as [l|h a b rows e pts|beta ls vals|h ls after n v|h a ls e atoms]; cbn [item_ok item_lines].
  - intros [H _]. auto.
  - intros (Lh & _ & La & Lb & H & Le & _). do 3 (constructor; [auto|]). apply Forall_app. split; [|auto]. clear - H. induction H as [|r p rows pts (Ll & _) H IH]; constructor; auto.
  - intros (_ & H & _). clear - H. induction H as [|r p rows pts (Ll & _) H IH]; constructor; auto.
  - intros (Lh & _ & _ & _ & (t & (bl & _ & _ & Hl) & _) & Ha & _). constructor; [auto|]. apply Forall_app. split; [auto|]. destruct after; cbn [opt]; auto.
  - intros (Lh & _ & La & _ & H & (Le & _)). do 2 (constructor; [auto|]). apply Forall_app. split; [eapply population_lines; eauto|auto].
Qed.
Lemma log_is_lines tail items lines : log_lines N tail items lines -> Forall is_line lines.
Proof. induction 1 as [|it items lines Hi H IH]; [constructor|]. apply Forall_app. split; [eapply item_is_lines; eauto|auto]. Qed.
Lemma item_nonempty it rest tail : item_ok N it rest tail -> item_lines N it <> [].
Proof.
  destruct it as [l|h a b rows e pts|beta ls vals|h ls after n v|h a ls e atoms]; cbn [item_ok item_lines]; try discriminate.
  intros ((h & t & -> & _) & _). discriminate.
Qed.
Lemma post_tell f rest tail : post f rest tail -> here (tell f) rest tail \/ (rest = [] /\ done (tell f)).
Proof.
  intros [H|[-> D]].
  - left. destruct (tell_at _ _ _ H) as (H1 & H2 & H3). split; [auto|]. rewrite H3. auto.
  - right. split; [auto|]. apply tell_done, D.
Qed.
(** one item *)
Lemma read_item_at it rest tail f line d fuel : is_line tail -> item_ok N it rest tail -> at_ f (item_lines N it ++ rest) tail ->
  ((exists beta, is_eigenvalues N beta it) -> pos_ f = Some (s_pos (fid f))) -> is_line (first_of rest tail) ->
  (length (item_lines N it) < fuel)%nat ->
  exists f' line' d', read_loop log_headers (log_section N) (S fuel) f line d = read_loop log_headers (log_section N) fuel (tell f') line' d' /\ post f' rest tail /\ effect it d d'.
Proof.
  intros Lt Hok Hat Hpos Lf Hfuel. cbn [read_loop].
  destruct it as [l|h a b rows e pts|beta ls vals|h ls after n v|h a ls e atoms]; cbn [item_ok item_lines effect] in *.
  - destruct Hok as [Ll Nm]. cbn [app] in Hat. destruct (getl_line f l rest tail line Hat Ll) as (f1 & -> & Hat1 & _).
    rewrite (proj1 (proj2 Hat1)), (no_mark_start _ Nm). cbn [bind]. exists f1, l, d. split; [auto|]. split; [left; auto|auto].
  - destruct Hok as (Lh & Bh & La & Lb & Hr & Le & Oe). cbn [app] in Hat. destruct (getl_line f h _ tail line Hat Lh) as (f1 & -> & Hat1 & _).
    rewrite (proj1 (proj2 Hat1)), (begins_start _ _ Bh). cbn [tag_of]. change (log_section N fuel $"Coord" f1 d) with (CoordSectionReader N fuel f1 d).
    rewrite <- app_assoc in Hat1. cbn [length] in Hfuel. rewrite app_length in Hfuel. cbn [length] in Hfuel.
    destruct (coord_section_ok N a b rows e pts rest tail fuel f1 d La Lb Hr Le Oe Hat1 ltac:(lia)) as (f2 & -> & Hat2). cbn [bind].
    eexists f2, h, _. split; [reflexivity|]. split; [left; auto|reflexivity].
  - destruct Hok as ((h & t & -> & Bh) & Hv & Nr). cbn [app] in Hat. pose proof Hv as Hv0. inversion Hv0 as [|? v0 ? vals0 (Lh & _) _]; subst.
    destruct (getl_line f h _ tail line Hat Lh) as (f1 & E1 & Hat1 & P1 & A1). rewrite E1. rewrite (proj1 (proj2 Hat1)), (begins_start _ _ Bh).
    assert (Es : log_section N fuel (tag_of (if beta then KBeta else KAlpha)) f1 d = ReadOrbEnergies N fuel (spin_name beta) f1 d) by (destruct beta; reflexivity).
    rewrite Es. destruct (oe_section_ok N beta (h :: t) (v0 :: vals0) rest tail fuel f f1 d Nr Lf Hv (conj Hat (Hpos (ex_intro _ beta eq_refl))) P1 A1 (proj1 (proj2 Hat1)) Hfuel) as (f2 & E2 & P2).
    rewrite E2. cbn [bind]. eexists f2, h, _. split; [reflexivity|]. split; [auto|reflexivity].
  - destruct Hok as (Lh & Bh & H6 & Hnn & (t & Hl & Ht) & Ha & Hs). cbn [app] in Hat. destruct (getl_line f h _ tail line Hat Lh) as (f1 & -> & Hat1 & _).
    rewrite (proj1 (proj2 Hat1)), (begins_start _ _ Bh). cbn [tag_of]. change (log_section N fuel $"Overlap" f1 d) with (OverlapSectionReader N fuel f1 d).
    rewrite <- app_assoc in Hat1. cbn [length] in Hfuel. rewrite app_length in Hfuel.
    assert (Hi : n < INT_MAX) by (destruct (Z.eq_dec n 1); [subst; reflexivity|nia]).
    destruct (overlap_section_ok N v n t Ht Hi f1 ls after rest tail fuel d H6 Hnn Lt Ha Hs Hl Hat1 ltac:(lia)) as (f2 & m & E2 & P2 & D2). rewrite E2. cbn [bind].
    eexists f2, h, _. split; [reflexivity|]. split; [auto|]. exists m. auto.
  - destruct Hok as (Lh & Bh & La & Ne & Hp & He). cbn [app] in Hat. destruct (getl_line f h _ tail line Hat Lh) as (f1 & -> & Hat1 & _).
    rewrite (proj1 (proj2 Hat1)), (begins_start _ _ Bh). cbn [tag_of]. change (log_section N fuel $"AOFunction" f1 d) with (AOFunctionSectionReader N fuel f1 d).
    rewrite <- app_assoc in Hat1. cbn [length] in Hfuel. rewrite app_length in Hfuel. cbn [length] in Hfuel.
    destruct (ao_section_ok N a ls e atoms rest tail fuel f1 d La Ne Hp He Hat1 ltac:(lia)) as (f2 & -> & Hat2). cbn [bind].
    eexists f2, h, _. split; [reflexivity|]. split; [left; auto|reflexivity].
Qed.
Lemma read_item it rest tail f line d fuel : is_line tail -> item_ok N it rest tail -> here f (item_lines N it ++ rest) tail -> is_line (first_of rest tail) ->
  (length (item_lines N it) < fuel)%nat ->
  exists f' line' d', read_loop log_headers (log_section N) (S fuel) f line d = read_loop log_headers (log_section N) fuel (tell f') line' d' /\ post f' rest tail /\ effect it d d'.
Proof. intros Lt Hok [Hat Hpos]. apply read_item_at; auto. Qed.
Lemma read_items tail : is_line tail -> no_mark tail -> forall items lines, log_lines N tail items lines ->
  forall fuel f line d, here f lines tail \/ (lines = [] /\ done f) -> (length lines + 2 <= fuel)%nat ->
  exists f' d', read_loop log_headers (log_section N) fuel f line d = Ok (f', d') /\ effects items d d'.
Proof.
  intros Lt Nt items lines H. induction H as [|it items lines Hi H IH]; intros fuel f line d Hf Hn.
  - cbn [length] in Hn. destruct fuel as [|[|fuel]]; [lia|lia|]. cbn [read_loop]. destruct Hf as [[Hat _]|[_ D]].
    + destruct (getl_tail f tail line Hat Lt) as (f1 & -> & D & _ & _ & Fl). destruct tail as [|c tl].
      * rewrite Fl. exists f1, d. split; [auto|constructor].
      * rewrite Fl, (no_mark_start _ Nt). cbn [bind]. destruct (tell_done f1 D) as [D2 _]. destruct (getl_done (tell f1) (c :: tl) D2) as (f3 & -> & _ & F3). rewrite F3. exists f3, d. split; [auto|constructor].
    + destruct (getl_done f line D) as (f3 & -> & _ & F3). rewrite F3. exists f3, d. split; [auto|constructor].
  - pose proof (item_nonempty _ _ _ Hi) as Ne. pose proof (log_is_lines _ _ _ H) as Ll.
    assert (Lf : is_line (first_of lines tail)) by (destruct lines; cbn [first_of]; [auto|inversion Ll; auto]).
    destruct Hf as [Hh|[E0 _]]; [|destruct (item_lines N it); [congruence|discriminate]].
    rewrite app_length in Hn. assert (Hl : (1 <= length (item_lines N it))%nat) by (destruct (item_lines N it); [congruence|cbn [length]; lia]).
    destruct fuel as [|fuel]; [lia|].
    destruct (read_item it lines tail f line d fuel Lt Hi Hh Lf ltac:(lia)) as (f1 & l1 & d1 & E1 & P1 & Ef). rewrite E1.
    destruct (IH fuel (tell f1) l1 d1 (post_tell _ _ _ P1) ltac:(lia)) as (f2 & d2 & E2 & Es). exists f2, d2. split; [auto|]. econstructor; eauto.
Qed.
Lemma read_file files name items content fuel d : files name = Some content -> log_file N items content -> (length content + 2 <= fuel)%nat ->
  exists p d', read files log_headers (log_section N) fuel name (Some O) d = Ok (p, d') /\ effects items d d'.
Proof.
  intros Hf (lines & tail & -> & Lt & Nt & H) Hfuel. unfold read. rewrite Hf.
  assert (Hlen : (length lines <= length (text lines))%nat). { clear. induction lines as [|l t IH]; [auto|]. rewrite text_cons. rewrite app_length. cbn [length]. lia. }
  rewrite app_length in Hfuel.
  destruct (read_items tail Lt Nt items lines H fuel (mkF (mkStream (text lines ++ tail) 0 false false) (Some O)) [] d) as (f2 & d2 & -> & Es); [|lia|].
  - left. split; [|reflexivity]. unfold at_, left_in. cbn [fid s_eof s_fail s_pos s_all skipn]. auto.
  - cbn [bind fst snd]. eauto.
Qed.

(** the same if pos_ holds an old position, unless the file begins with energies *)
Lemma read_file_at files name pos items content fuel d : files name = Some content -> log_file N items content -> (length content + 2 <= fuel)%nat ->
  (pos = Some O \/ forall beta it t, items = it :: t -> ~ is_eigenvalues N beta it) ->
  exists p d', read files log_headers (log_section N) fuel name pos d = Ok (p, d') /\ effects items d d'.
Proof.
  intros Hf Hl Hfuel [-> |Hn]; [apply (read_file files name items content); auto|]. destruct Hl as (lines & tail & -> & Lt & Nt & H). unfold read. rewrite Hf.
  assert (Hlen : (length lines <= length (text lines))%nat). { clear. induction lines as [|l t IH]; [auto|]. rewrite text_cons. rewrite app_length. cbn [length]. lia. }
  rewrite app_length in Hfuel. set (f := mkF (mkStream (text lines ++ tail) 0 false false) pos).
  assert (Hat : at_ f lines tail) by (unfold at_, left_in; cbn [f fid s_eof s_fail s_pos s_all skipn]; auto). clearbody f.
  assert (G : exists f' d', read_loop log_headers (log_section N) fuel f [] d = Ok (f', d') /\ effects items d d'); [|destruct G as (f' & d' & -> & Es); cbn [bind fst snd]; eauto].
  destruct H as [|it items lines Hi H].
  - cbn [length] in *. destruct fuel as [|[|fuel]]; [lia|lia|]. cbn [read_loop].
    destruct (getl_tail f tail [] Hat Lt) as (f1 & -> & D & _ & _ & Fl). destruct tail as [|c tl].
    + rewrite Fl. exists f1, d. split; [auto|constructor].
    + rewrite Fl, (no_mark_start _ Nt). cbn [bind]. destruct (tell_done f1 D) as [D2 _]. destruct (getl_done (tell f1) (c :: tl) D2) as (f3 & -> & _ & F3). rewrite F3. exists f3, d. split; [auto|constructor].
  - pose proof (item_nonempty _ _ _ Hi) as Ne. pose proof (log_is_lines _ _ _ H) as Ll.
    assert (Lf : is_line (first_of lines tail)) by (destruct lines; cbn [first_of]; [auto|inversion Ll; auto]).
    rewrite app_length in Hlen. assert (Hl : (1 <= length (item_lines N it))%nat) by (destruct (item_lines N it); [congruence|cbn [length]; lia]).
    destruct fuel as [|fuel]; [lia|].
    destruct (read_item_at it lines tail f [] d fuel Lt Hi Hat) as (f1 & l1 & d1 & E1 & P1 & Ef); [intros (beta & Hb); contradiction (Hn beta it items eq_refl Hb)|auto|lia|]. rewrite E1.
    destruct (read_items tail Lt Nt items lines H fuel (tell f1) l1 d1 (post_tell _ _ _ P1) ltac:(lia)) as (f2 & d2 & E2 & Es). exists f2, d2. split; [auto|]. econstructor; eauto.
Qed.

(** ** what the getters see: the last section of a kind *)
Lemma keeps_xyz b d d' : effects b d d' -> (forall it, In it b -> ~ is_coordinates N it) -> xyz N d' = xyz N d.
Proof.
  induction 1 as [|it t d d1 d2 He H IH]; intros Hn; [auto|]. rewrite IH by (intros; apply Hn; right; auto).
  specialize (Hn it (or_introl eq_refl)). destruct it; cbn [effect is_coordinates] in *; try (subst; reflexivity); [tauto|]. destruct He as (m & _ & ->). reflexivity.
Qed.
Lemma keeps_S b d d' : effects b d d' -> (forall it, In it b -> ~ is_overlaps N it) -> S_ N d' = S_ N d.
Proof.
  induction 1 as [|it t d d1 d2 He H IH]; intros Hn; [auto|]. rewrite IH by (intros; apply Hn; right; auto).
  specialize (Hn it (or_introl eq_refl)). destruct it; cbn [effect is_overlaps] in *; try (subst; reflexivity). tauto.
Qed.
Lemma spin_ne b b' : b <> b' -> spin_name b <> spin_name b'.
Proof. destruct b, b'; intros H; try congruence; discriminate. Qed.
Lemma keeps_OE beta b d d' : effects b d d' -> (forall it, In it b -> ~ is_eigenvalues N beta it) ->
  m_find (spin_name beta) (OREnergies N d') = m_find (spin_name beta) (OREnergies N d) /\ m_find (spin_name beta) (homoLevel N d') = m_find (spin_name beta) (homoLevel N d).
Proof.
  induction 1 as [|it t d d1 d2 He H IH]; intros Hn; [auto|]. destruct IH as [-> ->]; [intros; apply Hn; right; auto|].
  specialize (Hn it (or_introl eq_refl)). destruct it as [| |beta'| |]; cbn [effect is_eigenvalues] in *; try (subst; auto; fail).
  - subst. cbn [OREnergies homoLevel]. rewrite !find_set_ne by (apply spin_ne; congruence). auto.
  - destruct He as (m & _ & ->). auto.
Qed.
Lemma keeps_orb b d d' : effects b d d' -> (forall it, In it b -> ~ is_population N it) -> orb_ N d' = orb_ N d.
Proof.
  induction 1 as [|it t d d1 d2 He H IH]; intros Hn; [auto|]. rewrite IH by (intros; apply Hn; right; auto).
  specialize (Hn it (or_introl eq_refl)). destruct it; cbn [effect is_population] in *; try (subst; reflexivity); [|tauto]. destruct He as (m & _ & ->). reflexivity.
Qed.
Definition atoms_in (atoms : list (atom N)) (items : list (item N)) : Prop := exists h a ls e, In (Population N h a ls e atoms) items.
Lemma same_basis_sym a b : same_basis N a b -> same_basis N b a.
Proof. induction 1 as [|x y a b [H1 H2] H IH]; constructor; auto. Qed.
Lemma orb_after (shape : list (atom N)) items : (forall atoms, atoms_in atoms items -> same_basis N shape atoms /\ distinct_labels N atoms /\ Forall (fun a => snd a <> []) atoms) ->
  forall d d', effects items d d' -> (orb_ N d = [] \/ exists a0, same_basis N a0 shape /\ keyed N 1 a0 (orb_ N d)) ->
  orb_ N d' = [] \/ exists a0, same_basis N a0 shape /\ keyed N 1 a0 (orb_ N d').
Proof.
  intros Hs d d' H. induction H as [|it t d d1 d2 He H IH]; intros Hd; [auto|]. apply IH.
  - intros atoms (h & a & ls & e & I). apply Hs. exists h, a, ls, e. right; auto.
  - destruct it as [| | | |h a ls e atoms]; cbn [effect] in He; try (subst; auto; fail).
    + destruct He as (m & _ & ->). auto.
    + subst d1. cbn [orb_]. destruct (Hs atoms) as (S1 & S2 & S3); [exists h, a, ls, e; left; auto|].
      right. exists atoms. split; [apply same_basis_sym; auto|].
      assert (B : below N 1 []) by constructor.
      destruct Hd as [E0|(a0 & Sb & K)].
      * rewrite E0. destruct (store_all_new N atoms S3 S2 1 [] B) as (new & E & K). rewrite E. auto.
      * destruct (store_all_again N atoms S2 a0) with (k := 1) (pre := @nil ((Z * str) * smap (list num))) (old := orb_ N d) as (new & E & K2); auto.
        { clear - Sb S1. revert atoms S1. induction Sb as [|x y a0 s [H1 H2] H IH]; intros atoms S1; inversion S1 as [|? ? ? ? [G1 G2] G3]; subst; constructor; [split; congruence|]. apply IH; auto. }
        cbn [app] in E. rewrite E. auto.
Qed.
End File.
