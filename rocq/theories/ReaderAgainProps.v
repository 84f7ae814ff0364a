(** * Property C87: calling read() again *)
From Verif Require Import ParserWf.
From Verif Require Export ReaderProps ReaderPunProps.
From Verif Require Export StrSpec StrModel.
Open Scope Z_scope.

(** ** specification *)
(** read() is called once for every state of the file system in [fs] *)
Fixpoint log_reads (N : nums) (fs : list (str -> option str)) (fuel : nat) (r : LogReader N) : outcome (LogReader N) :=
  match fs with [] => Ok r | files :: t => r <- log_read N files fuel r ;; log_reads N t fuel r end.
Fixpoint pun_reads (N : nums) (fs : list (str -> option str)) (fuel : nat) (r : PunReader N) : outcome (PunReader N) :=
  match fs with [] => Ok r | files :: t => r <- pun_read N files fuel r ;; pun_reads N t fuel r end.
(** what the file [name] contains each time *)
Definition log_history N (name : str) (fs : list (str -> option str)) (itemss : list (list (item N))) : Prop :=
  Forall2 (fun files items => exists content, files name = Some content /\ log_file N items content) fs itemss.
Definition pun_history N (name : str) (fs : list (str -> option str)) (itemss : list (list (pitem N))) : Prop :=
  Forall2 (fun files items => exists content, files name = Some content /\ pun_file N items content) fs itemss.
(** the file does not begin with energies *)
Definition other_first {N} (items : list (item N)) : Prop := forall beta it t, items = it :: t -> ~ is_eigenvalues N beta it.

Lemma log_again N name fs itemss : log_history N name fs itemss -> exists bound, forall fuel, (bound <= fuel)%nat ->
  forall r, lr_name N r = name -> (lr_pos N r = Some O /\ Forall other_first (tl itemss)) \/ Forall other_first itemss ->
  exists r', log_reads N fs fuel r = Ok r' /\ effects N (concat itemss) (lr_data N r) (lr_data N r').
Proof.
  induction 1 as [|files items fs itemss (content & Hf & Hl) H (bound & IH)].
  - exists O. intros fuel _ r _ _. exists r. split; [reflexivity|constructor].
  - exists (length content + 2 + bound)%nat. intros fuel Hfuel r Hn Ho. cbn [log_reads concat].
    assert (Hp : lr_pos N r = Some O \/ other_first items) by (destruct Ho as [[Ho _]|Ho]; [left; auto|right; apply (Forall_inv Ho)]).
    unfold log_read at 1. rewrite Hn.
    destruct (read_file_at N files name (lr_pos N r) items content fuel (lr_data N r) Hf Hl ltac:(lia)) as (p & d' & -> & E1); [destruct Hp as [Hp|Hp]; [left; auto|right; exact Hp]|].
    cbn [bind fst snd].
    destruct (IH fuel ltac:(lia) (mkLogReader N name p d') eq_refl) as (r' & E2 & E3).
    { right. destruct Ho as [[_ Ho]|Ho]; [exact Ho|apply (Forall_inv_tail Ho)]. }
    exists r'. split; [exact E2|]. apply effects_app. eauto.
Qed.
Lemma pun_again N name fs itemss : pun_history N name fs itemss -> exists bound, forall fuel, (bound <= fuel)%nat ->
  forall r, pr_name N r = name -> exists r', pun_reads N fs fuel r = Ok r' /\ peffects N (concat itemss) (coefs N r) (coefs N r').
Proof.
  induction 1 as [|files items fs itemss (content & Hf & Hl) H (bound & IH)].
  - exists O. intros fuel _ r _. exists r. split; [reflexivity|constructor].
  - exists (length content + 3 + bound)%nat. intros fuel Hfuel r Hn. cbn [pun_reads concat].
    destruct Hl as (lines & tail & -> & Lt & Nt & Hl). unfold pun_read at 1, read. rewrite Hn, Hf.
    assert (Hlen : (length lines <= length (text lines))%nat). { clear. induction lines as [|l t IH]; [auto|]. rewrite text_cons. rewrite app_length. cbn [length]. lia. }
    rewrite app_length in Hfuel.
    destruct (read_pitems N tail Lt Nt items lines Hl fuel (mkF (mkStream (text lines ++ tail) 0 false false) (pr_pos N r)) [] (coefs N r)) as (f2 & c2 & -> & Es); [|lia|].
    + left. unfold at_, left_in. cbn [fid s_eof s_fail s_pos s_all skipn]. auto.
    + cbn [bind fst snd]. destruct (IH fuel ltac:(lia) (mkPunReader N name (pos_ f2) c2) eq_refl) as (r' & E2 & E3). exists r'. split; [exact E2|]. apply peffects_app. eauto.
Qed.

(** ** C87 *)
(** full property: after read() the getters return what the file contains at that time.
    Proved: they return the last section of their kind in the whole history of calls (so the property holds for the sections that
    are in the file, see C87_present_partial), if the file does not begin with energies when it is read again. *)
Theorem C87_history_partial : forall N name r fs itemss, LogReader_new N name = Ok r -> log_history N name fs itemss -> Forall other_first (tl itemss) ->
  exists bound, forall fuel, (bound <= fuel)%nat -> exists r', log_reads N fs fuel r = Ok r' /\
    (forall beta ls values, last_item N (is_eigenvalues N beta) (concat itemss) (Eigenvalues N beta ls values) ->
       getOE N r' (spin_name beta) = Ok (concat (map snd values)) /\ getHOMOLevel N r' (spin_name beta) = Ok (Z.of_nat (length (concat (map snd (filter fst values)))))) /\
    (forall beta, (forall it, In it (concat itemss) -> ~ is_eigenvalues N beta it) -> getOE N r' (spin_name beta) = Throw OutOfRange /\ getHOMOLevel N r' (spin_name beta) = Throw OutOfRange) /\
    (forall h a b rows e points, last_item N (is_coordinates N) (concat itemss) (Coordinates N h a b rows e points) ->
       getCoords N r' = [map (fun p => fst (fst p)) points; map (fun p => snd (fst p)) points; map snd points]) /\
    ((forall it, In it (concat itemss) -> ~ is_coordinates N it) -> getCoords N r' = []) /\
    (forall h ls after n v, last_item N (is_overlaps N) (concat itemss) (Overlaps N h ls after n v) ->
       exists m, getOverlapMatrix N r' = Ok m /\ denotes m n n 1 (fun i j _ => v (Z.max i j) (Z.min i j))) /\
    (forall h a ls e atoms, In (Population N h a ls e atoms) (concat itemss) ->
       (forall h' a' ls' e' atoms', In (Population N h' a' ls' e' atoms') (concat itemss) -> same_basis N atoms atoms' /\ distinct_labels N atoms') ->
       getBasisFuncCount N r' = map (fun atom => Z.of_nat (length (snd atom))) atoms).
Proof.
  intros N name r fs itemss Hn Hh Ho. destruct (log_again N name fs itemss Hh) as (bound & H). exists bound. intros fuel Hfuel.
  destruct (H fuel Hfuel r) as (r' & Er & E); [rewrite (log_new_data _ _ _ Hn); reflexivity|left; rewrite (log_new_data _ _ _ Hn); auto|].
  rewrite (log_new_data _ _ _ Hn) in E. cbn [lr_data] in E. exists r'. split; [auto|].
  split.
  { intros beta ls values (a & b & Ei & _ & Hb). rewrite Ei in E. apply effects_app in E as (d1 & E1 & E2). inversion E2 as [|? ? ? d2 ? Ef E3]; subst.
    cbn [effect] in Ef. subst d2. unfold getOE, getHOMOLevel. destruct (keeps_OE N beta b _ _ E3 Hb) as [-> ->]. cbn [OREnergies homoLevel]. rewrite !find_set_eq. auto. }
  split; [intros beta Hb; unfold getOE, getHOMOLevel; destruct (keeps_OE N beta _ _ _ E Hb) as [-> ->]; auto|].
  split.
  { intros h a b rows e points (u & w & Ei & _ & Hb). rewrite Ei in E. apply effects_app in E as (d1 & E1 & E2). inversion E2 as [|? ? ? d2 ? Ef E3]; subst.
    cbn [effect] in Ef. subst d2. unfold getCoords. rewrite (keeps_xyz N w _ _ E3 Hb). reflexivity. }
  split; [intros Hb; unfold getCoords; rewrite (keeps_xyz N _ _ _ E Hb); reflexivity|].
  split.
  { intros h ls after n v (a & b & Ei & _ & Hb). rewrite Ei in E. apply effects_app in E as (d1 & E1 & E2). inversion E2 as [|? ? ? d2 ? Ef E3]; subst.
    cbn [effect] in Ef. destruct Ef as (m & Dm & ->). exists m. split; [|auto]. unfold getOverlapMatrix. rewrite (keeps_S N b _ _ E3 Hb). reflexivity. }
  intros h a ls e atoms I Hs. unfold getBasisFuncCount.
  assert (Each : forall h a ls e at', In (Population N h a ls e at') (concat itemss) -> at' <> [] /\ Forall (fun a => snd a <> []) at').
  { intros h' a' ls' e' at' I'. apply in_concat in I' as (items & I1 & I2). clear - Hh I1 I2. induction Hh as [|files its fs itss (content & _ & (lines & tail & _ & _ & _ & Hl)) Hh IH]; [destruct I1|].
    destruct I1 as [->|I1]; [|auto]. split; [exact (log_atoms N tail items lines Hl _ _ _ _ _ I2)|]. eapply population_rows, log_population; eauto. }
  apply (counts_effects N (concat itemss) _ h a ls e atoms E I); [eapply Each; eauto|].
  intros at' (h' & a' & ls' & e' & I'). destruct (Hs _ _ _ _ _ I') as [S1 S2]. split; [auto|]. split; [auto|]. eapply Each; eauto.
Qed.
Print Assumptions C87_history_partial.
(** the sections that are in the file when it is read for the last time *)
Theorem C87_present_partial : forall N name r fs files itemss items, LogReader_new N name = Ok r -> log_history N name (fs ++ [files]) (itemss ++ [items]) -> Forall other_first (tl (itemss ++ [items])) ->
  exists bound, forall fuel, (bound <= fuel)%nat -> exists r', log_reads N (fs ++ [files]) fuel r = Ok r' /\
    (forall beta ls values, last_item N (is_eigenvalues N beta) items (Eigenvalues N beta ls values) ->
       getOE N r' (spin_name beta) = Ok (concat (map snd values)) /\ getHOMOLevel N r' (spin_name beta) = Ok (Z.of_nat (length (concat (map snd (filter fst values)))))) /\
    (forall h a b rows e points, last_item N (is_coordinates N) items (Coordinates N h a b rows e points) ->
       getCoords N r' = [map (fun p => fst (fst p)) points; map (fun p => snd (fst p)) points; map snd points]) /\
    (forall h ls after n v, last_item N (is_overlaps N) items (Overlaps N h ls after n v) ->
       exists m, getOverlapMatrix N r' = Ok m /\ denotes m n n 1 (fun i j _ => v (Z.max i j) (Z.min i j))).
Proof.
  intros N name r fs files itemss items Hn Hh Ho. destruct (C87_history_partial N name r _ _ Hn Hh Ho) as (bound & H). exists bound. intros fuel Hfuel.
  destruct (H fuel Hfuel) as (r' & Er & H1 & _ & H2 & _ & H3 & _). exists r'. split; [auto|].
  assert (L : forall P it, last_item N P items it -> last_item N P (concat (itemss ++ [items])) it).
  { intros P it (a & b & -> & Hp & Hb). exists (concat itemss ++ a), b. rewrite concat_app. cbn [concat]. rewrite app_nil_r, <- app_assoc. auto. }
  split; [intros beta ls values Hl; apply (H1 beta ls values); auto|]. split; [intros h a b rows e points Hl; apply (H2 h a b rows e points); auto|intros h ls after n v Hl; apply (H3 h ls after n v); auto].
Qed.
Print Assumptions C87_present_partial.
(** an unchanged file: every call gives what the first one gave *)
Theorem C87_unchanged_partial : forall N name r files content items, LogReader_new N name = Ok r -> files name = Some content -> log_file N items content -> other_first items ->
  forall n, exists bound, forall fuel, (bound <= fuel)%nat -> exists r1 r', log_read N files fuel r = Ok r1 /\ log_reads N (repeat files n) fuel r1 = Ok r' /\
    (forall spin, getOE N r' spin = getOE N r1 spin /\ getHOMOLevel N r' spin = getHOMOLevel N r1 spin) /\ getCoords N r' = getCoords N r1.
Proof.
  intros N name r files content items Hn Hf Hl Ho n.
  assert (Hh : log_history N name (repeat files n) (repeat items n)) by (clear - Hf Hl; unfold log_history; induction n as [|n IH]; cbn [repeat]; constructor; eauto).
  destruct (log_again N name (repeat files n) (repeat items n) Hh) as (b2 & H2). exists (length content + 2 + b2)%nat. intros fuel Hfuel.
  destruct (read_log N name r files content items fuel Hn Hf Hl ltac:(lia)) as (r1 & E1 & Ef1).
  assert (Hn1 : lr_name N r1 = name).
  { rewrite (log_new_data _ _ _ Hn) in E1. unfold log_read in E1. cbn [lr_name lr_pos lr_data] in E1. destruct (read files log_headers (log_section N) fuel name (Some O) (mkLog N [] [] None [] [])) as [[p d]| | | |]; cbn [bind] in E1; try discriminate.
    apply (f_equal (fun o => match o with Ok x => lr_name N x | _ => name end)) in E1. cbn in E1. auto. }
  assert (Hof : Forall other_first (repeat items n)) by (apply Forall_forall; intros x I; apply repeat_spec in I; subst; auto).
  destruct (H2 fuel ltac:(lia) r1 Hn1 (or_intror Hof)) as (r' & E2 & Ef2). exists r1, r'. split; [auto|]. split; [auto|].
  assert (Idem : forall d, effects N items (mkLog N [] [] None [] []) (lr_data N r1) -> forall d0, effects N (concat (repeat items n)) d0 d ->
     (forall k, m_find k (OREnergies N d0) = m_find k (OREnergies N (lr_data N r1)) /\ m_find k (homoLevel N d0) = m_find k (homoLevel N (lr_data N r1))) -> xyz N d0 = xyz N (lr_data N r1) ->
     (forall k, m_find k (OREnergies N d) = m_find k (OREnergies N (lr_data N r1)) /\ m_find k (homoLevel N d) = m_find k (homoLevel N (lr_data N r1))) /\ xyz N d = xyz N (lr_data N r1)).
  { intros d Ef. clear - Ef. set (d1 := lr_data N r1) in *. clearbody d1.
    (* the last section of a kind decides, whatever the start *)
    assert (Step : forall its a b, effects N its a b -> forall a' b', effects N its a' b' ->
       (forall k, (m_find k (OREnergies N a') = m_find k (OREnergies N a) -> m_find k (OREnergies N b') = m_find k (OREnergies N b)) /\
                  (m_find k (homoLevel N a') = m_find k (homoLevel N a) -> m_find k (homoLevel N b') = m_find k (homoLevel N b)) /\
                  ((m_find k (OREnergies N b) = m_find k (OREnergies N a) /\ m_find k (OREnergies N b') = m_find k (OREnergies N a')) \/ m_find k (OREnergies N b') = m_find k (OREnergies N b)) /\
                  ((m_find k (homoLevel N b) = m_find k (homoLevel N a) /\ m_find k (homoLevel N b') = m_find k (homoLevel N a')) \/ m_find k (homoLevel N b') = m_find k (homoLevel N b))) /\
       (xyz N a' = xyz N a -> xyz N b' = xyz N b) /\ ((xyz N b = xyz N a /\ xyz N b' = xyz N a') \/ xyz N b' = xyz N b)).
    { clear. intros its. induction its as [|it its IH]; intros a b H a' b' H'; inversion H; inversion H'; subst; [repeat split; auto|].
      match goal with X : effect N it a ?u, Y : effects N its ?u b, X' : effect N it a' ?u', Y' : effects N its ?u' b' |- _ => destruct (IH u b Y u' b' Y') as (IH1 & IH2 & IH3); clear IH H H'; rename X into Ha; rename X' into Ha'; clear Y Y'; rename u into a1; rename u' into a1' end.
      assert (K : (forall k, ((m_find k (OREnergies N a1) = m_find k (OREnergies N a) /\ m_find k (OREnergies N a1') = m_find k (OREnergies N a')) \/ m_find k (OREnergies N a1') = m_find k (OREnergies N a1)) /\
                  ((m_find k (homoLevel N a1) = m_find k (homoLevel N a) /\ m_find k (homoLevel N a1') = m_find k (homoLevel N a')) \/ m_find k (homoLevel N a1') = m_find k (homoLevel N a1))) /\
                  ((xyz N a1 = xyz N a /\ xyz N a1' = xyz N a') \/ xyz N a1' = xyz N a1)).
      { destruct it as [l|h x y rows e pts|beta ls vals|h ls after nn v|h x ls e atoms]; cbn [effect] in Ha, Ha'.
        - subst. auto.
        - subst. cbn [OREnergies homoLevel xyz]. auto.
        - subst. cbn [OREnergies homoLevel xyz]. split; [|auto]. intros k. rewrite !find_set. destruct (str_dec k (spin_name beta)); auto.
        - destruct Ha as (m & _ & ->). destruct Ha' as (m' & _ & ->). cbn [OREnergies homoLevel xyz]. auto.
        - subst. cbn [OREnergies homoLevel xyz]. auto. }
      destruct K as [K1 K2]. split; [|split].
      - intros k. destruct (K1 k) as [A1 A2]. destruct (IH1 k) as (B1 & B2 & B3 & B4). split; [|split; [|split]].
        + intros Q. apply B1. destruct A1 as [[-> ->]|A1]; auto.
        + intros Q. apply B2. destruct A2 as [[-> ->]|A2]; auto.
        + destruct A1 as [[Q1 Q2]|A1]; [destruct B3 as [[R1 R2]|R]; [left; split; congruence|right; auto]|right; apply B1; auto].
        + destruct A2 as [[Q1 Q2]|A2]; [destruct B4 as [[R1 R2]|R]; [left; split; congruence|right; auto]|right; apply B2; auto].
      - intros Q. apply IH2. destruct K2 as [[-> ->]|K2]; auto.
      - destruct K2 as [[Q1 Q2]|K2]; [destruct IH3 as [[R1 R2]|R]; [left; split; congruence|right; auto]|right; apply IH2; auto]. }
    induction n as [|n IHn]; intros d0 E Hd Hx; cbn [repeat concat] in E; [inversion E; subst; auto|].
    apply effects_app in E as (d2 & Ea & Eb). apply (IHn d2 Eb).
    - intros k. destruct (Step items _ _ Ef _ _ Ea) as (S1 & _). destruct (S1 k) as (_ & _ & B3 & B4). destruct (Hd k) as [Hd1 Hd2]. split; [destruct B3 as [[R1 R2]|R]; congruence|destruct B4 as [[R1 R2]|R]; congruence].
    - destruct (Step items _ _ Ef _ _ Ea) as (_ & _ & [[R1 R2]|R]); congruence. }
  destruct (Idem (lr_data N r') Ef1 (lr_data N r1) Ef2 (fun k => conj eq_refl eq_refl) eq_refl) as [I1 I2].
  split; [|exact I2]. intros spin. destruct (I1 spin) as [Q1 Q2]. unfold getOE, getHOMOLevel. rewrite Q1, Q2. auto.
Qed.
Print Assumptions C87_unchanged_partial.
(** pun files: the matrices of the last sections of the history *)
Theorem C87_pun_history_partial : forall N name r fs itemss, PunReader_new N name = Ok r -> pun_history N name fs itemss ->
  exists bound, forall fuel, (bound <= fuel)%nat -> exists r', pun_reads N fs fuel r = Ok r' /\
    (forall k rows, last_coefs N k (concat itemss) rows -> exists m, getCoefsMatrix N r' (pspin k) = Ok m /\
       denotes m (Z.of_nat (length rows)) (Z.of_nat (length (hd [] rows))) 1 (fun i j _ => nth (Z.to_nat (j - 1)) (nth (Z.to_nat (i - 1)) rows []) (n_zero N))) /\
    (forall k, no_coefs N k (concat itemss) -> getCoefsMatrix N r' (pspin k) = Throw InvalidArgument).
Proof.
  intros N name r fs itemss Hn Hh. destruct (pun_again N name fs itemss Hh) as (bound & H). exists bound. intros fuel Hfuel.
  destruct (H fuel Hfuel r) as (r' & Er & E); [rewrite (pun_new_data _ _ _ Hn); reflexivity|]. rewrite (pun_new_data _ _ _ Hn) in E. cbn [coefs] in E. exists r'. split; [auto|]. split.
  - intros k rows (a & b & h & ls & after & Ei & Hb). rewrite Ei in E. apply peffects_app in E as (c1 & E1 & E2). inversion E2 as [|? ? ? c2 ? Ef E3]; subst.
    cbn [peffect] in Ef. destruct Ef as (m & Dm & ->). exists m. split; [|exact Dm]. unfold getCoefsMatrix. rewrite (pkeeps N k b _ _ E3 Hb), find_set_eq. reflexivity.
  - intros k Hb. unfold getCoefsMatrix. rewrite (pkeeps N k _ _ _ E Hb). reflexivity.
Qed.
Print Assumptions C87_pun_history_partial.
(** refuted: a getter whose section is not in the file any more returns what an earlier file contained *)
Theorem C87_stale_refuted : forall N name r files1 files2 content1 content2 items1 items2, LogReader_new N name = Ok r ->
  files1 name = Some content1 -> log_file N items1 content1 -> files2 name = Some content2 -> log_file N items2 content2 -> other_first items2 ->
  exists bound, forall fuel, (bound <= fuel)%nat -> exists r', log_reads N [files1; files2] fuel r = Ok r' /\
    (forall h a b rows e points, last_item N (is_coordinates N) items1 (Coordinates N h a b rows e points) -> (forall it, In it items2 -> ~ is_coordinates N it) ->
       getCoords N r' = [map (fun p => fst (fst p)) points; map (fun p => snd (fst p)) points; map snd points]) /\
    (forall beta ls values, last_item N (is_eigenvalues N beta) items1 (Eigenvalues N beta ls values) -> (forall it, In it items2 -> ~ is_eigenvalues N beta it) ->
       getOE N r' (spin_name beta) = Ok (concat (map snd values))).
Proof.
  intros N name r files1 files2 content1 content2 items1 items2 Hn F1 L1 F2 L2 Ho.
  destruct (C87_history_partial N name r [files1; files2] [items1; items2] Hn) as (bound & H); [constructor; [eauto|constructor; [eauto|constructor]]|constructor; [auto|constructor]|].
  exists bound. intros fuel Hfuel. destruct (H fuel Hfuel) as (r' & Er & H1 & _ & H2 & _). exists r'. split; [auto|].
  assert (L : forall P it, last_item N P items1 it -> (forall it', In it' items2 -> ~ P it') -> last_item N P (concat [items1; items2]) it).
  { intros P it (a & b & -> & Hp & Hb) Hno. exists a, (b ++ items2). cbn [concat]. rewrite app_nil_r, <- app_assoc. split; [auto|]. split; [auto|]. intros it' I. apply in_app_or in I as [I|I]; auto. }
  split; [intros h a b rows e points Hl Hno; apply (H2 h a b rows e points); auto|intros beta ls values Hl Hno; apply (H1 beta ls values); auto].
Qed.
Print Assumptions C87_stale_refuted.

(** ** the hypotheses are met; further counterexamples *)
Import ReaderExample.
Definition small_items : list (item D) := [Other D $" Entering Gaussian System, Link 0=g09"; ex_energies; Other D []].
Definition small_log : str := text (concat (map (item_lines D) small_items)).
Lemma small_ok : log_file D small_items small_log.
Proof.
  exists (concat (map (item_lines D) small_items)), []. split; [unfold small_log; now rewrite app_nil_r|]. split; [apply line_b; reflexivity|]. split; [apply no_mark_b; reflexivity|].
  unfold small_items. cbn [map concat].
  repeat (apply log_item; [first [apply other_ok; reflexivity|apply ex_energies_ok]|]); [|apply log_nil]. cbn [app item_lines first_of]. split; apply not_occurs_b; reflexivity.
Qed.
Example C87_example : exists r, LogReader_new D $"runs/dimer.log" = Ok r /\
  log_history D $"runs/dimer.log" [fun _ => Some ex_log; fun _ => Some small_log] [ex_items; small_items] /\ Forall other_first (tl [ex_items; small_items]) /\
  other_first ex_items /\ last_item D (is_coordinates D) ex_items ex_coord /\ (forall it, In it small_items -> ~ is_coordinates D it) /\ last_item D (is_eigenvalues D false) small_items ex_energies.
Proof.
  assert (O : forall (l : list (item D)) x t, l = Other D x :: t -> other_first l) by (intros l x t -> beta it t' E; inversion E; subst; intros []).
  eexists. split; [reflexivity|]. split; [constructor; [exists ex_log; split; [reflexivity|exact ex_log_ok]|constructor; [exists small_log; split; [reflexivity|exact small_ok]|constructor]]|].
  split; [constructor; [eapply O; reflexivity|constructor]|]. split; [eapply O; reflexivity|].
  split; [exists (firstn 1 ex_items), (skipn 2 ex_items); split; [reflexivity|]; split; [exact I|]; intros it [<-|[<-|[<-|[<-|[<-|[]]]]]] []|].
  split; [intros it [<-|[<-|[<-|[]]]] []|].
  exists (firstn 1 small_items), (skipn 2 small_items). split; [reflexivity|]. split; [reflexivity|]. intros it [<-|[]] [].
Qed.
Example C87_pun_example : exists r, PunReader_new D $"a.pun" = Ok r /\ pun_history D $"a.pun" [fun _ => Some ex_pun; fun _ => Some ex_pun] [ex_pitems; ex_pitems].
Proof. eexists. split; [reflexivity|]. constructor; [exists ex_pun; split; [reflexivity|exact ex_pun_ok]|constructor; [exists ex_pun; split; [reflexivity|exact ex_pun_ok]|constructor]]. Qed.
(** refuted: a file that begins with energies, read twice; the second call goes to the position where the first one ended, and the energies are lost *)
Definition twice (content : str) (fuel : nat) : outcome (list (num D) * list (num D)) :=
  r <- LogReader_new D $"a.log" ;; r1 <- log_read D (fun _ => Some content) fuel r ;; r2 <- log_read D (fun _ => Some content) fuel r1 ;;
  e1 <- getOE D r1 $"Alpha" ;; e2 <- getOE D r2 $"Alpha" ;; Ok (e1, e2).
Theorem C87_energies_first_refuted : exists items content, log_file D items content /\ forall fuel, (10 <= fuel)%nat -> twice content fuel = Ok ([(-191396, -4); (-1022575, -5); (-81234, -5); (-50000, -5); (10000, -5); (20000, -5)], []).
Proof.
  exists [ex_energies], (text (item_lines D ex_energies)). split.
  - exists (item_lines D ex_energies), []. split; [now rewrite app_nil_r|]. split; [apply line_b; reflexivity|]. split; [apply no_mark_b; reflexivity|].
    apply (log_item D [] ex_energies [] []); [apply ex_energies_ok; split; apply not_occurs_b; reflexivity|apply log_nil].
  - intros fuel Hf. replace fuel with (10 + (fuel - 10))%nat by lia. generalize (fuel - 10)%nat. intros n. clear. vm_compute. reflexivity.
Qed.
Print Assumptions C87_energies_first_refuted.
Definition one_h : item D := Population D $"     Gross orbital populations:" $"                           1" [$"   1 1   H  1S          0.49800"] $"          Condensed to atoms (all electrons):" [($"H", [($"1S", [(49800, -5)])])].
(** refuted: the atoms of an earlier file are counted *)
Theorem C87_atoms_refuted : exists items1 content1 items2 content2, log_file D items1 content1 /\ log_file D items2 content2 /\ other_first items2 /\
  (exists h a ls e, items2 = [Other D []; Population D h a ls e [($"H", [($"1S", [(49800, -5)])])]]) /\
  forall fuel, (20 <= fuel)%nat -> (r <- LogReader_new D $"a.log" ;; r <- log_reads D [fun _ => Some content1; fun _ => Some content2] fuel r ;; Ok (getBasisFuncCount D r)) = Ok [3; 1; 1].
Proof.
  assert (P2 : item_ok D one_h [] []).
  { cbn [item_ok one_h]. split; [apply line_b; reflexivity|]. split; [apply begins_b; reflexivity|]. split; [apply line_b; reflexivity|]. split; [discriminate|]. split.
    - apply (pop_atom D $"H" $"1S" [(49800, -5)] [] $"   1 1   H  1S          0.49800" [] [] []); [|constructor|constructor].
      split; [apply line_b; reflexivity|]. split; [apply not_occurs_b; reflexivity|]. split; [exists $"1", $"1", [$"0.49800"]; split; [apply row_b; reflexivity|constructor; [reflexivity|constructor]]|].
      split; [apply alphabetic_b; reflexivity|]. eexists. split; [reflexivity|]. split; [apply stripped_b|apply alphabetic_b; reflexivity].
    - split; [apply line_b; reflexivity|]. split; [apply occurs_b; reflexivity|]. eexists. split; [reflexivity|]. split; [apply stripped_b|apply alphabetic_b; reflexivity]. }
  exists [ex_population], (text (item_lines D ex_population)), [Other D []; one_h], (text ([] :: item_lines D one_h)). split; [|split; [|split; [|split]]].
  - exists (item_lines D ex_population), []. split; [now rewrite app_nil_r|]. split; [apply line_b; reflexivity|]. split; [apply no_mark_b; reflexivity|].
    apply (log_item D [] ex_population [] []); [apply ex_population_ok|apply log_nil].
  - exists ([] :: item_lines D one_h), []. split; [now rewrite app_nil_r|]. split; [apply line_b; reflexivity|]. split; [apply no_mark_b; reflexivity|].
    apply (log_item D [] (Other D []) [one_h] (item_lines D one_h)); [apply other_ok; reflexivity|]. apply (log_item D [] one_h [] []); [exact P2|apply log_nil].
  - intros beta it t E. inversion E; subst. intros [].
  - eexists _, _, _, _. reflexivity.
  - intros fuel Hf. replace fuel with (20 + (fuel - 20))%nat by lia. generalize (fuel - 20)%nat. intros n. clear. vm_compute. reflexivity.
Qed.
Print Assumptions C87_atoms_refuted.
