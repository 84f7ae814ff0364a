(** * Properties C64-C69: log files *)
From Verif Require Import ParserWf.
From Verif Require Export ReaderExample.
From Verif Require Export StrSpec StrModel.
Open Scope Z_scope.

(** ** C64 *)
Lemma start_iff headers l tag : increasing (map fst headers) -> (startSection_ headers l = Some tag <-> starts_section headers l tag).
Proof.
  intros Inc. rewrite start_some. split.
  - intros (a & ps & b & -> & (p & Ip & Hp) & Hn). split; [exists ps, p; split; [apply in_or_app; right; left; auto|auto]|].
    intros t qs q I Iq Hq. apply in_app_or in I as [I|[I|I]]; [exfalso; eapply Hn; eauto|inversion I; auto|]. right.
    clear - Inc I. induction a as [|[x y] a IH]; cbn [map fst app increasing] in Inc.
    + destruct Inc as [F _]. rewrite Forall_forall in F. apply F. apply in_map_iff. exists (t, qs). auto.
    + apply IH, Inc.
  - intros [(ps & p & I & Ip & Hp) Hmin].
    assert (G : exists a qs b, headers = a ++ (tag, qs) :: b /\ (exists q, In q qs /\ occurs q l) /\ forall t' qs' q, In (t', qs') a -> In q qs' -> ~ occurs q l).
    { apply in_split in I as (a & b & E). exists a, ps, b. split; [auto|]. split; [eauto|]. intros t' qs' q I' Iq Hq.
      destruct (Hmin t' qs' q) as [->|L]; auto; [rewrite E; apply in_or_app; left; auto| |].
      - clear - Inc E I'. subst. induction a as [|[x y] a IH]; [destruct I'|]. cbn [map fst app increasing] in Inc. destruct Inc as [F Inc]. destruct I' as [I'|I'].
        + inversion I'; subst. rewrite Forall_forall in F. specialize (F tag). rewrite ltb_irrefl in F. discriminate F. rewrite map_app. apply in_or_app; right; left; auto.
        + apply IH; auto.
      - clear - Inc E I' L. subst. induction a as [|[x y] a IH]; [destruct I'|]. cbn [map fst app increasing] in Inc. destruct Inc as [F Inc]. destruct I' as [I'|I'].
        + inversion I'; subst. rewrite Forall_forall in F. specialize (F tag).
          assert (X : str_ltb t' tag = true) by (apply F; rewrite map_app; apply in_or_app; right; left; auto).
          pose proof (ltb_trans _ _ _ X L) as Y. rewrite ltb_irrefl in Y. discriminate.
        + apply IH; auto. }
    destruct G as (a & qs & b & G). exists a, qs, b. auto.
Qed.
Lemma none_b headers l : startSection_ headers l = None -> starts_none headers l.
Proof. exact (proj1 (start_none headers l)). Qed.
(** reading calls, for every line that contains a header, the reader of the
    alphabetically first such section on the lines after it; other lines are skipped *)
Theorem C64_dispatch : forall M headers (rd : nat -> str -> fstate -> M -> outcome (fstate * M)) (takes : str -> list str -> list str -> Prop) (update : str -> list str -> M -> M),
  increasing (map fst headers) ->
  (forall fuel tag f ls rest tail m, takes tag ls rest -> at_ f (ls ++ rest) tail -> (length ls < fuel)%nat ->
     exists f', rd fuel tag f m = Ok (f', update tag ls m) /\ at_ f' rest tail) ->
  forall lines tail trace, sections headers takes lines trace -> is_line tail -> starts_none headers tail ->
  forall files name pos m, files name = Some (text lines ++ tail) ->
  exists bound, forall fuel, (bound <= fuel)%nat -> exists p,
    read files headers rd fuel name pos m = Ok (p, fold_left (fun m e => update (fst e) (snd e) m) trace m).
Proof.
  intros M headers rd takes update Inc Hrd lines tail trace H Lt Nt files name pos m Hf. exists (length lines + 2)%nat. intros fuel Hfuel. unfold read. rewrite Hf.
  assert (G : forall fuel f line m, at_ f lines tail -> (length lines + 2 <= fuel)%nat -> exists f',
     read_loop headers rd fuel f line m = Ok (f', fold_left (fun m e => update (fst e) (snd e) m) trace m)).
  { clear - Inc Hrd H Lt Nt. induction H as [|l lines trace Ll Nl H IH|l tag ls rest trace Ll Sl Tk H IH]; intros fuel f line m Hat Hn.
    - destruct fuel as [|[|fuel]]; [cbn [length] in Hn; lia|cbn [length] in Hn; lia|]. cbn [read_loop]. destruct (getl_tail f tail line Hat Lt) as (f1 & -> & Dn & _ & _ & Fl). destruct tail as [|c tl].
      + rewrite Fl. exists f1. reflexivity.
      + rewrite Fl, (proj2 (start_none headers _) Nt). cbn [bind]. destruct (tell_done f1 Dn) as [D2 _]. destruct (getl_done (tell f1) (c :: tl) D2) as (f3 & -> & _ & F3). rewrite F3. exists f3. reflexivity.
    - destruct fuel as [|fuel]; [lia|]. cbn [read_loop]. destruct (getl_line f l lines tail line Hat Ll) as (f1 & -> & Hat1 & _). rewrite (proj1 (proj2 Hat1)).
      rewrite (proj2 (start_none headers _) Nl). cbn [bind]. destruct (tell_at _ _ _ Hat1) as (Hat2 & _). apply IH; auto. cbn [length] in Hn. lia.
    - destruct fuel as [|fuel]; [lia|]. cbn [read_loop]. destruct (getl_line f l (ls ++ rest) tail line Hat Ll) as (f1 & -> & Hat1 & _). rewrite (proj1 (proj2 Hat1)).
      rewrite (proj2 (start_iff headers l tag Inc) Sl). cbn [length] in Hn. rewrite app_length in Hn.
      destruct (Hrd fuel tag f1 ls rest tail m Tk Hat1 ltac:(lia)) as (f2 & -> & Hat2). cbn [bind]. destruct (tell_at _ _ _ Hat2) as (Hat3 & _).
      cbn [fold_left fst snd]. apply IH; [auto|lia]. }
  destruct (G fuel (mkF (mkStream (text lines ++ tail) 0 false false) pos) [] m) as (f' & ->); [|lia|].
  - unfold at_, left_in. cbn [fid s_eof s_fail s_pos s_all skipn]. auto.
  - cbn [bind fst snd]. eauto.
Qed.
Print Assumptions C64_dispatch.
(** a reader that is called for Coord and Overlap sections and takes one line each time *)
Example C64_example :
  let takes := fun (tag : str) (ls rest : list str) => exists l, ls = [l] /\ is_line l in
  let lines := [$" junk"; $" Center     Atomic      Atomic"; $" *** Overlap ***"; $" *** Overlap *** Center     Atomic     Atomic"; $"x"; $" *** Overlap ***"; $"y"] in
  increasing (map fst log_headers) /\
  sections log_headers takes lines [($"Coord", [$" *** Overlap ***"]); ($"Coord", [$"x"]); ($"Overlap", [$"y"])] /\
  exists rd : nat -> str -> fstate -> list (str * str) -> outcome (fstate * list (str * str)),
    (forall fuel tag f ls rest tail m, takes tag ls rest -> at_ f (ls ++ rest) tail -> (length ls < fuel)%nat ->
     exists f', rd fuel tag f m = Ok (f', m ++ [(tag, hd [] ls)]) /\ at_ f' rest tail).
Proof.
  cbv zeta. split; [cbn [map fst log_headers increasing]; repeat (split; [repeat (constructor; [reflexivity|]); constructor|]); exact I|]. split.
  - assert (Inc : increasing (map fst log_headers)) by (cbn [map fst log_headers increasing]; repeat (split; [repeat (constructor; [reflexivity|]); constructor|]); exact I).
    apply sec_skip; [apply line_b; reflexivity|apply none_b; reflexivity|].
    apply (sec_start _ _ _ _ [_]); [apply line_b; reflexivity|apply start_iff; [exact Inc|reflexivity]|eexists; split; [reflexivity|apply line_b; reflexivity]|].
    apply (sec_start _ _ _ _ [_]); [apply line_b; reflexivity|apply start_iff; [exact Inc|reflexivity]|eexists; split; [reflexivity|apply line_b; reflexivity]|].
    apply (sec_start _ _ _ _ [_] []); [apply line_b; reflexivity|apply start_iff; [exact Inc|reflexivity]|eexists; split; [reflexivity|apply line_b; reflexivity]|constructor].
  - exists (fun _ tag f m => let '(l, f) := getl f [] in Ok (f, m ++ [(tag, l)])). intros fuel tag f ls rest tail m (l & -> & Ll) Hat _.
    destruct (getl_line f l rest tail [] Hat) as (f1 & -> & Hat1 & _); auto. exists f1. auto.
Qed.
(** the tags of the headers and of the readers must be the same *)
Theorem C64_registration : forall headers readers,
  ((forall t, In t (map fst headers) <-> In t readers) -> checkSections_ headers readers = Ok tt) /\
  (~ (forall t, In t (map fst headers) <-> In t readers) -> checkSections_ headers readers = Throw RuntimeError).
Proof.
  intros headers readers. unfold checkSections_.
  assert (B1 : forall t, existsb (str_eqb t) readers = true <-> In t readers).
  { intros t. rewrite existsb_exists. split; [intros (x & I & E); apply str_eqb_eq in E; subst; auto|intros I; exists t; split; [auto|apply str_eqb_refl]]. }
  assert (B2 : forall t, m_has t headers = true <-> In t (map fst headers)).
  { intros t. rewrite m_has_iff, find_keys. destruct (m_find t headers); split; intros H; try discriminate; eauto; [destruct H; discriminate|congruence]. }
  assert (G : forall l, (forall t, In t l -> In t readers /\ In t (map fst headers)) -> for_each l (fun t _ => if negb (existsb (str_eqb t) readers) then Throw RuntimeError else if negb (m_has t headers) then Throw RuntimeError else Ok tt) tt = Ok tt).
  { induction l as [|t l IH]; intros H; cbn [for_each]; [auto|]. destruct (H t (or_introl eq_refl)) as [H1 H2]. rewrite (proj2 (B1 t) H1), (proj2 (B2 t) H2). cbn [negb bind]. apply IH. intros; apply H; right; auto. }
  assert (K : forall l, (exists t, In t l /\ ~ (In t readers /\ In t (map fst headers))) -> for_each l (fun t _ => if negb (existsb (str_eqb t) readers) then Throw RuntimeError else if negb (m_has t headers) then Throw RuntimeError else Ok tt) tt = Throw RuntimeError).
  { induction l as [|t l IH]; intros (x & I & H); [destruct I|]. cbn [for_each]. destruct (existsb (str_eqb t) readers) eqn:E1; cbn [negb]; [|reflexivity]. destruct (m_has t headers) eqn:E2; cbn [negb]; [|reflexivity]. cbn [bind]. apply IH.
    exists x. split; [|auto]. destruct I as [->|I]; [|auto]. exfalso. apply H. split; [apply B1|apply B2]; auto. }
  assert (Dec : forall t (l : list str), {In t l} + {~ In t l}) by (intros; apply in_dec, list_eq_dec, ascii_dec).
  split.
  - intros H. apply G. intros t I. rewrite in_set_of in I. apply in_app_or in I as [I|I]; split; auto; apply H; auto.
  - intros H. apply K.
    destruct (List.find (fun t => negb (existsb (str_eqb t) readers && m_has t headers)) (map fst headers ++ readers)) as [t|] eqn:Fd.
    + apply List.find_some in Fd as [I X]. exists t. split; [apply in_set_of; auto|]. intros [I1 I2]. rewrite (proj2 (B1 t) I1), (proj2 (B2 t) I2) in X. discriminate.
    + exfalso. apply H. intros t. pose proof (fun x => List.find_none _ _ Fd x) as Q. split; intros I.
      * specialize (Q t (in_or_app _ _ _ (or_introl I))). cbv beta in Q. apply negb_false_iff, andb_true_iff in Q as [Q _]. apply B1, Q.
      * specialize (Q t (in_or_app _ _ _ (or_intror I))). cbv beta in Q. apply negb_false_iff, andb_true_iff in Q as [_ Q]. apply B2, Q.
Qed.
Print Assumptions C64_registration.
Example C64_registration_example : checkSections_ log_headers log_readers = Ok tt /\ checkSections_ log_headers [$"Coord"] = Throw RuntimeError.
Proof. split; reflexivity. Qed.


(** ** reading a log file *)
Lemma read_log N name r files content items fuel : LogReader_new N name = Ok r -> files name = Some content -> log_file N items content -> (length content + 2 <= fuel)%nat ->
  exists r', log_read N files fuel r = Ok r' /\ effects N items (mkLog N [] [] None [] []) (lr_data N r').
Proof.
  intros Hn Hf Hl Hfuel. unfold LogReader_new in Hn. apply bind_ok in Hn as (e & He & Hn). destruct (negb (str_eqb e $".log")); [discriminate|].
  change (checkSections_ log_headers log_readers) with (Ok tt : outcome unit) in Hn. cbn [bind] in Hn. inversion Hn; subst r. unfold log_read. cbn [lr_name lr_pos lr_data].
  destruct (read_file N files name items content fuel (mkLog N [] [] None [] []) Hf Hl Hfuel) as (p & d & -> & E). cbn [bind fst snd]. eexists. split; [reflexivity|]. exact E.
Qed.
Lemma log_new_data N name r : LogReader_new N name = Ok r -> r = mkLogReader N name (Some O) (mkLog N [] [] None [] []).
Proof.
  unfold LogReader_new. intros Hn. apply bind_ok in Hn as (e & He & Hn). destruct (negb (str_eqb e $".log")); [discriminate|].
  change (checkSections_ log_headers log_readers) with (Ok tt : outcome unit) in Hn. cbn [bind] in Hn. inversion Hn; auto.
Qed.

(** ** C65 *)
(** full property: for every size; proved: for every size n if, for n <= 5, the line after the table is blank or begins with a number other than n + 1 *)
Theorem C65_round_trip_partial : forall N name r files content items, LogReader_new N name = Ok r -> files name = Some content -> log_file N items content ->
  forall h ls after n v, last_item N (is_overlaps N) items (Overlaps N h ls after n v) ->
  exists bound, forall fuel, (bound <= fuel)%nat -> exists r' m, log_read N files fuel r = Ok r' /\ getOverlapMatrix N r' = Ok m /\
    denotes m n n 1 (fun i j _ => v (Z.max i j) (Z.min i j)).
Proof.
  intros N name r files content items Hn Hf Hl h ls after n v (a & b & -> & _ & Hb). exists (length content + 2)%nat. intros fuel Hfuel.
  destruct (read_log N name r files content _ fuel Hn Hf Hl Hfuel) as (r' & -> & E). apply effects_app in E as (d1 & E1 & E2). inversion E2 as [|? ? ? d2 ? Ef E3]; subst.
  cbn [effect] in Ef. destruct Ef as (m & Dm & ->). exists r', m. split; [auto|]. split; [|auto]. unfold getOverlapMatrix. rewrite (keeps_S N b _ _ E3 Hb). reflexivity.
Qed.
Print Assumptions C65_round_trip_partial.
Example C65_example : exists r, LogReader_new D $"runs/dimer.log" = Ok r /\ log_file D ex_items ex_log /\ last_item D (is_overlaps D) ex_items ex_overlap.
Proof.
  eexists. split; [reflexivity|]. split; [exact ex_log_ok|].
  exists (firstn 3 ex_items), (skipn 4 ex_items). split; [reflexivity|]. split; [exact I|]. intros it [<-|[<-|[<-|[]]]] [].
Qed.
(** refuted: a matrix with at most five columns is not read if the next line begins with a word that is not a number, as in Gaussian's output *)
Theorem C65_small_refuted : forall N name r files, LogReader_new N name = Ok r ->
  forall pre h ls n v l more tail w ws ex, Forall (fun x => is_line x /\ no_mark x) pre -> is_line h -> begins KOverlap h -> 1 <= n <= 5 -> overlap_table N n v ls ->
  is_line l -> words_of l (w :: ws) -> stoi w = Throw ex -> files name = Some (text (pre ++ h :: ls ++ l :: more) ++ tail) ->
  exists bound, forall fuel, (bound <= fuel)%nat -> log_read N files fuel r = Throw ex.
Proof.
  intros N name r files Hn pre h ls n v l more tail w ws ex Hp Lh Bh H5 (t & Hl & Ht) Ll Hw Hz Hf.
  rewrite (log_new_data _ _ _ Hn). exists (length pre + length ls + 2)%nat. intros fuel Hfuel. unfold log_read. cbn [lr_name lr_pos lr_data]. unfold read. rewrite Hf.
  generalize (mkLog N [] [] None [] []) as d. intros d.
  assert (G : forall fuel f line, at_ f (pre ++ h :: ls ++ l :: more) tail -> (length pre + length ls + 2 <= fuel)%nat -> read_loop log_headers (log_section N) fuel f line d = Throw ex).
  { clear Hfuel Hf. induction Hp as [|x pre [Lx Nx] Hp IH]; intros fu f line Hat Hfu; (destruct fu as [|fu]; [cbn [length] in Hfu; lia|]); cbn [read_loop app] in *.
    - destruct (getl_line f h _ tail line Hat Lh) as (f1 & -> & Hat1 & _). rewrite (proj1 (proj2 Hat1)), (begins_start _ _ Bh). cbn [tag_of].
      change (log_section N fu $"Overlap" f1 d) with (OverlapSectionReader N fu f1 d). cbn [length] in Hfu.
      rewrite (overlap_small_throws N v n t Ht ltac:(unfold INT_MAX; lia) f1 ls l w ws ex more tail fu d H5 Ll Hw Hz Hl Hat1) by lia. reflexivity.
    - destruct (getl_line f x _ tail line Hat Lx) as (f1 & -> & Hat1 & _). rewrite (proj1 (proj2 Hat1)), (no_mark_start _ Nx). cbn [bind].
      apply IH; [apply (tell_at _ _ _ Hat1)|cbn [length] in Hfu; lia]. }
  rewrite G; [reflexivity| |auto]. unfold at_, left_in. cbn [fid s_eof s_fail s_pos s_all skipn]. auto.
Qed.
Print Assumptions C65_small_refuted.
(** the hypotheses are met by a 1 x 1 matrix, followed by the title of the next matrix *)
Example C65_small_example : is_line $" *** Overlap ***" /\ begins KOverlap $" *** Overlap ***" /\ overlap_table D 1 (fun _ _ => (100000, -5)) [$"                1"; $"      1  0.100000D+01"] /\
  words_of $" *** Kinetic Energy ***" [$"***"; $"Kinetic"; $"Energy"; $"***"] /\ stoi $"***" = Throw InvalidArgument.
Proof.
  split; [apply line_b; reflexivity|]. split; [apply begins_b; reflexivity|]. split; [|split; [apply words_b; reflexivity|reflexivity]].
  exists (fun _ _ => $"0.100000D+01"). split.
  - exists [[$"                1"; $"      1  0.100000D+01"]]. split; [reflexivity|]. split; [|repeat (apply Forall_cons; [apply line_b; reflexivity|]); apply Forall_nil].
    change (range 0 ((1 - 1) / 5)) with [0]. constructor; [|constructor]. eexists _, _. split; [reflexivity|]. split; [apply words_b; reflexivity|].
    change (range (5 * 0 + 1) 1) with [1]. constructor; [apply row_b; reflexivity|constructor].
  - intros i j _ _. apply coef_b. reflexivity.
Qed.

(** ** C66 *)
(** full property: for every section; proved: for sections that begin with occupied orbitals *)
Theorem C66_energies_partial : forall N name r files content items, LogReader_new N name = Ok r -> files name = Some content -> log_file N items content ->
  forall beta ls values, last_item N (is_eigenvalues N beta) items (Eigenvalues N beta ls values) ->
  exists bound, forall fuel, (bound <= fuel)%nat -> exists r', log_read N files fuel r = Ok r' /\
    getOE N r' (spin_name beta) = Ok (concat (map snd values)) /\
    getHOMOLevel N r' (spin_name beta) = Ok (Z.of_nat (length (concat (map snd (filter fst values))))).
Proof.
  intros N name r files content items Hn Hf Hl beta ls values (a & b & -> & _ & Hb). exists (length content + 2)%nat. intros fuel Hfuel.
  destruct (read_log N name r files content _ fuel Hn Hf Hl Hfuel) as (r' & -> & E). apply effects_app in E as (d1 & E1 & E2). inversion E2 as [|? ? ? d2 ? Ef E3]; subst.
  cbn [effect] in Ef. subst d2. exists r'. split; [auto|]. unfold getOE, getHOMOLevel. destruct (keeps_OE N beta b _ _ E3 Hb) as [-> ->]. cbn [OREnergies homoLevel].
  rewrite !find_set_eq. auto.
Qed.
Print Assumptions C66_energies_partial.
Example C66_example : exists r, LogReader_new D $"runs/dimer.log" = Ok r /\ log_file D ex_items ex_log /\ last_item D (is_eigenvalues D false) ex_items ex_energies /\
  match ex_energies with Eigenvalues _ _ _ values => map snd values = [[(-191396, -4); (-1022575, -5); (-81234, -5)]; [(-50000, -5)]; [(10000, -5); (20000, -5)]] | _ => False end.
Proof.
  eexists. split; [reflexivity|]. split; [exact ex_log_ok|]. split; [|reflexivity].
  exists (firstn 4 ex_items), (skipn 5 ex_items). split; [reflexivity|]. split; [reflexivity|]. intros it [<-|[<-|[]]] H; exact H.
Qed.
(** refuted: without a section that begins with occupied orbitals, the getters throw, whatever virtual energies are printed *)
Theorem C66_no_occupied_refuted : forall N name r files content items, LogReader_new N name = Ok r -> files name = Some content -> log_file N items content ->
  forall beta, (forall it, In it items -> ~ is_eigenvalues N beta it) ->
  exists bound, forall fuel, (bound <= fuel)%nat -> exists r', log_read N files fuel r = Ok r' /\
    getOE N r' (spin_name beta) = Throw OutOfRange /\ getHOMOLevel N r' (spin_name beta) = Throw OutOfRange.
Proof.
  intros N name r files content items Hn Hf Hl beta Hb. exists (length content + 2)%nat. intros fuel Hfuel.
  destruct (read_log N name r files content _ fuel Hn Hf Hl Hfuel) as (r' & -> & E). exists r'. split; [auto|]. unfold getOE, getHOMOLevel. destruct (keeps_OE N beta _ _ _ E Hb) as [-> ->]. auto.
Qed.
Print Assumptions C66_no_occupied_refuted.
(** a hydrogen atom: all Beta orbitals are virtual *)
Definition h_items : list (item D) := [Other D $"  Beta virt. eigenvalues --    0.10000   0.20000"].
Example C66_no_occupied_example : log_file D h_items (text [$"  Beta virt. eigenvalues --    0.10000   0.20000"]) /\
  (forall it, In it h_items -> ~ is_eigenvalues D true it) /\ energy_line D true $"  Beta virt. eigenvalues --    0.10000   0.20000" (false, [(10000, -5); (20000, -5)]).
Proof.
  split; [exists [$"  Beta virt. eigenvalues --    0.10000   0.20000"], []; split; [rewrite app_nil_r; reflexivity|]; split; [apply line_b; reflexivity|]; split; [apply no_mark_b; reflexivity|]|].
  - apply (log_item D [] (Other D _) [] []); [apply other_ok; reflexivity|apply log_nil].
  - split; [intros it [<-|[]] H; exact H|]. split; [apply line_b; reflexivity|]. split; [cbn [fst]; split; [apply occurs_b; reflexivity|apply not_occurs_b; reflexivity]|].
    eexists _, [$"0.10000"; $"0.20000"]. split; [apply words_b; vm_compute; reflexivity|]. split; [|vm_compute; reflexivity].
    exists $"Beta", $"virt.", $"eigenvalues", $"--", [$"0.10000"; $"0.20000"], [[$"0.10000"]; [$"0.20000"]].
    split; [reflexivity|]. split; [|split; [reflexivity|cbn [length]; lia]]. constructor; [|constructor; [|constructor]]; glue 0.
Qed.

(** ** C67 *)
Lemma first_dash (s : str) : ~ In "-"%char s \/ exists a b, s = a ++ $"-" ++ b /\ ~ In "-"%char a.
Proof.
  induction s as [|c s IH]; [left; intros []|]. destruct (ascii_dec c "-"%char) as [->|Nc]; [right; exists [], s; split; [reflexivity|intros []]|].
  destruct IH as [IH|(a & b & -> & IH)]; [left; intros [H|H]; auto|right; exists (c :: a), b]. split; [reflexivity|]. intros [H|H]; auto.
Qed.
Lemma energy_new c a : no_white (c :: a) -> ~ In "-"%char a -> energy (c :: a).
Proof.
  intros W Na. split; [split; [discriminate|exact W]|]. intros [|x p] q E; [auto|]. exfalso. cbn [app] in E. inversion E; subst. apply Na. apply in_or_app. right. left. auto.
Qed.
Lemma every_glued tok : word tok -> exists es, glued tok es.
Proof.
  intros [Ne W]. remember (length tok) as n eqn:En. assert (L : (length tok <= n)%nat) by lia. clear En. revert tok Ne W L.
  induction n as [|n IH]; intros [|c tok] Ne W L; try congruence; cbn [length] in L; [lia|].
  destruct (first_dash tok) as [Nd|(a & b & -> & Nd)].
  - exists [c :: tok]. split; [cbn [concat]; now rewrite app_nil_r|]. split; [discriminate|]. split; [constructor; [apply energy_new; auto|constructor]|]. intros e t E. inversion E. constructor.
  - destruct (IH ($"-" ++ b)) as (es & E & Nes & Fe & Hd).
    + discriminate.
    + intros x I. apply W. right. apply in_or_app. auto.
    + rewrite app_length in L. lia.
    + destruct es as [|e0 es]; [congruence|]. exists ((c :: a) :: e0 :: es). split; [change (c :: a ++ $"-" ++ b) with ((c :: a) ++ $"-" ++ b); rewrite E; reflexivity|].
      split; [discriminate|]. split.
      * constructor; [|auto]. apply energy_new; [|auto]. intros x I. apply W. destruct I as [->|I]; [left; auto|right; apply in_or_app; auto].
      * intros e t X. inversion X; subst. constructor; [|apply (Hd e0); auto]. inversion Fe as [|? ? [[N0 _] _] _]; subst. destruct e0 as [|x e0]; [congruence|]. cbn [concat app list_ascii_of_string] in E. inversion E. exists e0. reflexivity.
Qed.
Lemma glued_unique tok es es' : glued tok es -> glued tok es' -> es = es'.
Proof.
  intros H H'. pose proof (glue_ok tok es [] H) as A. pose proof (glue_ok tok es' [] H') as B. rewrite A in B. cbn [app] in B. congruence.
Qed.
(** full property: every word after the fourth is split; proved: for lines whose number of words is not nine. The pieces make up the word, and the minus signs begin the pieces *)
Theorem C67_split_partial : forall l ws, words_of l ws -> length ws <> 9%nat ->
  exists groups, Forall2 glued (skipn 4 ws) groups /\ splitStEnergies l = Ok (firstn 4 ws ++ concat groups).
Proof.
  intros l ws Hw N9. apply words_split in Hw. pose proof (splitSt_words l) as Fw. rewrite Hw in Fw.
  assert (G : exists groups, Forall2 glued (skipn 4 ws) groups).
  { assert (F4 : Forall word (skipn 4 ws)) by (rewrite <- (firstn_skipn 4 ws) in Fw; apply Forall_app in Fw; apply Fw).
    induction F4 as [|t ts Ht F4 (gs & IH)]; [exists []; constructor|]. destruct (every_glued t Ht) as (es & He). exists (es :: gs). constructor; auto. }
  destruct G as (groups & G). exists groups. split; [auto|]. unfold splitStEnergies. rewrite Hw. destruct (Nat.eqb_spec (length ws) 9) as [E9|_]; [congruence|].
  generalize (firstn 4 ws). clear - G. intros acc. revert acc. induction G as [|t g toks groups Hg G IH]; intros acc; cbn [for_each concat]; [now rewrite app_nil_r|].
  rewrite (glue_ok t g acc Hg). cbn [bind]. rewrite IH. now rewrite app_assoc.
Qed.
Print Assumptions C67_split_partial.
(** the pieces of a word are determined *)
Theorem C67_unique : forall tok es es', glued tok es -> glued tok es' -> es = es'.
Proof. exact glued_unique. Qed.
Print Assumptions C67_unique.
(** proved: at most five energies after four words, with or without blanks between them *)
Theorem C67_five_partial : forall l ws es, words_of l ws -> energy_words ws es -> splitStEnergies l = Ok (firstn 4 ws ++ es).
Proof.
  intros l ws es Hw He. pose proof He as (w1 & w2 & w3 & w4 & toks & groups & -> & G & -> & L5). cbn [firstn].
  destruct (energies_ok l _ _ Hw He) as (x & Lx & E). rewrite E. f_equal. f_equal.
  apply words_split in Hw. unfold splitStEnergies in E. rewrite Hw in E. cbn [length] in E.
  destruct (Nat.eqb_spec (S (S (S (S (length toks))))) 9) as [E9|N9].
  - inversion E as [E0]. pose proof (glued_nonempty _ _ G). rewrite (glued_all_single _ _ G) in E0 by lia.
    change (w1 :: w2 :: w3 :: w4 :: toks) with ([w1; w2; w3; w4] ++ toks) in E0. symmetry. eapply app_inv_tail; eauto.
  - cbn [skipn firstn] in E. assert (X : forall acc, for_each toks (fun s items2 => match find $"-" s with None => Ok (items2 ++ [s]) | Some p => glue_loop (S (length s)) s (Some p) items2 end) acc = Ok (acc ++ concat groups)).
    { clear - G. induction G as [|t g toks groups Hg G IH]; intros acc; cbn [for_each concat]; [now rewrite app_nil_r|].
      rewrite (glue_ok t g acc Hg). cbn [bind]. rewrite IH. now rewrite app_assoc. }
    rewrite X in E. inversion E as [E0]. eapply app_inv_tail. symmetry. exact E0.
Qed.
Print Assumptions C67_five_partial.
(** refuted: a line with nine words is not split *)
Theorem C67_nine_refuted : forall l ws, words_of l ws -> length ws = 9%nat -> splitStEnergies l = Ok ws.
Proof. intros l ws Hw E9. apply words_split in Hw. unfold splitStEnergies. rewrite Hw, E9. reflexivity. Qed.
Print Assumptions C67_nine_refuted.
Example C67_example :
  words_of $" Alpha  occ. eigenvalues --  -19.1396-10.22575 -0.81234" [$"Alpha"; $"occ."; $"eigenvalues"; $"--"; $"-19.1396-10.22575"; $"-0.81234"] /\
  splitStEnergies $" Alpha  occ. eigenvalues --  -19.1396-10.22575 -0.81234" = Ok [$"Alpha"; $"occ."; $"eigenvalues"; $"--"; $"-19.1396"; $"-10.22575"; $"-0.81234"] /\
  splitStEnergies $"a b c d -19.1396-10.22575 -4.0 -3.0 -2.0 -1.0" = Ok [$"a"; $"b"; $"c"; $"d"; $"-19.1396-10.22575"; $"-4.0"; $"-3.0"; $"-2.0"; $"-1.0"].
Proof. split; [apply words_b; reflexivity|]. split; reflexivity. Qed.

(** ** C68 *)
Theorem C68_coordinates : forall N name r files content items, LogReader_new N name = Ok r -> files name = Some content -> log_file N items content ->
  exists bound, forall fuel, (bound <= fuel)%nat -> exists r', log_read N files fuel r = Ok r' /\
    (forall h a b rows e points, last_item N (is_coordinates N) items (Coordinates N h a b rows e points) ->
       getCoords N r' = [map (fun p => fst (fst p)) points; map (fun p => snd (fst p)) points; map snd points]) /\
    ((forall it, In it items -> ~ is_coordinates N it) -> getCoords N r' = []).
Proof.
  intros N name r files content items Hn Hf Hl. exists (length content + 2)%nat. intros fuel Hfuel.
  destruct (read_log N name r files content _ fuel Hn Hf Hl Hfuel) as (r' & -> & E). exists r'. split; [auto|]. unfold getCoords. split.
  - intros h a b rows e points (u & w & -> & _ & Hb). apply effects_app in E as (d1 & E1 & E2). inversion E2 as [|? ? ? d2 ? Ef E3]; subst.
    cbn [effect] in Ef. subst d2. rewrite (keeps_xyz N w _ _ E3 Hb). reflexivity.
  - intros Hb. rewrite (keeps_xyz N _ _ _ E Hb). reflexivity.
Qed.
Print Assumptions C68_coordinates.
Example C68_example : exists r, LogReader_new D $"runs/dimer.log" = Ok r /\ log_file D ex_items ex_log /\ last_item D (is_coordinates D) ex_items ex_coord.
Proof.
  eexists. split; [reflexivity|]. split; [exact ex_log_ok|].
  exists (firstn 1 ex_items), (skipn 2 ex_items). split; [reflexivity|]. split; [exact I|]. intros it [<-|[<-|[<-|[<-|[<-|[]]]]]] [].
Qed.

(** ** C69 *)
Definition counts {N} (atoms : list (atom N)) : list Z := map (fun a => Z.of_nat (length (snd a))) atoms.
Lemma same_counts N (a b : list (atom N)) : same_basis N a b -> counts a = counts b.
Proof.
  unfold counts. induction 1 as [|x y a b [_ H2] H IH]; cbn [map]; [auto|]. f_equal; [|exact IH]. apply (f_equal (@length str)) in H2. rewrite !map_length in H2. congruence.
Qed.
Lemma log_population N tail items lines : log_lines N tail items lines -> forall h a ls e atoms, In (Population N h a ls e atoms) items -> population N atoms ls.
Proof.
  induction 1 as [|it items lines Hi H IH]; intros h a ls e atoms I; [destruct I|]. destruct I as [->|I]; [|eapply IH; eauto]. cbn [item_ok] in Hi. tauto.
Qed.
Lemma keyed_distinct N k a b orb : same_basis N a b -> keyed N k a orb -> distinct_labels N b -> distinct_labels N a.
Proof.
  intros S K Db. clear K. revert Db. unfold distinct_labels. induction S as [|x y a b [_ H2] S IH]; intros Db; inversion Db as [|? ? D1 D2]; subst; constructor; [rewrite H2; auto|]. apply IH; auto.
Qed.
Lemma log_atoms N tail items lines : log_lines N tail items lines -> forall h a ls e atoms, In (Population N h a ls e atoms) items -> atoms <> [].
Proof.
  induction 1 as [|it items lines Hi H IH]; intros h a ls e atoms I; [destruct I|]. destruct I as [->|I]; [|eapply IH; eauto]. cbn [item_ok] in Hi. tauto.
Qed.
Lemma counts_effects N items d9 h a ls e atoms : effects N items (mkLog N [] [] None [] []) d9 -> In (Population N h a ls e atoms) items -> atoms <> [] ->
  (forall at', atoms_in N at' items -> same_basis N atoms at' /\ distinct_labels N at' /\ Forall (fun a => snd a <> []) at') ->
  map (fun kv => Z.of_nat (length (snd kv))) (orb_ N d9) = map (fun atom => Z.of_nat (length (snd atom))) atoms.
Proof.
  intros E I An Hs'.
  pose proof (Hs' atoms (ex_intro _ h (ex_intro _ a (ex_intro _ ls (ex_intro _ e I))))) as (_ & Da & Na).
  assert (X : exists a0, same_basis N a0 atoms /\ keyed N 1 a0 (orb_ N (d9))).
  { pose proof (in_split _ _ I) as (u & w & ->). apply effects_app in E as (d1 & E1 & E2). inversion E2 as [|? ? ? d2 ? Ef E3]; subst.
    assert (O1 : orb_ N d1 = [] \/ exists a0, same_basis N a0 atoms /\ keyed N 1 a0 (orb_ N d1)).
    { eapply (orb_after N atoms u); [|exact E1|left; reflexivity]. intros at' (h' & a' & ls' & e' & I'). apply Hs'. exists h', a', ls', e'. apply in_or_app; auto. }
    assert (O2 : exists a0, same_basis N a0 atoms /\ keyed N 1 a0 (orb_ N d2)).
    { assert (Sb : same_basis N atoms atoms) by (apply Hs'; exists h, a, ls, e; auto). exists atoms. split; [auto|]. cbn [effect] in Ef. subst d2. cbn [orb_]. assert (B : below N 1 []) by constructor.
      destruct O1 as [E0|(a0 & S0 & K)].
      - rewrite E0. destruct (store_all_new N atoms Na Da 1 [] B) as (new & Ee & K). rewrite Ee. auto.
      - destruct (store_all_again N atoms Da a0 S0 1 [] (orb_ N d1) B K) as (new & Ee & K2). cbn [app] in Ee. rewrite Ee. auto. }
    assert (Ne : orb_ N d2 <> []).
    { destruct O2 as (a0 & S0 & K). intros E0. rewrite E0 in K. destruct a0 as [|[x y] a0]; [|exact K]. inversion S0; subst.
      exact (An eq_refl). }
    assert (O3 : orb_ N (d9) = [] \/ exists a0, same_basis N a0 atoms /\ keyed N 1 a0 (orb_ N (d9))).
    { eapply (orb_after N atoms w); [|exact E3|right; exact O2]. intros at' (h' & a' & ls' & e' & I'). apply Hs'. exists h', a', ls', e'. apply in_or_app; right; right; auto. }
    destruct O3 as [E0|O3]; [|exact O3]. exfalso.
    assert (Mono : forall b d d', effects N b d d' -> orb_ N d <> [] -> orb_ N d' <> []).
    { clear. induction 1 as [|it t d d1 d2 He H IH]; intros Ne; [auto|]. apply IH. destruct it as [| | | |h a ls e atoms]; cbn [effect] in He; try (subst; auto; fail); [destruct He as (m & _ & ->); auto|].
      subst d1. cbn [orb_]. clear - Ne. revert Ne. generalize 1 as k, (orb_ N d) as o. induction atoms as [|[el rows] t IH]; intros k o Ne; cbn [store_all]; [auto|]. apply IH.
      unfold store. revert o Ne. induction rows as [|rw rows IHr]; intros o Ne; cbn [fold_left]; [auto|]. apply IHr. destruct o as [|[k' l'] o]; [congruence|]. cbn [o_set].
      destruct (key_eqb (k, el) k'); [discriminate|]. destruct (key_ltb (k, el) k'); discriminate. }
    exact (Mono _ _ _ E3 Ne E0). }
  destruct X as (a0 & S0 & K). rewrite (keyed_counts N a0 (keyed_distinct N 1 a0 atoms _ S0 K Da) 1 _ K). apply (same_counts N a0 atoms S0).
Qed.
(** full property: for every table; proved: for files whose tables belong to one molecule and basis, with different labels for the functions of an atom *)
Theorem C69_counts_partial : forall N name r files content items, LogReader_new N name = Ok r -> files name = Some content -> log_file N items content ->
  forall h a ls e atoms, In (Population N h a ls e atoms) items ->
  (forall h' a' ls' e' atoms', In (Population N h' a' ls' e' atoms') items -> same_basis N atoms atoms' /\ distinct_labels N atoms') ->
  exists bound, forall fuel, (bound <= fuel)%nat -> exists r', log_read N files fuel r = Ok r' /\
    getBasisFuncCount N r' = map (fun atom => Z.of_nat (length (snd atom))) atoms.
Proof.
  intros N name r files content items Hn Hf Hl h a ls e atoms I Hs. exists (length content + 2)%nat. intros fuel Hfuel.
  destruct (read_log N name r files content _ fuel Hn Hf Hl Hfuel) as (r' & -> & E). exists r'. split; [auto|]. unfold getBasisFuncCount.
  destruct Hl as (lines & tail & _ & _ & _ & Hl).
  assert (Hs' : forall at', atoms_in N at' items -> same_basis N atoms at' /\ distinct_labels N at' /\ Forall (fun a => snd a <> []) at').
  { intros at' (h' & a' & ls' & e' & I'). destruct (Hs _ _ _ _ _ I') as [S1 S2]. split; [auto|]. split; [auto|]. eapply population_rows, log_population; eauto. }
  apply (counts_effects N items _ h a ls e atoms E I); [|exact Hs']. exact (log_atoms N tail items lines Hl h a ls e atoms I).
Qed.
Print Assumptions C69_counts_partial.
(** refuted: basis functions of an atom with the same label are counted once *)
Lemma put_keys N (rows : list (str * list (num N))) : forall lm l, In l (map fst (put N rows lm)) <-> In l (map fst rows) \/ In l (map fst lm).
Proof.
  unfold put. induction rows as [|r rows IH]; intros lm l; cbn [fold_left map In]; [tauto|]. rewrite IH. rewrite (find_keys (m_set _ _ _)), (find_keys lm), find_set.
  destruct (str_dec l (fst r)) as [->|Ne]; [intuition congruence|]. intuition congruence.
Qed.
Lemma put_count N (rows : list (str * list (num N))) : length (put N rows []) = length (nodup str_dec (map fst rows)).
Proof.
  rewrite <- (map_length fst). pose proof (sorted_nodup _ (put_sorted N rows [] I)) as Nd.
  apply Nat.le_antisymm; apply NoDup_incl_length; auto; [|apply NoDup_nodup|]; intros l Hl.
  - apply nodup_In. apply put_keys in Hl as [Hl|[]]. exact Hl.
  - apply nodup_In in Hl. apply put_keys. auto.
Qed.
Lemma store_all_plain N (atoms : list (atom N)) : Forall (fun a => snd a <> []) atoms -> forall k pre, below N k pre ->
  map (fun kv => Z.of_nat (length (snd kv))) (store_all N k atoms pre) = map (fun kv => Z.of_nat (length (snd kv))) pre ++ map (fun a => Z.of_nat (length (nodup str_dec (map fst (snd a))))) atoms.
Proof.
  induction 1 as [|[el rows] t Ne F IH]; intros k pre B; cbn [store_all map]; [now rewrite app_nil_r|]. cbn [snd] in *. destruct rows as [|r rows]; [congruence|].
  rewrite (store_new N k el r rows pre B), IH by (apply below_snoc; auto). rewrite map_app. cbn [map snd]. rewrite <- app_assoc. cbn [app]. rewrite put_count. reflexivity.
Qed.
Theorem C69_repeated_refuted : forall N name r files content items, LogReader_new N name = Ok r -> files name = Some content -> log_file N items content ->
  forall u w h a ls e atoms, items = u ++ Population N h a ls e atoms :: w -> (forall it, In it (u ++ w) -> ~ is_population N it) ->
  exists bound, forall fuel, (bound <= fuel)%nat -> exists r', log_read N files fuel r = Ok r' /\
    getBasisFuncCount N r' = map (fun atom => Z.of_nat (length (nodup str_dec (map fst (snd atom))))) atoms.
Proof.
  intros N name r files content items Hn Hf Hl u w h a ls e atoms -> Hs. exists (length content + 2)%nat. intros fuel Hfuel.
  destruct (read_log N name r files content _ fuel Hn Hf Hl Hfuel) as (r' & -> & E). exists r'. split; [auto|]. unfold getBasisFuncCount.
  apply effects_app in E as (d1 & E1 & E2). inversion E2 as [|? ? ? d2 ? Ef E3]; subst.
  rewrite (keeps_orb N w _ _ E3) by (intros; apply Hs, in_or_app; auto). cbn [effect] in Ef. subst d2. cbn [orb_].
  rewrite (keeps_orb N u _ _ E1) by (intros; apply Hs, in_or_app; auto). cbn [orb_].
  destruct Hl as (lines & tail & _ & _ & _ & Hl). rewrite store_all_plain; [reflexivity| |constructor].
  eapply population_rows, (log_population N tail _ lines Hl h a ls e atoms). apply in_or_app; right; left; auto.
Qed.
Print Assumptions C69_repeated_refuted.
Example C69_example : exists r, LogReader_new D $"runs/dimer.log" = Ok r /\ log_file D ex_items ex_log /\ In ex_population ex_items /\
  same_basis D ex_atoms ex_atoms /\ distinct_labels D ex_atoms /\ map (fun atom => Z.of_nat (length (snd atom))) ex_atoms = [3; 1] /\
  forall it, In it (firstn 6 ex_items) -> ~ is_population D it.
Proof.
  eexists. split; [reflexivity|]. split; [exact ex_log_ok|]. split; [unfold ex_items; cbn [In]; tauto|].
  split; [repeat constructor|]. split; [|split; [reflexivity|intros it [<-|[<-|[<-|[<-|[<-|[<-|[]]]]]]] []]].
  constructor; [|constructor; [|constructor]]; cbn [snd map fst]; repeat (constructor; [cbn [In]; intuition discriminate|]); constructor.
Qed.
