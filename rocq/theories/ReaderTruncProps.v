(** * Property C72: files that end in the middle of a section *)
From Verif Require Import ParserWf.
From Verif Require Export ReaderTrunc ReaderFuel ReaderProps ReaderCut.
From Verif Require Export StrSpec StrModel.
Open Scope Z_scope.

(** ** complete sections before the one that is cut *)
Section Before.
Context (N : nums).
(** [lines]: complete sections [items], then the lines [R]; [tail]: the text after the last newline *)
Inductive log_before (tail : str) (R : list str) : list (item N) -> list str -> Prop :=
| lb_nil : log_before tail R [] R
| lb_item : forall it items lines, item_ok N it lines tail -> log_before tail R items lines ->
    log_before tail R (it :: items) (item_lines N it ++ lines).
Inductive pun_before (tail : str) (R : list str) : list (pitem N) -> list str -> Prop :=
| pb_nil : pun_before tail R [] R
| pb_item : forall it items lines, pitem_ok N it lines tail -> pun_before tail R items lines ->
    pun_before tail R (it :: items) (pitem_lines N it ++ lines).

Lemma before_lines tail R items lines : log_before tail R items lines -> Forall is_line R -> Forall is_line lines.
Proof. induction 1 as [|it items lines Hi H IH]; intros HR; [auto|]. apply Forall_app. split; [eapply item_is_lines; eauto|auto]. Qed.
Lemma before_ne tail R items lines : log_before tail R items lines -> R <> [] -> lines <> [].
Proof.
  destruct 1 as [|it items lines Hi H]; intros HR; [auto|]. pose proof (item_nonempty _ _ _ _ Hi). destruct (item_lines N it); [congruence|discriminate].
Qed.
Lemma before_skip tail R items lines : is_line tail -> R <> [] -> Forall is_line R -> log_before tail R items lines ->
  forall f line d fuel, here f lines tail -> (length lines < fuel)%nat -> exists f' line' d', here f' R tail /\ effects N items d d' /\
  read_loop log_headers (log_section N) (length items + fuel) f line d = read_loop log_headers (log_section N) fuel f' line' d'.
Proof.
  intros Lt HR LR H. induction H as [|it items lines Hi H IH]; intros f line d fuel Hh Hf.
  - exists f, line, d. split; [auto|]. split; [constructor|]. reflexivity.
  - pose proof (before_ne _ _ _ _ H HR) as Ne. pose proof (before_lines _ _ _ _ H LR) as Ll. rewrite app_length in Hf.
    assert (Lf : is_line (first_of lines tail)) by (destruct lines; cbn [first_of]; [auto|inversion Ll; auto]).
    destruct (read_item N it lines tail f line d (length items + fuel) Lt Hi Hh Lf ltac:(lia)) as (f1 & l1 & d1 & E1 & P1 & Ef).
    destruct (post_tell _ _ _ P1) as [Hh1|[-> _]]; [|congruence].
    destruct (IH (tell f1) l1 d1 fuel Hh1 ltac:(lia)) as (f2 & l2 & d2 & Hh2 & Es & E2). exists f2, l2, d2. split; [auto|]. split; [econstructor; eauto|].
    cbn [length Nat.add]. rewrite E1. exact E2.
Qed.
Lemma cut_log name r files items lines R t : LogReader_new N name = Ok r -> is_line t -> R <> [] -> Forall is_line R -> log_before t R items lines -> files name = Some (text lines ++ t) ->
  forall (P : outcome (LogReader N) -> Prop) b,
  (forall fuel f line d, (b <= fuel)%nat -> here f R t -> effects N items (mkLog N [] [] None [] []) d ->
     P (p <- read_loop log_headers (log_section N) fuel f line d ;; Ok (mkLogReader N name (pos_ (fst p)) (snd p)))) ->
  exists bound, forall fuel, (bound <= fuel)%nat -> P (log_read N files fuel r).
Proof.
  intros Hn Lt HR LR H Hf P b HP. exists (length items + S (length lines) + b)%nat. intros fuel Hfuel. rewrite (log_new_data _ _ _ Hn). unfold log_read, read. cbn [lr_name lr_pos lr_data]. rewrite Hf.
  destruct (before_skip t R items lines Lt HR LR H (start_of (text lines ++ t) (Some O)) [] (mkLog N [] [] None [] []) (fuel - length items)) as (f' & line' & d' & Hh & Es & E); [split; [apply start_at|reflexivity]|lia|].
  replace (length items + (fuel - length items))%nat with fuel in E by lia. unfold start_of in E. rewrite E.
  specialize (HP (fuel - length items)%nat f' line' d' ltac:(lia) Hh Es).
  destruct (read_loop log_headers (log_section N) (fuel - length items) f' line' d') as [[? ?]| | | |]; cbn [bind fst snd] in *; exact HP.
Qed.
Lemma pbefore_skip tail R items lines : is_line tail -> R <> [] -> pun_before tail R items lines ->
  forall f line c fuel, at_ f lines tail -> (length lines + 1 < fuel)%nat -> exists f' line' c', at_ f' R tail /\ peffects N items c c' /\
  read_loop pun_headers (pun_section N) (length items + fuel) f line c = read_loop pun_headers (pun_section N) fuel f' line' c'.
Proof.
  intros Lt HR H. induction H as [|it items lines Hi H IH]; intros f line c fuel Hh Hf.
  - exists f, line, c. split; [auto|]. split; [constructor|]. reflexivity.
  - assert (Ne : lines <> []). { destruct H as [|it2 items lines Hi2 H]; [auto|]. destruct it2; discriminate. }
    rewrite app_length in Hf.
    destruct (read_pitem N it lines tail f line c (length items + fuel) Lt Hi Hh ltac:(lia)) as (f1 & l1 & c1 & E1 & P1 & Ef).
    destruct P1 as [Hh1|[-> _]]; [|congruence].
    destruct (IH (tell f1) l1 c1 fuel (proj1 (tell_at _ _ _ Hh1)) ltac:(lia)) as (f2 & l2 & c2 & Hh2 & Es & E2). exists f2, l2, c2. split; [auto|]. split; [econstructor; eauto|].
    cbn [length Nat.add]. rewrite E1. exact E2.
Qed.
Lemma cut_pun name r files items lines R t : PunReader_new N name = Ok r -> is_line t -> R <> [] -> pun_before t R items lines -> files name = Some (text lines ++ t) ->
  forall (P : outcome (PunReader N) -> Prop) b,
  (forall fuel f line c, (b <= fuel)%nat -> at_ f R t ->
     P (p <- read_loop pun_headers (pun_section N) fuel f line c ;; Ok (mkPunReader N name (pos_ (fst p)) (snd p)))) ->
  exists bound, forall fuel, (bound <= fuel)%nat -> P (pun_read N files fuel r).
Proof.
  intros Hn Lt HR H Hf P b HP. exists (length items + S (S (length lines)) + b)%nat. intros fuel Hfuel. rewrite (pun_new_data _ _ _ Hn). unfold pun_read, read. cbn [pr_name pr_pos coefs]. rewrite Hf.
  destruct (pbefore_skip t R items lines Lt HR H (start_of (text lines ++ t) (Some O)) [] [] (fuel - length items)) as (f' & line' & d' & Hh & Es & E); [apply start_at|lia|].
  replace (length items + (fuel - length items))%nat with fuel in E by lia. unfold start_of in E. rewrite E.
  specialize (HP (fuel - length items)%nat f' line' d' ltac:(lia) Hh).
  destruct (read_loop pun_headers (pun_section N) (fuel - length items) f' line' d') as [[? ?]| | | |]; cbn [bind fst snd] in *; exact HP.
Qed.

(** ** one step into the section that is cut *)
Lemma into k h f ys t line d fuel : is_line h -> begins k h -> at_ f (h :: ys) t -> exists f1, at_ f1 ys t /\
  read_loop log_headers (log_section N) (S fuel) f line d = (r <- log_section N fuel (tag_of k) f1 d ;; let '(f, m) := r in read_loop log_headers (log_section N) fuel (tell f) h m).
Proof.
  intros Lh Bh Hat. cbn [read_loop]. destruct (getl_line f h ys t line Hat Lh) as (f1 & -> & Hat1 & _). rewrite (proj1 (proj2 Hat1)), (begins_start _ _ Bh). eauto.
Qed.
End Before.

Section Coord.
Context (N : nums).
Notation num := (num N).
(** the coordinate reader on the lines [ys] and the text [t]: two skipped lines, rows, end of file *)
Lemma coord_section_cut t o ys pts : is_line t -> (forall fuel f X Y Z, done f -> (1 <= fuel)%nat -> coord_loop N fuel f t X Y Z = o) ->
  Forall is_line (firstn 2 ys) -> Forall2 (coord_row N) (skipn 2 ys) pts -> forall fuel f d, at_ f ys t -> (length ys < fuel)%nat ->
  CoordSectionReader N fuel f d = (r <- o ;; let '(f, c) := r in Ok (f, mkLog N (homoLevel N d) (orb_ N d) (S_ N d) (OREnergies N d) c)).
Proof.
  intros Lt Ho Ly Hr fuel f d Hat Hf. unfold CoordSectionReader. destruct ys as [|a [|b rows]]; cbn [firstn skipn length] in *.
  - destruct (getl_tail f t [] Hat Lt) as (f1 & -> & D1 & _). destruct (getl_done f1 t D1) as (f2 & -> & D2 & _). destruct (getl_done f2 t D2) as (f3 & -> & D3 & _).
    rewrite (Ho fuel f3 [] [] [] D3) by lia. reflexivity.
  - inversion Ly as [|? ? La _]; subst. destruct (getl_line f a [] t [] Hat La) as (f1 & -> & Hat1 & _). destruct (getl_tail f1 t a Hat1 Lt) as (f2 & -> & D2 & _). destruct (getl_done f2 t D2) as (f3 & -> & D3 & _).
    rewrite (Ho fuel f3 [] [] [] D3) by lia. reflexivity.
  - inversion Ly as [|? ? La Lb']; subst. inversion Lb' as [|? ? Lb _]; subst.
    destruct (getl_line f a _ t [] Hat La) as (f1 & -> & Hat1 & _). destruct (getl_line f1 b _ t a Hat1 Lb) as (f2 & -> & Hat2 & _).
    pose proof (coord_rows_then_ok N t o Lt Ho rows pts Hr fuel f2 b [] [] [] Hat2 ltac:(lia)) as E. destruct (getl f2 b) as [l f3]. rewrite E. reflexivity.
Qed.
Lemma coord_t_throw t : (forall s, (exists v, n_stod N s = Ok v) \/ exists e, n_stod N s = Throw e) -> is_line t -> ~ occurs table_end t -> (forall p, ~ coord_row N t p) ->
  exists e, forall fuel f X Y Z, done f -> (1 <= fuel)%nat -> coord_loop N fuel f t X Y Z = Throw e.
Proof.
  intros Tot Lt Nt Nr.
  assert (G : exists e, forall k : num -> num -> num -> outcome (fstate * list (list num)),
     (w <- vat (splitSt t) 3 ;; x <- n_stod N w ;; w <- vat (splitSt t) 4 ;; y <- n_stod N w ;; w <- vat (splitSt t) 5 ;; z <- n_stod N w ;; k x y z) = Throw e).
  { destruct (splitSt t) as [|w1 [|w2 [|w3 [|w4 ws]]]] eqn:Ew; try (exists OutOfRange; reflexivity).
    rewrite (vat_ok _ 3 w4) by (lia || reflexivity). cbn [bind]. destruct (Tot w4) as [(x & Ex)|(e & Ex)]; rewrite Ex; cbn [bind]; [|eauto].
    destruct ws as [|w5 ws]; [exists OutOfRange; reflexivity|]. rewrite (vat_ok _ 4 w5) by (lia || reflexivity). cbn [bind]. destruct (Tot w5) as [(y & Ey)|(e & Ey)]; rewrite Ey; cbn [bind]; [|eauto].
    destruct ws as [|w6 ws]; [exists OutOfRange; reflexivity|]. rewrite (vat_ok _ 5 w6) by (lia || reflexivity). cbn [bind]. destruct (Tot w6) as [(z & Ez)|(e & Ez)]; rewrite Ez; cbn [bind]; [|eauto].
    exfalso. apply (Nr (x, y, z)). split; [auto|]. split; [auto|]. exists w1, w2, w3, w4, w5, w6, ws. split; [apply words_split; auto|auto]. }
  destruct G as (e & G). exists e. intros fuel f X Y Z D Hf. destruct fuel as [|fuel]; [lia|]. cbn [coord_loop]. change coord_end with table_end. rewrite (proj2 (found_not t table_end) Nt). cbv zeta. 
  exact (G (fun x y z => let '(line, f) := getl f t in coord_loop N fuel f line (X ++ [x]) (Y ++ [y]) (Z ++ [z]))).
Qed.
End Coord.

(** ** C72: coordinate tables
    The file ends inside the table: [h] begins it, [ys] are the complete lines after it (two lines that are skipped, then rows)
    and [t] is the text after the last newline. *)
Definition cut_table N (items : list (item N)) (h : str) (ys : list str) (t : str) (content : str) : Prop :=
  exists lines pts, content = text lines ++ t /\ log_before N t (h :: ys) items lines /\ is_line h /\ begins KCoordinates h /\
    is_line t /\ Forall is_line (firstn 2 ys) /\ Forall2 (coord_row N) (skipn 2 ys) pts.
Lemma cut_coord N name r files items h ys t content o : LogReader_new N name = Ok r -> files name = Some content -> cut_table N items h ys t content ->
  (forall fuel f X Y Z, done f -> (1 <= fuel)%nat -> coord_loop N fuel f t X Y Z = o) -> forall (P : outcome (LogReader N) -> Prop),
  (forall (k : fstate * list (list (num N)) -> outcome (LogReader N)), P (bind o k)) -> exists bound, forall fuel, (bound <= fuel)%nat -> P (log_read N files fuel r).
Proof.
  intros Hn Hf (lines & pts & -> & Hb & Lh & Bh & Lt & Ly & Hr) Ho P HP.
  assert (Lys : Forall is_line ys).
  { rewrite <- (firstn_skipn 2 ys). apply Forall_app. split; [auto|]. clear - Hr. induction Hr as [|l p ls ps (L & _) H IH]; constructor; auto. }
  apply (cut_log N name r files items lines (h :: ys) t Hn Lt ltac:(discriminate) (Forall_cons _ Lh Lys) Hb Hf P (length ys + 3)%nat).
  intros fuel f line d Hfuel [Hat _] _. destruct fuel as [|fuel]; [lia|]. destruct (into N KCoordinates h f ys t line d fuel Lh Bh Hat) as (f1 & Hat1 & E). rewrite E.
  cbn [tag_of]. change (log_section N fuel $"Coord" f1 d) with (CoordSectionReader N fuel f1 d). rewrite (coord_section_cut N t o ys pts Lt Ho Ly Hr fuel f1 d Hat1) by lia.
  destruct o as [[f2 c]|e|u|x|] eqn:Eo; cbn [bind]; [|exact (HP (fun _ => NoFuel))|exact (HP (fun _ => NoFuel))|exact (HP (fun _ => NoFuel))|exact (HP (fun _ => NoFuel))].
  exact (HP (fun r => p <- read_loop log_headers (log_section N) fuel (tell (fst r)) h (mkLog N (homoLevel N d) (orb_ N d) (S_ N d) (OREnergies N d) (snd r)) ;; Ok (mkLogReader N name (pos_ (fst p)) (snd p)))).
Qed.
(** refuted: if the file ends directly after a row (without newline), reading never ends *)
Theorem C72_coordinates_refuted : forall N name r files items h ys t p content, LogReader_new N name = Ok r -> files name = Some content ->
  cut_table N items h ys t content -> coord_row N t p -> forall fuel, log_read N files fuel r = NoFuel.
Proof.
  intros N name r files items h ys t p content Hn Hf Hc Hp.
  destruct (cut_coord N name r files items h ys t content NoFuel Hn Hf Hc (fun fuel f X Y Z D _ => coord_stuck N t p Hp fuel f X Y Z D) (fun x => x = NoFuel) (fun k => eq_refl)) as (bound & H).
  exact (more_all _ bound (fun n m => more_log_read N files n m r) H).
Qed.
Print Assumptions C72_coordinates_refuted.
(** proved: otherwise, unless the line of dashes has been reached, the read throws (if stod returns or throws) *)
Theorem C72_coordinates_partial : forall N name r files items h ys t content, LogReader_new N name = Ok r -> files name = Some content ->
  (forall s, (exists v, n_stod N s = Ok v) \/ exists e, n_stod N s = Throw e) ->
  cut_table N items h ys t content -> ~ occurs table_end t -> (forall p, ~ coord_row N t p) ->
  exists e bound, forall fuel, (bound <= fuel)%nat -> log_read N files fuel r = Throw e.
Proof.
  intros N name r files items h ys t content Hn Hf Tot Hc Nt Nr. pose proof Hc as (lines & pts & _ & _ & _ & _ & Lt & _).
  destruct (coord_t_throw N t Tot Lt Nt Nr) as (e & He). exists e.
  exact (cut_coord N name r files items h ys t content (Throw e) Hn Hf Hc He (fun x => x = Throw e) (fun k => eq_refl)).
Qed.
Print Assumptions C72_coordinates_partial.
(** refuted: if the file ends with the line of dashes under the title (without newline), the table is accepted as empty *)
Theorem C72_dashes_refuted : forall N name r files items lines h a t, LogReader_new N name = Ok r -> files name = Some (text lines ++ t) ->
  log_before N t [h; a] items lines -> is_line h -> begins KCoordinates h -> is_line a -> is_line t -> occurs table_end t ->
  exists bound, forall fuel, (bound <= fuel)%nat -> exists r', log_read N files fuel r = Ok r' /\ getCoords N r' = [[]; []; []].
Proof.
  intros N name r files items lines h a t Hn Hf Hb Lh Bh La Lt Ot.
  apply (cut_log N name r files items lines [h; a] t Hn Lt ltac:(discriminate) (Forall_cons _ Lh (Forall_cons _ La (Forall_nil _))) Hb Hf (fun x => exists r', x = Ok r' /\ getCoords N r' = [[]; []; []]) 2%nat).
  intros fuel f line d Hfuel [Hat _] _. destruct fuel as [|[|fuel]]; [lia|lia|]. destruct (into N KCoordinates h f [a] t line d (S fuel) Lh Bh Hat) as (f1 & Hat1 & E). rewrite E.
  cbn [tag_of]. change (log_section N (S fuel) $"Coord" f1 d) with (CoordSectionReader N (S fuel) f1 d). unfold CoordSectionReader.
  destruct (getl_line f1 a [] t [] Hat1 La) as (f2 & -> & Hat2 & _). destruct (getl_tail f2 t a Hat2 Lt) as (f3 & -> & D3 & _). destruct (getl_done f3 t D3) as (f4 & -> & D4 & _).
  cbn [coord_loop]. change coord_end with table_end. rewrite (proj2 (found_iff t table_end) Ot). cbn [bind read_loop].
  destruct (tell_done f4 D4) as [D5 _]. destruct (getl_done (tell f4) h D5) as (f6 & -> & _ & F6). rewrite F6. cbn [bind fst snd]. eexists. split; [reflexivity|]. reflexivity.
Qed.
Print Assumptions C72_dashes_refuted.
(** proved: without the closing line a coordinate table is never accepted *)
Theorem C72_coordinates_never_partial : forall N name r files items lines h ys t, LogReader_new N name = Ok r -> files name = Some (text lines ++ t) ->
  log_before N t (h :: ys) items lines -> is_line h -> begins KCoordinates h -> Forall is_line ys -> is_line t ->
  Forall (fun l => ~ occurs table_end l) (skipn 2 ys) -> ~ occurs table_end t -> forall fuel r', log_read N files fuel r <> Ok r'.
Proof.
  intros N name r files items lines h ys t Hn Hf Hb Lh Bh Ly Lt Nys Nt.
  destruct (cut_log N name r files items lines (h :: ys) t Hn Lt ltac:(discriminate) (Forall_cons _ Lh Ly) Hb Hf (fun x => forall r', x <> Ok r') 1%nat) as (bound & H);
    [|exact (more_never _ bound (fun n m => more_log_read N files n m r) H)].
  intros fuel f line d Hfuel [Hat _] _ r'. destruct fuel as [|fuel]; [lia|]. destruct (into N KCoordinates h f ys t line d fuel Lh Bh Hat) as (f1 & Hat1 & E). rewrite E.
  cbn [tag_of]. change (log_section N fuel $"Coord" f1 d) with (CoordSectionReader N fuel f1 d). unfold CoordSectionReader.
  assert (G : exists l f2, (let '(line, f) := getl f1 [] in let '(line, f) := getl f line in getl f line) = (l, f2) /\ unseen table_end f2 /\ ~ occurs table_end l).
  { destruct ys as [|a [|b rows]]; cbn [skipn] in Nys.
    - destruct (getl_tail f1 t [] Hat1 Lt) as (f2 & -> & D2 & _). destruct (getl_done f2 t D2) as (f3 & -> & D3 & _). destruct (getl_done f3 t D3) as (f4 & -> & D4 & _). exists t, f4. split; [auto|]. split; [left; auto|auto].
    - inversion Ly as [|? ? La _]; subst. destruct (getl_line f1 a [] t [] Hat1 La) as (f2 & -> & Hat2 & _). destruct (getl_tail f2 t a Hat2 Lt) as (f3 & -> & D3 & _). destruct (getl_done f3 t D3) as (f4 & -> & D4 & _).
      exists t, f4. split; [auto|]. split; [left; auto|auto].
    - inversion Ly as [|? ? La Lb']; subst. inversion Lb' as [|? ? Lb Lr]; subst. destruct (getl_line f1 a _ t [] Hat1 La) as (f2 & -> & Hat2 & _). destruct (getl_line f2 b _ t a Hat2 Lb) as (f3 & -> & Hat3 & _).
      destruct rows as [|l rows].
      + destruct (getl_tail f3 t b Hat3 Lt) as (f4 & -> & D4 & _). exists t, f4. split; [auto|]. split; [left; auto|auto].
      + inversion Nys as [|? ? Nl Nr]; subst. inversion Lr as [|? ? Ll Lr']; subst. destruct (getl_line f3 l rows t b Hat3 Ll) as (f4 & -> & Hat4 & _). exists l, f4. split; [auto|]. split; [|auto]. right. exists rows, t. split; [auto|]. split; [|auto].
        clear - Nr Lr'. induction rows as [|x xs IH]; constructor; inversion Nr; inversion Lr'; subst; auto. }
  destruct G as (l & f2 & G & U & Nl). destruct (getl f1 []) as [l1 g1]. destruct (getl g1 l1) as [l2 g2]. rewrite G.
  pose proof (coord_never N fuel f2 l [] [] []) as Nv. destruct (coord_loop N fuel f2 l [] [] []) as [[f3 c]| | | |]; cbn [bind]; try discriminate. exfalso. exact (Nv _ U Nl eq_refl).
Qed.
Print Assumptions C72_coordinates_never_partial.

(** ** C72: population tables *)
Theorem C72_population_never_partial : forall N name r files items lines h ys t, LogReader_new N name = Ok r -> files name = Some (text lines ++ t) ->
  log_before N t (h :: ys) items lines -> is_line h -> begins KPopulation h -> Forall is_line ys -> is_line t ->
  Forall (fun l => ~ occurs population_over l) (skipn 1 ys) -> ~ occurs population_over t -> forall fuel r', log_read N files fuel r <> Ok r'.
Proof.
  intros N name r files items lines h ys t Hn Hf Hb Lh Bh Ly Lt Nys Nt.
  destruct (cut_log N name r files items lines (h :: ys) t Hn Lt ltac:(discriminate) (Forall_cons _ Lh Ly) Hb Hf (fun x => forall r', x <> Ok r') 1%nat) as (bound & H);
    [|exact (more_never _ bound (fun n m => more_log_read N files n m r) H)].
  intros fuel f line d Hfuel [Hat _] _ r'. destruct fuel as [|fuel]; [lia|]. destruct (into N KPopulation h f ys t line d fuel Lh Bh Hat) as (f1 & Hat1 & E). rewrite E.
  cbn [tag_of]. change (log_section N fuel $"AOFunction" f1 d) with (AOFunctionSectionReader N fuel f1 d). unfold AOFunctionSectionReader.
  assert (G : exists l f2, (let '(line, f) := getl f1 [] in getl f line) = (l, f2) /\ unseen population_over f2 /\ ~ occurs population_over l).
  { destruct ys as [|a rows]; cbn [skipn] in Nys.
    - destruct (getl_tail f1 t [] Hat1 Lt) as (f2 & -> & D2 & _). destruct (getl_done f2 t D2) as (f3 & -> & D3 & _). exists t, f3. split; [auto|]. split; [left; auto|auto].
    - inversion Ly as [|? ? La Lr]; subst. destruct (getl_line f1 a _ t [] Hat1 La) as (f2 & -> & Hat2 & _). destruct rows as [|l rows].
      + destruct (getl_tail f2 t a Hat2 Lt) as (f4 & -> & D4 & _). exists t, f4. split; [auto|]. split; [left; auto|auto].
      + inversion Nys as [|? ? Nl Nr]; subst. inversion Lr as [|? ? Ll Lr']; subst. destruct (getl_line f2 l rows t a Hat2 Ll) as (f4 & -> & Hat4 & _). exists l, f4. split; [auto|]. split; [|auto]. right. exists rows, t. split; [auto|]. split; [|auto].
        clear - Nr Lr'. induction rows as [|x xs IH]; constructor; inversion Nr; inversion Lr'; subst; auto. }
  destruct G as (l & f2 & G & U & Nl). destruct (getl f1 []) as [l1 g1]. rewrite G.
  pose proof (outer_never N fuel l 1 f2 (orb_ N d)) as Nv. destruct (ao_outer N fuel l 1 f2 (orb_ N d)) as [[f3 c]| | | |]; cbn [bind]; try discriminate. exfalso. exact (Nv _ U Nl eq_refl).
Qed.
Print Assumptions C72_population_never_partial.
(** refuted: if the file ends between the continuing rows of the first atom, or directly after one of them, reading never ends *)
Theorem C72_population_refuted : forall N name r files items lines h a l elem label vs cur row others rows t, LogReader_new N name = Ok r -> files name = Some (text lines ++ t) ->
  log_before N t (h :: a :: l :: cur :: others) items lines -> is_line h -> begins KPopulation h -> is_line a -> first_row N l elem label vs -> other_row N cur row -> Forall2 (other_row N) others rows ->
  t = [] \/ (exists r, other_row N t r) -> forall fuel, log_read N files fuel r = NoFuel.
Proof.
  intros N name r files items lines h a l elem label vs cur row others rows t Hn Hf Hb Lh Bh La Hl Hcur Ho Ht.
  assert (Lt : is_line t) by (destruct Ht as [->|(q & H & _)]; [intros []|auto]).
  assert (Lo : Forall is_line others) by (clear - Ho; induction Ho as [|x y xs ys (L & _) H IH]; constructor; auto).
  destruct (cut_log N name r files items lines (h :: a :: l :: cur :: others) t Hn Lt ltac:(discriminate) (Forall_cons _ Lh (Forall_cons _ La (Forall_cons _ (proj1 Hl) (Forall_cons _ (proj1 Hcur) Lo)))) Hb Hf (fun x => x = NoFuel) 1%nat) as (bound & H);
    [|exact (more_all _ bound (fun n m => more_log_read N files n m r) H)].
  intros fuel f line d Hfuel [Hat _] _. destruct fuel as [|fuel]; [lia|]. destruct (into N KPopulation h f _ t line d fuel Lh Bh Hat) as (f1 & Hat1 & E). rewrite E.
  cbn [tag_of]. change (log_section N fuel $"AOFunction" f1 d) with (AOFunctionSectionReader N fuel f1 d). unfold AOFunctionSectionReader.
  destruct (getl_line f1 a _ t [] Hat1 La) as (f2 & -> & Hat2 & _). destruct (getl_line f2 l _ t a Hat2 (proj1 Hl)) as (f3 & -> & Hat3 & _).
  rewrite (outer_cut N t l elem label vs cur others row rows Ht Hl Hcur Ho fuel 1 f3 (orb_ N d) Hat3). reflexivity.
Qed.
Print Assumptions C72_population_refuted.
(** proved: a cut after the first row of the first atom is reported *)
Theorem C72_population_partial : forall N name r files items lines h a l elem label vs, LogReader_new N name = Ok r -> files name = Some (text lines) ->
  log_before N [] [h; a; l] items lines -> is_line h -> begins KPopulation h -> is_line a -> first_row N l elem label vs ->
  exists bound, forall fuel, (bound <= fuel)%nat -> log_read N files fuel r = Throw OutOfRange.
Proof.
  intros N name r files items lines h a l elem label vs Hn Hf Hb Lh Bh La Hl. rewrite <- (app_nil_r (text lines)) in Hf. assert (Lt : is_line []) by (intros []).
  apply (cut_log N name r files items lines [h; a; l] [] Hn Lt ltac:(discriminate) (Forall_cons _ Lh (Forall_cons _ La (Forall_cons _ (proj1 Hl) (Forall_nil _)))) Hb Hf (fun x => x = Throw OutOfRange) 2%nat).
  intros fuel f line d Hfuel [Hat _] _. destruct fuel as [|fuel]; [lia|]. destruct (into N KPopulation h f _ [] line d fuel Lh Bh Hat) as (f1 & Hat1 & E). rewrite E.
  cbn [tag_of]. change (log_section N fuel $"AOFunction" f1 d) with (AOFunctionSectionReader N fuel f1 d). unfold AOFunctionSectionReader.
  destruct (getl_line f1 a _ [] [] Hat1 La) as (f2 & -> & Hat2 & _). destruct (getl_line f2 l _ [] a Hat2 (proj1 Hl)) as (f3 & -> & Hat3 & _).
  rewrite (outer_first_cut N l elem label vs Hl fuel 1 f3 (orb_ N d) Hat3) by lia. reflexivity.
Qed.
Print Assumptions C72_population_partial.

(** ** C72: overlap tables *)
Definition at_end (f : fstate) (line : str) : Prop := at_ f [] [] \/ (done f /\ line = []).
Lemma getl_end f line : at_end f line -> exists f', getl f line = ([], f') /\ done f'.
Proof.
  intros [H|[D ->]].
  - destruct (getl_tail f [] line H) as (f1 & E & D & _); [intros []|eauto].
  - destruct (getl_done f [] D) as (f1 & E & D1 & _). eauto.
Qed.
(** refuted: a table that ends after its first five columns is accepted; the missing elements are 0 *)
Theorem C72_overlap_refuted : forall N name r files items lines h n v (t : Z -> Z -> str) h0 rows h1, LogReader_new N name = Ok r -> files name = Some (text lines) ->
  log_before N [] (h :: h0 :: rows ++ [h1]) items lines -> is_line h -> begins KOverlap h -> 6 <= n -> n * n <= INT_MAX ->
  (forall i j, 1 <= j <= i -> i <= n -> coef_text N (t i j) (v i j)) ->
  is_line h0 -> Forall is_line rows -> Forall2 (fun i l => table_row l (dec i :: map (t i) (range 1 (Z.min i 5)))) (range 1 n) rows ->
  is_line h1 -> not_row (n + 1) h1 ->
  exists bound, forall fuel, (bound <= fuel)%nat -> exists r' m, log_read N files fuel r = Ok r' /\ getOverlapMatrix N r' = Ok m /\
    denotes m n n 1 (fun i j _ => if Z.min i j <=? 5 then v (Z.max i j) (Z.min i j) else n_zero N).
Proof.
  intros N name r files items lines h n v t h0 rows h1 Hn Hf Hb Lh Bh H6 Hnn Ht L0 Lr Hr L1 N1. rewrite <- (app_nil_r (text lines)) in Hf. assert (Lt : is_line []) by (intros []).
  assert (LR : Forall is_line (h :: h0 :: rows ++ [h1])) by (constructor; [auto|]; constructor; [auto|]; apply Forall_app; split; [auto|]; constructor; auto).
  apply (cut_log N name r files items lines (h :: h0 :: rows ++ [h1]) [] Hn Lt ltac:(discriminate) LR Hb Hf (fun x => exists r' m, x = Ok r' /\ getOverlapMatrix N r' = Ok m /\
    denotes m n n 1 (fun i j _ => if Z.min i j <=? 5 then v (Z.max i j) (Z.min i j) else n_zero N)) (length rows + 3)%nat).
  intros fuel f line d Hfuel [Hat _] _. destruct fuel as [|fuel]; [lia|]. destruct (into N KOverlap h f _ [] line d fuel Lh Bh Hat) as (f1 & Hat1 & E). rewrite E. clear E.
  cbn [tag_of]. change (log_section N fuel $"Overlap" f1 d) with (OverlapSectionReader N fuel f1 d).
  assert (Hi : n < INT_MAX) by nia. unfold OverlapSectionReader. destruct (Matrix_new2_ok (n_zero N) n n) as (m0 & E0 & D0); [lia|lia|lia|].
  destruct (fill_ok N v n m0 D0) as (m1 & E1 & T1).
  destruct (getl_line f1 h0 _ [] [] Hat1 L0) as (f2 & -> & Hat2 & _).
  destruct (ov_first_ok N v n t Ht Hi h1 [] [] L1 N1 ltac:(lia) rows fuel f2 h0 Hr Lr Hat2 ltac:(lia)) as (f3 & E3 & Hat3).
  rewrite E3. cbn [bind]. rewrite E0. cbn [bind]. rewrite E1. cbn [bind].
  assert (Inner : forall start hi f line m, at_end f line -> exists f' line', for_up start hi (fun sectionCoef (q : fstate * str * mat (num N)) =>
                let '(f, line, m) := q in let '(line, f) := getl f line in let '(_, i) := next (iss line) [] in
                m <- ov_row N (S (S (length line))) i (sectionCoef + 1) (start + 1) m ;; Ok (f, line, m)) (f, line, m) = Ok (f', line', m) /\ at_end f' line').
  { clear. intros start hi f line m H.
    destruct (Z.le_gt_cases start (hi + 1)) as [Hle|Hgt]; [|rewrite for_up_empty by lia; exists f, line; auto].
    destruct (for_up_inv (fun _ (q : fstate * str * mat (num N)) => exists f' line', q = (f', line', m) /\ at_end f' line') (fun sectionCoef (q : fstate * str * mat (num N)) =>
                let '(f, line, m) := q in let '(line, f) := getl f line in let '(_, i) := next (iss line) [] in
                m <- ov_row N (S (S (length line))) i (sectionCoef + 1) (start + 1) m ;; Ok (f, line, m)) start hi (f, line, m)) as (q & Eq & f' & l' & -> & Hq); [auto|exists f, line; auto| |].
    - intros i q _ (f0 & l0 & -> & H0). destruct (getl_end f0 l0 H0) as (g & -> & D). rewrite next_empty. cbn [ov_row i_eof bind length]. eexists. split; [reflexivity|]. exists g, []. split; [auto|right; auto].
    - exists f', l'. split; [exact Eq|auto]. }
  assert (Out : forall hi f line m, at_end f line -> exists f' line', for_up 2 hi (fun section (p : fstate * str * mat (num N)) =>
         let start := 5 * (section - 1) in
         q <- for_up start (n - 1) (fun sectionCoef (q : fstate * str * mat (num N)) =>
                let '(f, line, m) := q in let '(line, f) := getl f line in let '(_, i) := next (iss line) [] in
                m <- ov_row N (S (S (length line))) i (sectionCoef + 1) (start + 1) m ;; Ok (f, line, m)) p ;;
         let '(f, line, m) := q in let '(line, f) := getl f line in Ok (f, line, m)) (f, line, m) = Ok (f', line', m) /\ at_end f' line').
  { clear - Inner. intros hi f line m H.
    destruct (Z.le_gt_cases 2 (hi + 1)) as [Hle|Hgt]; [|rewrite for_up_empty by lia; exists f, line; auto].
    destruct (for_up_inv (fun _ (q : fstate * str * mat (num N)) => exists f' line', q = (f', line', m) /\ at_end f' line') (fun section (p : fstate * str * mat (num N)) =>
         let start := 5 * (section - 1) in
         q <- for_up start (n - 1) (fun sectionCoef (q : fstate * str * mat (num N)) =>
                let '(f, line, m) := q in let '(line, f) := getl f line in let '(_, i) := next (iss line) [] in
                m <- ov_row N (S (S (length line))) i (sectionCoef + 1) (start + 1) m ;; Ok (f, line, m)) p ;;
         let '(f, line, m) := q in let '(line, f) := getl f line in Ok (f, line, m)) 2 hi (f, line, m)) as (q & Eq & f' & l' & -> & Hq); [auto|exists f, line; auto| |].
    - intros i q _ (f0 & l0 & -> & H0). cbv zeta. destruct (Inner (5 * (i - 1)) (n - 1) f0 l0 m H0) as (f1 & l1 & -> & H1). cbn [bind]. destruct (getl_end f1 l1 H1) as (g & -> & D). eexists. split; [reflexivity|]. exists g, []. split; [auto|right; auto].
    - exists f', l'. split; [exact Eq|auto]. }
  destruct (Out (n / 5 + (if 0 <? n mod 5 then 1 else 0)) f3 h1 m1 (or_introl Hat3)) as (f4 & l4 & E4 & H4). cbv zeta in E4. rewrite E4. cbn [bind].
  assert (Dn : exists l5 f5, getl (tell f4) h = (l5, f5) /\ s_fail (fid f5) = true).
  { destruct H4 as [H4|[D _]].
    - destruct (tell_at _ _ _ H4) as (H5 & _). destruct (getl_tail (tell f4) [] h H5 Lt) as (g & -> & D & _ & _ & Fl). eauto.
    - destruct (tell_done f4 D) as [D2 _]. destruct (getl_done (tell f4) h D2) as (g & -> & _ & F). eauto. }
  destruct Dn as (l5 & f5 & Dn & F5). destruct fuel as [|fuel]; [lia|]. cbn [read_loop]. rewrite Dn, F5. cbn [bind fst snd].
  eexists _, m1. split; [reflexivity|]. split; [reflexivity|]. exact T1.
Qed.
Print Assumptions C72_overlap_refuted.

(** ** C72: orbital energies *)
Section Energies.
Context (N : nums).
Notation num := (num N).
(** the loop on the lines [ls] and a last line [t] without newline that contains energies *)
Lemma oe_cut beta t v : energy_line N beta t v -> forall ls vals, Forall2 (energy_line N beta) ls vals -> forall n f x oe homo, here f ls t -> (length ls + 1 < n)%nat ->
  exists f', oe_loop N n (spin_name beta) f x oe homo = Ok (f', oe ++ concat (map snd vals) ++ snd v, homo + occ_count N (vals ++ [v])) /\ done (seek f').
Proof.
  intros Ht ls vals H. assert (Hb : forall l w, energy_line N beta l w -> foundSubStrInStr l (occ_mark beta) = fst w /\ foundSubStrInStr l (occ_mark beta) || foundSubStrInStr l (virt_mark beta) = true).
  { intros l w (_ & Ho & _). destruct (fst w).
    - rewrite (proj2 (found_iff _ _) Ho). auto.
    - destruct Ho as [H1 H2]. rewrite (proj2 (found_not _ _) H2), (proj2 (found_iff _ _) H1). auto. }
  assert (Oc : forall w vs, occ_count N (w :: vs) = (if fst w then Z.of_nat (length (snd w)) else 0) + occ_count N vs).
  { intros w vs. unfold occ_count. cbn [filter]. destruct (fst w); cbn [map concat]; [rewrite app_length|]; lia. }
  induction H as [|l w ls vals Hl H IH]; intros n f x oe homo Hh Hn; (destruct n as [|n]; [lia|]); cbn [oe_loop].
  - destruct (Hb t v Ht) as [Hb1 Hb2]. destruct Ht as (Lt & Ho & ws & es & Hw & He & Hv).
    assert (Nt : t <> []) by (intros ->; vm_compute in Hb2; discriminate).
    destruct (getl_tail f t x (proj1 Hh) Lt) as (f1 & -> & D & P & A & Fl). assert (Fl2 : s_fail (fid f1) = false) by (destruct t; [congruence|exact Fl]). rewrite Fl2.
    destruct (energies_ok t ws es Hw He) as (w4 & L4 & Sp). rewrite Sp. cbn [bind]. rewrite skipn_w4 by auto. rewrite <- Hv.
    fold (occ_mark beta) (virt_mark beta). rewrite Hb2, Hb1.
    destruct (tell_done f1 D) as [D2 _]. destruct n as [|n]; [lia|]. cbn [oe_loop]. destruct (getl_done (tell f1) t D2) as (f3 & -> & _ & F3). rewrite F3.
    exists f3. split.
    + cbn [app]. rewrite Oc. cbn [map concat app]. unfold occ_count. cbn [filter map concat length]. f_equal. f_equal. destruct (fst v); lia.
    + unfold done, seek, s_seekg. rewrite F3. reflexivity.
  - cbn [length] in Hn. destruct (Hb l w Hl) as [Hb1 Hb2]. destruct Hl as (Ll & Ho & ws & es & Hw & He & Hv).
    destruct (getl_line f l ls t x (proj1 Hh) Ll) as (f1 & -> & Hat & P & A). pose proof Hat as (E1 & F1 & _). rewrite F1.
    destruct (energies_ok l ws es Hw He) as (w4 & L4 & Sp). rewrite Sp. cbn [bind]. rewrite skipn_w4 by auto. rewrite <- Hv.
    fold (occ_mark beta) (virt_mark beta). rewrite Hb2, Hb1.
    destruct (tell_at f1 _ _ Hat) as (Hat2 & P2 & F2). assert (Hh2 : here (tell f1) ls t) by (split; [auto|rewrite F2; auto]).
    destruct (IH n (tell f1) l (oe ++ snd w) (if fst w then homo + Z.of_nat (length (snd w)) else homo) Hh2) as (f3 & R & Hp); [lia|].
    exists f3. split; [|auto]. rewrite R. cbn [map concat app]. rewrite Oc, <- !app_assoc. do 2 f_equal. destruct (fst w); lia.
Qed.
(** a line that begins a section of energies, but is not recognised as a line of energies by its reader: the reader goes back to the beginning of the line *)
Lemma stuck_energies (beta : bool) R t : let l := first_of R t in is_line l -> begins (if beta then KBeta else KAlpha) l -> not_energy_line beta l ->
  forall fuel f line d, here f R t -> read_loop log_headers (log_section N) fuel f line d = NoFuel.
Proof.
  intros l Ll Bl [N1 N2]. induction fuel as [|fuel IH]; intros f line d Hh; [reflexivity|]. cbn [read_loop].
  assert (Ne : l <> []). { intros E. destruct Bl as [Hm _]. unfold has_mark in Hm. rewrite E in Hm. destruct beta; destruct Hm as (m & Hin & a & b & Em); symmetry in Em; apply app_eq_nil in Em as [_ Em]; apply app_eq_nil in Em as [-> _]; cbn in Hin; repeat (destruct Hin as [Hin|Hin]; [discriminate Hin|]); exact Hin. }
  assert (G : forall f x, here f R t -> exists f1, getl f x = (l, f1) /\ pos_ f1 = pos_ f /\ s_all (fid f1) = s_all (fid f) /\ s_fail (fid f1) = false).
  { clear - Ll Ne. intros f x [Hat _]. unfold l in *. destruct R as [|r R]; cbn [first_of] in *.
    - destruct (getl_tail f t x Hat Ll) as (f1 & E & _ & P & A & F). exists f1. repeat split; auto. destruct t; [congruence|auto].
    - destruct (getl_line f r R t x Hat Ll) as (f1 & E & Hat1 & P & A). exists f1. repeat split; auto. apply Hat1. }
  destruct (G f line Hh) as (f1 & -> & P1 & A1 & F1). rewrite F1, (begins_start _ _ Bl).
  assert (Es : log_section N fuel (tag_of (if beta then KBeta else KAlpha)) f1 d = ReadOrbEnergies N fuel (spin_name beta) f1 d) by (destruct beta; reflexivity).
  rewrite Es. unfold ReadOrbEnergies. pose proof (seek_back _ _ _ _ Hh P1 A1 F1) as Hs. destruct fuel as [|fuel]; [reflexivity|]. cbn [oe_loop].
  destruct (G (seek f1) [] Hs) as (f2 & -> & P2 & A2 & F2). rewrite F2. fold (occ_mark beta) (virt_mark beta). rewrite (proj2 (found_not _ _) N1), (proj2 (found_not _ _) N2). cbn [orb bind].
  pose proof (seek_back _ _ _ _ Hs P2 A2 F2) as Hs2. apply IH. destruct (tell_at _ _ _ (proj1 Hs2)) as (H1 & H2 & H3). split; [auto|rewrite H3; auto].
Qed.
(** the loop on the lines [ls] and a last line [t] without newline that it does not take *)
Lemma oe_rest beta t : t <> [] -> is_line t -> not_energy_line beta t -> forall ls vals, Forall2 (energy_line N beta) ls vals -> forall n f x oe homo, here f ls t -> (length ls < n)%nat ->
  exists f' oe' homo', oe_loop N n (spin_name beta) f x oe homo = Ok (f', oe', homo') /\ here (seek f') [] t.
Proof.
  intros Nt Lt [N1 N2] ls vals H. induction H as [|l w ls vals Hl H IH]; intros n f x oe homo Hh Hn; (destruct n as [|n]; [cbn [length] in Hn; lia|]); cbn [oe_loop].
  - destruct (getl_tail f t x (proj1 Hh) Lt) as (f1 & -> & D & P & A & Fl). assert (Fl2 : s_fail (fid f1) = false) by (destruct t; [congruence|exact Fl]). rewrite Fl2.
    fold (occ_mark beta) (virt_mark beta). rewrite (proj2 (found_not _ _) N1), (proj2 (found_not _ _) N2). cbn [orb]. do 3 eexists. split; [reflexivity|]. exact (seek_back _ _ _ _ Hh P A Fl2).
  - cbn [length] in Hn. destruct Hl as (Ll & Ho & ws & es & Hw & He & Hv).
    destruct (getl_line f l ls t x (proj1 Hh) Ll) as (f1 & -> & Hat & P & A). pose proof Hat as (E1 & F1 & _). rewrite F1. fold (occ_mark beta) (virt_mark beta).
    assert (Hb : foundSubStrInStr l (occ_mark beta) || foundSubStrInStr l (virt_mark beta) = true).
    { destruct (fst w); [rewrite (proj2 (found_iff _ _) Ho); auto|]. destruct Ho as [H1 H2]. rewrite (proj2 (found_iff _ _) H1). apply orb_true_r. }
    rewrite Hb. destruct (energies_ok l ws es Hw He) as (w4 & L4 & Sp). rewrite Sp. cbn [bind].
    destruct (tell_at f1 _ _ Hat) as (Hat2 & P2 & F2). apply IH; [split; [auto|rewrite F2; auto]|lia].
Qed.
Lemma before_lines_item t R items lines it : log_before N t R items lines -> item_lines N it = R -> item_ok N it [] t -> log_lines N t (items ++ [it]) lines.
Proof.
  intros H E Ho. induction H as [|i items lines Hi H IH].
  - rewrite <- E. rewrite <- (app_nil_r (item_lines N it)). apply log_item; [auto|apply log_nil].
  - apply log_item; auto.
Qed.
End Energies.
(** refuted: a section of energies that ends too early is always accepted.  [ls] are its complete lines.
    If the rest [t] is not yet recognised as a line of energies, the energies of [ls] are returned ... *)
Theorem C72_energies_refuted : forall N name r files items lines (beta : bool) h ls vals t, LogReader_new N name = Ok r -> files name = Some (text lines ++ t) ->
  log_before N t (h :: ls) items lines -> begins (if beta then KBeta else KAlpha) h -> Forall2 (energy_line N beta) (h :: ls) vals -> is_line t -> no_mark t -> not_energy_line beta t ->
  exists bound, forall fuel, (bound <= fuel)%nat -> exists r', log_read N files fuel r = Ok r' /\
    getOE N r' (spin_name beta) = Ok (concat (map snd vals)) /\ getHOMOLevel N r' (spin_name beta) = Ok (Z.of_nat (length (concat (map snd (filter fst vals))))).
Proof.
  intros N name r files items lines beta h ls vals t Hn Hf Hb Bh Hv Lt Nt Net.
  assert (Ho : item_ok N (Eigenvalues N beta (h :: ls) vals) [] t) by (split; [eauto|]; split; auto).
  pose proof (before_lines_item N t _ items lines (Eigenvalues N beta (h :: ls) vals) Hb eq_refl Ho) as Hl.
  apply (C66_energies_partial N name r files (text lines ++ t) (items ++ [Eigenvalues N beta (h :: ls) vals]) Hn Hf (ex_intro _ lines (ex_intro _ t (conj eq_refl (conj Lt (conj Nt Hl))))) beta (h :: ls) vals).
  exists items, []. split; [auto|]. split; [reflexivity|]. intros ? [].
Qed.
Print Assumptions C72_energies_refuted.
(** ... otherwise also those in [t], the last of which may be incomplete *)
Theorem C72_energies_inside_refuted : forall N name r files items lines (beta : bool) h ls vals t v, LogReader_new N name = Ok r -> files name = Some (text lines ++ t) ->
  log_before N t (h :: ls) items lines -> begins (if beta then KBeta else KAlpha) h -> Forall2 (energy_line N beta) (h :: ls) vals -> energy_line N beta t v ->
  exists bound, forall fuel, (bound <= fuel)%nat -> exists r', log_read N files fuel r = Ok r' /\
    getOE N r' (spin_name beta) = Ok (concat (map snd vals) ++ snd v) /\ getHOMOLevel N r' (spin_name beta) = Ok (Z.of_nat (length (concat (map snd (filter fst (vals ++ [v])))))).
Proof.
  intros N name r files items lines beta h ls vals t v Hn Hf Hb Bh Hv Ht.
  assert (LR : Forall is_line (h :: ls)) by (clear - Hv; induction Hv as [|x y xs ys (L & _) H IH]; constructor; auto).
  pose proof LR as Lh. apply Forall_inv in Lh.
  apply (cut_log N name r files items lines (h :: ls) t Hn (proj1 Ht) ltac:(discriminate) LR Hb Hf (fun x => exists r', x = Ok r' /\
    getOE N r' (spin_name beta) = Ok (concat (map snd vals) ++ snd v) /\ getHOMOLevel N r' (spin_name beta) = Ok (occ_count N (vals ++ [v]))) (length ls + 4)%nat).
  intros fuel f line d Hfuel Hh _. destruct fuel as [|fuel]; [lia|]. cbn [read_loop]. pose proof Hh as [Hat Hpos].
  destruct (getl_line f h ls t line Hat Lh) as (f1 & E1 & Hat1 & P1 & A1). rewrite E1. rewrite (proj1 (proj2 Hat1)), (begins_start _ _ Bh).
  assert (Es : log_section N fuel (tag_of (if beta then KBeta else KAlpha)) f1 d = ReadOrbEnergies N fuel (spin_name beta) f1 d) by (destruct beta; reflexivity).
  rewrite Es. unfold ReadOrbEnergies. pose proof (seek_back _ _ _ _ Hh P1 A1 (proj1 (proj2 Hat1))) as Hs.
  destruct (oe_cut N beta t v Ht (h :: ls) vals Hv fuel (seek f1) [] [] 0 Hs) as (f2 & E2 & D2); [cbn [length]; lia|]. rewrite E2. cbn [bind app].
  destruct (tell_done (seek f2) D2) as [D3 _]. destruct fuel as [|fuel]; [lia|]. cbn [read_loop]. destruct (getl_done (tell (seek f2)) h D3) as (f4 & -> & _ & F4). rewrite F4. cbn [bind fst snd].
  eexists. split; [reflexivity|]. unfold getOE, getHOMOLevel. cbn [lr_data OREnergies homoLevel]. rewrite !find_set_eq. auto.
Qed.
Print Assumptions C72_energies_inside_refuted.
(** refuted: a first line of such a section that ends with the dashes of its title (the blank after them is missing) is read forever,
    whatever follows: a line of the file, or its cut last line after a line [x] *)
Theorem C72_energies_endless_refuted : forall N name r files items lines (beta : bool) R t, LogReader_new N name = Ok r -> files name = Some (text lines ++ t) -> is_line t -> Forall is_line R ->
  log_before N t R items lines -> forall l, begins (if beta then KBeta else KAlpha) l -> not_energy_line beta l ->
  (exists R', R = l :: R') \/ (exists x, R = [x] /\ no_mark x /\ l = t) -> forall fuel, log_read N files fuel r = NoFuel.
Proof.
  intros N name r files items lines beta R t Hn Hf Lt LR Hb l Bl Nl Hl.
  assert (Ne : R <> []) by (destruct Hl as [(? & ->)|(? & -> & _)]; discriminate).
  destruct (cut_log N name r files items lines R t Hn Lt Ne LR Hb Hf (fun x => x = NoFuel) 1%nat) as (bound & H);
    [|exact (more_all _ bound (fun n m => more_log_read N files n m r) H)].
  intros fuel f line d Hfuel Hh _. destruct fuel as [|fuel]; [lia|]. destruct Hl as [(R' & ->)|(x & -> & Nx & ->)].
  - rewrite (stuck_energies N beta (l :: R') t (Forall_inv LR) Bl Nl _ f line d Hh). reflexivity.
  - cbn [read_loop]. destruct (getl_line f x [] t line (proj1 Hh) (Forall_inv LR)) as (f1 & -> & Hat1 & _). rewrite (proj1 (proj2 Hat1)), (no_mark_start _ Nx). cbn [bind].
    destruct (tell_at _ _ _ Hat1) as (H1 & H2 & H3). rewrite (stuck_energies N beta [] t Lt Bl Nl fuel (tell f1) x d). + reflexivity. + split; [auto|rewrite H3; auto].
Qed.
Print Assumptions C72_energies_endless_refuted.
(** refuted: however a section of energies is cut after its first line, the cut is not reported.
    The rest [t] of the cut line [l] may be anything from the empty text to the whole line. *)
Theorem C72_energies_cut_refuted : forall N name r files items lines (beta : bool) h ls vals l v t u, LogReader_new N name = Ok r -> files name = Some (text lines ++ t) ->
  log_before N t (h :: ls) items lines -> begins (if beta then KBeta else KAlpha) h -> Forall2 (energy_line N beta) (h :: ls) vals ->
  energy_line N beta l v -> (forall k, has_mark k l -> k = if beta then KBeta else KAlpha) -> l = t ++ u ->
  (has_mark (if beta then KBeta else KAlpha) t /\ not_energy_line beta t /\ forall fuel, log_read N files fuel r = NoFuel) \/
  exists es bound, forall fuel, (bound <= fuel)%nat -> exists r', log_read N files fuel r = Ok r' /\ getOE N r' (spin_name beta) = Ok (concat (map snd vals) ++ es).
Proof.
  intros N name r files items lines beta h ls vals l v t u Hn Hf Hb Bh Hv Hl Hm El.
  destruct (energy_line_cut N beta l v t u Hl El) as (Lt & [Ne|(v' & Ht)]).
  - assert (Mt : forall k, has_mark k t -> k = if beta then KBeta else KAlpha).
    { intros k (p & I & a & b & Et). apply Hm. exists p. split; [auto|]. exists a, (b ++ u). rewrite El, Et, <- !app_assoc. reflexivity. }
    assert (Dm : {has_mark (if beta then KBeta else KAlpha) t} + {~ has_mark (if beta then KBeta else KAlpha) t}).
    { destruct (existsb (fun p => foundSubStrInStr t p) (marks (if beta then KBeta else KAlpha))) eqn:Ex.
      - left. apply existsb_exists in Ex as (p & I & Ep). exists p. split; [auto|]. apply found_iff; auto.
      - right. intros (p & I & Op). apply found_iff in Op. assert (existsb (fun p => foundSubStrInStr t p) (marks (if beta then KBeta else KAlpha)) = true) by (apply existsb_exists; eauto). congruence. }
    destruct Dm as [Ym|Nm].
    + left. split; [auto|]. split; [auto|].
      assert (Bt : begins (if beta then KBeta else KAlpha) t) by (split; [auto|]; intros k Hk Hk2; rewrite (Mt k Hk2) in Hk; lia).
      assert (Nt : t <> []). { intros ->. destruct Ym as (p & I & a & b & E). symmetry in E. apply app_eq_nil in E as [_ E]. apply app_eq_nil in E as [-> _]. destruct beta; cbn in I; destruct I as [I|[]]; discriminate I. }
      assert (LR : Forall is_line (h :: ls)) by (clear - Hv; induction Hv as [|x y xs ys (L & _) H IH]; constructor; auto). pose proof (Forall_inv LR) as Lh.
      destruct (cut_log N name r files items lines (h :: ls) t Hn Lt ltac:(discriminate) LR Hb Hf (fun x => x = NoFuel) (length ls + 3)%nat) as (bound & H);
        [|exact (more_all _ bound (fun n m => more_log_read N files n m r) H)].
      intros fuel f line d Hfuel Hh _. destruct fuel as [|fuel]; [lia|]. cbn [read_loop]. pose proof Hh as [Hat Hpos].
      destruct (getl_line f h ls t line Hat Lh) as (f1 & E1 & Hat1 & P1 & A1). rewrite E1. rewrite (proj1 (proj2 Hat1)), (begins_start _ _ Bh).
      assert (Es : log_section N fuel (tag_of (if beta then KBeta else KAlpha)) f1 d = ReadOrbEnergies N fuel (spin_name beta) f1 d) by (destruct beta; reflexivity).
      rewrite Es. unfold ReadOrbEnergies. pose proof (seek_back _ _ _ _ Hh P1 A1 (proj1 (proj2 Hat1))) as Hs.
      destruct (oe_rest N beta t Nt Lt Ne (h :: ls) vals Hv fuel (seek f1) [] [] 0 Hs) as (f2 & oe & homo & E2 & H2); [cbn [length]; lia|]. rewrite E2. cbn [bind].
      destruct (tell_at _ _ _ (proj1 H2)) as (H3 & H4 & H5). rewrite (stuck_energies N beta [] t Lt Bt Ne fuel (tell (seek f2))); [reflexivity|]. split; [auto|rewrite H5; auto].
    + right. assert (Nk : no_mark t) by (intros k Hk; rewrite (Mt k Hk) in Hk; contradiction).
      destruct (C72_energies_refuted N name r files items lines beta h ls vals t Hn Hf Hb Bh Hv Lt Nk Ne) as (bound & H). exists [], bound. intros fuel Hfuel. destruct (H fuel Hfuel) as (r' & Er & Eo & _). exists r'. rewrite app_nil_r. auto.
  - right. destruct (C72_energies_inside_refuted N name r files items lines beta h ls vals t v' Hn Hf Hb Bh Hv Ht) as (bound & H). exists (snd v'), bound. intros fuel Hfuel. destruct (H fuel Hfuel) as (r' & Er & Eo & _). eauto.
Qed.
Print Assumptions C72_energies_cut_refuted.

(** ** C72: coefficients *)
Section Pun.
Context (N : nums).
Notation num := (num N).
Lemma pinto k h f ys t line c fuel : is_line h -> occurs (pmark k) h -> (k = SBeta -> ~ occurs (pmark SAlpha) h) -> at_ f (h :: ys) t -> exists f1, at_ f1 ys t /\
  read_loop pun_headers (pun_section N) (S fuel) f line c = (r <- ReadCoef N fuel (pspin k) f1 c ;; let '(f, m) := r in read_loop pun_headers (pun_section N) fuel (tell f) h m).
Proof.
  intros Lh Oh Nh Hat. cbn [read_loop]. destruct (getl_line f h ys t line Hat Lh) as (f1 & -> & Hat1 & _). rewrite (proj1 (proj2 Hat1)), (pun_start k h Oh Nh).
  exists f1. split; [auto|]. destruct k; reflexivity.
Qed.
Lemma inner_false_never : forall fuel f line acc r, unseen $" MO OE" f -> ~ occurs $" MO OE" line -> coef_inner N fuel f line acc false 0 <> Ok r.
Proof.
  induction fuel as [|fuel IH]; intros f line acc r U Nl; cbn [coef_inner]; [discriminate|]. rewrite (proj2 (found_not line $" MO OE") Nl). cbn [andb].
  destruct (readGausCoefLine N line) as [v| | | |]; cbn [bind]; try discriminate. destruct (getl f line) as [l2 f2] eqn:E. destruct (getl_unseen _ _ _ _ _ U Nl E) as [N2 U2]. apply IH; auto.
Qed.
Context (spin h2 : str) (ls' : list str) (vss' : list (list num)) (t : str).
Lemma outer_later_cut n : is_line t -> ~ occurs $" MO OE" t -> (length t < 15)%nat -> is_line h2 -> occurs spin h2 -> Forall2 (coef_line N) ls' vss' -> (length (concat vss') < n)%nat ->
  forall lines rows, orbitals N spin n lines rows -> forall ls row fuel f acc, orbital N ls row -> length row = n -> at_ f (ls ++ lines ++ h2 :: ls') t ->
  (length ls + length lines < fuel)%nat -> coef_outer N (S fuel) spin f true (Z.of_nat n) acc = NoFuel.
Proof.
  intros Lt Nt L15 L2 O2 Hv Hlen. induction 1 as [|t2 ls2 row2 lines rows Lt2 Ot Os Ho2 Ln2 H IH]; intros ls row fuel f acc Ho Ln Hat Hf; pose proof Ho as (vss & Hvs & -> & _).
  - cbn [app length] in *. destruct (later_inner N h2 (h2 :: ls') t (fun f => at_ f ls' t) (fun f x => next_title t h2 ls' f x L2) ls vss Hvs fuel f [] [] Hat ltac:(lia) (Z.of_nat n) ltac:(cbn [length Nat.add]; lia)) as (f1 & E & Hq).
    cbn [coef_outer]. destruct (getl f []) as [line f0]. rewrite E. cbn [bind app]. rewrite (proj2 (found_iff h2 spin) O2). destruct fuel as [|fuel]; [lia|]. cbn [coef_outer].
    pose proof (later_cut N t ls' vss' (Z.of_nat (length (concat vss))) Lt Nt (gaus_short N t L15) Hv fuel f1 [] [] Hq ltac:(cbn [length Nat.add]; lia)) as E2. destruct (getl f1 []) as [l3 f3]. rewrite E2. reflexivity.
  - cbn [length] in Hf. rewrite app_length in Hf. cbn [app] in Hat. rewrite <- app_assoc in Hat.
    destruct (later_inner N t2 (t2 :: ls2 ++ lines ++ h2 :: ls') t (fun f => at_ f (ls2 ++ lines ++ h2 :: ls') t) (fun f x => next_title t t2 _ f x Lt2) ls vss Hvs fuel f [] [] Hat ltac:(lia) (Z.of_nat n) ltac:(cbn [length Nat.add]; lia)) as (f1 & E & Hq).
    cbn [coef_outer]. destruct (getl f []) as [line f0]. rewrite E. cbn [bind app]. rewrite (proj2 (found_iff t2 spin) Os).
    destruct fuel as [|fuel]; [lia|]. rewrite Ln. apply (IH ls2 row2 fuel f1 (acc ++ [concat vss]) Ho2 Ln2 Hq). lia.
Qed.
End Pun.
(** refuted: a file that ends anywhere in the first orbital is read forever; [u] is what is missing of the last line.
    With t = [] this includes files with a single complete orbital. *)
Theorem C72_pun_first_refuted : forall N name r files items lines k h ls vss l vs t u, PunReader_new N name = Ok r -> files name = Some (text lines ++ t) ->
  pun_before N t (h :: ls) items lines -> is_line h -> occurs (pmark k) h -> (k = SBeta -> ~ occurs (pmark SAlpha) h) ->
  Forall2 (coef_line N) ls vss -> coef_line N l vs -> l = t ++ u -> forall fuel, pun_read N files fuel r = NoFuel.
Proof.
  intros N name r files items lines k h ls vss l vs t u Hn Hf Hb Lh Oh Nh Hls Hl El. destruct (coef_line_cut N l vs t u Hl El) as (Lt & Nt & vs' & Ev).
  destruct (cut_pun N name r files items lines (h :: ls) t Hn Lt ltac:(discriminate) Hb Hf (fun x => x = NoFuel) 2%nat) as (bound & H);
    [|exact (more_all _ bound (fun n m => more_pun_read N files n m r) H)].
  intros fuel f line c Hfuel Hat. destruct fuel as [|[|fuel]]; [lia|lia|]. destruct (pinto N k h f ls t line c (S fuel) Lh Oh Nh Hat) as (f1 & Hat1 & E). rewrite E.
  unfold ReadCoef. cbn [coef_outer]. pose proof (first_cut N t vs' ls vss Lt Nt Ev Hls fuel f1 [] [] Hat1) as E2. destruct (getl f1 []) as [l2 f2]. rewrite E2. reflexivity.
Qed.
Print Assumptions C72_pun_first_refuted.
(** refuted: likewise if it ends in a later orbital, at the end of a line *)
Theorem C72_pun_later_refuted : forall N name r files items lines k h ls1 row1 ls2 rows2 h2 ls' vss' t, PunReader_new N name = Ok r -> files name = Some (text lines ++ t) ->
  pun_before N t (h :: ls1 ++ ls2 ++ h2 :: ls') items lines -> is_line h -> occurs (pmark k) h -> (k = SBeta -> ~ occurs (pmark SAlpha) h) ->
  orbital N ls1 row1 -> orbitals N (pspin k) (length row1) ls2 rows2 -> is_line h2 -> occurs $" MO OE" h2 -> occurs (pspin k) h2 ->
  Forall2 (coef_line N) ls' vss' -> (length (concat vss') < length row1)%nat -> is_line t -> ~ occurs $" MO OE" t -> (length t < 15)%nat -> forall fuel, pun_read N files fuel r = NoFuel.
Proof.
  intros N name r files items lines k h ls1 row1 ls2 rows2 h2 ls' vss' t Hn Hf Hb Lh Oh Nh Ho Hos L2 O2 S2 Hv Hlen Lt Nt L15.
  destruct (cut_pun N name r files items lines (h :: ls1 ++ ls2 ++ h2 :: ls') t Hn Lt ltac:(discriminate) Hb Hf (fun x => x = NoFuel) (length ls1 + length ls2 + 6)%nat) as (bound & H);
    [|exact (more_all _ bound (fun n m => more_pun_read N files n m r) H)].
  intros fuel f line c Hfuel Hat. destruct fuel as [|[|fuel]]; [lia|lia|]. destruct (pinto N k h f _ t line c (S fuel) Lh Oh Nh Hat) as (f1 & Hat1 & E). rewrite E.
  unfold ReadCoef. pose proof Ho as (vss & Hvs & E0 & _).
  assert (G : coef_outer N (S fuel) (pspin k) f1 false 0 [] = NoFuel); [|rewrite G; reflexivity].
  inversion Hos as [|t2 lsb rowb linesb rowsb Lt2 Ot Os Ho2 Ln2 H2]; subst ls2 rows2; cbn [app length] in *.
  - destruct (first_inner N h2 (h2 :: ls') t (fun f => at_ f ls' t) (fun f x => next_title t h2 ls' f x L2) ls1 vss O2 Hvs fuel f1 [] [] Hat1 ltac:(lia)) as (f2 & E2 & Hq).
    cbn [coef_outer]. destruct (getl f1 []) as [l1 f0]. rewrite E2. cbn [bind app]. rewrite (proj2 (found_iff h2 (pspin k)) S2). destruct fuel as [|fuel]; [lia|]. cbn [coef_outer].
    pose proof (later_cut N t ls' vss' (Z.of_nat (length (concat vss))) Lt Nt (gaus_short N t L15) Hv fuel f2 [] [] Hq ltac:(rewrite <- E0; cbn [length Nat.add]; lia)) as E3. destruct (getl f2 []) as [l3 f3]. rewrite E3. reflexivity.
  - rewrite app_length in Hfuel. rewrite <- app_assoc in Hat1.
    destruct (first_inner N t2 (t2 :: lsb ++ linesb ++ h2 :: ls') t (fun f => at_ f (lsb ++ linesb ++ h2 :: ls') t) (fun f x => next_title t t2 _ f x Lt2) ls1 vss Ot Hvs fuel f1 [] [] Hat1 ltac:(lia)) as (f2 & E2 & Hq).
    cbn [coef_outer]. destruct (getl f1 []) as [l1 f0]. rewrite E2. cbn [bind app]. rewrite (proj2 (found_iff t2 (pspin k)) Os). rewrite <- E0. destruct fuel as [|fuel]; [lia|].
    apply (outer_later_cut N (pspin k) h2 ls' vss' t (length row1) Lt Nt L15 L2 S2 Hv Hlen linesb rowsb H2 lsb rowb fuel f2 [row1] Ho2 Ln2 Hq). lia.
Qed.
Print Assumptions C72_pun_later_refuted.
(** proved: a file without a second title is never accepted *)
Theorem C72_pun_never_partial : forall N name r files items lines k h ls t, PunReader_new N name = Ok r -> files name = Some (text lines ++ t) ->
  pun_before N t (h :: ls) items lines -> is_line h -> occurs (pmark k) h -> (k = SBeta -> ~ occurs (pmark SAlpha) h) ->
  Forall (fun l => is_line l /\ ~ occurs $" MO OE" l) ls -> is_line t -> ~ occurs $" MO OE" t -> forall fuel r', pun_read N files fuel r <> Ok r'.
Proof.
  intros N name r files items lines k h ls t Hn Hf Hb Lh Oh Nh Hls Lt Nt.
  destruct (cut_pun N name r files items lines (h :: ls) t Hn Lt ltac:(discriminate) Hb Hf (fun x => forall r', x <> Ok r') 2%nat) as (bound & H);
    [|exact (more_never _ bound (fun n m => more_pun_read N files n m r) H)].
  intros fuel f line c Hfuel Hat r'. destruct fuel as [|[|fuel]]; [lia|lia|]. destruct (pinto N k h f ls t line c (S fuel) Lh Oh Nh Hat) as (f1 & Hat1 & E). rewrite E.
  unfold ReadCoef. cbn [coef_outer].
  assert (U : unseen $" MO OE" f1) by (right; exists ls, t; auto). destruct (getl f1 []) as [l2 f2] eqn:E2. destruct (getl_unseen _ _ _ _ _ U (not_occurs_b $" MO OE" [] eq_refl) E2) as [N2 U2].
  pose proof (inner_false_never N fuel f2 l2 []) as Nv. destruct (coef_inner N fuel f2 l2 [] false 0) as [x| | | |]; cbn [bind]; try discriminate. exfalso. exact (Nv x U2 N2 eq_refl).
Qed.
Print Assumptions C72_pun_never_partial.

(** ** the hypotheses are met *)
Import ReaderExample.
(** a log file that ends in its coordinate table *)
Definition tr_items : list (item D) := [Other D $" Entering Gaussian System, Link 0=g09"; ex_population; Other D []].
Definition tr_h := $" Center     Atomic      Atomic             Coordinates (Angstroms)".
Definition tr_ys := [$" Number     Number       Type             X           Y           Z"; $" ---------------------------------------------------------------------"; $"      1          6           0        0.000000    0.000000    0.670000"].
Lemma tr_before t R : log_before D t R tr_items ($" Entering Gaussian System, Link 0=g09" :: item_lines D ex_population ++ [] :: R).
Proof.
  apply (lb_item D t R (Other D _) _ (item_lines D ex_population ++ [] :: R)); [apply other_ok; reflexivity|]. apply (lb_item D t R ex_population _ ([] :: R)); [apply ex_population_ok|].
  apply (lb_item D t R (Other D []) _ R); [apply other_ok; reflexivity|]. constructor.
Qed.
Definition row_ok (l : str) : bool := negb (existsb (Ascii.eqb nl) l) && negb (foundSubStrInStr l table_end) &&
  match splitSt l with _ :: _ :: _ :: x :: y :: z :: _ => match n_stod D x, n_stod D y, n_stod D z with Ok _, Ok _, Ok _ => true | _, _, _ => false end | _ => false end.
Lemma coord_row_b l : row_ok l = true -> exists p, coord_row D l p.
Proof.
  unfold row_ok. intros H. apply andb_true_iff in H as [H H3]. apply andb_true_iff in H as [H1 H2]. apply negb_true_iff in H1, H2.
  destruct (splitSt l) as [|a [|b [|c [|x [|y [|z w]]]]]] eqn:Ew; try discriminate.
  destruct (n_stod D x) as [vx| | | |] eqn:Ex; try discriminate. destruct (n_stod D y) as [vy| | | |] eqn:Ey; try discriminate. destruct (n_stod D z) as [vz| | | |] eqn:Ez; try discriminate.
  exists (vx, vy, vz). split; [apply line_b; auto|]. split; [apply not_occurs_b; auto|]. exists a, b, c, x, y, z, w. split; [apply words_b; auto|auto].
Qed.
Lemma coord_rows_b ls : forallb row_ok ls = true -> exists ps, Forall2 (coord_row D) ls ps.
Proof.
  induction ls as [|l ls IH]; intros H; [exists []; constructor|]. cbn [forallb] in H. apply andb_true_iff in H as [H1 H2]. destruct (coord_row_b l H1) as (p & Hp). destruct (IH H2) as (ps & Hps). exists (p :: ps). constructor; auto.
Qed.
Lemma tr_cut t : existsb (Ascii.eqb nl) t = false ->
  cut_table D tr_items tr_h tr_ys t (text ($" Entering Gaussian System, Link 0=g09" :: item_lines D ex_population ++ [] :: tr_h :: tr_ys) ++ t).
Proof.
  intros Lt. destruct (coord_rows_b (skipn 2 tr_ys) eq_refl) as (ps & Hps). eexists _, ps. split; [reflexivity|]. split; [apply tr_before|]. split; [apply line_b; reflexivity|].
  split; [apply begins_b; reflexivity|]. split; [apply line_b; auto|]. split; [|exact Hps]. cbn [firstn tr_ys]. constructor; [apply line_b; reflexivity|]. constructor; [apply line_b; reflexivity|constructor].
Qed.
(** the second row complete, and cut *)
Example C72_coordinates_example :
  (exists content p, cut_table D tr_items tr_h tr_ys $"      2          1           0        0.923000   -1.500000    1.240000" content /\ coord_row D $"      2          1           0        0.923000   -1.500000    1.240000" p) /\
  (exists content, cut_table D tr_items tr_h tr_ys $"      2          1" content /\ ~ occurs table_end $"      2          1" /\ forall p, ~ coord_row D $"      2          1" p) /\
  (forall s, (exists v, n_stod D s = Ok v) \/ exists e, n_stod D s = Throw e).
Proof.
  split; [|split].
  - destruct (coord_row_b $"      2          1           0        0.923000   -1.500000    1.240000" eq_refl) as (p & Hp). eexists _, p. split; [apply tr_cut; reflexivity|exact Hp].
  - eexists. split; [apply tr_cut; reflexivity|]. split; [apply not_occurs_b; reflexivity|]. intros p (_ & _ & a & b & c & x & y & z & w & Hw & _). apply words_split in Hw. vm_compute in Hw. discriminate Hw.
  - intros s. cbn [n_stod D decimals]. destruct (parse_decimal s); eauto.
Qed.
(** the line of dashes without newline; tables and sections without their closing line *)
Example C72_dashes_example : let a := $" Number     Number       Type             X           Y           Z" in let t := $" ---------------------------------------------------------------------" in
  exists lines, log_before D t [tr_h; a] tr_items lines /\ is_line tr_h /\ begins KCoordinates tr_h /\ is_line a /\ is_line t /\ occurs table_end t.
Proof.
  cbv zeta. eexists. split; [apply tr_before|]. split; [apply line_b; reflexivity|]. split; [apply begins_b; reflexivity|]. split; [apply line_b; reflexivity|]. split; [apply line_b; reflexivity|apply occurs_b; reflexivity].
Qed.
Example C72_never_example : 
  (exists lines, log_before D $"      2" (tr_h :: tr_ys) tr_items lines /\ Forall is_line tr_ys /\ Forall (fun l => ~ occurs table_end l) (skipn 2 tr_ys) /\ ~ occurs table_end $"      2") /\
  (let h := $"     Gross orbital populations:" in let ys := [$"                           1"; $"   1 1   C  1S          1.99222"] in
   exists lines, log_before D $"   2   " (h :: ys) [ex_coord] lines /\ begins KPopulation h /\ Forall is_line ys /\ Forall (fun l => ~ occurs population_over l) (skipn 1 ys) /\ ~ occurs population_over $"   2   ").
Proof.
  split.
  - eexists. split; [apply tr_before|]. split; [repeat (constructor; [apply line_b; reflexivity|]); constructor|]. split; [constructor; [apply not_occurs_b; reflexivity|constructor]|apply not_occurs_b; reflexivity].
  - cbv zeta. eexists. split; [apply lb_item; [apply ex_coord_ok|constructor]|]. split; [apply begins_b; reflexivity|]. split; [repeat (constructor; [apply line_b; reflexivity|]); constructor|].
    split; [constructor; [apply not_occurs_b; reflexivity|constructor]|apply not_occurs_b; reflexivity].
Qed.
Lemma pop_inv N elem label vs r1 rows atoms ls : population N ((elem, (label, vs) :: r1 :: rows) :: atoms) ls ->
  exists l cur others, first_row N l elem label vs /\ other_row N cur r1 /\ Forall2 (other_row N) others rows.
Proof. intros H. inversion H as [|? ? ? ? l ls' ? lines Hf Ho Hr]; subst. inversion Ho as [|cur ? others ? Hc Ho']; subst. eauto 10. Qed.
Example C72_population_example : let h := $"     Gross orbital populations:" in let a := $"                           1" in
  exists l cur others elem label vs row rows lines, log_before D [] (h :: a :: l :: cur :: others) [ex_coord] lines /\ is_line h /\ begins KPopulation h /\ is_line a /\
    first_row D l elem label vs /\ other_row D cur row /\ Forall2 (other_row D) others rows /\ length others = 1%nat.
Proof.
  cbv zeta. destruct (ex_population_ok [] []) as (_ & _ & _ & _ & Hp & _). unfold ex_atoms in Hp. destruct (pop_inv _ _ _ _ _ _ _ _ Hp) as (l & cur & others & Hf & Hc & Ho).
  exists l, cur, others. do 6 eexists. split; [apply lb_item; [apply ex_coord_ok|constructor]|]. split; [apply line_b; reflexivity|]. split; [apply begins_b; reflexivity|]. split; [apply line_b; reflexivity|].
  split; [exact Hf|]. split; [exact Hc|]. split; [exact Ho|]. inversion Ho as [|? ? ? ? _ Ho']; subst. inversion Ho'; subst. reflexivity.
Qed.
Example C72_overlap_example : exists lines n v t h0 rows h1, log_before D [] ($" *** Overlap ***" :: h0 :: rows ++ [h1]) [ex_coord] lines /\ is_line $" *** Overlap ***" /\ begins KOverlap $" *** Overlap ***" /\ n = 6 /\
  (forall i j, 1 <= j <= i -> i <= n -> coef_text D (t i j) (v i j)) /\ is_line h0 /\ Forall is_line rows /\
  Forall2 (fun i l => table_row l (dec i :: map (t i) (range 1 (Z.min i 5)))) (range 1 n) rows /\ is_line h1 /\ not_row (n + 1) h1.
Proof.
  destruct (ex_overlap_ok [] []) as (_ & _ & _ & _ & (t & (blocks & E & FB & LB) & Ht) & _). change ((6 - 1) / 5) with 1 in FB. change (range 0 1) with [0; 1] in FB.
  inversion FB as [|? b0 ? bs (h0 & rows & E0 & _ & Hr) FB1]; subst. inversion FB1 as [|? b1 ? bs1 (h1 & rows1 & E1 & Hw1 & _) FB2]; subst. inversion FB2; subst. clear FB FB1 FB2.
  rewrite E in LB. cbn [concat app] in LB. inversion LB as [|? ? L0 LB1]; subst. apply Forall_app in LB1 as [Lr LB1]. cbn [app] in LB1. inversion LB1 as [|? ? L1 _]; subst.
  eexists. exists 6. eexists _, t, h0, rows, h1. split; [apply lb_item; [apply ex_coord_ok|constructor]|]. split; [apply line_b; reflexivity|]. split; [apply begins_b; reflexivity|]. split; [reflexivity|].
  split; [exact Ht|]. split; [auto|]. split; [auto|]. split; [exact Hr|]. split; [auto|]. right. rewrite (range_cons (5 * 1 + 1)) in Hw1 by lia. cbn [map] in Hw1. do 2 eexists. exists 6. split; [exact Hw1|]. split; [vm_compute; reflexivity|lia].
Qed.
(** the second line of energies, cut before, directly after and behind the dashes of its title *)
Example C72_energies_example : let h := $" Alpha  occ. eigenvalues --  -19.1396-10.22575 -0.81234" in let l := $" Alpha  occ. eigenvalues --   -0.50000" in
  (forall t, exists lines, log_before D t [h] [ex_coord] lines) /\ begins KAlpha h /\ energy_line D false h (true, [(-191396, -4); (-1022575, -5); (-81234, -5)]) /\
  energy_line D false l (true, [(-50000, -5)]) /\ (forall k, has_mark k l -> k = KAlpha) /\
  (let t := $" Alpha  oc" in l = t ++ $"c. eigenvalues --   -0.50000" /\ is_line t /\ no_mark t /\ not_energy_line false t) /\
  (let t := $" Alpha  occ. eigenvalues --" in l = t ++ $"   -0.50000" /\ begins KAlpha t /\ not_energy_line false t) /\
  (let t := $" Alpha  occ. eigenvalues --   -0.5" in l = t ++ $"0000" /\ energy_line D false t (true, [(-5, -1)])).
Proof.
  cbv zeta. destruct (ex_energies_ok [] [] ltac:(split; apply not_occurs_b; reflexivity)) as (_ & Hv & _). cbn [ex_energies] in Hv.
  inversion Hv as [|? ? ? ? H1 Hv1]; subst. inversion Hv1 as [|? ? ? ? H2 _]; subst.
  split; [intros t; eexists; apply lb_item; [apply ex_coord_ok|constructor]|]. split; [apply begins_b; reflexivity|]. split; [exact H1|]. split; [exact H2|].
  split; [intros k (p & I & O); apply found_iff in O; destruct k; cbn [marks In] in I; repeat (destruct I as [<-|I]; [vm_compute in O; first [discriminate O|reflexivity]|]); destruct I|].
  split; [split; [reflexivity|]; split; [apply line_b; reflexivity|]; split; [apply no_mark_b; reflexivity|split; apply not_occurs_b; reflexivity]|].
  split; [split; [reflexivity|]; split; [apply begins_b; reflexivity|split; apply not_occurs_b; reflexivity]|].
  split; [reflexivity|]. split; [apply line_b; reflexivity|]. split; [cbn [fst]; apply occurs_b; reflexivity|].
  eexists _, [$"-0.5"]. split; [apply words_b; vm_compute; reflexivity|]. split; [|vm_compute; reflexivity].
  exists $"Alpha", $"occ.", $"eigenvalues", $"--", [$"-0.5"], [[$"-0.5"]].
  split; [reflexivity|]. split; [|split; [reflexivity|cbn [length]; lia]]. constructor; [|constructor]; glue 0.
Qed.
(** the first orbital cut in its second line; the second one cut after its first line *)
Example C72_pun_example : 
  (exists ls vss l vs lines, pun_before D $" 0.2500" ($"    1 Alpha MO OE=-0.19133916D+02" :: ls) [POther D $"(5D15.8)"] lines /\ Forall2 (coef_line D) ls vss /\ coef_line D l vs /\ l = $" 0.2500" ++ $"0000D+02" /\ length ls = 1%nat) /\
  (exists ls1 row1 h2 ls' vss' lines, pun_before D [] ($"    1 Alpha MO OE=-0.19133916D+02" :: ls1 ++ [] ++ h2 :: ls') [POther D $"(5D15.8)"] lines /\ orbital D ls1 row1 /\ is_line h2 /\ occurs $" MO OE" h2 /\ occurs $"Alpha" h2 /\
     Forall2 (coef_line D) ls' vss' /\ length (concat vss') = 2%nat /\ length row1 = 3%nat).
Proof.
  split.
  - exists [$"-0.12345678D-01 0.50000000D+00"], [map fval [$"-0.12345678D-01"; $" 0.50000000D+00"]], $" 0.25000000D+02", (map fval [$" 0.25000000D+02"]). eexists.
    split; [apply pb_item; [split; [apply line_b; reflexivity|intros k; apply not_occurs_b; destruct k; reflexivity]|constructor]|].
    split; [constructor; [cl [$"-0.12345678D-01"; $" 0.50000000D+00"] (@nil ascii)|constructor]|]. split; [cl [$" 0.25000000D+02"] (@nil ascii)|]. split; reflexivity.
  - exists [$"-0.12345678D-01 0.50000000D+00"; $" 0.25000000D+02"]. eexists. exists $"    2 Alpha MO OE=-0.10133916D+02", [$" 0.10000000D+02 0.20000000D+02"], [map fval [$" 0.10000000D+02"; $" 0.20000000D+02"]]. eexists.
    split; [apply pb_item; [split; [apply line_b; reflexivity|intros k; apply not_occurs_b; destruct k; reflexivity]|constructor]|].
    split; [exists [map fval [$"-0.12345678D-01"; $" 0.50000000D+00"]; map fval [$" 0.25000000D+02"]]; split; [|split; [reflexivity|discriminate]]; constructor; [cl [$"-0.12345678D-01"; $" 0.50000000D+00"] (@nil ascii)|constructor; [cl [$" 0.25000000D+02"] (@nil ascii)|constructor]]|].
    split; [apply line_b; reflexivity|]. split; [apply occurs_b; reflexivity|]. split; [apply occurs_b; reflexivity|].
    split; [constructor; [cl [$" 0.10000000D+02"; $" 0.20000000D+02"] (@nil ascii)|constructor]|]. split; reflexivity.
Qed.
(** refuted: cut in a later orbital after a complete value, the file is accepted and the value is repeated: the first 139 characters of a correct file *)
Definition cut_pun_read (k fuel : nat) : outcome (option (num D) * option (num D) * option (num D)) :=
  r <- PunReader_new D $"a.pun" ;; r <- pun_read D (fun _ => Some (firstn k ex_pun)) fuel r ;; m <- getCoefsMatrix D r $"Alpha" ;;
  let e c := match get_elem2 m 2 c with Ok x => Some x | _ => None end in Ok (e 1, e 2, e 3).
Theorem C72_pun_repeated_refuted : pun_file D ex_pitems ex_pun /\ exists k, (k < length ex_pun)%nat /\ cut_pun_read k 20 = Ok (Some (10000000, -6), Some (10000000, -6), Some (10000000, -6)).
Proof. split; [exact ex_pun_ok|]. exists 139%nat. split; [apply Nat.ltb_lt; vm_compute; reflexivity|]. vm_compute. reflexivity. Qed.
Print Assumptions C72_pun_repeated_refuted.
(** ** C70: refuted for a single orbital at the end of the file: reading never ends *)
Theorem C70_single_refuted : forall N name r files items lines k h ls row, PunReader_new N name = Ok r -> files name = Some (text lines) ->
  pun_before N [] (h :: ls) items lines -> is_line h -> occurs (pmark k) h -> (k = SBeta -> ~ occurs (pmark SAlpha) h) -> orbital N ls row ->
  forall fuel, pun_read N files fuel r = NoFuel.
Proof.
  intros N name r files items lines k h ls row Hn Hf Hb Lh Oh Nh (vss & Hv & E & Ne). rewrite <- (app_nil_r (text lines)) in Hf.
  destruct Hv as [|l v ls vss Hl Hv]; [subst row; contradiction (Ne eq_refl)|].
  exact (C72_pun_first_refuted N name r files items lines k h (l :: ls) (v :: vss) l v [] l Hn Hf Hb Lh Oh Nh (Forall2_cons _ _ Hl Hv) Hl eq_refl).
Qed.
Print Assumptions C70_single_refuted.
Example C70_single_example : exists ls row lines, pun_before D [] ($"    1 Beta MO OE=-0.19133916D+02" :: ls) [POther D $"(5D15.8)"; ex_alpha] lines /\ orbital D ls row /\ length row = 2%nat.
Proof.
  exists [$" 0.10000000D+02 0.20000000D+02"]. do 2 eexists. split; [apply pb_item; [split; [apply line_b; reflexivity|intros k; apply not_occurs_b; destruct k; reflexivity]|]; apply pb_item; [apply ex_alpha_ok|constructor]|].
  split; [exists [map fval [$" 0.10000000D+02"; $" 0.20000000D+02"]]; split; [constructor; [cl [$" 0.10000000D+02"; $" 0.20000000D+02"] (@nil ascii)|constructor]|split; [reflexivity|discriminate]]|reflexivity].
Qed.
