(** * Files that end in the middle of a section *)
From Verif Require Import ParserWf.
From Verif Require Export ReaderPunProps ReaderProps.
From Verif Require Export StrSpec StrModel.
Open Scope Z_scope.

Definition start_of (content : str) (pos : option nat) : fstate := mkF (mkStream content 0 false false) pos.
Lemma start_at lines tail pos : at_ (start_of (text lines ++ tail) pos) lines tail.
Proof. unfold start_of, at_, left_in. cbn [fid s_eof s_fail s_pos s_all skipn]. auto. Qed.

(** lines that begin no section are skipped *)
Lemma skip_lines {M} headers (rd : nat -> str -> fstate -> M -> outcome (fstate * M)) pre R tail : Forall (fun l => is_line l /\ starts_none headers l) pre ->
  forall (P : outcome (fstate * M) -> Prop), P NoFuel ->
  forall m, (forall fuel f line, at_ f R tail -> P (read_loop headers rd fuel f line m)) ->
  forall fuel f line, at_ f (pre ++ R) tail -> P (read_loop headers rd fuel f line m).
Proof.
  intros Hp P P0 m H. induction Hp as [|l pre [Ll Nl] Hp IH]; intros fuel f line Hat; cbn [app] in Hat; [auto|].
  destruct fuel as [|fuel]; cbn [read_loop]; [auto|]. destruct (getl_line f l _ tail line Hat Ll) as (f1 & -> & Hat1 & _). rewrite (proj1 (proj2 Hat1)).
  rewrite (proj2 (start_none headers l) Nl). cbn [bind]. apply IH, tell_at, Hat1.
Qed.
(** ... with enough fuel *)
Lemma skip_lines_ok {M} headers (rd : nat -> str -> fstate -> M -> outcome (fstate * M)) pre R tail : Forall (fun l => is_line l /\ starts_none headers l) pre ->
  forall m x bound, (forall fuel f line, at_ f R tail -> (bound <= fuel)%nat -> read_loop headers rd fuel f line m = x) ->
  forall fuel f line, at_ f (pre ++ R) tail -> (length pre + bound <= fuel)%nat -> read_loop headers rd fuel f line m = x.
Proof.
  intros Hp m x bound H. induction Hp as [|l pre [Ll Nl] Hp IH]; intros fuel f line Hat Hf; cbn [app length] in *; [apply H; auto|].
  destruct fuel as [|fuel]; cbn [read_loop]; [lia|]. destruct (getl_line f l _ tail line Hat Ll) as (f1 & -> & Hat1 & _). rewrite (proj1 (proj2 Hat1)).
  rewrite (proj2 (start_none headers l) Nl). cbn [bind]. apply IH; [apply tell_at, Hat1|lia].
Qed.
Lemma no_mark_none l : no_mark l -> starts_none log_headers l.
Proof. intros H. apply none_b. apply no_mark_start; auto. Qed.

Section Trunc.
Context (N : nums).
Notation num := (num N).

(** ** coordinates *)
Lemma coord_stuck t p : coord_row N t p -> forall fuel f X Y Z, done f -> coord_loop N fuel f t X Y Z = NoFuel.
Proof.
  intros (_ & Hne & a & b & c & x & y & z & w & Hw & Hx & Hy & Hz). induction fuel as [|fuel IH]; intros f X Y Z D; cbn [coord_loop]; [auto|].
  change coord_end with table_end. rewrite (proj2 (found_not t table_end) Hne). apply words_split in Hw as Hw'. rewrite Hw'.
  rewrite (vat_ok _ 3 x), (vat_ok _ 4 y), (vat_ok _ 5 z) by (lia || reflexivity). cbn [bind]. rewrite Hx. cbn [bind]. rewrite Hy. cbn [bind]. rewrite Hz. cbn [bind].
  destruct (getl_done f t D) as (f1 & -> & D1 & _). apply IH; auto.
Qed.
(** the lines [rows] are read, then the text [t] *)
Lemma coord_rows_then t (P : outcome (fstate * list (list num)) -> Prop) : P NoFuel -> is_line t -> (forall fuel f X Y Z, done f -> P (coord_loop N fuel f t X Y Z)) ->
  forall rows pts, Forall2 (coord_row N) rows pts -> forall fuel f x X Y Z, at_ f rows t -> P (let '(l, f) := getl f x in coord_loop N fuel f l X Y Z).
Proof.
  intros P0 Lt Ht rows pts H. induction H as [|r p rows pts Hr H IH]; intros fuel f x X Y Z Hat.
  - destruct (getl_tail f t x Hat Lt) as (f1 & -> & D & _). apply Ht; auto.
  - destruct Hr as (Lr & Hne & a & b & c & x' & y & z & w & Hw & Hx & Hy & Hz). destruct (getl_line f r rows t x Hat Lr) as (f1 & -> & Hat1 & _).
    destruct fuel as [|fuel]; cbn [coord_loop]; [auto|].
    change coord_end with table_end. rewrite (proj2 (found_not r table_end) Hne). apply words_split in Hw. rewrite Hw.
    rewrite (vat_ok _ 3 x'), (vat_ok _ 4 y), (vat_ok _ 5 z) by (lia || reflexivity). cbn [bind]. rewrite Hx. cbn [bind]. rewrite Hy. cbn [bind]. rewrite Hz. cbn [bind].
    exact (IH fuel f1 r _ _ _ Hat1).
Qed.
Lemma coord_rows_then_ok t o : is_line t -> (forall fuel f X Y Z, done f -> (1 <= fuel)%nat -> coord_loop N fuel f t X Y Z = o) ->
  forall rows pts, Forall2 (coord_row N) rows pts -> forall fuel f x X Y Z, at_ f rows t -> (length rows < fuel)%nat -> (let '(l, f) := getl f x in coord_loop N fuel f l X Y Z) = o.
Proof.
  intros Lt Ht rows pts H. induction H as [|r p rows pts Hr H IH]; intros fuel f x X Y Z Hat Hf.
  - destruct (getl_tail f t x Hat Lt) as (f1 & -> & D & _). apply Ht; auto.
  - destruct Hr as (Lr & Hne & a & b & c & x' & y & z & w & Hw & Hx & Hy & Hz). destruct (getl_line f r rows t x Hat Lr) as (f1 & -> & Hat1 & _).
    destruct fuel as [|fuel]; cbn [coord_loop]; [lia|].
    change coord_end with table_end. rewrite (proj2 (found_not r table_end) Hne). apply words_split in Hw. rewrite Hw.
    rewrite (vat_ok _ 3 x'), (vat_ok _ 4 y), (vat_ok _ 5 z) by (lia || reflexivity). cbn [bind]. rewrite Hx. cbn [bind]. rewrite Hy. cbn [bind]. rewrite Hz. cbn [bind].
    cbn [length] in Hf. apply (IH fuel f1 r _ _ _ Hat1). lia.
Qed.
(** the outcome of reading a file whose coordinate table is cut *)
Lemma coord_cut h a b rows t fuel f line d (P : outcome (fstate * logd N) -> Prop) : P NoFuel -> is_line h -> begins KCoordinates h -> is_line a -> is_line b ->
  at_ f (h :: a :: b :: rows) t ->
  (forall n f x, at_ f rows t -> P (r <- (let '(l, f) := getl f x in coord_loop N n f l [] [] []) ;; let '(f, c) := r in
     read_loop log_headers (log_section N) n (tell f) h (mkLog N (homoLevel N d) (orb_ N d) (S_ N d) (OREnergies N d) c))) ->
  P (read_loop log_headers (log_section N) fuel f line d).
Proof.
  intros P0 Lh Bh La Lb Hat H. destruct fuel as [|fuel]; cbn [read_loop]; [auto|]. destruct (getl_line f h _ t line Hat Lh) as (f1 & -> & Hat1 & _).
  rewrite (proj1 (proj2 Hat1)), (begins_start _ _ Bh). cbn [tag_of]. change (log_section N fuel $"Coord" f1 d) with (CoordSectionReader N fuel f1 d).
  unfold CoordSectionReader. destruct (getl_line f1 a _ t [] Hat1 La) as (f2 & -> & Hat2 & _). destruct (getl_line f2 b _ t a Hat2 Lb) as (f3 & -> & Hat3 & _).
  specialize (H fuel f3 b Hat3). destruct (getl f3 b) as [l f4]. destruct (coord_loop N fuel f4 l [] [] []) as [[f5 c]|e|u|c|]; cbn [bind] in *; auto.
Qed.

(** ** populations *)
Lemma ao_values_stuck fuel i acc : i_eof i = true -> (0 < fuel)%nat -> ao_values N fuel i acc = Ok acc.
Proof. intros E Hf. destruct fuel; [lia|]. cbn [ao_values]. rewrite E. reflexivity. Qed.
Lemma next_empty w : next (iss []) w = (w, mkIstr [] true true). Proof. reflexivity. Qed.
Lemma next_eof r b w : next (mkIstr r true b) w = (w, mkIstr r true true). Proof. reflexivity. Qed.
Lemma inner_stuck_empty : forall fuel e2 orbType k elem f orb, done f -> ~ alphabetic e2 -> trim e2 = e2 -> ao_inner N fuel [] e2 orbType k elem f orb = NoFuel.
Proof.
  induction fuel as [|fuel IH]; intros e2 orbType k elem f orb D Ne Te; cbn [ao_inner]; [auto|]. rewrite (proj2 (alphabetic_not e2) Ne).
  rewrite next_empty, next_eof, ao_values_stuck by (auto || (cbn [length]; lia)). cbn [bind]. destruct (getl_done f [] D) as (f1 & -> & D1 & _).
  rewrite next_empty, !next_eof. change (foundSubStrInStr [] ao_end) with false. cbv iota. rewrite Te. apply IH; auto.
Qed.
Lemma other_row_third l r : other_row N l r -> exists t, ~ alphabetic t /\ trim t = t /\ forall x, exists i j k y z, next (iss l) x = (y, i) /\ next i y = (z, j) /\ next j z = (t, k).
Proof.
  intros (_ & _ & (no & t & ts & Hrow & _ & Nt) & _). exists t. split; [auto|]. split; [apply trim_word; eapply row_words; [exact Hrow|right; right; left; auto]|].
  intros x. destruct (third _ _ _ _ _ x Hrow) as (i & j & k & A1 & A2 & A3). exists i, j, k, no, (fst r). auto.
Qed.
(** one round on a continuing row *)
Lemma inner_step l r fuel e2 orbType k elem f orb : other_row N l r -> ~ alphabetic e2 ->
  ao_inner N (S fuel) l e2 orbType k elem f orb =
  (let '(line, f) := getl f l in
   let '(e, j) := next (iss line) e2 in let '(e, j) := next j e in let '(e, _) := next j e in
   if foundSubStrInStr line ao_end then Ok (line, true, f, o_set (k, elem) (fst r) (snd r) orb)
   else ao_inner N fuel line (trim e) (fst r) k elem f (o_set (k, elem) (fst r) (snd r) orb)).
Proof.
  intros (Ll & Nl & (no & t & ts & Hrow & Hts & Nt) & _) Na. cbn [ao_inner]. rewrite (proj2 (alphabetic_not e2) Na).
  destruct (next_holds _ _ _ [] (holds_iss _ _ _ Hrow)) as (i1 & -> & H1). destruct (next_holds _ _ _ orbType H1) as (i2 & -> & H2).
  pose proof (row_bound _ _ Hrow) as Bd. cbn [length] in Bd.
  rewrite (ao_values_ok N (t :: ts) (snd r) Hts _ i2 [] H2) by (cbn [length]; lia). reflexivity.
Qed.
Lemma inner_stuck_row l r : other_row N l r -> forall fuel e2 orbType k elem f orb, done f -> ~ alphabetic e2 -> ao_inner N fuel l e2 orbType k elem f orb = NoFuel.
Proof.
  intros Hr. destruct (other_row_third l r Hr) as (t & Nt & Tt & H3).
  induction fuel as [|fuel IH]; intros e2 orbType k elem f orb D Ne; [reflexivity|]. rewrite (inner_step l r) by auto. destruct (getl_done f l D) as (f1 & -> & D1 & _).
  destruct (H3 e2) as (i & j & k' & y & z & -> & -> & ->). change ao_end with population_over. rewrite (proj2 (found_not l population_over) (proj1 (proj2 Hr))). rewrite Tt. apply IH; auto.
Qed.
Lemma inner_cut t : t = [] \/ (exists r, other_row N t r) -> forall others cur r rows, other_row N cur r -> Forall2 (other_row N) others rows ->
  forall fuel e2 orbType k elem f orb, at_ f others t -> ~ alphabetic e2 -> trim e2 = e2 -> ao_inner N fuel cur e2 orbType k elem f orb = NoFuel.
Proof.
  intros Ht. assert (Lt : is_line t) by (destruct Ht as [->|(r & H & _)]; [intros []|auto]).
  intros others cur r rows Hr H. revert cur r Hr. induction H as [|l r2 others rows Hl H IH]; intros cur r Hr fuel e2 orbType k elem f orb Hat Ne Te; (destruct fuel as [|fuel]; [reflexivity|]); rewrite (inner_step cur r) by auto.
  - destruct (getl_tail f t cur Hat Lt) as (f1 & -> & D & _). destruct Ht as [->|(rt & Hrt)].
    + rewrite next_empty, !next_eof. change (foundSubStrInStr [] ao_end) with false. cbv iota. rewrite Te. apply inner_stuck_empty; auto.
    + destruct (other_row_third t rt Hrt) as (w & Nw & Tw & H3). destruct (H3 e2) as (i & j & k' & y & z & -> & -> & ->).
      change ao_end with population_over. rewrite (proj2 (found_not t population_over) (proj1 (proj2 Hrt))). rewrite Tw. eapply inner_stuck_row; eauto.
  - destruct (getl_line f l others t cur Hat (proj1 Hl)) as (f1 & -> & Hat1 & _).
    destruct (other_row_third l r2 Hl) as (w & Nw & Tw & H3). destruct (H3 e2) as (i & j & k' & y & z & -> & -> & ->).
    change ao_end with population_over. rewrite (proj2 (found_not l population_over) (proj1 (proj2 Hl))). rewrite Tw. eapply IH; eauto.
Qed.
Lemma white_not_alphabetic l : white (column l) -> ~ alphabetic (trim (column l)).
Proof.
  intros W. assert (Tw : trim (column l) = []). { apply trim_stripped. exists (column l), []. rewrite !app_nil_r. split; [auto|]. split; [apply white_nil|]. split; [auto|]. split; intros c u; [discriminate|destruct u; discriminate]. }
  rewrite Tw. intros [A _]. congruence.
Qed.
(** the first row of an atom *)
Lemma outer_step l elem label vs fuel k f orb : first_row N l elem label vs ->
  ao_outer N (S fuel) l k f orb =
  (let orb := o_set (k, elem) label vs orb in let '(line, f) := getl f l in
   c9 <- sat line 9 ;; c10 <- sat line 10 ;; r <- ao_inner N fuel line (trim [c9; c10]) label k elem f orb ;;
   let '(line, sectionEnd, f, orb) := r in
   if sectionEnd || foundSubStrInStr line ao_end then Ok (f, orb) else ao_outer N fuel line (k + 1) f orb).
Proof.
  intros (Ll & Nl & (no & an & ts & Hrow & Hts) & Hel & _). cbn [ao_outer].
  destruct (next_holds _ _ _ [] (holds_iss _ _ _ Hrow)) as (i1 & -> & H1). destruct (next_holds _ _ _ [] H1) as (i2 & -> & H2).
  destruct (next_holds _ _ _ an H2) as (i3 & -> & H3). destruct (next_holds _ _ _ [] H3) as (i4 & -> & H4).
  pose proof (row_bound _ _ Hrow) as Bd. cbn [length] in Bd. rewrite (ao_values_ok N ts vs Hts _ i4 [] H4) by lia. reflexivity.
Qed.
Lemma outer_cut t l elem label vs cur others r rows : t = [] \/ (exists r, other_row N t r) -> first_row N l elem label vs -> other_row N cur r -> Forall2 (other_row N) others rows ->
  forall fuel k f orb, at_ f (cur :: others) t -> ao_outer N fuel l k f orb = NoFuel.
Proof.
  intros Ht Hl Hr H fuel k f orb Hat. destruct fuel as [|fuel]; [reflexivity|]. rewrite (outer_step l elem label vs) by auto. cbv zeta.
  destruct (getl_line f cur others t l Hat (proj1 Hr)) as (f1 & -> & Hat1 & _). pose proof Hr as (_ & _ & _ & C2 & W).
  destruct (column_chars cur C2) as (a & b & Eab & E9 & E10). rewrite E9. cbn [bind]. rewrite E10. cbn [bind]. rewrite <- Eab.
  rewrite (inner_cut t Ht others cur r rows Hr H fuel (trim (column cur)) label k elem f1 _ Hat1 (white_not_alphabetic cur W) (trim_idem _)). reflexivity.
Qed.
Lemma outer_first_cut l elem label vs : first_row N l elem label vs -> forall fuel k f orb, at_ f [] [] -> (1 <= fuel)%nat -> ao_outer N fuel l k f orb = Throw OutOfRange.
Proof.
  intros Hl fuel k f orb Hat Hf. destruct fuel as [|fuel]; [lia|]. rewrite (outer_step l elem label vs) by auto. cbv zeta.
  destruct (getl_tail f [] l Hat) as (f1 & -> & _); [intros []|]. reflexivity.
Qed.

(** ** a section that is never closed is never accepted *)
Definition unseen (p : str) (f : fstate) : Prop :=
  done f \/ exists lines tail, at_ f lines tail /\ Forall (fun l => is_line l /\ ~ occurs p l) lines /\ is_line tail /\ ~ occurs p tail.
Lemma getl_unseen p f x l f' : unseen p f -> ~ occurs p x -> getl f x = (l, f') -> ~ occurs p l /\ unseen p f'.
Proof.
  intros [D|(lines & tail & Hat & F & Lt & Nt)] Nx E.
  - destruct (getl_done f x D) as (f1 & E1 & D1 & _). rewrite E1 in E. inversion E; subst. split; [auto|left; auto].
  - destruct lines as [|l0 lines].
    + destruct (getl_tail f tail x Hat Lt) as (f1 & E1 & D1 & _). rewrite E1 in E. inversion E; subst. split; [auto|left; auto].
    + inversion F as [|? ? [L0 N0] F0]; subst. destruct (getl_line f l0 lines tail x Hat L0) as (f1 & E1 & Hat1 & _). rewrite E1 in E. inversion E; subst. split; [auto|right; eauto 10].
Qed.
Lemma coord_never : forall fuel f line X Y Z r, unseen table_end f -> ~ occurs table_end line -> coord_loop N fuel f line X Y Z <> Ok r.
Proof.
  induction fuel as [|fuel IH]; intros f line X Y Z r U Nl; cbn [coord_loop]; [discriminate|]. change coord_end with table_end. rewrite (proj2 (found_not line table_end) Nl).
  destruct (vat (splitSt line) 3); cbn [bind]; try discriminate. destruct (n_stod N a); cbn [bind]; try discriminate.
  destruct (vat (splitSt line) 4); cbn [bind]; try discriminate. destruct (n_stod N a1); cbn [bind]; try discriminate.
  destruct (vat (splitSt line) 5); cbn [bind]; try discriminate. destruct (n_stod N a3); cbn [bind]; try discriminate.
  destruct (getl f line) as [l2 f2] eqn:E. destruct (getl_unseen _ _ _ _ _ U Nl E) as [N2 U2]. apply IH; auto.
Qed.
Lemma inner_never : forall fuel line e2 orbType k elem f orb l' b f' orb', unseen population_over f -> ~ occurs population_over line ->
  ao_inner N fuel line e2 orbType k elem f orb = Ok (l', b, f', orb') -> b = false /\ ~ occurs population_over l' /\ unseen population_over f'.
Proof.
  induction fuel as [|fuel IH]; intros line e2 orbType k elem f orb l' b f' orb' U Nl H; cbn [ao_inner] in H; [discriminate|]. destruct (isAlphabetical e2); [inversion H; subst; auto|].
  destruct (next (iss line) []) as [w1 i1]. destruct (next i1 orbType) as [w2 i2]. destruct (ao_values N (S (S (length line))) i2 []) as [vs| | | |]; cbn [bind] in H; try discriminate.
  destruct (getl f line) as [l2 f2] eqn:E. destruct (getl_unseen _ _ _ _ _ U Nl E) as [N2 U2].
  destruct (next (iss l2) e2) as [e3 j1]. destruct (next j1 e3) as [e4 j2]. destruct (next j2 e4) as [e5 j3].
  change ao_end with population_over in H. rewrite (proj2 (found_not l2 population_over) N2) in H. eapply IH; eauto.
Qed.
Lemma outer_never : forall fuel line k f orb r, unseen population_over f -> ~ occurs population_over line -> ao_outer N fuel line k f orb <> Ok r.
Proof.
  induction fuel as [|fuel IH]; intros line k f orb r U Nl; cbn [ao_outer]; [discriminate|].
  destruct (next (iss line) []) as [w1 i1]. destruct (next i1 []) as [w2 i2]. destruct (next i2 w2) as [w3 i3]. destruct (next i3 []) as [w4 i4].
  destruct (ao_values N (S (S (length line))) i4 []) as [vs| | | |]; cbn [bind]; try discriminate.
  destruct (getl f line) as [l2 f2] eqn:E. destruct (getl_unseen _ _ _ _ _ U Nl E) as [N2 U2].
  destruct (sat l2 9) as [c9| | | |]; cbn [bind]; try discriminate. destruct (sat l2 10) as [c10| | | |]; cbn [bind]; try discriminate.
  destruct (ao_inner N fuel l2 (trim [c9; c10]) w4 k w3 f2 (o_set (k, w3) w4 vs orb)) as [[[[l3 b] f3] orb3]| | | |] eqn:Ei; cbn [bind]; try discriminate.
  destruct (inner_never _ _ _ _ _ _ _ _ _ _ _ _ U2 N2 Ei) as (-> & N3 & U3). change ao_end with population_over. rewrite (proj2 (found_not l3 population_over) N3). change (false || false) with false. cbv iota.
  apply IH; auto.
Qed.

(** ** coefficients *)
Lemma gaus_short l : (length l < 15)%nat -> readGausCoefLine N l = Ok [].
Proof.
  intros H. unfold readGausCoefLine. cbn [gaus_loop]. unfold size_t, len. rewrite Z.mod_small by (unfold SIZE_MOD; lia). destruct (Z.leb_spec 15 (Z.of_nat (length l) - 0)); [lia|reflexivity].
Qed.
Lemma coef_stuck line vs : ~ occurs $" MO OE" line -> readGausCoefLine N line = Ok vs -> forall fuel f acc, done f -> coef_inner N fuel f line acc false 0 = NoFuel.
Proof.
  intros No Hr. induction fuel as [|fuel IH]; intros f acc D; cbn [coef_inner]; [auto|]. rewrite (proj2 (found_not line $" MO OE") No). cbn [andb]. rewrite Hr. cbn [bind].
  destruct (getl_done f line D) as (f1 & -> & D1 & _). apply IH; auto.
Qed.
Lemma coef_stuck_later line count : ~ occurs $" MO OE" line -> readGausCoefLine N line = Ok [] -> forall fuel f acc, done f -> Z.of_nat (length acc) < count -> coef_inner N fuel f line acc true count = NoFuel.
Proof.
  intros No Hr. induction fuel as [|fuel IH]; intros f acc D Hc; cbn [coef_inner]; [auto|]. rewrite (proj2 (found_not line $" MO OE") No). cbn [andb].
  destruct (Z.leb_spec count (Z.of_nat (length acc))); [lia|]. rewrite Hr. cbn [bind]. destruct (getl_done f line D) as (f1 & -> & D1 & _). rewrite app_nil_r. apply IH; auto.
Qed.
Lemma first_cut t vs ls vss : is_line t -> ~ occurs $" MO OE" t -> readGausCoefLine N t = Ok vs -> Forall2 (coef_line N) ls vss ->
  forall fuel f x acc, at_ f ls t -> (let '(line, f) := getl f x in coef_inner N fuel f line acc false 0) = NoFuel.
Proof.
  intros Lt No Hr H. induction H as [|l v ls vss Hl H IH]; intros fuel f x acc Hat.
  - destruct (getl_tail f t x Hat Lt) as (f1 & -> & D & _). eapply coef_stuck; eauto.
  - pose proof (coef_line_ok N l v Hl) as Hv. destruct Hl as (Ll & Nl & _). destruct (getl_line f l ls t x Hat Ll) as (f1 & -> & Hat1 & _).
    destruct fuel as [|fuel]; cbn [coef_inner]; [auto|]. rewrite (proj2 (found_not l $" MO OE") Nl). cbn [andb]. rewrite Hv. cbn [bind]. exact (IH fuel f1 l (acc ++ v) Hat1).
Qed.
Lemma later_cut t ls vss count : is_line t -> ~ occurs $" MO OE" t -> readGausCoefLine N t = Ok [] -> Forall2 (coef_line N) ls vss ->
  forall fuel f x acc, at_ f ls t -> Z.of_nat (length acc + length (concat vss)) < count -> (let '(line, f) := getl f x in coef_inner N fuel f line acc true count) = NoFuel.
Proof.
  intros Lt No Hr H. induction H as [|l v ls vss Hl H IH]; intros fuel f x acc Hat Hc.
  - destruct (getl_tail f t x Hat Lt) as (f1 & -> & D & _). apply coef_stuck_later; auto. cbn [concat length] in Hc. lia.
  - pose proof (coef_line_ok N l v Hl) as Hv. destruct Hl as (Ll & Nl & _). destruct (getl_line f l ls t x Hat Ll) as (f1 & -> & Hat1 & _). cbn [concat] in Hc. rewrite app_length in Hc.
    destruct fuel as [|fuel]; cbn [coef_inner]; [auto|]. rewrite (proj2 (found_not l $" MO OE") Nl). cbn [andb].
    destruct (Z.leb_spec count (Z.of_nat (length acc))); [lia|]. rewrite Hv. cbn [bind]. apply (IH fuel f1 l (acc ++ v) Hat1). rewrite app_length. lia.
Qed.
(** a cut line of coefficients still has complete fields and less than a field *)
Lemma fields_cut fs vs rest : Forall2 (field N) fs vs -> (length rest < 15)%nat -> forall t u, concat fs ++ rest = t ++ u ->
  exists fs' vs' rest', t = concat fs' ++ rest' /\ Forall2 (field N) fs' vs' /\ (length rest' < 15)%nat.
Proof.
  intros H Hr. induction H as [|f v fs vs Hf H IH]; intros t u E.
  - cbn [concat app] in E. exists [], [], t. split; [auto|]. split; [constructor|]. apply (f_equal (@length ascii)) in E. rewrite app_length in E. lia.
  - cbn [concat] in E. rewrite <- app_assoc in E. destruct (Nat.le_gt_cases 15 (length t)) as [L|L].
    + pose proof (proj1 Hf) as L15.
      assert (T : t = f ++ skipn 15 t).
      { rewrite <- (firstn_skipn 15 t) at 1. f_equal. apply (f_equal (firstn 15)) in E. clear - E L L15. unfold str in *. rewrite (firstn_app 15 f), (firstn_all2 f) in E by lia. rewrite L15, Nat.sub_diag, firstn_O, app_nil_r in E.
        rewrite E. rewrite firstn_app. replace (15 - length t)%nat with 0%nat by lia. now rewrite firstn_O, app_nil_r. }
      rewrite T, <- app_assoc in E. apply app_inv_head in E. destruct (IH _ _ E) as (fs' & vs' & rest' & E' & F' & L'). exists (f :: fs'), (v :: vs'), rest'.
      split; [cbn [concat]; rewrite <- app_assoc, <- E'; exact T|]. split; [constructor; auto|auto].
    + exists [], [], t. split; [auto|]. split; [constructor|auto].
Qed.
Lemma coef_line_cut l vs t u : coef_line N l vs -> l = t ++ u -> is_line t /\ ~ occurs $" MO OE" t /\ exists vs', readGausCoefLine N t = Ok vs'.
Proof.
  intros (Ll & Nl & Li & _ & fs & rest & E0 & Hr & H) E. split; [intros I; apply Ll; rewrite E; apply in_or_app; auto|].
  split; [intros (a & b & ->); apply Nl; rewrite E; exists a, (b ++ u); now rewrite <- !app_assoc|].
  rewrite E0 in E. destruct (fields_cut fs vs rest H Hr t u E) as (fs' & vs' & rest' & -> & F' & L'). exists vs'.
  unfold readGausCoefLine.
  assert (Lf : (length fs' <= length (concat fs'))%nat) by (clear - F'; induction F' as [|f v fs vs (L & _) H IH]; cbn [concat length]; [auto|]; rewrite app_length; lia).
  apply (gaus_loop_ok N rest' L' fs' vs' F' _ [] []); [unfold str in *; rewrite app_length; lia|]. cbn [app].
  apply (f_equal (@length ascii)) in E. rewrite E0 in Li. unfold str in *. rewrite E in Li. rewrite app_length in Li. lia.
Qed.
End Trunc.
