(** * PunReader on correctly printed coefficients *)
From Verif Require Import ParserWf.
From Verif Require Export ReaderFile.
From Verif Require Export StrSpec StrModel.
Open Scope Z_scope.

Section Pun.
Context (N : nums).
Notation num := (num N).

(** ** a line of fields *)
Lemma sub_field pre f post k n : length f = 15%nat -> 0 <= k -> 0 <= n -> k + n <= 15 ->
  substr (pre ++ f ++ post) (Z.of_nat (length pre) + k) n = Ok (firstn (Z.to_nat n) (skipn (Z.to_nat k) f)).
Proof.
  intros L Hk Hn H. unfold substr, len. rewrite !app_length, L.
  destruct (Z.ltb_spec (Z.of_nat (length pre + (15 + length post))) (Z.of_nat (length pre) + k)) as [C|_]; [lia|]. f_equal.
  rewrite Z.min_l by lia. replace (Z.to_nat (Z.of_nat (length pre) + k)) with (Z.to_nat k + length pre)%nat by lia.
  rewrite <- skipn_plus. rewrite skipn_app, skipn_all, Nat.sub_diag. cbn [app skipn].
  rewrite skipn_app. rewrite firstn_app. rewrite skipn_length, L. replace (Z.to_nat n - (15 - Z.to_nat k))%nat with 0%nat by lia. cbn [firstn]. now rewrite app_nil_r.
Qed.
Lemma gaus_loop_ok rest : (length rest < 15)%nat -> forall fs vs, Forall2 (field N) fs vs -> forall fuel pre acc, (length fs < fuel)%nat ->
  Z.of_nat (length (pre ++ concat fs ++ rest)) <= INT_MAX ->
  gaus_loop N fuel (pre ++ concat fs ++ rest) (Z.of_nat (length pre)) acc = Ok (acc ++ vs).
Proof.
  intros Hr fs vs H. induction H as [|f v fs vs Hf H IH]; intros fuel pre acc Hfuel Hlen; (destruct fuel as [|fuel]; [lia|]); cbn [gaus_loop].
  - cbn [concat app] in *. unfold len, size_t. rewrite app_length in *. rewrite Z.mod_small by (unfold SIZE_MOD, INT_MAX in *; lia).
    destruct (Z.leb_spec 15 (Z.of_nat (length pre + length rest) - Z.of_nat (length pre))); [lia|]. now rewrite app_nil_r.
  - destruct Hf as (L15 & m & e & x & y & Sm & Se & Hx & Hy & ->). cbn [concat] in *. rewrite <- app_assoc in *.
    assert (Q : size_t (len (pre ++ f ++ concat fs ++ rest) - Z.of_nat (length pre)) = 15 + Z.of_nat (length (concat fs ++ rest))).
    { unfold size_t, len. rewrite !app_length in *. rewrite Z.mod_small by (unfold SIZE_MOD, INT_MAX in *; lia). lia. }
    rewrite Q. destruct (Z.leb_spec 15 (15 + Z.of_nat (length (concat fs ++ rest)))); [|lia].
    rewrite <- (Z.add_0_r (Z.of_nat (length pre))) at 1. rewrite (sub_field pre f _ 0 11 L15) by lia. cbn [bind]. cbn [Z.to_nat skipn]. change (Pos.to_nat 11) with 11%nat.
    unfold trimmed. rewrite (trim_stripped _ _ Sm), Hx. cbn [bind]. rewrite (Z.add_comm 12). rewrite (sub_field pre f _ 12 3 L15) by lia. cbn [bind].
    change (Z.to_nat 12) with 12%nat. change (Z.to_nat 3) with 3%nat. rewrite firstn_all2 by (rewrite skipn_length; lia). rewrite (trim_stripped _ _ Se), Hy. cbn [bind].
    assert (I : is_int (Z.of_nat (length pre) + 15)) by (unfold is_int, INT_MIN; rewrite !app_length, L15 in Hlen; lia).
    unfold iadd. rewrite (ichk_ok _ I). cbn [bind].
    replace (Z.of_nat (length pre) + 15) with (Z.of_nat (length (pre ++ f))) by (rewrite app_length; lia).
    specialize (IH fuel (pre ++ f) (acc ++ [n_mul N x (n_pow10 N y)])). rewrite <- app_assoc in IH. rewrite IH; [|cbn [length] in Hfuel; lia|auto].
    rewrite <- app_assoc. reflexivity.
Qed.
Lemma coef_line_ok l vs : coef_line N l vs -> readGausCoefLine N l = Ok vs.
Proof.
  intros (_ & _ & Hlen & _ & fs & rest & -> & Hr & H). unfold readGausCoefLine.
  assert (Lf : (length fs <= length (concat fs))%nat) by (clear - H; induction H as [|f v fs vs (L & _) H IH]; cbn [concat length]; [auto|]; rewrite app_length; lia).
  apply (gaus_loop_ok rest Hr fs vs H _ [] []); [unfold str in *; rewrite app_length; lia|exact Hlen].
Qed.

(** ** one orbital *)
Section Next.
Context (h : str) (R : list str) (tail : str) (Q : fstate -> Prop).
(** reading at [R] and [tail] gives [h] *)
Context (Hnext : forall f x, at_ f R tail -> exists f', getl f x = (h, f') /\ Q f').
Lemma first_inner ls vss : occurs $" MO OE" h -> Forall2 (coef_line N) ls vss -> forall fuel f x acc, at_ f (ls ++ R) tail -> (length ls < fuel)%nat ->
  exists f', (let '(line, f) := getl f x in coef_inner N fuel f line acc false 0) = Ok (h, f', acc ++ concat vss) /\ Q f'.
Proof.
  intros Oh H. induction H as [|l vs ls vss Hl H IH]; intros fuel f x acc Hat Hf; cbn [app length] in *.
  - destruct (Hnext f x Hat) as (f' & -> & Hq). destruct fuel as [|fuel]; [lia|]. cbn [coef_inner]. rewrite (proj2 (found_iff h $" MO OE") Oh). cbn [concat]. rewrite app_nil_r. eauto.
  - pose proof (coef_line_ok l vs Hl) as Hr. destruct Hl as (Ll & Nl & _). destruct (getl_line f l _ tail x Hat Ll) as (f1 & -> & Hat1 & _).
    destruct fuel as [|fuel]; [lia|]. cbn [coef_inner]. rewrite (proj2 (found_not l $" MO OE") Nl). cbn [andb]. rewrite Hr. cbn [bind].
    destruct (IH fuel f1 l (acc ++ vs) Hat1 ltac:(lia)) as (f2 & E & Hq). exists f2. split; [|auto]. rewrite E. cbn [concat]. now rewrite app_assoc.
Qed.
Lemma later_inner ls vss : Forall2 (coef_line N) ls vss -> forall fuel f x acc, at_ f (ls ++ R) tail -> (length ls < fuel)%nat ->
  forall count, Z.of_nat (length acc + length (concat vss)) = count ->
  exists f', (let '(line, f) := getl f x in coef_inner N fuel f line acc true count) = Ok (h, f', acc ++ concat vss) /\ Q f'.
Proof.
  intros H. induction H as [|l vs ls vss Hl H IH]; intros fuel f x acc Hat Hf count Hc; cbn [app length concat] in *.
  - destruct (Hnext f x Hat) as (f' & -> & Hq). destruct fuel as [|fuel]; [lia|]. cbn [coef_inner]. exists f'. split; [|auto].
    destruct (foundSubStrInStr h $" MO OE"); [now rewrite app_nil_r|]. cbn [andb]. destruct (Z.leb_spec count (Z.of_nat (length acc))); [now rewrite app_nil_r|lia].
  - pose proof (coef_line_ok l vs Hl) as Hr. destruct Hl as (Ll & Nl & _ & Nv & _). destruct (getl_line f l _ tail x Hat Ll) as (f1 & -> & Hat1 & _).
    destruct fuel as [|fuel]; [lia|]. cbn [coef_inner]. rewrite (proj2 (found_not l $" MO OE") Nl). cbn [andb].
    rewrite app_length in Hc. assert (Lv : (1 <= length vs)%nat) by (destruct vs; [congruence|cbn [length]; lia]).
    destruct (Z.leb_spec count (Z.of_nat (length acc))); [lia|]. rewrite Hr. cbn [bind].
    destruct (IH fuel f1 l (acc ++ vs) Hat1 ltac:(lia) count ltac:(rewrite app_length; lia)) as (f2 & E & Hq). exists f2. split; [|auto]. rewrite E. now rewrite app_assoc.
Qed.
End Next.

(** ** all orbitals of a spin *)
Section Spin.
Context (spin nx : str) (R : list str) (tail : str) (Q : fstate -> Prop).
Context (Hnext : forall f x, at_ f R tail -> exists f', getl f x = (nx, f') /\ Q f').
Context (Nspin : ~ occurs spin nx).
Lemma next_title t rest f x : is_line t -> at_ f (t :: rest) tail -> exists f', getl f x = (t, f') /\ at_ f' rest tail.
Proof. intros Lt Hat. destruct (getl_line f t rest tail x Hat Lt) as (f1 & E & Hat1 & _). eauto. Qed.
Lemma later_outer n lines rows : orbitals N spin n lines rows -> forall ls row fuel f acc, orbital N ls row -> length row = n -> at_ f (ls ++ lines ++ R) tail ->
  (length ls + length lines < fuel)%nat ->
  exists f', coef_outer N (S fuel) spin f true (Z.of_nat n) acc = Ok (f', acc ++ row :: rows) /\ Q f'.
Proof.
  induction 1 as [|t ls2 row2 lines rows Lt Ot Os Ho2 Ln2 H IH]; intros ls row fuel f acc Ho Ln Hat Hf; pose proof Ho as (vss & Hv & -> & _).
  - cbn [app length] in *. destruct (later_inner nx R tail Q Hnext ls vss Hv fuel f [] [] Hat ltac:(lia) (Z.of_nat n) ltac:(cbn [length Nat.add]; lia)) as (f1 & E & Hq).
    cbn [coef_outer]. destruct (getl f []) as [line f0]. rewrite E. cbn [bind app]. rewrite (proj2 (found_not nx spin) Nspin). exists f1. auto.
  - cbn [length] in Hf. rewrite app_length in Hf. cbn [app] in Hat. rewrite <- app_assoc in Hat.
    destruct (later_inner t (t :: ls2 ++ lines ++ R) tail (fun f => at_ f (ls2 ++ lines ++ R) tail) (fun f x => next_title t _ f x Lt) ls vss Hv fuel f [] [] Hat ltac:(lia) (Z.of_nat n) ltac:(cbn [length Nat.add]; lia)) as (f1 & E & Hq).
    cbn [coef_outer]. destruct (getl f []) as [line f0]. rewrite E. cbn [bind app]. rewrite (proj2 (found_iff t spin) Os).
    destruct fuel as [|fuel]; [lia|]. destruct (IH ls2 row2 fuel f1 (acc ++ [concat vss]) Ho2 Ln2 Hq ltac:(lia)) as (f2 & E2 & Hq2).
    exists f2. split; [|auto]. rewrite Ln. rewrite E2. rewrite <- app_assoc. reflexivity.
Qed.
Lemma outer_all ls1 row1 ls2 rows2 fuel f : orbital N ls1 row1 -> orbitals N spin (length row1) ls2 rows2 -> (rows2 = [] -> occurs $" MO OE" nx) ->
  at_ f (ls1 ++ ls2 ++ R) tail -> (length ls1 + length ls2 < fuel)%nat ->
  exists f', coef_outer N (S fuel) spin f false 0 [] = Ok (f', row1 :: rows2) /\ Q f'.
Proof.
  intros Ho H Hone Hat Hf. pose proof Ho as (vss & Hv & E0 & _). inversion H as [|t ls row lines rows Lt Ot Os Ho2 Ln2 H2]; subst ls2 rows2.
  - cbn [app length] in *. destruct (first_inner nx R tail Q Hnext ls1 vss (Hone eq_refl) Hv fuel f [] [] Hat ltac:(lia)) as (f1 & E & Hq).
    cbn [coef_outer]. destruct (getl f []) as [line f0]. rewrite E. cbn [bind app]. rewrite (proj2 (found_not nx spin) Nspin), E0. exists f1. auto.
  - cbn [length] in Hf. rewrite app_length in Hf. cbn [app] in Hat. rewrite <- app_assoc in Hat.
    destruct (first_inner t (t :: ls ++ lines ++ R) tail (fun f => at_ f (ls ++ lines ++ R) tail) (fun f x => next_title t _ f x Lt) ls1 vss Ot Hv fuel f [] [] Hat ltac:(lia)) as (f1 & E & Hq).
    cbn [coef_outer]. destruct (getl f []) as [line f0]. rewrite E. cbn [bind app]. rewrite (proj2 (found_iff t spin) Os). rewrite <- E0.
    destruct fuel as [|fuel]; [lia|]. destruct (later_outer (length row1) lines rows H2 ls row fuel f1 [row1] Ho2 Ln2 Hq ltac:(lia)) as (f2 & E2 & Hq2).
    exists f2. split; [|auto]. rewrite E2. reflexivity.
Qed.
End Spin.
Lemma orbitals_lengths spin n lines rows : orbitals N spin n lines rows -> Forall (fun r => length r = n) rows.
Proof. induction 1; constructor; auto. Qed.

(** ** files *)
(** the matrix of some rows *)
Definition matrix_of (m : mat num) (rows : list (list num)) : Prop :=
  denotes m (Z.of_nat (length rows)) (Z.of_nat (length (hd [] rows))) 1 (fun r c _ => nth (Z.to_nat (c - 1)) (nth (Z.to_nat (r - 1)) rows []) (n_zero N)).
Definition peffect (it : pitem N) (c c' : smap (mat num)) : Prop :=
  match it with POther _ _ => c' = c | Coefs _ k _ _ _ rows => exists m, matrix_of m rows /\ c' = m_set (pspin k) m c end.
Inductive peffects : list (pitem N) -> smap (mat num) -> smap (mat num) -> Prop :=
| peff_nil : forall c, peffects [] c c
| peff_cons : forall it t c c1 c2, peffect it c c1 -> peffects t c1 c2 -> peffects (it :: t) c c2.
Lemma peffects_app a b c c' : peffects (a ++ b) c c' <-> exists c1, peffects a c c1 /\ peffects b c1 c'.
Proof.
  revert c. induction a as [|it a IH]; intros c; cbn [app].
  - split; [intros H; exists c; split; [constructor|auto]|intros (d1 & H & H2); inversion H; subst; auto].
  - split.
    + intros H. inversion H; subst. apply IH in H5 as (d2 & H5 & H6). exists d2. split; [econstructor; eauto|auto].
    + intros (d1 & H & H2). inversion H; subst. econstructor; [eauto|]. apply IH. eauto.
Qed.
Definition ptag (k : ospin) : str := match k with SAlpha => $"CoefAlpha" | SBeta => $"CoefBeta" end.
Lemma pun_start k h : occurs (pmark k) h -> (k = SBeta -> ~ occurs (pmark SAlpha) h) -> startSection_ pun_headers h = Some (ptag k).
Proof.
  intros O Nb. apply start_some. destruct k.
  - exists [], [$" 1 Alpha MO "], [($"CoefBeta", [$" 1 Beta MO "])]. split; [reflexivity|]. split; [eexists; split; [left; reflexivity|exact O]|]. intros t qs q [].
  - exists [($"CoefAlpha", [$" 1 Alpha MO "])], [$" 1 Beta MO "], []. split; [reflexivity|]. split; [eexists; split; [left; reflexivity|exact O]|].
    intros t qs q [I|[]] Iq. inversion I; subst. destruct Iq as [<-|[]]. apply Nb. auto.
Qed.
Lemma pun_none l : (forall k, ~ occurs (pmark k) l) -> startSection_ pun_headers l = None.
Proof.
  intros H. apply start_none. intros t ps p [I|[I|[]]] Ip; inversion I; subst; destruct Ip as [<-|[]]; [apply (H SAlpha)|apply (H SBeta)].
Qed.
Lemma pitem_nonempty it : pitem_lines N it <> []. Proof. destruct it; discriminate. Qed.
Lemma read_coefs k ls rows after rest tail f c fuel :
  (exists ls1 row1 ls2 rows2, ls = ls1 ++ ls2 /\ rows = row1 :: rows2 /\ orbital N ls1 row1 /\ orbitals N (pspin k) (length row1) ls2 rows2) ->
  (let next := match after with Some l => l | None => tail end in is_line next /\ ~ occurs (pspin k) next /\ (length rows = 1%nat -> occurs $" MO OE" next)) ->
  (after = None -> rest = []) -> Z.of_nat (length rows) * Z.of_nat (length (hd [] rows)) <= INT_MAX -> Z.of_nat (length rows) <= INT_MAX ->
  at_ f (ls ++ opt after ++ rest) tail -> (length ls + 1 < fuel)%nat ->
  exists f' m, ReadCoef N fuel (pspin k) f c = Ok (f', m_set (pspin k) m c) /\ matrix_of m rows /\ post f' rest tail.
Proof.
  intros (ls1 & row1 & ls2 & rows2 & -> & -> & Ho & Hos) (Ln & Nn & On) Hr Hm Hi Hat Hf. unfold ReadCoef. rewrite <- app_assoc in Hat.
  destruct fuel as [|fuel]; [lia|]. rewrite app_length in Hf.
  destruct (outer_all (pspin k) (match after with Some l => l | None => tail end) (opt after ++ rest) tail (fun f => post f rest tail)) with (ls1 := ls1) (row1 := row1) (ls2 := ls2) (rows2 := rows2) (fuel := fuel) (f := f)
    as (f1 & E & Hp); auto.
  - intros g x Hg. destruct after as [l|]; cbn [opt app] in Hg.
    + destruct (getl_line g l rest tail x Hg Ln) as (g1 & E & Hat1 & _). exists g1. split; [auto|left; auto].
    + rewrite (Hr eq_refl) in *. destruct (getl_tail g tail x Hg Ln) as (g1 & E & D & _). exists g1. split; [auto|right; auto].
  - intros ->. apply On. reflexivity.
  - lia.
  - rewrite E. cbn [bind]. pose proof (orbitals_lengths _ _ _ _ Hos) as Hl.
    destruct (Matrix_of_vecs_ok (n_zero N) row1 rows2 (Z.of_nat (length row1))) as (m & Em & Dm); auto.
    + cbn [hd] in Hm. cbn [length] in *. nia.
    + constructor; [auto|]. eapply Forall_impl; [|exact Hl]. cbv beta. intros; congruence.
    + rewrite Em. cbn [bind]. exists f1, m. auto.
Qed.
Lemma read_pitem it rest tail f line c fuel : is_line tail -> pitem_ok N it rest tail -> at_ f (pitem_lines N it ++ rest) tail -> (length (pitem_lines N it) + 1 < fuel)%nat ->
  exists f' line' c', read_loop pun_headers (pun_section N) (S fuel) f line c = read_loop pun_headers (pun_section N) fuel (tell f') line' c' /\ post f' rest tail /\ peffect it c c'.
Proof.
  intros Lt Hok Hat Hf. cbn [read_loop]. destruct it as [l|k h ls after rows]; cbn [pitem_ok pitem_lines peffect] in *.
  - destruct Hok as [Ll Nm]. cbn [app] in Hat. destruct (getl_line f l rest tail line Hat Ll) as (f1 & -> & Hat1 & _).
    rewrite (proj1 (proj2 Hat1)), (pun_none _ Nm). cbn [bind]. exists f1, l, c. split; [auto|]. split; [left; auto|auto].
  - destruct Hok as (Lh & Oh & Nh & Hls & Hnx & Hr & Hm & Hi). cbn [app] in Hat. destruct (getl_line f h _ tail line Hat Lh) as (f1 & -> & Hat1 & _).
    rewrite (proj1 (proj2 Hat1)), (pun_start k h Oh Nh). rewrite <- app_assoc in Hat1. cbn [length] in Hf. rewrite app_length in Hf.
    assert (Es : pun_section N fuel (ptag k) f1 c = ReadCoef N fuel (pspin k) f1 c) by (destruct k; reflexivity). rewrite Es.
    destruct (read_coefs k ls rows after rest tail f1 c fuel Hls Hnx Hr Hm Hi Hat1 ltac:(lia)) as (f2 & m & E & Dm & Hp). rewrite E. cbn [bind].
    exists f2, h, (m_set (pspin k) m c). split; [auto|]. split; [auto|]. exists m. auto.
Qed.
Lemma read_pitems tail : is_line tail -> (forall k, ~ occurs (pmark k) tail) -> forall items lines, pun_lines N tail items lines ->
  forall fuel f line c, at_ f lines tail \/ (lines = [] /\ done f) -> (length lines + 3 <= fuel)%nat ->
  exists f' c', read_loop pun_headers (pun_section N) fuel f line c = Ok (f', c') /\ peffects items c c'.
Proof.
  intros Lt Nt items lines H. induction H as [|it items lines Hi H IH]; intros fuel f line c Hf Hn.
  - cbn [length] in Hn. destruct fuel as [|[|fuel]]; [lia|lia|]. cbn [read_loop]. destruct Hf as [Hat|[_ D]].
    + destruct (getl_tail f tail line Hat Lt) as (f1 & -> & D & _ & _ & Fl). destruct tail as [|x tl].
      * rewrite Fl. exists f1, c. split; [auto|constructor].
      * rewrite Fl, (pun_none _ Nt). cbn [bind]. destruct (tell_done f1 D) as [D2 _]. destruct (getl_done (tell f1) (x :: tl) D2) as (f3 & -> & _ & F3). rewrite F3. exists f3, c. split; [auto|constructor].
    + destruct (getl_done f line D) as (f3 & -> & _ & F3). rewrite F3. exists f3, c. split; [auto|constructor].
  - pose proof (pitem_nonempty it) as Ne. destruct Hf as [Hh|[E0 _]]; [|destruct (pitem_lines N it); [congruence|discriminate]].
    rewrite app_length in Hn. assert (Hl : (1 <= length (pitem_lines N it))%nat) by (destruct (pitem_lines N it); [congruence|cbn [length]; lia]).
    destruct fuel as [|fuel]; [lia|].
    destruct (read_pitem it lines tail f line c fuel Lt Hi Hh ltac:(lia)) as (f1 & l1 & c1 & E1 & P1 & Ef). rewrite E1.
    destruct (IH fuel (tell f1) l1 c1) as (f2 & c2 & E2 & Es); [|lia|exists f2, c2; split; [auto|econstructor; eauto]].
    destruct P1 as [P1|[-> D]]; [left; apply tell_at; auto|right; split; [auto|apply tell_done; auto]].
Qed.
Lemma pkeeps k b c c' : peffects b c c' -> no_coefs N k b -> m_find (pspin k) c' = m_find (pspin k) c.
Proof.
  induction 1 as [|it t c c1 c2 He H IH]; intros Hn; [auto|]. rewrite IH by (intros h ls after rows I; eapply Hn; right; eauto).
  destruct it as [l|k' h ls after rows]; cbn [peffect] in He; [subst; auto|]. destruct He as (m & _ & ->). apply find_set_ne.
  destruct k, k'; try discriminate; exfalso; eapply Hn; left; reflexivity.
Qed.
End Pun.
