(** * Properties C70, C71: pun files *)
From Verif Require Import ParserWf.
From Verif Require Export ReaderPun ReaderExample.
From Verif Require Export StrSpec StrModel.
Open Scope Z_scope.

Lemma pun_new_data N name r : PunReader_new N name = Ok r -> r = mkPunReader N name (Some O) [].
Proof.
  unfold PunReader_new. intros Hn. apply bind_ok in Hn as (e & He & Hn). destruct (negb (str_eqb e $".pun")); [discriminate|].
  change (checkSections_ pun_headers pun_readers) with (Ok tt : outcome unit) in Hn. cbn [bind] in Hn. inversion Hn; auto.
Qed.
Lemma read_pun N name r files content items fuel : PunReader_new N name = Ok r -> files name = Some content -> pun_file N items content -> (length content + 3 <= fuel)%nat ->
  exists r', pun_read N files fuel r = Ok r' /\ peffects N items [] (coefs N r').
Proof.
  intros Hn Hf (lines & tail & -> & Lt & Nt & H) Hfuel. rewrite (pun_new_data _ _ _ Hn). unfold pun_read. cbn [pr_name pr_pos coefs]. unfold read. rewrite Hf.
  assert (Hlen : (length lines <= length (text lines))%nat). { clear. induction lines as [|l t IH]; [auto|]. rewrite text_cons. rewrite app_length. cbn [length]. lia. }
  rewrite app_length in Hfuel.
  destruct (read_pitems N tail Lt Nt items lines H fuel (mkF (mkStream (text lines ++ tail) 0 false false) (Some O)) [] []) as (f2 & c2 & -> & Es); [|lia|].
  - left. unfold at_, left_in. cbn [fid s_eof s_fail s_pos s_all skipn]. auto.
  - cbn [bind fst snd]. eexists. split; [reflexivity|]. exact Es.
Qed.

(** ** C70 *)
(** full property: every number of orbitals; proved: if the orbitals are followed by a line without the name of the spin or the end of the file,
    and a single orbital by another title *)
Theorem C70_round_trip_partial : forall N name r files content items, PunReader_new N name = Ok r -> files name = Some content -> pun_file N items content ->
  exists bound, forall fuel, (bound <= fuel)%nat -> exists r', pun_read N files fuel r = Ok r' /\
    forall k rows, last_coefs N k items rows -> exists m, getCoefsMatrix N r' (pspin k) = Ok m /\
      denotes m (Z.of_nat (length rows)) (Z.of_nat (length (hd [] rows))) 1 (fun i j _ => nth (Z.to_nat (j - 1)) (nth (Z.to_nat (i - 1)) rows []) (n_zero N)).
Proof.
  intros N name r files content items Hn Hf Hp. exists (length content + 3)%nat. intros fuel Hfuel.
  destruct (read_pun N name r files content items fuel Hn Hf Hp Hfuel) as (r' & -> & E). exists r'. split; [auto|].
  intros k rows (a & b & h & ls & after & -> & Hb). apply peffects_app in E as (c1 & E1 & E2). inversion E2 as [|? ? ? c2 ? Ef E3]; subst.
  cbn [peffect] in Ef. destruct Ef as (m & Dm & ->). exists m. split; [|exact Dm]. unfold getCoefsMatrix. rewrite (pkeeps N k b _ _ E3 Hb), find_set_eq. reflexivity.
Qed.
Print Assumptions C70_round_trip_partial.
(** every element is the value of its field *)
Theorem C70_elements : forall N (rows : list (list (num N))) i j x, entry_of rows i j x -> 1 <= i -> 1 <= j ->
  nth (Z.to_nat (j - 1)) (nth (Z.to_nat (i - 1)) rows []) (n_zero N) = x.
Proof. intros N rows i j x (row & H1 & H2) Hi Hj. rewrite (nth_error_nth _ _ [] H1). apply nth_error_nth; auto. Qed.
Print Assumptions C70_elements.
(** a pun file with two Alpha orbitals of three coefficients each (two lines per orbital), a separating line and one Beta orbital *)
Definition fval (f : str) : num D := match n_stod D (trim (firstn 11 f)), n_stod D (trim (skipn 12 f)) with Ok x, Ok y => n_mul D x (n_pow10 D y) | _, _ => (0, 0) end.
Definition field_ok (f : str) : bool := (length f =? 15)%nat && match n_stod D (trim (firstn 11 f)), n_stod D (trim (skipn 12 f)) with Ok _, Ok _ => true | _, _ => false end.
Lemma field_b f : field_ok f = true -> field D f (fval f).
Proof.
  unfold field_ok, fval. intros H. apply andb_true_iff in H as [L H]. apply Nat.eqb_eq in L. split; [auto|].
  destruct (n_stod D (trim (firstn 11 f))) as [x| | | |] eqn:Ex; try discriminate. destruct (n_stod D (trim (skipn 12 f))) as [y| | | |] eqn:Ey; try discriminate.
  exists (trim (firstn 11 f)), (trim (skipn 12 f)), x, y. split; [apply stripped_b|]. split; [apply stripped_b|]. auto.
Qed.
Lemma coef_line_b l fs rest : l = concat fs ++ rest -> (length rest <? 15)%nat = true -> existsb (Ascii.eqb nl) l = false -> foundSubStrInStr l $" MO OE" = false ->
  forallb field_ok fs = true -> (0 <? length fs)%nat = true -> Z.of_nat (length l) <= INT_MAX -> coef_line D l (map fval fs).
Proof.
  intros E L Hl Ho Hf Hn Hi. split; [apply line_b; auto|]. split; [apply not_occurs_b; auto|]. split; [auto|]. split; [destruct fs; discriminate|].
  exists fs, rest. split; [auto|]. split; [apply Nat.ltb_lt; auto|]. clear - Hf. induction fs as [|f fs IH]; cbn [map]; constructor; cbn [forallb] in Hf; apply andb_true_iff in Hf as [H1 H2]; [apply field_b; auto|auto].
Qed.
Definition ex_alpha : pitem D := Coefs D SAlpha $"    1 Alpha MO OE=-0.19133916D+02"
  [$"-0.12345678D-01 0.50000000D+00"; $" 0.25000000D+02"; $"    2 Alpha MO OE=-0.10133916D+02"; $" 0.10000000D+02 0.20000000D+02"; $" 0.30000000D+01  "]
  (Some []) [map fval [$"-0.12345678D-01"; $" 0.50000000D+00"; $" 0.25000000D+02"]; map fval [$" 0.10000000D+02"; $" 0.20000000D+02"; $" 0.30000000D+01"]].
Definition ex_beta : pitem D := Coefs D SBeta $"    1 Beta MO OE=-0.19133916D+02"
  [$" 0.50000000D+00 0.50000000D+00"; $"    2 Beta MO OE=-0.10133916D+02"; $" 0.10000000D+02 0.20000000D+02"] None
  [map fval [$" 0.50000000D+00"; $" 0.50000000D+00"]; map fval [$" 0.10000000D+02"; $" 0.20000000D+02"]].
Definition ex_pitems : list (pitem D) := [POther D $"(5D15.8)"; ex_alpha; ex_beta].
Definition ex_pun : str := text (concat (map (pitem_lines D) ex_pitems)).
Ltac cl fs rest := apply (coef_line_b _ fs rest); [reflexivity|reflexivity|reflexivity|reflexivity|reflexivity|reflexivity|vm_compute; discriminate].
Lemma ex_alpha_ok rest tail : pitem_ok D ex_alpha rest tail.
Proof.
  cbn [pitem_ok ex_alpha]. split; [apply line_b; reflexivity|]. split; [apply occurs_b; reflexivity|]. split; [discriminate|]. split.
  - eexists [_; _], _, [_; _; _], [_]. split; [reflexivity|]. split; [reflexivity|]. split.
    + exists [map fval [$"-0.12345678D-01"; $" 0.50000000D+00"]; map fval [$" 0.25000000D+02"]]. split; [|split; [reflexivity|discriminate]].
      constructor; [cl [$"-0.12345678D-01"; $" 0.50000000D+00"] (@nil ascii)|constructor; [cl [$" 0.25000000D+02"] (@nil ascii)|constructor]].
    + apply (orb_cons D (pspin SAlpha) 3 $"    2 Alpha MO OE=-0.10133916D+02" [_; _] _ [] []); [apply line_b; reflexivity|apply occurs_b; reflexivity|apply occurs_b; reflexivity| |reflexivity|constructor].
      exists [map fval [$" 0.10000000D+02"; $" 0.20000000D+02"]; map fval [$" 0.30000000D+01"]]. split; [|split; [reflexivity|discriminate]].
      constructor; [cl [$" 0.10000000D+02"; $" 0.20000000D+02"] (@nil ascii)|constructor; [cl [$" 0.30000000D+01"] $"  "|constructor]].
  - split; [split; [apply line_b; reflexivity|]; split; [apply not_occurs_b; reflexivity|discriminate]|]. split; [discriminate|]. split; vm_compute; discriminate.
Qed.
Lemma ex_beta_ok : pitem_ok D ex_beta [] [].
Proof.
  cbn [pitem_ok ex_beta]. split; [apply line_b; reflexivity|]. split; [apply occurs_b; reflexivity|]. split; [intros _; apply not_occurs_b; reflexivity|]. split.
  - eexists [_], _, [_; _], [_]. split; [reflexivity|]. split; [reflexivity|]. split.
    + exists [map fval [$" 0.50000000D+00"; $" 0.50000000D+00"]]. split; [|split; [reflexivity|discriminate]]. constructor; [cl [$" 0.50000000D+00"; $" 0.50000000D+00"] (@nil ascii)|constructor].
    + apply (orb_cons D (pspin SBeta) 2 $"    2 Beta MO OE=-0.10133916D+02" [_] _ [] []); [apply line_b; reflexivity|apply occurs_b; reflexivity|apply occurs_b; reflexivity| |reflexivity|constructor].
      exists [map fval [$" 0.10000000D+02"; $" 0.20000000D+02"]]. split; [|split; [reflexivity|discriminate]]. constructor; [cl [$" 0.10000000D+02"; $" 0.20000000D+02"] (@nil ascii)|constructor].
  - split; [split; [apply line_b; reflexivity|]; split; [apply not_occurs_b; reflexivity|discriminate]|]. split; [reflexivity|]. split; vm_compute; discriminate.
Qed.
Lemma ex_pun_ok : pun_file D ex_pitems ex_pun.
Proof.
  exists (concat (map (pitem_lines D) ex_pitems)), []. split; [unfold ex_pun; rewrite app_nil_r; reflexivity|]. split; [apply line_b; reflexivity|].
  split; [intros k; apply not_occurs_b; destruct k; reflexivity|]. unfold ex_pitems. cbn [map concat].
  apply pun_item; [split; [apply line_b; reflexivity|intros k; apply not_occurs_b; destruct k; reflexivity]|].
  apply pun_item; [apply ex_alpha_ok|]. apply pun_item; [apply ex_beta_ok|]. apply pun_nil.
Qed.
Definition rows_of (it : pitem D) : list (list (num D)) := match it with Coefs _ _ _ _ _ rows => rows | _ => [] end.
Lemma ex_last : last_coefs D SAlpha ex_pitems (rows_of ex_alpha).
Proof. exists [POther D $"(5D15.8)"], [ex_beta]. eexists _, _, _. split; [reflexivity|]. intros h ls after rows [H|[]]. discriminate H. Qed.
Example C70_example : exists r, PunReader_new D $"runs/dimer.pun" = Ok r /\ pun_file D ex_pitems ex_pun /\ last_coefs D SAlpha ex_pitems (rows_of ex_alpha) /\
  rows_of ex_alpha = [[(-12345678, -9); (50000000, -8); (25000000, -6)]; [(10000000, -6); (20000000, -6); (30000000, -7)]].
Proof. eexists. split; [reflexivity|]. split; [exact ex_pun_ok|]. split; [exact ex_last|]. vm_compute. reflexivity. Qed.

(** ** C71 *)
(** proved: both sets are available if the first title of the second set is not the line directly after the first set *)
Theorem C71_separated_partial : forall N name r files content items, PunReader_new N name = Ok r -> files name = Some content -> pun_file N items content ->
  forall rowsA rowsB, last_coefs N SAlpha items rowsA -> last_coefs N SBeta items rowsB ->
  exists bound, forall fuel, (bound <= fuel)%nat -> exists r' mA mB, pun_read N files fuel r = Ok r' /\
    getCoefsMatrix N r' $"Alpha" = Ok mA /\ denotes mA (Z.of_nat (length rowsA)) (Z.of_nat (length (hd [] rowsA))) 1 (fun i j _ => nth (Z.to_nat (j - 1)) (nth (Z.to_nat (i - 1)) rowsA []) (n_zero N)) /\
    getCoefsMatrix N r' $"Beta" = Ok mB /\ denotes mB (Z.of_nat (length rowsB)) (Z.of_nat (length (hd [] rowsB))) 1 (fun i j _ => nth (Z.to_nat (j - 1)) (nth (Z.to_nat (i - 1)) rowsB []) (n_zero N)).
Proof.
  intros N name r files content items Hn Hf Hp rowsA rowsB HA HB. destruct (C70_round_trip_partial N name r files content items Hn Hf Hp) as (bound & H). exists bound. intros fuel Hfuel.
  destruct (H fuel Hfuel) as (r' & E & G). destruct (G SAlpha rowsA HA) as (mA & A1 & A2). destruct (G SBeta rowsB HB) as (mB & B1 & B2). exists r', mA, mB. auto.
Qed.
Print Assumptions C71_separated_partial.
Example C71_example : exists r, PunReader_new D $"runs/dimer.pun" = Ok r /\ pun_file D ex_pitems ex_pun /\ last_coefs D SAlpha ex_pitems (rows_of ex_alpha) /\ last_coefs D SBeta ex_pitems (rows_of ex_beta).
Proof.
  eexists. split; [reflexivity|]. split; [exact ex_pun_ok|]. split; [exact ex_last|]. exists [POther D $"(5D15.8)"; ex_alpha], []. eexists _, _, _. split; [reflexivity|]. intros h ls after rows [].
Qed.
(** refuted: in Gaussian's layout, where the Beta orbitals follow the Alpha orbitals directly, the Beta set is never available *)
Theorem C71_adjacent_refuted : forall N name r files, PunReader_new N name = Ok r ->
  forall pre hA lsA rowsA hB lsB tail, Forall (fun l => is_line l /\ forall k, ~ occurs (pmark k) l) pre ->
  is_line hA -> occurs (pmark SAlpha) hA ->
  (exists ls1 row1 ls2 rows2, lsA = ls1 ++ ls2 /\ rowsA = row1 :: rows2 /\ orbital N ls1 row1 /\ orbitals N $"Alpha" (length row1) ls2 rows2) ->
  Z.of_nat (length rowsA) * Z.of_nat (length (hd [] rowsA)) <= INT_MAX -> Z.of_nat (length rowsA) <= INT_MAX ->
  is_line hB -> occurs (pmark SBeta) hB -> occurs $" MO OE" hB -> ~ occurs $"Alpha" hB ->
  Forall (fun l => is_line l /\ forall k, ~ occurs (pmark k) l) lsB -> is_line tail -> (forall k, ~ occurs (pmark k) tail) ->
  files name = Some (text (pre ++ hA :: lsA ++ hB :: lsB) ++ tail) ->
  exists bound, forall fuel, (bound <= fuel)%nat -> exists r', pun_read N files fuel r = Ok r' /\
    (exists mA, getCoefsMatrix N r' $"Alpha" = Ok mA) /\ getCoefsMatrix N r' $"Beta" = Throw InvalidArgument.
Proof.
  intros N name r files Hn pre hA lsA rowsA hB lsB tail Fp LA OA HA MA IA LB OB OE NB Fb Lt Nt Hf.
  set (items := map (POther N) pre ++ [Coefs N SAlpha hA lsA (Some hB) rowsA] ++ map (POther N) lsB).
  assert (G : forall ls, Forall (fun l => is_line l /\ forall k, ~ occurs (pmark k) l) ls -> forall items lines, pun_lines N tail items lines -> pun_lines N tail (map (POther N) ls ++ items) (ls ++ lines)).
  { clear. induction 1 as [|l ls Hl H IH]; intros items lines P; cbn [map app]; [auto|]. apply (pun_item N tail (POther N l) _ (ls ++ lines)); [exact Hl|]. apply IH; auto. }
  assert (Hp : pun_file N items (text (pre ++ hA :: lsA ++ hB :: lsB) ++ tail)).
  { exists (pre ++ hA :: lsA ++ hB :: lsB), tail. split; [auto|]. split; [auto|]. split; [auto|]. apply G; [auto|]. cbn [app].
    replace (hA :: lsA ++ hB :: lsB) with (pitem_lines N (Coefs N SAlpha hA lsA (Some hB) rowsA) ++ lsB) by (cbn [pitem_lines opt app]; rewrite <- app_assoc; reflexivity).
    apply pun_item; [|pose proof (G lsB Fb [] [] (pun_nil N tail)) as X; rewrite !app_nil_r in X; exact X].
    cbn [pitem_ok]. split; [auto|]. split; [auto|]. split; [discriminate|]. split; [exact HA|]. split; [split; [auto|]; split; [exact NB|auto]|]. split; [discriminate|auto]. }
  exists (length (text (pre ++ hA :: lsA ++ hB :: lsB) ++ tail) + 3)%nat. intros fuel Hfuel.
  destruct (read_pun N name r files _ items fuel Hn Hf Hp Hfuel) as (r' & -> & E). exists r'. split; [auto|].
  assert (NoB : no_coefs N SBeta items).
  { intros h ls after rows I. unfold items in I. apply in_app_or in I as [I|[I|I]]; [apply in_map_iff in I as (x & X & _)| |apply in_map_iff in I as (x & X & _)]; discriminate. }
  split; [|unfold getCoefsMatrix; change $"Beta" with (pspin SBeta); rewrite (pkeeps N SBeta items _ _ E NoB); reflexivity].
  unfold items in E. apply peffects_app in E as (c1 & _ & E). apply peffects_app in E as (c2 & E1 & E2). inversion E1 as [|? ? ? c3 ? Ef E3]; subst. inversion E3; subst.
  cbn [peffect] in Ef. destruct Ef as (m & _ & ->). exists m. unfold getCoefsMatrix. change $"Alpha" with (pspin SAlpha). rewrite (pkeeps N SAlpha _ _ _ E2).
  - rewrite find_set_eq. reflexivity.
  - intros h ls after rows I. apply in_map_iff in I as (x & X & _). discriminate.
Qed.
Print Assumptions C71_adjacent_refuted.
(** the hypotheses about the first Beta title and the lines after it *)
Example C71_adjacent_example :
  let hB := $"    1 Beta MO OE=-0.19133916D+02" in
  is_line hB /\ occurs (pmark SBeta) hB /\ occurs $" MO OE" hB /\ ~ occurs $"Alpha" hB /\
  Forall (fun l => is_line l /\ forall k, ~ occurs (pmark k) l) (match ex_beta with Coefs _ _ _ ls _ _ => ls | _ => [] end) /\
  (exists ls1 row1 ls2 rows2, (match ex_alpha with Coefs _ _ _ ls _ _ => ls | _ => [] end) = ls1 ++ ls2 /\ rows_of ex_alpha = row1 :: rows2 /\ orbital D ls1 row1 /\ orbitals D $"Alpha" (length row1) ls2 rows2).
Proof.
  cbv zeta. split; [apply line_b; reflexivity|]. split; [apply occurs_b; reflexivity|]. split; [apply occurs_b; reflexivity|]. split; [apply not_occurs_b; reflexivity|]. split.
  - cbn [ex_beta]. repeat (apply Forall_cons; [split; [apply line_b; reflexivity|intros k; apply not_occurs_b; destruct k; reflexivity]|]). apply Forall_nil.
  - pose proof (ex_alpha_ok [] []) as H. cbn [pitem_ok ex_alpha] in H. apply H.
Qed.
(** restrictedShell says whether exactly one set was read *)
Theorem C71_restricted : forall N name r files content items, PunReader_new N name = Ok r -> files name = Some content -> pun_file N items content ->
  exists bound, forall fuel, (bound <= fuel)%nat -> exists r', pun_read N files fuel r = Ok r' /\
    (restrictedShell N r' = true <-> (no_coefs N SAlpha items /\ ~ no_coefs N SBeta items) \/ (~ no_coefs N SAlpha items /\ no_coefs N SBeta items)).
Proof.
  intros N name r files content items Hn Hf Hp. exists (length content + 3)%nat. intros fuel Hfuel.
  destruct (read_pun N name r files content items fuel Hn Hf Hp Hfuel) as (r' & -> & E). exists r'. split; [auto|]. unfold restrictedShell.
  set (shape := fun (oa ob : option (mat (num N))) => (match oa with Some m => [($"Alpha", m)] | None => [] end) ++ (match ob with Some m => [($"Beta", m)] | None => [] end)).
  assert (G : forall items c c', peffects N items c c' -> forall oa ob, c = shape oa ob -> exists oa' ob', c' = shape oa' ob' /\
     (oa' = None <-> oa = None /\ no_coefs N SAlpha items) /\ (ob' = None <-> ob = None /\ no_coefs N SBeta items)).
  { clear. induction 1 as [|it t c c1 c2 He H IH]; intros oa ob ->.
    - exists oa, ob. split; [auto|]. split; (split; [intros X; split; [auto|intros h ls after rows []]|tauto]).
    - destruct it as [l|k h ls after rows]; cbn [peffect] in He.
      + subst c1. destruct (IH oa ob eq_refl) as (oa' & ob' & -> & Ha & Hb). exists oa', ob'. split; [auto|].
        assert (Q : forall k, no_coefs N k (POther N l :: t) <-> no_coefs N k t) by (intros k; split; intros X h ls after rows I; [eapply X; right; eauto|destruct I as [I|I]; [discriminate|eapply X; eauto]]).
        rewrite !Q. auto.
      + destruct He as (m & _ & ->).
        assert (Q : forall k', k' <> k -> (no_coefs N k' (Coefs N k h ls after rows :: t) <-> no_coefs N k' t)).
        { intros k' Nk. split; intros X h' ls' after' rows' I; [eapply X; right; eauto|destruct I as [I|I]; [inversion I; congruence|eapply X; eauto]]. }
        assert (R : ~ no_coefs N k (Coefs N k h ls after rows :: t)) by (intros X; eapply X; left; reflexivity).
        destruct k.
        * assert (Es : m_set (pspin SAlpha) m (shape oa ob) = shape (Some m) ob) by (destruct oa, ob; reflexivity).
          destruct (IH _ _ Es) as (oa' & ob' & -> & Ha & Hb). exists oa', ob'. split; [auto|]. split; [|rewrite Q by discriminate; auto].
          rewrite Ha. intuition discriminate.
        * assert (Es : m_set (pspin SBeta) m (shape oa ob) = shape oa (Some m)) by (destruct oa, ob; reflexivity).
          destruct (IH _ _ Es) as (oa' & ob' & -> & Ha & Hb). exists oa', ob'. split; [auto|]. split; [rewrite Q by discriminate; auto|].
          rewrite Hb. intuition discriminate. }
  destruct (G _ _ _ E None None eq_refl) as (oa & ob & -> & Ha & Hb). destruct oa, ob; cbn [shape app length Nat.eqb]; intuition (try discriminate; try congruence).
Qed.
Print Assumptions C71_restricted.
