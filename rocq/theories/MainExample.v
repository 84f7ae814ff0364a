(** * Six files and a command line

    Two atoms with two basis functions each; the dimer calculation lists the
    atom of monomer 2 first.  Used to show that the hypotheses of C73 can be met. *)
From Verif Require Import ParserWf ParserCheck CatnipProps ReaderProps ReaderPunProps.
From Verif Require Export MainFacts.
Import ReaderExample.
From Verif Require Export StrSpec StrModel.
Open Scope Z_scope.

(** decimals with division cut after some digits; a coordinate is compared by its digits *)
Definition d_add (x y : Z * Z) : Z * Z := let k := Z.min (snd x) (snd y) in (fst x * 10 ^ (snd x - k) + fst y * 10 ^ (snd y - k), k).
Definition d_arith : arith (num D) := mkArith (Z * Z) (0, 0) (1, 0) (2, 0) d_add (fun x y => d_add x (- fst y, snd y))
  (fun x y => (fst x * fst y, snd x + snd y)) (fun x y => (fst x * 10 ^ 9 / fst y, snd x - snd y - 9)) (fun x => (fst x * fst x, snd x + snd x)).
Definition d_lab (x : num D) : str := dec (fst x) ++ $"e" ++ dec (snd x).

(** ** items *)
Definition coords (rows : list str) (points : list (num D * num D * num D)) : item D := Coordinates D
  $" Center     Atomic      Atomic             Coordinates (Angstroms)"
  $" Number     Number       Type             X           Y           Z"
  $" ---------------------------------------------------------------------" rows
  $" ---------------------------------------------------------------------" points.
Lemma coords_ok rows points rest tail : Forall2 (coord_row D) rows points -> item_ok D (coords rows points) rest tail.
Proof.
  intros H. unfold coords. cbn [item_ok]. split; [apply line_b; reflexivity|]. split; [apply begins_b; reflexivity|]. split; [apply line_b; reflexivity|]. split; [apply line_b; reflexivity|].
  split; [exact H|split; [apply line_b; reflexivity|apply occurs_b; reflexivity]].
Qed.
Lemma coord_b l p x y z a b c rest : existsb (Ascii.eqb nl) l = false -> foundSubStrInStr l table_end = false -> splitSt l = a :: b :: c :: x :: y :: z :: rest ->
  n_stod D x = Ok (fst (fst p)) -> n_stod D y = Ok (snd (fst p)) -> n_stod D z = Ok (snd p) -> coord_row D l p.
Proof. intros H1 H2 H3 H4 H5 H6. split; [apply line_b; auto|]. split; [apply not_occurs_b; auto|]. exists a, b, c, x, y, z, rest. split; [apply words_b; auto|auto]. Qed.
Definition e_words (l : str) : list str := splitSt l.
Lemma energy_line_b l (occ : bool) (es : list str) : existsb (Ascii.eqb nl) l = false ->
  foundSubStrInStr l (if occ then occ_mark false else virt_mark false) = true -> (if occ then true else negb (foundSubStrInStr l (occ_mark false))) = true ->
  splitSt l = $"Alpha" :: (if occ then $"occ." else $"virt.") :: $"eigenvalues" :: $"--" :: es ->
  forallb (fun e => match e with [] => false | c :: t => forallb (fun c => negb (is_space c)) e && negb (existsb (Ascii.eqb "-") t) end) es = true -> (length es <=? 5)%nat = true ->
  energy_line D false l (occ, map (n_atof D) es).
Proof.
  intros H1 H2 H3 H4 H5 H6. split; [apply line_b; auto|]. split.
  - cbn [fst]. destruct occ; [apply occurs_b; auto|]. split; [apply occurs_b; auto|]. apply not_occurs_b, negb_true_iff; auto.
  - eexists _, es. split; [apply words_b; exact H4|]. split; [|reflexivity]. eexists _, _, _, _, es, (map (fun e => [e]) es). split; [reflexivity|]. split; [|split; [|apply Nat.leb_le; auto]].
    + clear - H5. induction es as [|e es IH]; cbn [map]; constructor; cbn [forallb] in H5; apply andb_true_iff in H5 as [A B]; [|auto].
      split; [cbn [concat]; symmetry; apply app_nil_r|]. split; [discriminate|]. split; [constructor; [apply energy_b; auto|constructor]|].
      intros e' t Et. inversion Et; subst. constructor.
    + clear. induction es as [|e es IH]; cbn [map concat app]; [auto|]. f_equal. exact IH.
Qed.
Definition energies_item (lo lv : str) (eo ev : list str) : item D := Eigenvalues D false [lo; lv] [(true, map (n_atof D) eo); (false, map (n_atof D) ev)].
Lemma first_b l elem label vs no an ts : existsb (Ascii.eqb nl) l = false -> foundSubStrInStr l population_over = false -> splitSt l = no :: an :: elem :: label :: ts ->
  match rev l with c :: _ => is_space c | [] => false end = false -> Forall2 (fun t v => n_stod D t = Ok v) ts vs -> isAlphabetical elem = true -> length (column l) = 2%nat -> isAlphabetical (trim (column l)) = true ->
  first_row D l elem label vs.
Proof.
  intros H1 H2 H3 H4 H5 H6 H7 H8. split; [apply line_b; auto|]. split; [apply not_occurs_b; auto|]. split; [exists no, an, ts; split; [apply row_b; auto|auto]|].
  split; [apply alphabetic_b; auto|]. exists (trim (column l)). split; [auto|]. split; [apply stripped_b|apply alphabetic_b; auto].
Qed.
Lemma other_b l r no t ts : existsb (Ascii.eqb nl) l = false -> foundSubStrInStr l population_over = false -> splitSt l = no :: fst r :: t :: ts ->
  match rev l with c :: _ => is_space c | [] => false end = false -> Forall2 (fun t v => n_stod D t = Ok v) (t :: ts) (snd r) -> isAlphabetical t = false -> length (column l) = 2%nat -> forallb is_space (column l) = true ->
  other_row D l r.
Proof.
  intros H1 H2 H3 H4 H5 H6 H7 H8. split; [apply line_b; auto|]. split; [apply not_occurs_b; auto|]. split; [exists no, t, ts; split; [apply row_b; auto|split; [auto|apply not_alphabetic_b; auto]]|].
  split; [auto|apply white_b; auto].
Qed.
Definition populations (ls : list str) (atoms : list (atom D)) : item D :=
  Population D $"     Gross orbital populations:" $"                           1" ls $"          Condensed to atoms (all electrons):" atoms.
Lemma populations_ok ls atoms rest tail : atoms <> [] -> population D atoms ls -> item_ok D (populations ls atoms) rest tail.
Proof.
  intros Ne H. unfold populations. cbn [item_ok]. split; [apply line_b; reflexivity|]. split; [apply begins_b; reflexivity|]. split; [apply line_b; reflexivity|]. split; [auto|]. split; [auto|].
  split; [apply line_b; reflexivity|]. split; [apply occurs_b; reflexivity|]. eexists. split; [reflexivity|]. split; [apply stripped_b|apply alphabetic_b; reflexivity].
Qed.
Lemma energies_ok2 lo lv eo ev rest tail :
  begins KAlpha lo -> energy_line D false lo (true, map (n_atof D) eo) -> energy_line D false lv (false, map (n_atof D) ev) -> not_energy_line false (first_of rest tail) ->
  item_ok D (energies_item lo lv eo ev) rest tail.
Proof. intros B H1 H2 H3. unfold energies_item. cbn [item_ok]. split; [eauto|]. split; [constructor; [auto|constructor; [auto|constructor]]|auto]. Qed.

(** ** the files *)
Definition carbon_1 : str := $"      1          6           0        0.000000    0.000000    0.670000".
Definition carbon_2 : str := $"      1          6           0        0.000000    0.000000    5.670000".
Definition carbon_P : str := $"      2          6           0        0.000000    0.000000    0.670000".
Definition pt1 : num D * num D * num D := ((0, -6), (0, -6), (670000, -6)).
Definition pt2 : num D * num D * num D := ((0, -6), (0, -6), (5670000, -6)).
Definition occ_line : str := $" Alpha  occ. eigenvalues --   -0.50000".
Definition virt_line : str := $" Alpha virt. eigenvalues --    0.10000".
Definition pop_atoms : list (atom D) := [($"C", [($"1S", [(199222, -5)]); ($"2S", [(117000, -5)])])].
Definition bare_items (pts : str) (p : num D * num D * num D) : list (item D) :=
  [Other D $" Entering Gaussian System"; coords [pts] [p]; energies_item occ_line virt_line [$"-0.50000"] [$"0.10000"]; Other D $" Mulliken"].
Definition mono_items (pts : str) (p : num D * num D * num D) : list (item D) :=
  [Other D $" Entering Gaussian System"; coords [pts] [p]; energies_item occ_line virt_line [$"-0.50000"] [$"0.10000"]; Other D $" Mulliken";
   populations [$"   1 1   C  1S          1.99222"; $"   2        2S          1.17000"] pop_atoms].
Definition tri : list (list str) :=
  [[$"0.100000D+01"]; [$"0.200000D+00"; $"0.100000D+01"]; [$"0.300000D-01"; $"0.000000D+00"; $"0.100000D+01"];
   [$"0.000000D+00"; $"-0.12000D-01"; $"0.200000D+00"; $"0.100000D+01"]].
Definition tri_value (i j : Z) : num D := value_of (cell tri i j).
Definition overlaps : item D := Overlaps D $" *** Overlap ***"
  [$"                1             2             3             4";
   $"      1  0.100000D+01";
   $"      2  0.200000D+00  0.100000D+01";
   $"      3  0.300000D-01  0.000000D+00  0.100000D+01";
   $"      4  0.000000D+00 -0.12000D-01  0.200000D+00  0.100000D+01"] (Some []) 4 tri_value.
Definition dimer_atoms : list (atom D) := [($"C", [($"1S", [(199222, -5)]); ($"2S", [(117000, -5)])]); ($"C", [($"1S", [(199222, -5)]); ($"2S", [(117000, -5)])])].
Definition dimer_of (rows : list str) (points : list (num D * num D * num D)) : list (item D) :=
  [Other D $" Entering Gaussian System"; coords rows points; overlaps;
   energies_item $" Alpha  occ. eigenvalues --   -0.60000  -0.50000" $" Alpha virt. eigenvalues --    0.10000   0.20000" [$"-0.60000"; $"-0.50000"] [$"0.10000"; $"0.20000"]; Other D $" Mulliken";
   populations [$"   1 1   C  1S          1.99222"; $"   2        2S          1.17000"; $"   3 2   C  1S          1.99222"; $"   4        2S          1.17000"] dimer_atoms].
Definition dimer_items : list (item D) := dimer_of [carbon_2; carbon_P] [pt2; pt1].
Definition file_of (items : list (item D)) : str := text (concat (map (item_lines D) items)) ++ $" Normal termination".
Ltac oline := apply other_ok; reflexivity.
Ltac eline es := apply (energy_line_b _ _ es); vm_compute; reflexivity.
Lemma mono_file pts p : Forall2 (coord_row D) [pts] [p] -> log_file D (mono_items pts p) (file_of (mono_items pts p)).
Proof.
  intros Hp. exists (concat (map (item_lines D) (mono_items pts p))), $" Normal termination". split; [reflexivity|]. split; [apply line_b; reflexivity|]. split; [apply no_mark_b; reflexivity|].
  unfold mono_items. cbn [map concat].
  apply log_item; [oline|]. apply log_item; [apply coords_ok, Hp|]. apply log_item; [apply energies_ok2; [apply begins_b; reflexivity|eline [$"-0.50000"]|eline [$"0.10000"]|cbn [app item_lines first_of]; split; apply not_occurs_b; reflexivity]|].
  apply log_item; [oline|]. apply log_item; [apply populations_ok; [discriminate|]|apply log_nil].
  apply (pop_atom D $"C" $"1S" [(199222, -5)] [($"2S", [(117000, -5)])] $"   1 1   C  1S          1.99222" [$"   2        2S          1.17000"] [] []); [| |apply pop_nil].
  - apply (first_b _ _ _ _ $"1" $"1" [$"1.99222"]); try reflexivity. constructor; [reflexivity|constructor].
  - constructor; [|constructor]. apply (other_b _ _ $"2" $"1.17000" []); try reflexivity. constructor; [reflexivity|constructor].
Qed.
Lemma bare_file pts p : Forall2 (coord_row D) [pts] [p] -> log_file D (bare_items pts p) (file_of (bare_items pts p)).
Proof.
  intros Hp. exists (concat (map (item_lines D) (bare_items pts p))), $" Normal termination". split; [reflexivity|]. split; [apply line_b; reflexivity|]. split; [apply no_mark_b; reflexivity|].
  unfold bare_items. cbn [map concat].
  apply log_item; [oline|]. apply log_item; [apply coords_ok, Hp|]. apply log_item; [apply energies_ok2; [apply begins_b; reflexivity|eline [$"-0.50000"]|eline [$"0.10000"]|cbn [app item_lines first_of]; split; apply not_occurs_b; reflexivity]|].
  apply log_item; [oline|]. apply log_nil.
Qed.
Lemma overlaps_ok rest tail : item_ok D overlaps rest tail.
Proof.
  cbn [item_ok overlaps]. split; [apply line_b; reflexivity|]. split; [apply begins_b; reflexivity|]. split; [lia|]. split; [vm_compute; discriminate|].
  split; [|split; [apply line_b; reflexivity|intros _; eexists; split; [reflexivity|left; apply words_b; reflexivity]]].
  exists (cell tri). split.
  - exists [match overlaps with Overlaps _ _ ls _ _ _ => ls | _ => [] end]. split; [reflexivity|]. split.
    + change (range 0 ((4 - 1) / 5)) with [0]. constructor; [|constructor].
      eexists _, _. split; [reflexivity|]. split; [apply words_b; vm_compute; reflexivity|].
      change (range (5 * 0 + 1) 4) with [1; 2; 3; 4]. repeat apply Forall2_cons; try apply Forall2_nil; (apply row_b; [vm_compute; reflexivity|vm_compute; reflexivity]).
    + repeat (apply Forall_cons; [apply line_b; reflexivity|]). apply Forall_nil.
  - apply in_tri. change (range 1 4) with [1; 2; 3; 4]. intros i Hi j Hj. apply coef_b.
    each; match type of Hj with In _ (range 1 ?k) => let r := eval vm_compute in (range 1 k) in change (range 1 k) with r in Hj end; each; vm_compute; reflexivity.
Qed.
Lemma row1 : coord_row D carbon_1 pt1. Proof. eapply coord_b; vm_compute; reflexivity. Qed.
Lemma row2 : coord_row D carbon_2 pt2. Proof. eapply coord_b; vm_compute; reflexivity. Qed.
Lemma rowP : coord_row D carbon_P pt1. Proof. eapply coord_b; vm_compute; reflexivity. Qed.
Lemma dimer_file rows pts : Forall2 (coord_row D) rows pts -> log_file D (dimer_of rows pts) (file_of (dimer_of rows pts)).
Proof.
  intros Hp. exists (concat (map (item_lines D) (dimer_of rows pts))), $" Normal termination". split; [reflexivity|]. split; [apply line_b; reflexivity|]. split; [apply no_mark_b; reflexivity|].
  unfold dimer_of. cbn [map concat].
  apply log_item; [oline|]. apply log_item; [apply coords_ok, Hp|]. apply log_item; [apply overlaps_ok|].
  apply log_item; [apply energies_ok2; [apply begins_b; reflexivity|eline [$"-0.60000"; $"-0.50000"]|eline [$"0.10000"; $"0.20000"]|cbn [app item_lines first_of]; split; apply not_occurs_b; reflexivity]|].
  apply log_item; [oline|]. apply log_item; [apply populations_ok; [discriminate|]|apply log_nil].
  apply (pop_atom D $"C" $"1S" [(199222, -5)] [($"2S", [(117000, -5)])] $"   1 1   C  1S          1.99222" [$"   2        2S          1.17000"] _ [$"   3 2   C  1S          1.99222"; $"   4        2S          1.17000"]).
  - apply (first_b _ _ _ _ $"1" $"1" [$"1.99222"]); try reflexivity. constructor; [reflexivity|constructor].
  - constructor; [|constructor]. apply (other_b _ _ $"2" $"1.17000" []); try reflexivity. constructor; [reflexivity|constructor].
  - apply (pop_atom D $"C" $"1S" [(199222, -5)] [($"2S", [(117000, -5)])] $"   3 2   C  1S          1.99222" [$"   4        2S          1.17000"] [] []); [| |apply pop_nil].
    + apply (first_b _ _ _ _ $"3" $"2" [$"1.99222"]); try reflexivity. constructor; [reflexivity|constructor].
    + constructor; [|constructor]. apply (other_b _ _ $"4" $"1.17000" []); try reflexivity. constructor; [reflexivity|constructor].
Qed.
(** pun files: a format line, then the orbitals, one line each *)
Definition title (n : Z) : str := $"    " ++ dec n ++ $" Alpha MO OE=-0.19133916D+02".
Fixpoint more_orbitals (n : Z) (rows : list (list str)) : list str :=
  match rows with [] => [] | r :: t => title n :: concat r :: more_orbitals (n + 1) t end.
Definition pun_items (r1 : list str) (rows : list (list str)) : list (pitem D) :=
  [POther D $"(5D15.8)"; Coefs D SAlpha (title 1) (concat r1 :: more_orbitals 2 rows) (Some []) (map fval r1 :: map (map fval) rows)].
Definition pun_of (r1 : list str) (rows : list (list str)) : str := text (concat (map (pitem_lines D) (pun_items r1 rows))).
Definition row_okb (r : list str) : bool := negb (existsb (Ascii.eqb nl) (concat r)) && negb (foundSubStrInStr (concat r) $" MO OE") && forallb field_ok r && (0 <? length r)%nat && (Z.of_nat (length (concat r)) <=? INT_MAX).
Lemma row_orbital r : row_okb r = true -> orbital D [concat r] (map fval r).
Proof.
  unfold row_okb. intros H. apply andb_true_iff in H as [H H5]. apply andb_true_iff in H as [H H4]. apply andb_true_iff in H as [H H3]. apply andb_true_iff in H as [H1 H2].
  apply negb_true_iff in H1, H2. exists [map fval r]. split; [|split; [cbn [concat]; now rewrite app_nil_r|destruct r; discriminate]].
  constructor; [|constructor]. apply (coef_line_b _ r []); [now rewrite app_nil_r|reflexivity|exact H1|exact H2|exact H3|exact H4|apply Z.leb_le; exact H5].
Qed.
Lemma more_ok k rows : Forall (fun r => row_okb r = true /\ length r = k) rows -> forall n,
  (forall i, n <= i < n + Z.of_nat (length rows) -> existsb (Ascii.eqb nl) (title i) = false /\ foundSubStrInStr (title i) $" MO OE" = true /\ foundSubStrInStr (title i) $"Alpha" = true) ->
  orbitals D $"Alpha" k (more_orbitals n rows) (map (map fval) rows).
Proof.
  induction 1 as [|r rows [Hr Lr] F IH]; intros n Ht; cbn [more_orbitals map]; [constructor|].
  destruct (Ht n) as (T1 & T2 & T3); [cbn [length]; lia|].
  apply (orb_cons D $"Alpha" k (title n) [concat r] (map fval r)); [apply line_b; exact T1|apply occurs_b; exact T2|apply occurs_b; exact T3|apply row_orbital; exact Hr|rewrite map_length; exact Lr|].
  apply IH. intros i Hi. apply Ht. cbn [length]. lia.
Qed.
Lemma pun_items_ok r1 rows : row_okb r1 = true -> Forall (fun r => row_okb r = true /\ length r = length r1) rows -> (1 <= length rows)%nat ->
  (forall i, 2 <= i < 2 + Z.of_nat (length rows) -> existsb (Ascii.eqb nl) (title i) = false /\ foundSubStrInStr (title i) $" MO OE" = true /\ foundSubStrInStr (title i) $"Alpha" = true) ->
  Z.of_nat (S (length rows)) * Z.of_nat (length r1) <= INT_MAX -> Z.of_nat (S (length rows)) <= INT_MAX ->
  pun_file D (pun_items r1 rows) (pun_of r1 rows).
Proof.
  intros H1 Hr Hn Ht M1 M2. exists (concat (map (pitem_lines D) (pun_items r1 rows))), []. split; [unfold pun_of; rewrite app_nil_r; reflexivity|]. split; [apply line_b; reflexivity|].
  split; [intros k; apply not_occurs_b; destruct k; reflexivity|]. unfold pun_items. cbn [map concat].
  apply pun_item; [split; [apply line_b; reflexivity|intros k; apply not_occurs_b; destruct k; reflexivity]|].
  apply pun_item; [|apply pun_nil]. cbn [pitem_ok]. split; [apply line_b; reflexivity|]. split; [apply occurs_b; reflexivity|]. split; [discriminate|]. split.
  - exists [concat r1], (map fval r1), (more_orbitals 2 rows), (map (map fval) rows). split; [reflexivity|]. split; [reflexivity|]. split; [apply row_orbital; exact H1|].
    rewrite map_length. apply more_ok; auto.
  - split; [split; [apply line_b; reflexivity|]; split; [apply not_occurs_b; reflexivity|cbn [length]; rewrite map_length; lia]|]. split; [discriminate|].
    cbn [hd length]. rewrite !map_length. auto.
Qed.
Definition f0 : str := $" 0.00000000D+00". Definition f1 : str := $" 0.10000000D+01". Definition f2 : str := $" 0.50000000D+00". Definition f3 : str := $"-0.50000000D+00".
Definition m1_rows : list (list str) := [[f1; f2]; [f0; f1]].
Definition m2_rows : list (list str) := [[f2; f1]; [f3; f1]].
Definition P_rows : list (list str) := [[f1; f0; f2; f0]; [f0; f1; f0; f2]; [f2; f0; f1; f0]; [f0; f3; f2; f1]].
Definition the_pun (rows : list (list str)) : str := match rows with r :: t => pun_of r t | [] => [] end.
Definition six (m1l m2l dl m1p m2p dp : str) (name : str) : option str :=
  if str_eqb name $"m1.log" then Some m1l else if str_eqb name $"m2.log" then Some m2l
  else if str_eqb name $"runs/dimer.log" then Some dl else if str_eqb name $"m1.pun" then Some m1p
  else if str_eqb name $"m2.pun" then Some m2p else if str_eqb name $"runs/dimer.pun" then Some dp else None.
Definition the_disk : str -> option str :=
  six (file_of (mono_items carbon_1 pt1)) (file_of (mono_items carbon_2 pt2)) (file_of dimer_items) (the_pun m1_rows) (the_pun m2_rows) (the_pun P_rows).
(** without a population analysis of monomer 1 *)
Definition bare_disk : str -> option str :=
  six (file_of (bare_items carbon_1 pt1)) (file_of (mono_items carbon_2 pt2)) (file_of dimer_items) (the_pun m1_rows) (the_pun m2_rows) (the_pun P_rows).
(** counterpoise: every calculation in the basis of the dimer, monomer 1 with another order of the atoms *)
Definition cp_disk : str -> option str :=
  six (file_of (dimer_of [carbon_1; carbon_2] [pt1; pt2])) (file_of dimer_items) (file_of dimer_items) (the_pun P_rows) (the_pun P_rows) (the_pun P_rows).
Definition the_line : list ParserSpec.item :=
  [IVal $"-p_P" $"--pun_P" $"runs/dimer.pun"; IVal $"-l_1" $"--log_1" $"m1.log"; IVal $"-p_2" $"--pun_2" $"m2.pun"; IVal $"-l_2" $"--log_2" $"m2.log"; IVal $"-orb_ty_2" $"--orbital_type_2" $"LUMO"].
Definition cp_line : list ParserSpec.item := the_line ++ [ISw $"-cp" $"--counter_poise"].
Definition the_result (disk : str -> option str) (l : list ParserSpec.item) : outcome (num D) := main disk1 D d_arith d_lab disk 3000 ($"calc_J" :: words l).
(** ** the hypotheses of C73 *)
Definition vals (rows : list (list str)) : list (list (num D)) := map (map fval) rows.
Definition the_data : data D := mkData D (vals m1_rows) (vals m2_rows) (vals P_rows) [(-50000, -5); (10000, -5)] [(-50000, -5); (10000, -5)]
  [(-60000, -5); (-50000, -5); (10000, -5); (20000, -5)] 1 1 2 [pt1] [pt2] [pt2; pt1] [2] [2] [2; 2] 4 tri_value.
Definition bare_data : data D := mkData D (vals m1_rows) (vals m2_rows) (vals P_rows) [(-50000, -5); (10000, -5)] [(-50000, -5); (10000, -5)]
  [(-60000, -5); (-50000, -5); (10000, -5); (20000, -5)] 1 1 2 [pt1] [pt2] [pt2; pt1] [] [2] [2; 2] 4 tri_value.
Definition dimer_en : list (num D) := [(-60000, -5); (-50000, -5); (10000, -5); (20000, -5)].
Definition cp_data : data D := mkData D (vals P_rows) (vals P_rows) (vals P_rows) dimer_en dimer_en dimer_en
  2 2 2 [pt1; pt2] [pt2; pt1] [pt2; pt1] [2; 2] [2; 2] [2; 2] 4 tri_value.
Lemma dot_b n a ext : n = a ++ ext -> existsb (Ascii.eqb "."%char) a = false -> existsb (Ascii.eqb "/"%char) (a ++ ext) = false -> forall dir path, path = dir ++ n -> dir = [] \/ (exists d, dir = d ++ $"/") -> one_dot path ext.
Proof.
  intros -> H1 H2 dir path -> Hd. exists a. split.
  - exists dir. split; [auto|]. split; [exact Hd|]. intros I. assert (existsb (Ascii.eqb "/"%char) (a ++ ext) = true) by (apply existsb_exists; exists "/"%char; split; [exact I|reflexivity]). congruence.
  - intros I. assert (existsb (Ascii.eqb "."%char) a = true) by (apply existsb_exists; exists "."%char; split; [exact I|reflexivity]). congruence.
Qed.
Section Says.
Variable disk : str -> option str.
Lemma mono_says name pts p : one_dot name $".log" -> disk name = Some (file_of (mono_items pts p)) -> coord_row D pts p ->
  log_says D disk name SAlpha (mono_items pts p) [(-50000, -5); (10000, -5)] 1 [p] [2].
Proof.
  intros Hd Hf Hc. constructor.
  - exact Hd.
  - eexists. split; [exact Hf|]. apply mono_file. constructor; [exact Hc|constructor].
  - eexists _, _. split; [|split; [|]].
    + exists (firstn 2 (mono_items pts p)), (skipn 3 (mono_items pts p)). split; [reflexivity|]. split; [reflexivity|]. intros it [<-|[<-|[]]] H; exact H.
    + vm_compute. reflexivity.
    + vm_compute. reflexivity.
  - eexists _, _, _, _, _. exists (firstn 1 (mono_items pts p)), (skipn 2 (mono_items pts p)). split; [reflexivity|]. split; [exact I|]. intros it [<-|[<-|[<-|[]]]] H; exact H.
  - left. eexists _, _, _, _, _. split; [right; right; right; right; left; reflexivity|]. split; [|reflexivity].
    intros h a ls e atoms [H|[H|[H|[H|[H|[]]]]]]; try discriminate H. unfold populations in H. inversion H; subst. split; [repeat constructor|].
    constructor; [|constructor]. cbn [snd map fst]. repeat (constructor; [cbn [In]; intuition discriminate|]). constructor.
Qed.
Lemma bare_says name pts p : one_dot name $".log" -> disk name = Some (file_of (bare_items pts p)) -> coord_row D pts p ->
  log_says D disk name SAlpha (bare_items pts p) [(-50000, -5); (10000, -5)] 1 [p] [].
Proof.
  intros Hd Hf Hc. constructor.
  - exact Hd.
  - eexists. split; [exact Hf|]. apply bare_file. constructor; [exact Hc|constructor].
  - eexists _, _. split; [|split; [|]].
    + exists (firstn 2 (bare_items pts p)), (skipn 3 (bare_items pts p)). split; [reflexivity|]. split; [reflexivity|]. intros it [<-|[]] H; exact H.
    + vm_compute. reflexivity.
    + vm_compute. reflexivity.
  - eexists _, _, _, _, _. exists (firstn 1 (bare_items pts p)), (skipn 2 (bare_items pts p)). split; [reflexivity|]. split; [exact I|]. intros it [<-|[<-|[]]] H; exact H.
  - right. split; [|reflexivity]. intros it [<-|[<-|[<-|[<-|[]]]]] H; exact H.
Qed.
Lemma dimer_says name rows pts : one_dot name $".log" -> disk name = Some (file_of (dimer_of rows pts)) -> Forall2 (coord_row D) rows pts ->
  log_says D disk name SAlpha (dimer_of rows pts) dimer_en 2 pts [2; 2].
Proof.
  intros Hd Hf Hc. constructor.
  - exact Hd.
  - eexists. split; [exact Hf|]. apply dimer_file. exact Hc.
  - eexists _, _. split; [|split].
    + exists (firstn 3 (dimer_of rows pts)), (skipn 4 (dimer_of rows pts)). split; [reflexivity|]. split; [reflexivity|]. intros it [<-|[<-|[]]] H; exact H.
    + vm_compute. reflexivity.
    + vm_compute. reflexivity.
  - eexists _, _, _, _, _. exists (firstn 1 (dimer_of rows pts)), (skipn 2 (dimer_of rows pts)). split; [reflexivity|]. split; [exact I|]. intros it [<-|[<-|[<-|[<-|[]]]]] H; exact H.
  - left. eexists _, _, _, _, _. split; [right; right; right; right; right; left; reflexivity|]. split; [|reflexivity].
    intros h a ls e atoms [H|[H|[H|[H|[H|[H|[]]]]]]]; try discriminate H. unfold populations in H. inversion H; subst. split; [repeat constructor|].
    constructor; [|constructor; [|constructor]]; cbn [snd map fst]; repeat (constructor; [cbn [In]; intuition discriminate|]); constructor.
Qed.
Lemma dimer_overlap rows pts : overlap_says D (dimer_of rows pts) 4 tri_value.
Proof.
  eexists _, _, _. exists (firstn 2 (dimer_of rows pts)), (skipn 3 (dimer_of rows pts)). split; [reflexivity|]. split; [exact I|]. intros it [<-|[<-|[<-|[]]]] H; exact H.
Qed.
Lemma pun_says_b name r1 rows : one_dot name $".pun" -> disk name = Some (the_pun (r1 :: rows)) ->
  row_okb r1 && forallb (fun r => row_okb r && (length r =? length r1)%nat) rows && (1 <=? length rows)%nat && (length rows <=? 3)%nat && (length r1 <=? 4)%nat = true ->
  pun_says D disk name SAlpha (vals (r1 :: rows)).
Proof.
  intros Hd Hf H. apply andb_true_iff in H as [H H5]. apply andb_true_iff in H as [H H4]. apply andb_true_iff in H as [H H3]. apply andb_true_iff in H as [H1 H2].
  apply Nat.leb_le in H3, H4, H5. split; [exact Hd|]. eexists _, (pun_items r1 rows). split; [exact Hf|]. split.
  - apply pun_items_ok; auto.
    + rewrite forallb_forall in H2. apply Forall_forall. intros r I. specialize (H2 r I). apply andb_true_iff in H2 as [A B]. apply Nat.eqb_eq in B. auto.
    + intros i Hi. assert (C : i = 2 \/ i = 3 \/ i = 4) by lia. destruct C as [->|[->| ->]]; vm_compute; auto.
    + unfold INT_MAX. nia.
    + unfold INT_MAX. lia.
  - exists [POther D $"(5D15.8)"], []. eexists _, _, _. split; [reflexivity|]. intros h ls after rows' [].
Qed.
End Says.
Lemma the_request : exists P p, parse ($"calc_J" :: words the_line) (catnip disk1) = Ok P /\ prepareParameters P = Ok p /\ clean_line disk1 the_line /\
  names p = [$"m1.log"; $"m2.log"; $"runs/dimer.log"; $"m1.pun"; $"m2.pun"; $"runs/dimer.pun"] /\
  settings p = ([$"Alpha"; $"Alpha"; $"Alpha"; []; $"HOMO"; $"LUMO"], [0; 0; 0], Some false, false).
Proof.
  assert (R : result disk1 the_line = Ok ([$"m1.log"; $"m2.log"; $"runs/dimer.log"; $"m1.pun"; $"m2.pun"; $"runs/dimer.pun"],
     ([$"Alpha"; $"Alpha"; $"Alpha"; []; $"HOMO"; $"LUMO"], [0; 0; 0], Some false, false))) by (vm_compute; reflexivity).
  apply result_inv in R as (P & p & H1 & H2 & H3). exists P, p. split; [exact H1|]. split; [exact H2|].
  split; [|split; [exact (eq_sym (f_equal fst H3))|exact (eq_sym (f_equal snd H3))]].
  split; [apply validb_ok; [apply catnip_wf|vm_compute; reflexivity]|]. split; [apply tame_b; vm_compute; reflexivity|].
  intros f I; apply once_b; unfold file_flags in I; cbn [In] in I; destruct I as [<-|[<-|[<-|[<-|[<-|[<-|[]]]]]]]; vm_compute; reflexivity.
Qed.
(** an accepted line asks for its parameters *)
Lemma accepted_asks E prog l P p : clean_line E l -> parse (prog :: words l) (catnip E) = Ok P -> prepareParameters P = Ok p ->
  (forall n, In n (names p) -> storable n) -> asks E l p.
Proof.
  intros (V & Nw & On) Hp Hpp Hs. destruct (C62_settings E prog l P p V Hp Hpp) as (_ & A2 & A3 & A4 & A5 & A6). constructor; auto.
  intros own partner exts ext n I. destruct (C58_resolved_partial E prog l P p V Hp Nw On Hpp own partner exts ext n I) as (X & Y & _). split; [exact X|]. split; [exact Y|].
  apply Hs. unfold CatnipSpec.files in I. cbn [In] in I. unfold names. cbn [In]. destruct I as [I|[I|[I|[I|[I|[I|[]]]]]]]; apply (f_equal snd) in I; cbn [snd] in I; subst n; tauto.
Qed.
Lemma cp_request : exists P p, parse ($"calc_J" :: words cp_line) (catnip disk1) = Ok P /\ prepareParameters P = Ok p /\ clean_line disk1 cp_line /\
  names p = [$"m1.log"; $"m2.log"; $"runs/dimer.log"; $"m1.pun"; $"m2.pun"; $"runs/dimer.pun"] /\
  settings p = ([$"Alpha"; $"Alpha"; $"Alpha"; []; $"HOMO"; $"LUMO"], [0; 0; 0], Some false, true).
Proof.
  assert (R : result disk1 cp_line = Ok ([$"m1.log"; $"m2.log"; $"runs/dimer.log"; $"m1.pun"; $"m2.pun"; $"runs/dimer.pun"],
     ([$"Alpha"; $"Alpha"; $"Alpha"; []; $"HOMO"; $"LUMO"], [0; 0; 0], Some false, true))) by (vm_compute; reflexivity).
  apply result_inv in R as (P & p & H1 & H2 & H3). exists P, p. split; [exact H1|]. split; [exact H2|].
  split; [|split; [exact (eq_sym (f_equal fst H3))|exact (eq_sym (f_equal snd H3))]].
  split; [apply validb_ok; [apply catnip_wf|vm_compute; reflexivity]|]. split; [apply tame_b; vm_compute; reflexivity|].
  intros f I; apply once_b; unfold file_flags in I; cbn [In] in I; destruct I as [<-|[<-|[<-|[<-|[<-|[<-|[]]]]]]]; vm_compute; reflexivity.
Qed.
Lemma dot_log (s : str) : existsb (Ascii.eqb "."%char) s = false -> existsb (Ascii.eqb "/"%char) (s ++ $".log") = false -> one_dot (s ++ $".log") $".log".
Proof. intros H1 H2. apply (dot_b _ s $".log" eq_refl H1 H2 []); [reflexivity|left; reflexivity]. Qed.
Lemma dot_pun (s : str) : existsb (Ascii.eqb "."%char) s = false -> existsb (Ascii.eqb "/"%char) (s ++ $".pun") = false -> one_dot (s ++ $".pun") $".pun".
Proof. intros H1 H2. apply (dot_b _ s $".pun" eq_refl H1 H2 []); [reflexivity|left; reflexivity]. Qed.
Lemma dot_dimer : one_dot $"runs/dimer.log" $".log" /\ one_dot $"runs/dimer.pun" $".pun".
Proof.
  split; [apply (dot_b $"dimer.log" $"dimer" $".log" eq_refl eq_refl eq_refl $"runs/")|apply (dot_b $"dimer.pun" $"dimer" $".pun" eq_refl eq_refl eq_refl $"runs/")];
    [reflexivity|right; exists $"runs"; reflexivity|reflexivity|right; exists $"runs"; reflexivity].
Qed.
Lemma params_fields p l1 l2 lP p1 p2 pP sP s1 s2 tP t1 t2 nP n1 n2 c cp :
  names p = [l1; l2; lP; p1; p2; pP] -> settings p = ([sP; s1; s2; tP; t1; t2], [nP; n1; n2], c, cp) ->
  p = mkParams l1 l2 lP p1 p2 pP sP s1 s2 tP t1 t2 nP n1 n2 c cp.
Proof.
  intros H1 H2. destruct p as [a1 a2 a3 a4 a5 a6 a7 a8 a9 a10 a11 a12 a13 a14 a15 a16 a17]. unfold names, settings in H1, H2.
  cbn [log1 log2 logP pun1 pun2 punP spinP spin1 spin2 orb_typeP orb_type1 orb_type2 orb_numP orb_num1 orb_num2 citation counterPoise] in H1, H2.
  assert (B1 := f_equal (fun l => nth 0 l []) H1). assert (B2 := f_equal (fun l => nth 1 l []) H1). assert (B3 := f_equal (fun l => nth 2 l []) H1).
  assert (B4 := f_equal (fun l => nth 3 l []) H1). assert (B5 := f_equal (fun l => nth 4 l []) H1). assert (B6 := f_equal (fun l => nth 5 l []) H1).
  assert (C1 := f_equal (fun q => nth 0 (fst (fst (fst q))) []) H2). assert (C2 := f_equal (fun q => nth 1 (fst (fst (fst q))) []) H2). assert (C3 := f_equal (fun q => nth 2 (fst (fst (fst q))) []) H2).
  assert (C4 := f_equal (fun q => nth 3 (fst (fst (fst q))) []) H2). assert (C5 := f_equal (fun q => nth 4 (fst (fst (fst q))) []) H2). assert (C6 := f_equal (fun q => nth 5 (fst (fst (fst q))) []) H2).
  assert (D1 := f_equal (fun q => nth 0 (snd (fst (fst q))) 0) H2). assert (D2 := f_equal (fun q => nth 1 (snd (fst (fst q))) 0) H2). assert (D3 := f_equal (fun q => nth 2 (snd (fst (fst q))) 0) H2).
  assert (F1 := f_equal (fun q => snd (fst q)) H2). assert (F2 := f_equal (fun q => snd q) H2). clear H1 H2. cbn [nth fst snd] in *.
  rewrite B1, B2, B3, B4, B5, B6, C1, C2, C3, C4, C5, C6, D1, D2, D3, F1, F2. reflexivity.
Qed.
Ltac disk_ok := apply pun_says_b; [first [exact (dot_pun $"m1" eq_refl eq_refl)|exact (dot_pun $"m2" eq_refl eq_refl)|exact (proj2 dot_dimer)]|reflexivity|vm_compute; reflexivity].
Definition the_params (cp : bool) : params := mkParams $"m1.log" $"m2.log" $"runs/dimer.log" $"m1.pun" $"m2.pun" $"runs/dimer.pun" $"Alpha" $"Alpha" $"Alpha" [] $"HOMO" $"LUMO" 0 0 0 (Some false) cp.
Lemma dimer_rows : Forall2 (coord_row D) [carbon_2; carbon_P] [pt2; pt1].
Proof. constructor; [apply row2|constructor; [apply rowP|constructor]]. Qed.
Lemma the_contain : contain D the_disk (the_params false) the_data.
Proof.
  exists SAlpha, SAlpha, SAlpha, (mono_items carbon_1 pt1), (mono_items carbon_2 pt2), dimer_items.
  split; [reflexivity|]. split; [reflexivity|]. split; [reflexivity|]. split; [disk_ok|]. split; [disk_ok|]. split; [disk_ok|].
  split; [apply mono_says; [exact (dot_log $"m1" eq_refl eq_refl)|reflexivity|exact row1]|]. split; [apply mono_says; [exact (dot_log $"m2" eq_refl eq_refl)|reflexivity|exact row2]|].
  split; [apply dimer_says; [exact (proj1 dot_dimer)|reflexivity|exact dimer_rows]|apply dimer_overlap].
Qed.
Lemma bare_contain : contain D bare_disk (the_params false) bare_data.
Proof.
  exists SAlpha, SAlpha, SAlpha, (bare_items carbon_1 pt1), (mono_items carbon_2 pt2), dimer_items.
  split; [reflexivity|]. split; [reflexivity|]. split; [reflexivity|]. split; [disk_ok|]. split; [disk_ok|]. split; [disk_ok|].
  split; [apply bare_says; [exact (dot_log $"m1" eq_refl eq_refl)|reflexivity|exact row1]|]. split; [apply mono_says; [exact (dot_log $"m2" eq_refl eq_refl)|reflexivity|exact row2]|].
  split; [apply dimer_says; [exact (proj1 dot_dimer)|reflexivity|exact dimer_rows]|apply dimer_overlap].
Qed.
Lemma cp_contain : contain D cp_disk (the_params true) cp_data.
Proof.
  exists SAlpha, SAlpha, SAlpha, (dimer_of [carbon_1; carbon_2] [pt1; pt2]), dimer_items, dimer_items.
  split; [reflexivity|]. split; [reflexivity|]. split; [reflexivity|]. split; [disk_ok|]. split; [disk_ok|]. split; [disk_ok|].
  split; [apply dimer_says; [exact (dot_log $"m1" eq_refl eq_refl)|reflexivity|constructor; [exact row1|constructor; [exact row2|constructor]]]|]. split; [apply dimer_says; [exact (dot_log $"m2" eq_refl eq_refl)|reflexivity|exact dimer_rows]|].
  split; [apply dimer_says; [exact (proj1 dot_dimer)|reflexivity|exact dimer_rows]|apply dimer_overlap].
Qed.
(** [finds] for geometries of at most two atoms *)
Lemma finds_b q q' ord : (length ord <=? 2)%nat = true ->
  forallb (fun i => match nth_error ord (Z.to_nat (i - 1)) with None => true | Some k => (1 <=? k) && (k <=? 2) &&
    forallb (fun k' => Bool.eqb (forallb (fun j => str_eqb (d_lab (q j i 1)) (d_lab (q' j k' 1))) [1; 2; 3]) (k' =? k)) [1; 2] end) [1; 2] = true ->
  finds d_lab 3 2 q q' ord.
Proof.
  intros L H i k Hk Hi. apply Nat.leb_le in L. assert (Li : (Z.to_nat (i - 1) < length ord)%nat) by (apply nth_error_Some; congruence).
  rewrite forallb_forall in H. specialize (H i). rewrite Hk in H. assert (Ii : In i [1; 2]) by (cbn [In]; lia). specialize (H Ii).
  apply andb_true_iff in H as [H1 H2]. apply andb_true_iff in H1 as [H0 H1]. apply Z.leb_le in H0, H1. split; [lia|]. intros k' Hk'.
  rewrite forallb_forall in H2. specialize (H2 k'). assert (Ik : In k' [1; 2]) by (cbn [In]; lia). specialize (H2 Ik). apply Bool.eqb_prop in H2.
  rewrite <- Z.eqb_eq, <- H2. unfold same_atom. rewrite forallb_forall. split; intros H.
  - intros j Ij. rewrite (H j); [apply str_eqb_refl|]. cbn [In] in Ij. lia.
  - intros j Hj. apply str_eqb_eq, H. cbn [In]. lia.
Qed.
Lemma request_params l cp : (exists P p, parse ($"calc_J" :: words l) (catnip disk1) = Ok P /\ prepareParameters P = Ok p /\ clean_line disk1 l /\
    names p = [$"m1.log"; $"m2.log"; $"runs/dimer.log"; $"m1.pun"; $"m2.pun"; $"runs/dimer.pun"] /\
    settings p = ([$"Alpha"; $"Alpha"; $"Alpha"; []; $"HOMO"; $"LUMO"], [0; 0; 0], Some false, cp)) ->
  clean_line disk1 l /\ asks disk1 l (the_params cp).
Proof.
  intros (P & p & Hp & Hpp & Hc & Hn & Hs). split; [exact Hc|]. rewrite <- (params_fields p _ _ _ _ _ _ _ _ _ _ _ _ _ _ _ _ _ Hn Hs : p = the_params cp).
  apply (accepted_asks disk1 $"calc_J" l P p Hc Hp Hpp). intros n I. rewrite Hn in I. cbn [In] in I.
  destruct I as [<-|[<-|[<-|[<-|[<-|[<-|[]]]]]]]; vm_compute; reflexivity.
Qed.
