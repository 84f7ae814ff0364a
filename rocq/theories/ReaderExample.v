(** * A concrete arithmetic and a concrete log file

    Used to show that the hypotheses of the theorems about the readers can be
    met, and as the witness of the refutations. *)
From Verif Require Export ReaderFile.
From Verif Require Export StrSpec StrModel.
Open Scope Z_scope.

(** ** decimal numbers of at most 60 digits: (m, e) is m * 10^e *)
Definition digit_of (c : ascii) : option Z :=
  let k := Z.of_nat (nat_of_ascii c) in if (48 <=? k) && (k <=? 57) then Some (k - 48) else None.
Fixpoint digits (s : str) (acc : Z) (n : nat) : Z * nat * str :=
  match s with
  | [] => (acc, n, [])
  | c :: t => match digit_of c with Some d => digits t (10 * acc + d) (S n) | None => (acc, n, s) end
  end.
Definition parse_decimal (s : str) : option (Z * Z) :=
  let s := ltrim s in
  let '(neg, s) := match s with c :: t => if Ascii.eqb c "-" then (true, t) else if Ascii.eqb c "+" then (false, t) else (false, s) | [] => (false, s) end in
  let '(a, n, r) := digits s 0 0 in
  let '(b, k, rest) := match r with c :: t => if Ascii.eqb c "." then digits t a 0 else (a, O, r) | [] => (a, O, r) end in
  if (n + k =? 0)%nat || negb (str_eqb rest []) || (60 <? length s)%nat || (neg && (b =? 0)) then None else Some (if neg then - b else b, - Z.of_nat k).
(** exponents from 1000 on stand for numbers that cannot be represented *)
Definition decimals : nums := {|
  num := Z * Z;
  n_zero := (0, 0);
  n_mul := fun x y => (fst x * fst y, snd x + snd y);
  n_stod := fun s => match parse_decimal s with Some v => Ok v | None => Throw InvalidArgument end;
  n_atof := fun s => match parse_decimal s with Some v => v | None => (0, 100000) end;
  n_pow10 := fun x => if (snd x =? 0) && (Z.abs (fst x) <=? 300) then (1, fst x) else (1, 100000) |}.

(** ** deciding the vocabulary *)
Lemma line_b l : existsb (Ascii.eqb nl) l = false -> is_line l.
Proof. intros H I. assert (existsb (Ascii.eqb nl) l = true) by (apply existsb_exists; exists nl; split; [auto|apply Ascii.eqb_refl]). congruence. Qed.
Lemma occurs_b p l : foundSubStrInStr l p = true -> occurs p l. Proof. apply found_iff. Qed.
Lemma not_occurs_b p l : foundSubStrInStr l p = false -> ~ occurs p l. Proof. apply found_not. Qed.
Lemma words_b l ws : splitSt l = ws -> words_of l ws. Proof. apply words_split. Qed.
Lemma solid_b l : match rev l with c :: _ => is_space c | [] => false end = false -> ends_solid l.
Proof.
  intros H c t E. rewrite E, rev_app_distr in H. cbn [rev app] in H. apply is_space_nin in H. auto.
Qed.
Lemma row_b l ws : splitSt l = ws -> match rev l with c :: _ => is_space c | [] => false end = false -> table_row l ws.
Proof. intros H1 H2. split; [apply words_b|apply solid_b]; auto. Qed.
Definition mark_b (k : kind) (l : str) : bool := existsb (foundSubStrInStr l) (marks k).
Lemma mark_b_iff k l : mark_b k l = true <-> has_mark k l.
Proof.
  unfold mark_b. rewrite existsb_exists. split; intros (p & I & H); exists p; (split; [auto|]); apply found_iff; auto.
Qed.
Lemma begins_b k l : mark_b k l && forallb (fun k' => negb (rank k' <? rank k)%nat || negb (mark_b k' l)) kinds = true -> begins k l.
Proof.
  intros H. apply andb_true_iff in H as [H1 H2]. split; [apply mark_b_iff; auto|]. intros k' Hk Hm. apply mark_b_iff in Hm.
  rewrite forallb_forall in H2. specialize (H2 k'). rewrite Hm in H2. apply Nat.ltb_lt in Hk. rewrite Hk in H2. cbn [negb orb] in H2.
  assert (In k' kinds) by (destruct k'; cbn [kinds In]; tauto). specialize (H2 H). discriminate.
Qed.
Lemma no_mark_b l : existsb (fun k => mark_b k l) kinds = false -> no_mark l.
Proof.
  intros H k Hm. apply mark_b_iff in Hm. assert (In k kinds) by (destruct k; cbn [kinds In]; tauto).
  assert (existsb (fun k => mark_b k l) kinds = true) by (apply existsb_exists; eauto). congruence.
Qed.
Lemma white_b s : forallb is_space s = true -> white s.
Proof. intros H c I. rewrite forallb_forall in H. apply is_space_in; auto. Qed.
Lemma alphabetic_b s : isAlphabetical s = true -> alphabetic s. Proof. apply alphabetic_iff. Qed.
Lemma not_alphabetic_b s : isAlphabetical s = false -> ~ alphabetic s. Proof. apply alphabetic_not. Qed.
Lemma stripped_b s : stripped s (trim s).
Proof. destruct (trim_spec s) as (a & b & H). exists a, b. tauto. Qed.
Lemma coef_b s x : coef_of decimals s = Ok x -> coef_text decimals s x.
Proof.
  unfold coef_of. intros H. destruct (foundSubStrInStr s $"D") eqn:F.
  - apply found_iff in F. destruct (occurs_first_at $"D" s F) as (a & b & Hab).
    destruct (grab_first _ _ _ _ Hab) as [G1 G2]. rewrite G1 in H. cbn [bind] in H. rewrite G2 in H. cbn [bind] in H.
    destruct (n_stod decimals a) as [p| | | |] eqn:Ea; cbn [bind] in H; try discriminate. destruct (n_stod decimals b) as [q| | | |] eqn:Eb; cbn [bind] in H; try discriminate.
    inversion H; subst. exists a, b, p, q. auto.
  - apply found_not in F. destruct (grab_first_none _ _ F) as [G1 G2]. rewrite G1 in H. cbn [bind] in H. rewrite G2 in H. cbn [bind] in H. destruct (n_stod decimals s); cbn [bind] in H; discriminate H.
Qed.
Lemma energy_b e : (match e with [] => false | c :: t => forallb (fun c => negb (is_space c)) e && negb (existsb (Ascii.eqb "-") t) end) = true -> energy e.
Proof.
  destruct e as [|c t]; [discriminate|]. intros H. apply andb_true_iff in H as [H1 H2]. split.
  - split; [discriminate|]. intros x I. rewrite forallb_forall in H1. specialize (H1 x I). apply negb_true_iff, is_space_nin in H1. auto.
  - intros [|x a] b E; [auto|]. exfalso. cbn [app] in E. inversion E; subst. apply negb_true_iff in H2.
    assert (existsb (Ascii.eqb "-") (a ++ "-"%char :: b) = true) by (apply existsb_exists; exists "-"%char; split; [apply in_or_app; right; left; auto|apply Ascii.eqb_refl]). congruence.
Qed.

(** ** a log file *)
Definition D := decimals.
Definition ex_coord : item D := Coordinates D
  $" Center     Atomic      Atomic             Coordinates (Angstroms)"
  $" Number     Number       Type             X           Y           Z"
  $" ---------------------------------------------------------------------"
  [$"      1          6           0        0.000000    0.000000    0.670000";
   $"      2          1           0        0.923000   -1.500000    1.240000"]
  $" ---------------------------------------------------------------------"
  [((0, -6), (0, -6), (670000, -6)); ((923000, -6), (-1500000, -6), (1240000, -6))].
Lemma ex_coord_ok rest tail : item_ok D ex_coord rest tail.
Proof.
  cbn [item_ok ex_coord]. split; [apply line_b; reflexivity|]. split; [apply begins_b; reflexivity|]. split; [apply line_b; reflexivity|]. split; [apply line_b; reflexivity|].
  split; [|split; [apply line_b; reflexivity|apply occurs_b; reflexivity]].
  repeat apply Forall2_cons; [| |apply Forall2_nil];
    (split; [apply line_b; reflexivity|]; split; [apply not_occurs_b; reflexivity|]; do 7 eexists; split; [apply words_b; vm_compute; reflexivity|]; split; [vm_compute; reflexivity|]; split; vm_compute; reflexivity).
Qed.
(** the texts of a lower triangle *)
Definition cell (tbl : list (list str)) (i j : Z) : str := nth (Z.to_nat (j - 1)) (nth (Z.to_nat (i - 1)) tbl []) [].
Definition value_of (s : str) : num D := match coef_of D s with Ok v => v | _ => (0, 0) end.
Definition ex_tri : list (list str) :=
  [[$"0.100000D+01"];
   [$"0.236704D+00"; $"0.100000D+01"];
   [$"0.000000D+00"; $"0.000000D+00"; $"0.100000D+01"];
   [$"0.000000D+00"; $"-0.12000D-01"; $"0.000000D+00"; $"0.100000D+01"];
   [$"0.533423D-01"; $"0.471000D+00"; $"0.000000D+00"; $"0.000000D+00"; $"0.100000D+01"];
   [$"0.617000D-01"; $"0.496500D+00"; $"0.000000D+00"; $"-0.30100D+00"; $"0.250000D+00"; $"0.100000D+01"]].
Definition ex_overlap : item D := Overlaps D $" *** Overlap ***"
  [$"                1             2             3             4             5";
   $"      1  0.100000D+01";
   $"      2  0.236704D+00  0.100000D+01";
   $"      3  0.000000D+00  0.000000D+00  0.100000D+01";
   $"      4  0.000000D+00 -0.12000D-01  0.000000D+00  0.100000D+01";
   $"      5  0.533423D-01  0.471000D+00  0.000000D+00  0.000000D+00  0.100000D+01";
   $"      6  0.617000D-01  0.496500D+00  0.000000D+00 -0.30100D+00  0.250000D+00";
   $"                6";
   $"      6  0.100000D+01"]
  (Some $" *** Kinetic Energy ***") 6 (fun i j => value_of (cell ex_tri i j)).
Lemma in_tri n (P : Z -> Z -> Prop) : (forall i, In i (range 1 n) -> forall j, In j (range 1 i) -> P i j) -> forall i j, 1 <= j <= i -> i <= n -> P i j.
Proof. intros H i j Hj Hi. apply H; apply range_in; lia. Qed.
Ltac each := repeat match goal with H : In _ [] |- _ => destruct H | H : In _ (_ :: _) |- _ => destruct H as [<-|H] end.
Lemma ex_overlap_ok rest tail : item_ok D ex_overlap rest tail.
Proof.
  cbn [item_ok ex_overlap]. split; [apply line_b; reflexivity|]. split; [apply begins_b; reflexivity|]. split; [lia|]. split; [vm_compute; discriminate|].
  split; [|split; [apply line_b; reflexivity|lia]].
  exists (cell ex_tri). split.
  - exists [firstn 7 (match ex_overlap with Overlaps _ _ ls _ _ _ => ls | _ => [] end); skipn 7 (match ex_overlap with Overlaps _ _ ls _ _ _ => ls | _ => [] end)]. split; [reflexivity|]. split.
    + change (range 0 ((6 - 1) / 5)) with [0; 1]. constructor; [|constructor; [|constructor]].
      * eexists _, _. split; [reflexivity|]. split; [apply words_b; vm_compute; reflexivity|].
        change (range (5 * 0 + 1) 6) with [1; 2; 3; 4; 5; 6]. repeat apply Forall2_cons; try apply Forall2_nil; (apply row_b; [vm_compute; reflexivity|vm_compute; reflexivity]).
      * eexists _, _. split; [reflexivity|]. split; [apply words_b; vm_compute; reflexivity|].
        change (range (5 * 1 + 1) 6) with [6]. repeat apply Forall2_cons; try apply Forall2_nil; (apply row_b; [vm_compute; reflexivity|vm_compute; reflexivity]).
    + repeat (apply Forall_cons; [apply line_b; reflexivity|]). apply Forall_nil.
  - apply in_tri. change (range 1 6) with [1; 2; 3; 4; 5; 6]. intros i Hi j Hj. apply coef_b.
    each; match type of Hj with In _ (range 1 ?k) => let r := eval vm_compute in (range 1 k) in change (range 1 k) with r in Hj end; each; vm_compute; reflexivity.
Qed.
Definition ex_energies : item D := Eigenvalues D false
  [$" Alpha  occ. eigenvalues --  -19.1396-10.22575 -0.81234";
   $" Alpha  occ. eigenvalues --   -0.50000";
   $" Alpha virt. eigenvalues --    0.10000   0.20000"]
  [(true, [(-191396, -4); (-1022575, -5); (-81234, -5)]); (true, [(-50000, -5)]); (false, [(10000, -5); (20000, -5)])].
Ltac glue es := split; [vm_compute; reflexivity|]; split; [discriminate|]; split; [repeat (apply Forall_cons; [apply energy_b; vm_compute; reflexivity|]); apply Forall_nil|];
  intros ?e ?t ?E; inversion E; subst; repeat (apply Forall_cons; [eexists; vm_compute; reflexivity|]); apply Forall_nil.
Lemma ex_energies_ok rest tail : not_energy_line false (first_of rest tail) -> item_ok D ex_energies rest tail.
Proof.
  intros Nr. cbn [item_ok ex_energies]. split; [eexists _, _; split; [reflexivity|apply begins_b; reflexivity]|]. split; [|auto].
  constructor; [|constructor; [|constructor; [|constructor]]].
  - split; [apply line_b; reflexivity|]. split; [cbn [fst]; apply occurs_b; reflexivity|].
    eexists _, [$"-19.1396"; $"-10.22575"; $"-0.81234"]. split; [apply words_b; vm_compute; reflexivity|]. split; [|vm_compute; reflexivity].
    exists $"Alpha", $"occ.", $"eigenvalues", $"--", [$"-19.1396-10.22575"; $"-0.81234"], [[$"-19.1396"; $"-10.22575"]; [$"-0.81234"]].
    split; [reflexivity|]. split; [|split; [reflexivity|cbn [length]; lia]].
    constructor; [|constructor; [|constructor]]; glue 0.
  - split; [apply line_b; reflexivity|]. split; [cbn [fst]; apply occurs_b; reflexivity|].
    eexists _, [$"-0.50000"]. split; [apply words_b; vm_compute; reflexivity|]. split; [|vm_compute; reflexivity].
    exists $"Alpha", $"occ.", $"eigenvalues", $"--", [$"-0.50000"], [[$"-0.50000"]].
    split; [reflexivity|]. split; [|split; [reflexivity|cbn [length]; lia]]. constructor; [|constructor]; glue 0.
  - split; [apply line_b; reflexivity|]. split; [cbn [fst]; split; [apply occurs_b; reflexivity|apply not_occurs_b; reflexivity]|].
    eexists _, [$"0.10000"; $"0.20000"]. split; [apply words_b; vm_compute; reflexivity|]. split; [|vm_compute; reflexivity].
    exists $"Alpha", $"virt.", $"eigenvalues", $"--", [$"0.10000"; $"0.20000"], [[$"0.10000"]; [$"0.20000"]].
    split; [reflexivity|]. split; [|split; [reflexivity|cbn [length]; lia]]. constructor; [|constructor; [|constructor]]; glue 0.
Qed.
Definition ex_atoms : list (atom D) :=
  [($"C", [($"1S", [(199222, -5)]); ($"2S", [(117000, -5)]); ($"2PX", [(100000, -5)])]); ($"H", [($"1S", [(49800, -5)])])].
Definition ex_population : item D := Population D $"     Gross orbital populations:"
  $"                           1"
  [$"   1 1   C  1S          1.99222";
   $"   2        2S          1.17000";
   $"   3        2PX         1.00000";
   $"   4 2   H  1S          0.49800"]
  $"          Condensed to atoms (all electrons):" ex_atoms.
Lemma ex_population_ok rest tail : item_ok D ex_population rest tail.
Proof.
  assert (W : forall l elem label vs no an ts, existsb (Ascii.eqb nl) l = false -> foundSubStrInStr l population_over = false -> splitSt l = no :: an :: elem :: label :: ts ->
    match rev l with c :: _ => is_space c | [] => false end = false -> Forall2 (fun t v => n_stod D t = Ok v) ts vs -> isAlphabetical elem = true -> length (column l) = 2%nat -> isAlphabetical (trim (column l)) = true ->
    first_row D l elem label vs).
  { intros l elem label vs no an ts H1 H2 H3 H4 H5 H6 H7 H8. split; [apply line_b; auto|]. split; [apply not_occurs_b; auto|]. split; [exists no, an, ts; split; [apply row_b; auto|auto]|].
    split; [apply alphabetic_b; auto|]. exists (trim (column l)). split; [auto|]. split; [apply stripped_b|apply alphabetic_b; auto]. }
  assert (V : forall l r no t ts, existsb (Ascii.eqb nl) l = false -> foundSubStrInStr l population_over = false -> splitSt l = no :: fst r :: t :: ts ->
    match rev l with c :: _ => is_space c | [] => false end = false -> Forall2 (fun t v => n_stod D t = Ok v) (t :: ts) (snd r) -> isAlphabetical t = false -> length (column l) = 2%nat -> forallb is_space (column l) = true ->
    other_row D l r).
  { intros l r no t ts H1 H2 H3 H4 H5 H6 H7 H8. split; [apply line_b; auto|]. split; [apply not_occurs_b; auto|]. split; [exists no, t, ts; split; [apply row_b; auto|split; [auto|apply not_alphabetic_b; auto]]|].
    split; [auto|apply white_b; auto]. }
  cbn [item_ok ex_population]. split; [apply line_b; reflexivity|]. split; [apply begins_b; reflexivity|]. split; [apply line_b; reflexivity|]. split; [discriminate|]. split.
  - apply (pop_atom D $"C" $"1S" [(199222, -5)] [($"2S", [(117000, -5)]); ($"2PX", [(100000, -5)])]
      $"   1 1   C  1S          1.99222" [$"   2        2S          1.17000"; $"   3        2PX         1.00000"] _ [$"   4 2   H  1S          0.49800"]).
    + apply (W _ _ _ _ $"1" $"1" [$"1.99222"]); try reflexivity. constructor; [reflexivity|constructor].
    + constructor; [apply (V _ _ $"2" $"1.17000" [])|constructor; [apply (V _ _ $"3" $"1.00000" [])|constructor]]; try reflexivity; (constructor; [reflexivity|constructor]).
    + apply (pop_atom D $"H" $"1S" [(49800, -5)] [] $"   4 2   H  1S          0.49800" [] [] []); [|constructor|constructor].
      apply (W _ _ _ _ $"4" $"2" [$"0.49800"]); try reflexivity. constructor; [reflexivity|constructor].
  - split; [apply line_b; reflexivity|]. split; [apply occurs_b; reflexivity|]. eexists. split; [reflexivity|]. split; [apply stripped_b|apply alphabetic_b; reflexivity].
Qed.
Definition ex_items : list (item D) :=
  [Other D $" Entering Gaussian System, Link 0=g09"; ex_coord; Other D []; ex_overlap; ex_energies; Other D $" Mulliken"; ex_population].
Definition ex_lines : list str := concat (map (item_lines D) ex_items).
Definition ex_log : str := text ex_lines ++ $" Normal termination".
Lemma other_ok l rest tail : existsb (Ascii.eqb nl) l = false -> existsb (fun k => mark_b k l) kinds = false -> item_ok D (Other D l) rest tail.
Proof. intros H1 H2. split; [apply line_b; auto|apply no_mark_b; auto]. Qed.
Lemma ex_log_ok : log_file D ex_items ex_log.
Proof.
  exists ex_lines, $" Normal termination". split; [reflexivity|]. split; [apply line_b; reflexivity|]. split; [apply no_mark_b; reflexivity|].
  unfold ex_lines, ex_items. cbn [map concat].
  repeat (apply log_item; [first [apply other_ok; reflexivity|apply ex_coord_ok|apply ex_overlap_ok|apply ex_energies_ok|apply ex_population_ok]|]); [|apply log_nil].
  cbn [app item_lines first_of]. split; apply not_occurs_b; reflexivity.
Qed.
