(** * Property C103 in the machine's numbers *)
From Coq Require Import Reals.
From Flocq Require Import Core IEEE754.BinarySingleNaN.
From Verif Require Import QcOrder QcFinal.
From Verif Require Import PhaseRun PhaseFloat PhaseProps.
From Verif Require Import ParserWf ParserCheck CatnipProps ReaderProps ReaderPunProps.
From Verif Require Import MainExample MainProps OutputProps AccPara AccExample AccFacts AccProps.
From Verif Require Import AccReportProps.
From Verif Require Export PhaseSpec PhaseFloatSpec AccSpec.
From Verif Require Export ReaderModel MainSpec.
Import ReaderExample.
From Verif Require Export StrSpec StrModel.
Open Scope Z_scope.

(** The second run prints the same coupling up to its sign, for all doubles (overflow and NaN included). *)
Theorem C103_binary64 : forall E E' pow10 pow2 lab disk disk' prog prog' l l' p p' d d' r1 r2 s1 s2 sP u, even pow2 ->
  clean_line E l -> asks E l p -> clean_line E' l' -> asks E' l' p' -> counterPoise p' = counterPoise p ->
  let N := machine pow10 in
  contain N disk p d -> contain N disk' p' d' -> belong N (counterPoise p) d -> belong N (counterPoise p) d' -> rows_asked N p d r1 r2 -> rows_asked N p' d' r1 r2 ->
  lined_up N lab (counterPoise p) d u -> phases N same_up_to_sign s1 s2 sP r1 r2 d d' ->
  exists bound, forall fuel, (bound <= fuel)%nat -> exists J J',
    main E N (binary64 pow2) lab disk fuel (prog :: words l) = Ok J /\ main E' N (binary64 pow2) lab disk' fuel (prog' :: words l') = Ok J' /\
    same_up_to_sign (xorb s1 s2) J J'.
Proof.
  intros E E' pow10 pow2 lab disk disk' prog prog' l l' p p' d d' r1 r2 s1 s2 sP u Hp H1 H2 H3 H4 H5 N H6 H7 H8 H9 H10 H11 H12 H13. pose proof (binary64_laws pow2 Hp) as L.
  destruct (phase_run (machine pow10) (binary64 pow2) lab same_up_to_sign L double (@J_of_run (machine pow10) (binary64 pow2)) (fun _ _ _ => eq_refl) E E' disk disk' prog prog' l l' p p' d d' r1 r2 s1 s2 sP u H1 H2 H3 H4 H5 H6 H7 H8 H9 H10 H11 H12 H13) as (bound & H).
  exists bound. intros fuel Hf. destruct (H fuel Hf) as (j & a & b & t & j' & a' & b' & t' & Q & Q1 & Q2). eexists _, _. split; [exact Q1|]. split; [exact Q2|].
  apply (J_eff_sg (binary64 pow2) _ L) in Q. exact Q.
Qed.
Print Assumptions C103_binary64.
Theorem C103_binary64_report : forall E E' pow10 pow2 pr h version lab disk disk' prog prog' l l' p p' d d' r1 r2 s1 s2 sP u, even pow2 ->
  clean_line E l -> asks E l p -> clean_line E' l' -> asks E' l' p' -> counterPoise p' = counterPoise p ->
  let N := machine pow10 in let A := binary64 pow2 in
  contain N disk p d -> contain N disk' p' d' -> belong N (counterPoise p) d -> belong N (counterPoise p) d' -> rows_asked N p d r1 r2 -> rows_asked N p' d' r1 r2 ->
  lined_up N lab (counterPoise p) d u -> phases N same_up_to_sign s1 s2 sP r1 r2 d d' ->
  exists bound, forall fuel, (bound <= fuel)%nat -> exists J_ab e_a e_b S_ab J_ab' e_a' e_b' S_ab',
    main_output N A pr h version E lab disk fuel (prog :: words l) = Ok (heading version p ++ result_lines A pr h J_ab e_a e_b S_ab, advice u) /\
    main_output N A pr h version E' lab disk' fuel (prog' :: words l') = Ok (heading version p' ++ result_lines A pr h J_ab' e_a' e_b' S_ab', advice u) /\
    same_up_to_sign (xorb s1 s2) J_ab J_ab' /\ same_up_to_sign false e_a e_a' /\ same_up_to_sign false e_b e_b' /\ same_up_to_sign (xorb s1 s2) S_ab S_ab'.
Proof.
  intros E E' pow10 pow2 pr h version lab disk disk' prog prog' l l' p p' d d' r1 r2 s1 s2 sP u Hp H1 H2 H3 H4 H5 N A H6 H7 H8 H9 H10 H11 H12 H13. pose proof (binary64_laws pow2 Hp) as L.
  destruct (phase_run (machine pow10) (binary64 pow2) lab same_up_to_sign L _ (lines_of_run (machine pow10) (binary64 pow2) pr h version) (lines_same (machine pow10) (binary64 pow2) pr h version) E E' disk disk' prog prog' l l' p p' d d' r1 r2 s1 s2 sP u H1 H2 H3 H4 H5 H6 H7 H8 H9 H10 H11 H12 H13) as (bound & H).
  exists bound. intros fuel Hf. destruct (H fuel Hf) as (j & a & b & t & j' & a' & b' & t' & (P1 & P2 & P3 & P4) & Q1 & Q2). cbv beta in P1, P2, P3, P4.
  rewrite !lines_spec in Q1, Q2. exists j, a, b, t, j', a', b', t'. split; [exact Q1|]. split; [exact Q2|]. auto.
Qed.
Print Assumptions C103_binary64_report.

(** std::pow(x, 2) = x * x, correctly rounded *)
Theorem C103_even : even (fun x => dmul x x).
Proof.
  intros x. destruct x as [s|s| |s m e B]; try reflexivity; [destruct s; reflexivity..|]. unfold dmul. cbn [Bopp Bmult]. apply B2SF_inj. rewrite !B2SF_SF2B. destruct s; reflexivity.
Qed.
Print Assumptions C103_even.

(** ** A concrete pair of runs: no population analysis of monomer 1, orbital 1 of monomer 1
    and orbital 2 of the dimer with the other sign *)
Definition M : nums := machine rounded_pow10.
Definition mval (f : str) : num M := match n_stod M (trim (firstn 11 f)), n_stod M (trim (skipn 12 f)) with Ok x, Ok y => n_mul M x (n_pow10 M y) | _, _ => B754_zero false end.
Definition mfield_ok (f : str) : bool := (length f =? 15)%nat && match n_stod M (trim (firstn 11 f)), n_stod M (trim (skipn 12 f)) with Ok _, Ok _ => true | _, _ => false end.
Lemma mfield_b f : mfield_ok f = true -> field M f (mval f).
Proof.
  unfold mfield_ok, mval. intros H. apply andb_true_iff in H as [L H]. apply Nat.eqb_eq in L. split; [auto|].
  destruct (n_stod M (trim (firstn 11 f))) as [x| | | |] eqn:Ex; try discriminate H. destruct (n_stod M (trim (skipn 12 f))) as [y| | | |] eqn:Ey; try discriminate H.
  exists (trim (firstn 11 f)), (trim (skipn 12 f)), x, y. split; [apply stripped_b|]. split; [apply stripped_b|]. auto.
Qed.
Definition mrow_okb (r : list str) : bool := negb (existsb (Ascii.eqb nl) (concat r)) && negb (foundSubStrInStr (concat r) $" MO OE") && forallb mfield_ok r && (0 <? length r)%nat && (Z.of_nat (length (concat r)) <=? INT_MAX).
Lemma mrow_orbital r : mrow_okb r = true -> orbital M [concat r] (map mval r).
Proof.
  unfold mrow_okb. intros H. apply andb_true_iff in H as [H H5]. apply andb_true_iff in H as [H H4]. apply andb_true_iff in H as [H H3]. apply andb_true_iff in H as [H1 H2].
  apply negb_true_iff in H1, H2. exists [map mval r]. split; [|split; [cbn [concat]; now rewrite app_nil_r|destruct r; discriminate]].
  constructor; [|constructor]. split; [apply line_b; auto|]. split; [apply not_occurs_b; auto|]. split; [apply Z.leb_le; exact H5|]. split; [destruct r; discriminate|].
  exists r, []. split; [now rewrite app_nil_r|]. split; [cbn [length]; lia|]. clear - H3. induction r as [|f fs IH]; cbn [map]; constructor; cbn [forallb] in H3; apply andb_true_iff in H3 as [H1 H2]; [apply mfield_b; auto|auto].
Qed.
Lemma mmore_ok k rows : Forall (fun r => mrow_okb r = true /\ length r = k) rows -> forall n,
  (forall i, n <= i < n + Z.of_nat (length rows) -> existsb (Ascii.eqb nl) (title i) = false /\ foundSubStrInStr (title i) $" MO OE" = true /\ foundSubStrInStr (title i) $"Alpha" = true) ->
  orbitals M $"Alpha" k (more_orbitals n rows) (map (map mval) rows).
Proof.
  induction 1 as [|r rows [Hr Lr] F IH]; intros n Ht; cbn [more_orbitals map]; [constructor|].
  destruct (Ht n) as (T1 & T2 & T3); [cbn [length]; lia|].
  apply (orb_cons M $"Alpha" k (title n) [concat r] (map mval r)); [apply line_b; exact T1|apply occurs_b; exact T2|apply occurs_b; exact T3|apply mrow_orbital; exact Hr|rewrite map_length; exact Lr|].
  apply IH. intros i Hi. apply Ht. cbn [length]. lia.
Qed.
Definition mpun_items (r1 : list str) (rows : list (list str)) : list (pitem M) :=
  [POther M $"(5D15.8)"; Coefs M SAlpha (title 1) (concat r1 :: more_orbitals 2 rows) (Some []) (map mval r1 :: map (map mval) rows)].
Definition mvals (rows : list (list str)) : list (list (num M)) := map (map mval) rows.
Lemma mpun_says disk name r1 rows : one_dot name $".pun" -> disk name = Some (MainExample.the_pun (r1 :: rows)) ->
  mrow_okb r1 && forallb (fun r => mrow_okb r && (length r =? length r1)%nat) rows && (1 <=? length rows)%nat && (length rows <=? 3)%nat && (length r1 <=? 4)%nat = true ->
  pun_says M disk name SAlpha (mvals (r1 :: rows)).
Proof.
  intros Hd Hf H. apply andb_true_iff in H as [H H5]. apply andb_true_iff in H as [H H4]. apply andb_true_iff in H as [H H3]. apply andb_true_iff in H as [H1 H2].
  apply Nat.leb_le in H3, H4, H5. split; [exact Hd|]. eexists _, (mpun_items r1 rows). split; [exact Hf|]. split.
  - exists (concat (map (pitem_lines M) (mpun_items r1 rows))), []. split; [unfold MainExample.the_pun, pun_of; rewrite app_nil_r; reflexivity|]. split; [apply line_b; reflexivity|].
    split; [intros k; apply not_occurs_b; destruct k; reflexivity|]. unfold mpun_items. cbn [map concat].
    apply pun_item; [split; [apply line_b; reflexivity|intros k; apply not_occurs_b; destruct k; reflexivity]|].
    apply pun_item; [|apply pun_nil]. cbn [pitem_ok]. split; [apply line_b; reflexivity|]. split; [apply occurs_b; reflexivity|]. split; [discriminate|]. split.
    + exists [concat r1], (map mval r1), (more_orbitals 2 rows), (map (map mval) rows). split; [reflexivity|]. split; [reflexivity|]. split; [apply mrow_orbital; exact H1|].
      rewrite map_length. apply mmore_ok.
      * rewrite forallb_forall in H2. apply Forall_forall. intros r I. specialize (H2 r I). apply andb_true_iff in H2 as [A B]. apply Nat.eqb_eq in B. auto.
      * intros i Hi. assert (C : i = 2 \/ i = 3 \/ i = 4) by lia. destruct C as [->|[->| ->]]; vm_compute; auto.
    + split; [split; [apply line_b; reflexivity|]; split; [apply not_occurs_b; reflexivity|cbn [length]; rewrite map_length; lia]|]. split; [discriminate|].
      cbn [hd length]. rewrite !map_length. unfold INT_MAX. split; nia.
  - exists [POther M $"(5D15.8)"], []. eexists _, _, _. split; [reflexivity|]. intros h ls after rows' [].
Qed.
Definition bare_sign_disk : str -> option str :=
  six (file_of (bare_items carbon_1 pt1)) (file_of (mono_items carbon_2 pt2)) (file_of dimer_items) (MainExample.the_pun (flipped 0 m1_rows)) (MainExample.the_pun m2_rows) (MainExample.the_pun (flipped 1 P_rows)).
Lemma log_same_disk N d d' name k items en occ pts ba : d' name = d name -> log_says N d name k items en occ pts ba -> log_says N d' name k items en occ pts ba.
Proof. intros H [A B C]. constructor; auto. rewrite H. exact B. Qed.
(** doubles compared by what they are *)
Definition same_sf (x y : SpecFloat.spec_float) : bool := match x, y with
  | SpecFloat.S754_zero a, SpecFloat.S754_zero b => Bool.eqb a b | SpecFloat.S754_infinity a, SpecFloat.S754_infinity b => Bool.eqb a b | SpecFloat.S754_nan, SpecFloat.S754_nan => true
  | SpecFloat.S754_finite a m e, SpecFloat.S754_finite b n f => Bool.eqb a b && Pos.eqb m n && Z.eqb e f | _, _ => false end.
Lemma same_sf_eq x y : same_sf x y = true -> x = y.
Proof.
  destruct x, y; try discriminate; cbn [same_sf]; intros H; try reflexivity; try (apply Bool.eqb_prop in H; subst; reflexivity).
  apply andb_true_iff in H as [H H3]. apply andb_true_iff in H as [H1 H2]. apply Bool.eqb_prop in H1. apply Pos.eqb_eq in H2. apply Z.eqb_eq in H3. subst. reflexivity.
Qed.
Definition sign_b (s : bool) (x y : double) : bool := same_sf (B2SF y) (B2SF (if s then Bopp x else x)) || match x, y with B754_zero _, B754_zero _ => true | _, _ => false end.
Lemma sign_b_ok s x y : sign_b s x y = true -> same_up_to_sign s x y.
Proof.
  unfold sign_b. intros H. apply orb_true_iff in H as [H|H]; [left; apply same_sf_eq in H; apply B2SF_inj; exact H|right]. destruct x; try discriminate H. destruct y; try discriminate H. repeat split.
Qed.
Lemma mcells (l l' : list (list (num M))) (s : bool) (r1 : Z) n : forallb (fun c => sign_b s (table M l r1 (Z.of_nat c)) (table M l' r1 (Z.of_nat c))) (seq 1 n) = true ->
  forall c, 1 <= c <= Z.of_nat n -> same_up_to_sign s (table M l r1 c) (table M l' r1 c).
Proof.
  intros H c Hc. rewrite forallb_forall in H. apply sign_b_ok. specialize (H (Z.to_nat c)). rewrite Z2Nat.id in H by lia. apply H, in_seq. lia.
Qed.
Definition bare_run disk := main disk1 M (binary64 (fun x => dmul x x)) (label 4) disk 3000 ($"calc_J" :: words the_line).
Example C103_binary64_example : even (fun x => dmul x x) /\ clean_line disk1 the_line /\ asks disk1 the_line (the_params false) /\
  (exists e e', contain M bare_disk (the_params false) e /\ contain M bare_sign_disk (the_params false) e' /\ belong M false e /\ belong M false e' /\
     rows_asked M (the_params false) e 1 2 /\ rows_asked M (the_params false) e' 1 2 /\ lined_up M (label 4) false e false /\
     phases M same_up_to_sign true false second 1 2 e e').
Proof.
  destruct (request_params the_line false the_request) as [H1 H2]. split; [exact C103_even|]. split; [exact H1|]. split; [exact H2|].
  destruct (written_contain _ _ _ bare_contain) as (w & Cw & Rw). destruct (machine_contains rounded_pow10 _ _ _ C85_powers Cw) as (e & Ce & Re). change (machine rounded_pow10) with M in e, Ce, Re.
  pose proof (belong_para _ _ _ _ _ _ Re (belong_para _ _ _ false _ _ Rw (proj1 (proj2 (proj2 (proj2 C73_as_read_example)))))) as Be.
  pose proof (rows_para _ _ _ _ _ _ _ _ Re (rows_para _ _ _ _ _ _ _ _ Rw (proj1 (proj2 (proj2 (proj2 (proj2 C73_as_read_example))))))) as Ra.
  assert (B1 : ba1 M e = []) by (rewrite <- (dr_b1 _ _ _ _ _ Re), <- (dr_b1 _ _ _ _ _ Rw); reflexivity). assert (Sn : size M e = 4) by (rewrite <- (dr_n _ _ _ _ _ Re), <- (dr_n _ _ _ _ _ Rw); reflexivity).
  assert (E1 : count (en1 M e) = 2) by (rewrite <- (count_rel _ _ _ (dr_e1 _ _ _ _ _ Re)), <- (count_rel _ _ _ (dr_e1 _ _ _ _ _ Rw)); reflexivity).
  assert (E2 : count (en2 M e) = 2) by (rewrite <- (count_rel _ _ _ (dr_e2 _ _ _ _ _ Re)), <- (count_rel _ _ _ (dr_e2 _ _ _ _ _ Rw)); reflexivity).
  assert (EP : count (enP M e) = 4) by (rewrite <- (count_rel _ _ _ (dr_eP _ _ _ _ _ Re)), <- (count_rel _ _ _ (dr_eP _ _ _ _ _ Rw)); reflexivity).
  set (with_rows := fun c1 cP => mkData M c1 (mvals m2_rows) cP (en1 M e) (en2 M e) (enP M e) (occ1 M e) (occ2 M e) (occP M e) (at1 M e) (at2 M e) (atP M e) (ba1 M e) (ba2 M e) (baP M e) (size M e) (over M e)).
  exists (with_rows (mvals m1_rows) (mvals P_rows)), (with_rows (mvals (flipped 0 m1_rows)) (mvals (flipped 1 P_rows))).
  destruct Ce as (k1 & k2 & kP & i1 & i2 & iP & S1 & S2 & SP & _ & _ & _ & L1 & L2 & LP & LO).
  assert (K1 : k1 = SAlpha) by (destruct k1; [reflexivity|discriminate S1]). assert (K2 : k2 = SAlpha) by (destruct k2; [reflexivity|discriminate S2]). assert (KP : kP = SAlpha) by (destruct kP; [reflexivity|discriminate SP]). subst k1 k2 kP.
  destruct Be as [b1 b2 b3 b4 b5 b6].
  split; [|split; [|split; [|split; [|split; [|split; [|split]]]]]].
  - exists SAlpha, SAlpha, SAlpha, i1, i2, iP. split; [reflexivity|]. split; [reflexivity|]. split; [reflexivity|].
    split; [apply mpun_says; [exact (dot_pun $"m1" eq_refl eq_refl)|reflexivity|vm_compute; reflexivity]|]. split; [apply mpun_says; [exact (dot_pun $"m2" eq_refl eq_refl)|reflexivity|vm_compute; reflexivity]|].
    split; [apply mpun_says; [exact (proj2 dot_dimer)|reflexivity|vm_compute; reflexivity]|]. auto.
  - exists SAlpha, SAlpha, SAlpha, i1, i2, iP. split; [reflexivity|]. split; [reflexivity|]. split; [reflexivity|].
    split; [apply mpun_says; [exact (dot_pun $"m1" eq_refl eq_refl)|reflexivity|vm_compute; reflexivity]|]. split; [apply mpun_says; [exact (dot_pun $"m2" eq_refl eq_refl)|reflexivity|vm_compute; reflexivity]|].
    split; [apply mpun_says; [exact (proj2 dot_dimer)|reflexivity|vm_compute; reflexivity]|].
    split; [apply (log_same_disk M bare_disk); [reflexivity|exact L1]|]. split; [apply (log_same_disk M bare_disk); [reflexivity|exact L2]|]. split; [apply (log_same_disk M bare_disk); [reflexivity|exact LP]|exact LO].
  - constructor; cbn [with_rows en1 en2 enP coef1 coef2 coefP size at1 at2 atP]; rewrite ?E1, ?E2, ?EP, ?Sn; try reflexivity. split; [vm_compute; discriminate|exact (proj2 b6)].
  - constructor; cbn [with_rows en1 en2 enP coef1 coef2 coefP size at1 at2 atP]; rewrite ?E1, ?E2, ?EP, ?Sn; try reflexivity. split; [vm_compute; discriminate|exact (proj2 b6)].
  - exact Ra.
  - exact Ra.
  - apply lu_not. left. exact B1.
  - constructor.
    + intros c Hc. change (1 <= c <= Z.of_nat 2) in Hc. revert c Hc. apply mcells. vm_compute. reflexivity.
    + intros c Hc. change (1 <= c <= Z.of_nat 2) in Hc. revert c Hc. apply mcells. vm_compute. reflexivity.
    + intros k c Hk Hc. change (1 <= k <= 4) in Hk. change (1 <= c <= Z.of_nat 4) in Hc. revert c Hc. assert (k = 1 \/ k = 2 \/ k = 3 \/ k = 4) as [->|[->|[->| ->]]] by lia; apply mcells; vm_compute; reflexivity.
    + split; reflexivity.
    + reflexivity.
    + split; reflexivity.
    + split; [reflexivity|split; reflexivity].
    + split; [reflexivity|split; reflexivity].
Qed.
(** the outputs of the two runs *)
Definition shown_run disk := main_output M (binary64 (fun x => dmul x x)) print_double hartreeToeV $"1.0" disk1 (label 4) disk 3000 ($"calc_J" :: words the_line).
Definition tail_lines (o : outcome (list str * list str)) : list str := match o with Ok (out, _) => skipn 12 out | _ => [] end.
Example C103_binary64_output : tail_lines (shown_run bare_disk) = [$"J_ab  -3.03821 eV"; $"e_a   -25.3595 eV"; $"e_b   0.31309 eV"; $"S_ab  -0.314835"; $"J_eff -7.74905 eV"] /\
  tail_lines (shown_run bare_sign_disk) = [$"J_ab  3.03821 eV"; $"e_a   -25.3595 eV"; $"e_b   0.31309 eV"; $"S_ab  0.314835"; $"J_eff 7.74905 eV"].
Proof. split; vm_compute; reflexivity. Qed.
