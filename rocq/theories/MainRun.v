(** * calc_J as a whole, for anything made of the four numbers (the value, the lines printed) *)
From Verif Require Import QcOrder QcTransfer QcFinal QcProps.
From Verif Require Import ParserWf ParserCheck CatnipProps ReaderProps ReaderPunProps.
From Verif Require Export MainFacts.
From Verif Require Export StrSpec StrModel.
Open Scope Z_scope.

(** ** For every command line and all files the readers accept

    [p]: the parameters CATNIP takes from the command line [argv] (C58, C62);
    [R]: what the readers hold after reading the six files (C64-C71);
    r1, r2: the rows of the requested orbitals (C34). *)

(** a file without population analysis: the matrices are used as they were read *)
Lemma with_as_read : forall E N A lab disk X (finish : params -> bool -> num N -> num N -> num N -> num N -> X) fuel argv P p R n1 n2 n a b fP fS x1 x2 xP r1 r2,
  parse argv (catnip E) = Ok P -> prepareParameters P = Ok p ->
  readers_hold N disk fuel p R -> agree N (counterPoise p) R n1 n2 n a b fP fS ->
  three N (x_1 N R) x1 -> three N (x_2 N R) x2 -> three N (x_P N R) xP ->
  orbital_row (count (e_1 N R)) (h_1 N R) (orb_type1 p) (orb_num1 p) = Some r1 ->
  orbital_row (count (e_2 N R)) (h_2 N R) (orb_type2 p) (orb_num2 p) = Some r2 ->
  b_1 N R = [] \/ b_2 N R = [] \/ b_P N R = [] ->
  main_with E N A lab disk finish fuel argv = Ok (numbers_value A (finish p false) (counterPoise p) n1 n (count (e_P N R)) a b fP fS (entry N (e_P N R)) r1 r2).
Proof.
  intros E N A lab disk X finish fuel argv P p R n1 n2 n a b fP fS x1 x2 xP r1 r2 Hp Hpp Hr Ha T1 T2 TP Ro1 Ro2 Hb.
  rewrite (main_params E N A lab disk finish fuel argv P p Hp Hpp).
  destruct (job_steps N A lab disk finish fuel p R n1 n2 n a b fP fS x1 x2 xP Hr Ha T1 T2 TP) as (mE & c1 & c2 & cP & Ft & _ & _ & _ & ->).
  assert (Sb : some_basis N R = false).
  { unfold some_basis. destruct Hb as [->|[->| ->]]; cbn [length Nat.eqb negb]; rewrite ?andb_false_r; reflexivity. }
  rewrite Sb. cbn [bind]. exact (calcJ_with_ok A (finish p false) _ _ _ _ _ _ _ _ _ _ _ _ (otypes p) (onums p) _ _ _ _ r1 r2 Ft eq_refl eq_refl eq_refl eq_refl Ro1 Ro2).
Qed.
(** with population analyses, without counterpoise correction: the dimer's basis
    functions are first put in the order of the atoms of monomer 1, then of monomer 2 *)
Lemma with_plain : forall E N A lab disk X (finish : params -> bool -> num N -> num N -> num N -> num N -> X) fuel argv P p R n1 n2 n a b fP fS r1 r2 oA oB,
  parse argv (catnip E) = Ok P -> prepareParameters P = Ok p -> counterPoise p = false ->
  readers_hold N disk fuel p R -> agree N false R n1 n2 n a b fP fS ->
  three N (x_1 N R) (count oA) -> three N (x_2 N R) (count oB) -> three N (x_P N R) (count (b_P N R)) ->
  orbital_row (count (e_1 N R)) (h_1 N R) (orb_type1 p) (orb_num1 p) = Some r1 ->
  orbital_row (count (e_2 N R)) (h_2 N R) (orb_type2 p) (orb_num2 p) = Some r2 ->
  b_1 N R <> [] -> b_2 N R <> [] -> b_P N R <> [] ->
  finds lab 3 (count (b_P N R)) (place N (x_1 N R)) (place N (x_P N R)) oA ->
  finds lab 3 (count (b_P N R)) (place N (x_2 N R)) (place N (x_P N R)) oB ->
  is_order (count (b_P N R)) (oA ++ oB) -> Forall (fun k => 1 <= k) (b_P N R) -> total (b_P N R) = n -> (length (b_P N R) + 2 <= fuel)%nat ->
  exists gP gS, blocks_moved (b_P N R) (oA ++ oB) fP gP /\ blocks_moved2 (b_P N R) (oA ++ oB) fS gS /\
    main_with E N A lab disk finish fuel argv = Ok (numbers_value A (finish p true) false n1 n (count (e_P N R)) a b gP gS (entry N (e_P N R)) r1 r2).
Proof.
  intros E N A lab disk X finish fuel argv P p R n1 n2 n a b fP fS r1 r2 oA oB Hp Hpp Hcp Hr Ha T1 T2 TP Ro1 Ro2 Nb1 Nb2 NbP FA FB Ho Fb Tb Hf.
  rewrite (main_params E N A lab disk finish fuel argv P p Hp Hpp). assert (Ha' : agree N (counterPoise p) R n1 n2 n a b fP fS) by (rewrite Hcp; exact Ha).
  destruct (job_steps N A lab disk finish fuel p R n1 n2 n a b fP fS _ _ _ Hr Ha' T1 T2 TP) as (mE & c1 & c2 & cP & Ft & D1 & D2 & DP & ->).
  assert (Sb : some_basis N R = true).
  { unfold some_basis. destruct (b_1 N R); [congruence|]. destruct (b_2 N R); [congruence|]. destruct (b_P N R); [congruence|]. reflexivity. }
  rewrite Sb. rewrite Hcp in Ft |- *. destruct Ft as [t1 t2 tP tS tE to1 to2 tpos tN].
  cbn [tc_cp] in tN.
  destruct (unscramble_plain A lab fuel (mkTC (m_1 N R) (m_2 N R) (m_P N R) (count (e_1 N R), h_1 N R) (count (e_2 N R), h_2 N R) (m_S N R) mE false false) c1 c2 cP 3 _ _ _ _ _ oA oB (b_P N R) (b_2 N R) n (count (e_P N R)) fP fS eq_refl D1 D2 DP eq_refl eq_refl FA FB Ho Fb Tb) as (uP & uS & -> & DuP & DuS); auto; try lia.
  cbn [bind tc_1 tc_2 tc_orbs1 tc_orbs2 tc_OE]. exists (perm_fun (a_zero A) (b_P N R) (oA ++ oB) fP), (fun r c => perm_fun (a_zero A) (b_P N R) (oA ++ oB) (fun c' r' => perm_fun (a_zero A) (b_P N R) (oA ++ oB) fS r' c') c r).
  split; [apply perm_moved; auto|]. split; [apply perm_moved2; auto|].
  refine (calcJ_with_ok A (finish p true) (mkTC (m_1 N R) (m_2 N R) uP (count (e_1 N R), h_1 N R) (count (e_2 N R), h_2 N R) uS mE true false) (count (e_1 N R)) (count (e_2 N R)) n1 n2 n (count (e_P N R)) a b _ _ (entry N (e_P N R)) (otypes p) (onums p) _ _ _ _ r1 r2 _ eq_refl eq_refl eq_refl eq_refl Ro1 Ro2).
  constructor; auto.
Qed.
(** with population analyses and counterpoise correction: the basis functions of
    monomer 2 and of the dimer are put in the order of the atoms of monomer 1 *)
Lemma with_counterpoise : forall E N A lab disk X (finish : params -> bool -> num N -> num N -> num N -> num N -> X) fuel argv P p R n1 n2 n a b fP fS r1 r2 o2 oP,
  parse argv (catnip E) = Ok P -> prepareParameters P = Ok p -> counterPoise p = true ->
  readers_hold N disk fuel p R -> agree N true R n1 n2 n a b fP fS -> 1 <= count (e_2 N R) ->
  three N (x_1 N R) (count (b_P N R)) -> three N (x_2 N R) (count (b_P N R)) -> three N (x_P N R) (count (b_P N R)) ->
  orbital_row (count (e_1 N R)) (h_1 N R) (orb_type1 p) (orb_num1 p) = Some r1 ->
  orbital_row (count (e_2 N R)) (h_2 N R) (orb_type2 p) (orb_num2 p) = Some r2 ->
  b_1 N R <> [] -> length (b_2 N R) = length (b_P N R) -> b_P N R <> [] ->
  finds lab 3 (count (b_P N R)) (place N (x_1 N R)) (place N (x_2 N R)) o2 ->
  finds lab 3 (count (b_P N R)) (place N (x_1 N R)) (place N (x_P N R)) oP ->
  is_order (count (b_P N R)) o2 -> is_order (count (b_P N R)) oP ->
  Forall (fun k => 1 <= k) (b_P N R) -> Forall (fun k => 1 <= k) (b_2 N R) -> total (b_P N R) = n -> total (b_2 N R) = n -> (length (b_P N R) + 2 <= fuel)%nat ->
  exists g2 gP gS, blocks_moved (b_2 N R) o2 b g2 /\ blocks_moved (b_P N R) oP fP gP /\ blocks_moved2 (b_P N R) oP fS gS /\
    main_with E N A lab disk finish fuel argv = Ok (numbers_value A (finish p true) true n1 n (count (e_P N R)) a g2 gP gS (entry N (e_P N R)) r1 r2).
Proof.
  intros E N A lab disk X finish fuel argv P p R n1 n2 n a b fP fS r1 r2 o2 oP Hp Hpp Hcp Hr Ha H2 T1 T2 TP Ro1 Ro2 Nb1 Lb2 NbP F2 FP Ho2 HoP Fb Fb2 Tb Tb2 Hf.
  rewrite (main_params E N A lab disk finish fuel argv P p Hp Hpp). assert (Ha' : agree N (counterPoise p) R n1 n2 n a b fP fS) by (rewrite Hcp; exact Ha).
  destruct (job_steps N A lab disk finish fuel p R n1 n2 n a b fP fS _ _ _ Hr Ha' T1 T2 TP) as (mE & c1 & c2 & cP & Ft & D1 & D2 & DP & ->).
  assert (Sb : some_basis N R = true).
  { unfold some_basis. destruct (b_1 N R); [congruence|]. rewrite Lb2. destruct (b_P N R); [congruence|]. reflexivity. }
  rewrite Sb. rewrite Hcp in Ft |- *. destruct Ft as [t1 t2 tP tS tE to1 to2 tpos tN]. cbn [tc_cp] in tN. destruct tN as [-> ->].
  destruct (unscramble_cp A lab fuel (mkTC (m_1 N R) (m_2 N R) (m_P N R) (count (e_1 N R), h_1 N R) (count (e_2 N R), h_2 N R) (m_S N R) mE false true) c1 c2 cP 3 _ _ _ o2 oP (b_P N R) (b_2 N R) n (count (e_2 N R)) (count (e_P N R)) b fP fS eq_refl Lb2 D1 D2 DP F2 FP Ho2 HoP Fb Fb2 Tb Tb2) as (u2 & uP & uS & -> & Du2 & DuP & DuS); auto; try lia.
  cbn [bind tc_1 tc_2 tc_orbs1 tc_orbs2 tc_OE]. eexists _, _, _.
  split; [apply (perm_moved (a_zero A)); [auto|rewrite Lb2; auto]|]. split; [apply (perm_moved (a_zero A)); auto|]. split; [apply (perm_moved2 (a_zero A)); auto|].
  refine (calcJ_with_ok A (finish p true) (mkTC (m_1 N R) u2 uP (count (e_1 N R), h_1 N R) (count (e_2 N R), h_2 N R) uS mE true true) (count (e_1 N R)) (count (e_2 N R)) n n n (count (e_P N R)) a _ _ _ (entry N (e_P N R)) (otypes p) (onums p) _ _ _ _ r1 r2 _ eq_refl eq_refl eq_refl eq_refl Ro1 Ro2).
  constructor; cbn [tc_1 tc_2 tc_P tc_S tc_OE tc_orbs1 tc_orbs2 tc_cp]; auto.
Qed.
(** conversely a value is computed only if the command line is accepted and the six files chosen by it are read *)
Lemma with_only : forall E N A lab disk X (finish : params -> bool -> num N -> num N -> num N -> num N -> X) fuel argv J, main_with E N A lab disk finish fuel argv = Ok J ->
  exists P p R, parse argv (catnip E) = Ok P /\ prepareParameters P = Ok p /\ readers_hold N disk fuel p R.
Proof.
  intros E N A lab disk X finish fuel argv J H0.
  destruct (main_inv E N A lab disk finish fuel argv J H0) as (P & p & HP & Hp & H). clear H0. exists P, p.
  unfold run_job_with in H. apply bind_ok in H as (prP & X1 & H). apply bind_ok in H as (pr1 & X2 & H). apply bind_ok in H as (pr2 & X3 & H).
  apply bind_ok in H as (lrP & X4 & H). apply bind_ok in H as (lr1 & X5 & H). apply bind_ok in H as (lr2 & X6 & H). unfold compute_with in H.
  apply bind_ok in H as (mS & Y1 & H). apply bind_ok in H as (mP & Y2 & H). apply bind_ok in H as (eP & Y3 & H). apply bind_ok in H as (? & _ & H).
  apply bind_ok in H as (h1 & Y4 & H). apply bind_ok in H as (m1 & Y5 & H). apply bind_ok in H as (e1 & Y6 & H). apply bind_ok in H as (? & _ & H).
  apply bind_ok in H as (h2 & Y7 & H). apply bind_ok in H as (m2 & Y8 & H). apply bind_ok in H as (e2 & Y9 & H).
  exists (mkReading N m1 m2 mP mS e1 e2 eP h1 h2 (getCoords N lr1) (getCoords N lr2) (getCoords N lrP) (getBasisFuncCount N lr1) (getBasisFuncCount N lr2) (getBasisFuncCount N lrP)).
  split; [exact HP|]. split; [exact Hp|]. exists pr1, pr2, prP, lr1, lr2, lrP. cbn [m_1 m_2 m_P m_S e_1 e_2 e_P h_1 h_2 x_1 x_2 x_P b_1 b_2 b_P].
  repeat (split; [assumption || reflexivity|]). reflexivity.
Qed.

(** ** From the command line and the contents of correctly printed files *)
Lemma with_files_as_read : forall E N A lab disk X (finish : params -> bool -> num N -> num N -> num N -> num N -> X) prog l p d r1 r2, (forall q, same_request q p -> finish q = finish p) -> clean_line E l -> asks E l p ->
  contain N disk p d -> belong N (counterPoise p) d -> rows_asked N p d r1 r2 ->
  ba1 N d = [] \/ ba2 N d = [] \/ baP N d = [] ->
  exists bound, forall fuel, (bound <= fuel)%nat ->
    main_with E N A lab disk finish fuel (prog :: words l) = Ok (numbers_of_job N A (finish p false) p d (table N (coef2 N d)) (table N (coefP N d)) (symmetric N (over N d)) r1 r2).
Proof.
  intros E N A lab disk X finish prog l p d r1 r2 Hsame (V & Nw & On) Ha Hc Hb (Ro1 & Ro2) Hn. destruct (files_hold N disk p d Hc Hb) as (bound & H). exists bound. intros fuel Hfuel.
  destruct (H fuel Hfuel) as (R & Hr & Hag & T1 & T2 & TP & _ & _ & _ & G1 & G2 & GP & G3 & G4 & B1 & B2 & BP).
  destruct (line_params E prog l p V Nw On Ha) as (P & p' & Hp & Hpp & Ef & K1 & K2 & K3 & K4 & K5 & K6 & K7 & K8).
  rewrite <- G1, <- G3, <- K4, <- K6 in Ro1. rewrite <- G2, <- G4, <- K5, <- K7 in Ro2. rewrite <- B1, <- B2, <- BP in Hn. rewrite <- K8 in Hag.
  rewrite <- (Hsame p' (conj Ef (conj K1 (conj K2 (conj K3 (conj K4 (conj K5 (conj K6 (conj K7 K8))))))))). unfold numbers_of_job. rewrite <- (be_eP N _ _ Hb), <- GP, <- K8.
  refine (with_as_read E N A lab disk X finish fuel (prog :: words l) P p' R _ _ _ _ _ _ _ _ _ _ r1 r2 Hp Hpp _ Hag T1 T2 TP Ro1 Ro2 Hn).
  apply (hold_same N disk fuel p p' R); auto.
Qed.
Lemma with_files_plain : forall E N A lab disk X (finish : params -> bool -> num N -> num N -> num N -> num N -> X) prog l p d r1 r2 oA oB, (forall q, same_request q p -> finish q = finish p) -> clean_line E l -> asks E l p -> counterPoise p = false ->
  contain N disk p d -> belong N false d -> rows_asked N p d r1 r2 ->
  ba1 N d <> [] -> ba2 N d <> [] -> baP N d <> [] -> total (baP N d) = size N d -> Forall (fun k => 1 <= k) (baP N d) ->
  count (at1 N d) = count oA -> count (at2 N d) = count oB -> count (atP N d) = count (baP N d) ->
  finds lab 3 (count (baP N d)) (position N (at1 N d)) (position N (atP N d)) oA ->
  finds lab 3 (count (baP N d)) (position N (at2 N d)) (position N (atP N d)) oB ->
  is_order (count (baP N d)) (oA ++ oB) ->
  exists bound, forall fuel, (bound <= fuel)%nat -> exists gP gS,
    blocks_moved (baP N d) (oA ++ oB) (table N (coefP N d)) gP /\ blocks_moved2 (baP N d) (oA ++ oB) (symmetric N (over N d)) gS /\
    main_with E N A lab disk finish fuel (prog :: words l) = Ok (numbers_of_job N A (finish p true) p d (table N (coef2 N d)) gP gS r1 r2).
Proof.
  intros E N A lab disk X finish prog l p d r1 r2 oA oB Hsame (V & Nw & On) Ha Hcp Hc Hb (Ro1 & Ro2) N1 N2 NP Tb Fb A1 A2 AP FA FB Ho.
  assert (Hb' : belong N (counterPoise p) d) by (rewrite Hcp; exact Hb).
  destruct (files_hold N disk p d Hc Hb') as (bound & H). exists (bound + (length (baP N d) + 2))%nat. intros fuel Hfuel.
  destruct (H fuel) as (R & Hr & Hag & T1 & T2 & TP & X1 & X2 & XP & G1 & G2 & GP & G3 & G4 & B1 & B2 & BP); [lia|].
  destruct (line_params E prog l p V Nw On Ha) as (P & p' & Hp & Hpp & Ef & K1 & K2 & K3 & K4 & K5 & K6 & K7 & K8).
  rewrite Hcp in Hag. rewrite A1 in T1. rewrite A2 in T2. rewrite AP, <- BP in TP. rewrite <- X1, <- XP, <- BP in FA. rewrite <- X2, <- XP, <- BP in FB. rewrite <- BP in Ho, Fb, Tb, NP |- *.
  rewrite <- B1 in N1. rewrite <- B2 in N2. rewrite <- G1, <- G3, <- K4, <- K6 in Ro1. rewrite <- G2, <- G4, <- K5, <- K7 in Ro2. pose proof K8 as K8'. rewrite Hcp in K8.
  rewrite <- (Hsame p' (conj Ef (conj K1 (conj K2 (conj K3 (conj K4 (conj K5 (conj K6 (conj K7 K8'))))))))). unfold numbers_of_job. rewrite <- (be_eP N _ _ Hb), <- GP, Hcp.
  refine (with_plain E N A lab disk X finish fuel (prog :: words l) P p' R _ _ _ _ _ _ _ r1 r2 oA oB Hp Hpp K8 _ Hag T1 T2 TP Ro1 Ro2 N1 N2 NP FA FB Ho Fb Tb _); [|rewrite BP; lia].
  apply (hold_same N disk fuel p p' R); auto.
Qed.
Lemma with_files_counterpoise : forall E N A lab disk X (finish : params -> bool -> num N -> num N -> num N -> num N -> X) prog l p d r1 r2 o2 oP, (forall q, same_request q p -> finish q = finish p) -> clean_line E l -> asks E l p -> counterPoise p = true ->
  contain N disk p d -> belong N true d -> rows_asked N p d r1 r2 ->
  ba1 N d <> [] -> length (ba2 N d) = length (baP N d) -> baP N d <> [] -> total (baP N d) = size N d -> total (ba2 N d) = size N d ->
  Forall (fun k => 1 <= k) (baP N d) -> Forall (fun k => 1 <= k) (ba2 N d) ->
  count (at1 N d) = count (baP N d) -> count (at2 N d) = count (baP N d) -> count (atP N d) = count (baP N d) ->
  finds lab 3 (count (baP N d)) (position N (at1 N d)) (position N (at2 N d)) o2 ->
  finds lab 3 (count (baP N d)) (position N (at1 N d)) (position N (atP N d)) oP ->
  is_order (count (baP N d)) o2 -> is_order (count (baP N d)) oP ->
  exists bound, forall fuel, (bound <= fuel)%nat -> exists g2 gP gS,
    blocks_moved (ba2 N d) o2 (table N (coef2 N d)) g2 /\
    blocks_moved (baP N d) oP (table N (coefP N d)) gP /\ blocks_moved2 (baP N d) oP (symmetric N (over N d)) gS /\
    main_with E N A lab disk finish fuel (prog :: words l) = Ok (numbers_of_job N A (finish p true) p d g2 gP gS r1 r2).
Proof.
  intros E N A lab disk X finish prog l p d r1 r2 o2 oP Hsame (V & Nw & On) Ha Hcp Hc Hb (Ro1 & Ro2) N1 L2 NP Tb Tb2 Fb Fb2 A1 A2 AP F2 FP Ho2 HoP.
  assert (Hb' : belong N (counterPoise p) d) by (rewrite Hcp; exact Hb).
  destruct (files_hold N disk p d Hc Hb') as (bound & H). exists (bound + (length (baP N d) + 2))%nat. intros fuel Hfuel.
  destruct (H fuel) as (R & Hr & Hag & T1 & T2 & TP & X1 & X2 & XP & G1 & G2 & GP & G3 & G4 & B1 & B2 & BP); [lia|].
  destruct (line_params E prog l p V Nw On Ha) as (P & p' & Hp & Hpp & Ef & K1 & K2 & K3 & K4 & K5 & K6 & K7 & K8).
  assert (C2 : 1 <= count (e_2 N R)).
  { rewrite G2, (be_e2 N _ _ Hb). destruct Hc as (? & ? & ? & ? & ? & ? & _ & _ & _ & _ & U2 & _). apply (pun_opens N disk _ _ _ U2). }
  rewrite Hcp in Hag. rewrite A1, <- BP in T1. rewrite A2, <- BP in T2. rewrite AP, <- BP in TP. rewrite <- X1, <- X2, <- BP in F2. rewrite <- X1, <- XP, <- BP in FP.
  rewrite <- B2, <- BP in L2. rewrite <- BP in Ho2, HoP, Fb, Tb, NP |- *. rewrite <- B2 in Fb2, Tb2 |- *.
  rewrite <- B1 in N1. rewrite <- G1, <- G3, <- K4, <- K6 in Ro1. rewrite <- G2, <- G4, <- K5, <- K7 in Ro2. pose proof K8 as K8'. rewrite Hcp in K8.
  rewrite <- (Hsame p' (conj Ef (conj K1 (conj K2 (conj K3 (conj K4 (conj K5 (conj K6 (conj K7 K8'))))))))). unfold numbers_of_job. rewrite <- (be_eP N _ _ Hb), <- GP, Hcp.
  refine (with_counterpoise E N A lab disk X finish fuel (prog :: words l) P p' R _ _ _ _ _ _ _ r1 r2 o2 oP Hp Hpp K8 _ Hag C2 T1 T2 TP Ro1 Ro2 N1 L2 NP F2 FP Ho2 HoP Fb Fb2 Tb Tb2 _); [|rewrite BP; lia].
  apply (hold_same N disk fuel p p' R); auto.
Qed.


(** ** one run, many views: the run does not depend on what is made of the numbers *)
Definition all_numbers {N : nums} (p : params) (u : bool) (a b c d : num N) : params * bool * (num N * num N * num N * num N) := (p, u, (a, b, c, d)).
Definition view {N : nums} {X} (finish : params -> bool -> num N -> num N -> num N -> num N -> X) (q : params * bool * (num N * num N * num N * num N)) : X :=
  let '(p, u, (a, b, c, d)) := q in finish p u a b c d.
Lemma bind_map {X Y Z} (o : outcome X) (f : X -> outcome Y) (g : Y -> outcome Z) (h : X -> outcome Z) :
  (forall x, h x = (y <- f x ;; g y)) -> bind o h = (y <- bind o f ;; g y).
Proof. intros H. destruct o; cbn [bind]; auto. Qed.
Lemma run_view E N A lab disk X (finish : params -> bool -> num N -> num N -> num N -> num N -> X) fuel argv :
  main_with E N A lab disk finish fuel argv = (q <- main_with E N A lab disk all_numbers fuel argv ;; Ok (view finish q)).
Proof.
  unfold main_with, run_job_with, compute_with. cbv zeta. repeat (first [reflexivity | apply bind_map; intros ?]).
Qed.
