(** * Properties C79-C81: what calc_J prints and how it ends *)
From Verif Require Import ParserWf ParserLine ParserCheck CatnipProps.
From Verif Require Import Exact QcProps.
From Verif Require Import MainProps.
From Verif Require Export OutputSpec OutputFacts OutputExit.
From Verif Require Import MainExample.
Import ReaderExample.
From Verif Require Export StrSpec StrModel.
Open Scope Z_scope.

Lemma output_view E N A pr h version lab disk fuel argv o : main_output N A pr h version E lab disk fuel argv = Ok o ->
  exists p u a b c d, main_with E N A lab disk all_numbers fuel argv = Ok (p, u, (a, b, c, d)) /\ o = lines_of_run N A pr h version p u a b c d.
Proof.
  unfold main_output. rewrite run_view. intros H. apply bind_ok in H as ([[p u] [[[a b] c] d]] & H & Ho). exists p, u, a, b, c, d. split; [exact H|].
  apply (f_equal (fun x => match x with Ok y => y | _ => o end)) in Ho. exact (eq_sym Ho).
Qed.
Lemma view_facts E N A lab disk fuel argv p u a b c d : main_with E N A lab disk all_numbers fuel argv = Ok (p, u, (a, b, c, d)) ->
  exists P R, parse argv (catnip E) = Ok P /\ prepareParameters P = Ok p /\ readers_hold N disk fuel p R /\
    (is_spin (spinP p) /\ is_spin (spin1 p) /\ is_spin (spin2 p)) /\ (known_type (orb_type1 p) /\ known_type (orb_type2 p)) /\ u = some_basis N R /\
    (if counterPoise p then MatrixModel.cols (m_1 N R) = MatrixModel.cols (m_P N R) /\ MatrixModel.cols (m_2 N R) = MatrixModel.cols (m_P N R)
     else MatrixModel.cols (m_1 N R) + MatrixModel.cols (m_2 N R) <= MatrixModel.cols (m_P N R)).
Proof.
  intros H. destruct (main_inv E N A lab disk all_numbers fuel argv _ H) as (P & p0 & HP & Hp & Hj).
  destruct (run_facts N A lab disk fuel p0 _ Hj) as (R & Hr & Hs & Ht & E1 & E2 & Hc). cbn [fst snd] in E1, E2. subst p0. exists P, R. split; [exact HP|].
  split; [exact Hp|]. split; [exact Hr|]. split; [exact Hs|]. split; [exact Ht|]. split; [exact E2|exact Hc].
Qed.

(** ** C79: the output identifies the files, spins and orbitals of the run *)
Definition head_lines (version : str) (p : params) : list str := [[]; $"Running calc_J VERSION " ++ version] ++ echo_files p ++ [[]] ++ echo p.
Lemma head_ok version p : (forall n, In n (names p) -> ~ In nl n) -> ~ In nl version -> is_spin (spinP p) /\ is_spin (spin1 p) /\ is_spin (spin2 p) ->
  known_type (orb_type1 p) /\ known_type (orb_type2 p) -> forall x, In x (head_lines version p) -> ~ In nl x.
Proof.
  intros Hn Hv (S1 & S2 & S3) (T1 & T2) x I.
  assert (Sn : forall s, is_spin s -> ~ In nl s) by (intros s [->| ->]; apply nl_b; reflexivity).
  assert (Tn : forall s n, known_type s -> ~ In nl (orbital_text s n)) by (intros s n [->| ->]; rewrite orbital_offset; apply no_nl_app; [apply nl_b; reflexivity|apply offset_no_nl|apply nl_b; reflexivity|apply offset_no_nl]).
  unfold names in Hn. unfold head_lines, echo_files, echo in I. cbn [app In] in I.
  destruct I as [<-|[<-|[<-|[<-|[<-|[<-|[<-|[<-|[<-|[<-|[<-|[<-|[]]]]]]]]]]]]]; try (intros []; fail).
  - apply no_nl_app; [apply nl_b; reflexivity|exact Hv].
  - apply no_nl_app; [apply nl_b; reflexivity|apply Hn; cbn [In]; tauto].
  - apply no_nl_app; [apply nl_b; reflexivity|apply Hn; cbn [In]; tauto].
  - apply no_nl_app; [apply nl_b; reflexivity|apply Hn; cbn [In]; tauto].
  - apply no_nl_app; [apply nl_b; reflexivity|apply Hn; cbn [In]; tauto].
  - apply no_nl_app; [apply nl_b; reflexivity|apply Hn; cbn [In]; tauto].
  - apply no_nl_app; [apply nl_b; reflexivity|apply Hn; cbn [In]; tauto].
  - apply no_nl_app; [apply nl_b; reflexivity|auto].
  - apply no_nl_app; [apply nl_b; reflexivity|]. apply no_nl_app; [auto|]. apply no_nl_app; [apply nl_b; reflexivity|auto].
  - apply no_nl_app; [apply nl_b; reflexivity|]. apply no_nl_app; [auto|]. apply no_nl_app; [apply nl_b; reflexivity|auto].
Qed.
Lemma spin_line (s s' t t' : str) : is_spin s -> is_spin s' -> s ++ $" Orbital " ++ t = s' ++ $" Orbital " ++ t' -> s = s' /\ t = t'.
Proof.
  intros [->| ->] [->| ->] H.
  - apply app_inv_head in H. apply app_inv_head in H. auto.
  - apply (f_equal (hd " "%char)) in H. discriminate H.
  - apply (f_equal (hd " "%char)) in H. discriminate H.
  - apply app_inv_head in H. apply app_inv_head in H. auto.
Qed.
Theorem C79_identifies : forall N A pr h version E lab disk fuel argv P p out err E' lab' disk' fuel' argv' P' p' out' err',
  ~ In nl version ->
  parse argv (catnip E) = Ok P -> prepareParameters P = Ok p -> main_output N A pr h version E lab disk fuel argv = Ok (out, err) ->
  parse argv' (catnip E') = Ok P' -> prepareParameters P' = Ok p' -> main_output N A pr h version E' lab' disk' fuel' argv' = Ok (out', err') ->
  (forall n, In n (names p) -> ~ In nl n) -> (forall n, In n (names p') -> ~ In nl n) ->
  screen out = screen out' -> request p = request p'.
Proof.
  intros N A pr h version E lab disk fuel argv P p out err E' lab' disk' fuel' argv' P' p' out' err' Hv HP Hp Ho HP' Hp' Ho' Hn Hn' Hs.
  apply output_view in Ho as (q & u & a & b & c & d & Hm & Eo). apply output_view in Ho' as (q' & u' & a' & b' & c' & d' & Hm' & Eo').
  apply view_facts in Hm as (P0 & R & HP0 & Hq & _ & S1 & T1 & _ & _). apply view_facts in Hm' as (P0' & R' & HP0' & Hq' & _ & S1' & T1' & _ & _).
  assert (Eq : q = p).
  { apply (f_equal (fun o => match o with Ok x => prepareParameters x | _ => Ok q end)) in HP0. rewrite HP in HP0.
    pose proof (eq_trans (eq_sym Hq) (eq_trans (eq_sym HP0) Hp)) as X. apply (f_equal (fun o => match o with Ok x => x | _ => q end)) in X. exact X. }
  assert (Eq' : q' = p').
  { apply (f_equal (fun o => match o with Ok x => prepareParameters x | _ => Ok q' end)) in HP0'. rewrite HP' in HP0'.
    pose proof (eq_trans (eq_sym Hq') (eq_trans (eq_sym HP0') Hp')) as X. apply (f_equal (fun o => match o with Ok x => x | _ => q' end)) in X. exact X. }
  subst q q'. clear HP Hp HP' Hp' HP0 Hq HP0' Hq'.
  apply (f_equal fst) in Eo. apply (f_equal fst) in Eo'. cbn [fst lines_of_run] in Eo, Eo'. subst out out'.
  assert (EL : head_lines version p = head_lines version p').
  { apply (lines_prefix (head_lines version p) (head_lines version p') eq_refl (head_ok version p Hn Hv S1 T1) (head_ok version p' Hn' Hv S1' T1') (report N A pr h a b c d) (report N A pr h a' b' c' d')).
    unfold head_lines. rewrite <- !app_assoc. exact Hs. }
  clear Hs.
  assert (G : forall i, nth i (head_lines version p) [] = nth i (head_lines version p') []) by (intros i; rewrite EL; reflexivity).
  assert (G2 : log1 p = log1 p') by (exact (app_inv_head _ _ _ (G 2%nat))). assert (G3 : log2 p = log2 p') by (exact (app_inv_head _ _ _ (G 3%nat))).
  assert (G4 : logP p = logP p') by (exact (app_inv_head _ _ _ (G 4%nat))). assert (G5 : pun1 p = pun1 p') by (exact (app_inv_head _ _ _ (G 5%nat))).
  assert (G6 : pun2 p = pun2 p') by (exact (app_inv_head _ _ _ (G 6%nat))). assert (G7 : punP p = punP p') by (exact (app_inv_head _ _ _ (G 7%nat))).
  assert (G9 : spinP p = spinP p') by (exact (app_inv_head _ _ _ (G 9%nat))).
  pose proof (app_inv_head _ _ _ (G 10%nat)) as G10. pose proof (app_inv_head _ _ _ (G 11%nat)) as G11.
  apply spin_line in G10 as [Ga Gb]; [|tauto|tauto]. apply spin_line in G11 as [Gc Gd]; [|tauto|tauto].
  apply orbital_text_inj in Gb as [Gb1 Gb2]; [|tauto|tauto]. apply orbital_text_inj in Gd as [Gd1 Gd2]; [|tauto|tauto].
  unfold request, names. rewrite G2, G3, G4, G5, G6, G7, G9, Ga, Gc, Gb1, Gb2, Gd1, Gd2. reflexivity.
Qed.
Print Assumptions C79_identifies.
(** The output does not show the counterpoise setting, but the files do: with the
    same names and spins only one of the settings leads to a result. *)
Lemma hold_fun N disk fuel p p' R R' : readers_hold N disk fuel p R -> readers_hold N disk fuel p' R' -> request p = request p' ->
  m_1 N R = m_1 N R' /\ m_2 N R = m_2 N R' /\ m_P N R = m_P N R'.
Proof.
  intros (r1 & r2 & rP & l1 & l2 & lP & O1 & O2 & OP & _ & _ & _ & G1 & G2 & GP & _) (r1' & r2' & rP' & l1' & l2' & lP' & O1' & O2' & OP' & _ & _ & _ & G1' & G2' & GP' & _) Hq.
  pose proof (f_equal (fun x => nth 3 (fst (fst x)) []) Hq) as K1. pose proof (f_equal (fun x => nth 4 (fst (fst x)) []) Hq) as K2. pose proof (f_equal (fun x => nth 5 (fst (fst x)) []) Hq) as K3.
  pose proof (f_equal (fun x => nth 0 (snd (fst x)) []) Hq) as K4. pose proof (f_equal (fun x => nth 1 (snd (fst x)) []) Hq) as K5. pose proof (f_equal (fun x => nth 2 (snd (fst x)) []) Hq) as K6.
  cbn [request names fst snd nth] in K1, K2, K3, K4, K5, K6.
  assert (F : forall n n' k k' x x' (m m' : mat (num N)), n = n' -> k = k' -> open_pun N disk fuel n = Ok x -> open_pun N disk fuel n' = Ok x' -> getCoefsMatrix N x k = Ok m -> getCoefsMatrix N x' k' = Ok m' -> m = m').
  { intros n n' k k' x x' m m' -> -> H1 H2 H3 H4. rewrite H1 in H2. apply (f_equal (fun o => match o with Ok y => getCoefsMatrix N y k' | _ => Ok m end)) in H2. rewrite H3, H4 in H2.
    apply (f_equal (fun o => match o with Ok y => y | _ => m end)) in H2. exact H2. }
  split; [exact (F _ _ _ _ _ _ _ _ K1 K5 O1 O1' G1 G1')|]. split; [exact (F _ _ _ _ _ _ _ _ K2 K6 O2 O2' G2 G2')|exact (F _ _ _ _ _ _ _ _ K3 K4 OP OP' GP GP')].
Qed.
Theorem C79_counterpoise : forall N A pr h version E lab disk fuel argv P p out err E' lab' argv' P' p' out' err' R,
  parse argv (catnip E) = Ok P -> prepareParameters P = Ok p -> main_output N A pr h version E lab disk fuel argv = Ok (out, err) ->
  parse argv' (catnip E') = Ok P' -> prepareParameters P' = Ok p' -> main_output N A pr h version E' lab' disk fuel argv' = Ok (out', err') ->
  readers_hold N disk fuel p R -> 1 <= MatrixModel.cols (m_P N R) ->
  request p = request p' -> counterPoise p = counterPoise p'.
Proof.
  intros N A pr h version E lab disk fuel argv P p out err E' lab' argv' P' p' out' err' R HP Hp Ho HP' Hp' Ho' Hr H1 Hq.
  apply output_view in Ho as (q & u & a & b & c & d & Hm & _). apply output_view in Ho' as (q' & u' & a' & b' & c' & d' & Hm' & _).
  apply view_facts in Hm as (P0 & R0 & HP0 & Hq0 & Hr0 & _ & _ & _ & C). apply view_facts in Hm' as (P0' & R0' & HP0' & Hq0' & Hr0' & _ & _ & _ & C').
  assert (Eq : q = p).
  { apply (f_equal (fun o => match o with Ok x => prepareParameters x | _ => Ok q end)) in HP0. rewrite HP in HP0.
    pose proof (eq_trans (eq_sym Hq0) (eq_trans (eq_sym HP0) Hp)) as X. apply (f_equal (fun o => match o with Ok x => x | _ => q end)) in X. exact X. }
  assert (Eq' : q' = p').
  { apply (f_equal (fun o => match o with Ok x => prepareParameters x | _ => Ok q' end)) in HP0'. rewrite HP' in HP0'.
    pose proof (eq_trans (eq_sym Hq0') (eq_trans (eq_sym HP0') Hp')) as X. apply (f_equal (fun o => match o with Ok x => x | _ => q' end)) in X. exact X. }
  subst q q'. clear HP Hp HP' Hp' HP0 Hq0 HP0' Hq0'.
  destruct (hold_fun N disk fuel p p R R0 Hr Hr0 eq_refl) as (K1 & K2 & K3). destruct (hold_fun N disk fuel p p' R R0' Hr Hr0' Hq) as (L1 & L2 & L3).
  rewrite <- K1, <- K2, <- K3 in C. rewrite <- L1, <- L2, <- L3 in C'. destruct (counterPoise p), (counterPoise p'); auto; lia.
Qed.
Print Assumptions C79_counterpoise.

(** ** C80: the report *)
(** the numbers printed are those of the value returned; a run either prints all lines or ends in the same way as the computation *)
Theorem C80_report : forall N A pr h version E lab disk fuel argv,
  (forall J, main E N A lab disk fuel argv = Ok J -> exists out err, main_output N A pr h version E lab disk fuel argv = Ok (out, err)) /\
  (forall out err, main_output N A pr h version E lab disk fuel argv = Ok (out, err) ->
     exists J_ab e_a e_b S_ab J rest, main E N A lab disk fuel argv = Ok J /\
       J = a_div A (a_sub A J_ab (a_mul A (a_mul A (a_div A (a_one A) (a_two A)) (a_add A e_b e_a)) S_ab)) (a_sub A (a_one A) (a_pow2 A S_ab)) /\
       out = rest ++ [$"J_ab  " ++ pr (a_mul A J_ab h) ++ $" eV"; $"e_a   " ++ pr (a_mul A e_a h) ++ $" eV"; $"e_b   " ++ pr (a_mul A e_b h) ++ $" eV";
                      $"S_ab  " ++ pr S_ab; $"J_eff " ++ pr (a_mul A J h) ++ $" eV"]) /\
  (forall e, main E N A lab disk fuel argv = Throw e <-> main_output N A pr h version E lab disk fuel argv = Throw e) /\
  (forall c, main E N A lab disk fuel argv = Exit c <-> main_output N A pr h version E lab disk fuel argv = Exit c) /\
  (forall u, main E N A lab disk fuel argv = Undef u <-> main_output N A pr h version E lab disk fuel argv = Undef u).
Proof.
  intros N A pr h version E lab disk fuel argv.
  assert (V1 := run_view E N A lab disk (num N) (J_of_run A) fuel argv). assert (V2 := run_view E N A lab disk _ (lines_of_run N A pr h version) fuel argv).
  unfold main, main_output. rewrite V1, V2. clear V1 V2. destruct (main_with E N A lab disk all_numbers fuel argv) as [[[p u] [[[a b] c] d]]|e|c|u|]; cbn [bind].
  - split; [intros J _; eexists _, _; reflexivity|]. split; [|split; [|split]; intros ?; split; intros X; discriminate X].
    intros out err X. apply (f_equal (fun o => match o with Ok x => fst x | _ => out end)) in X. cbn [fst view lines_of_run] in X. subst out.
    exists a, b, c, d, (J_eff A a b c d), ([[]; $"Running calc_J VERSION " ++ version] ++ echo_files p ++ [[]] ++ echo p). split; [reflexivity|]. split; [reflexivity|]. rewrite <- !app_assoc. reflexivity.
  - split; [intros J X; discriminate X|]. split; [intros ? ? X; discriminate X|]. split; [|split]; intros ?; split; intros X; try discriminate X; exact (f_equal (fun o => match o with Throw y => Throw y | _ => Throw e end) X).
  - split; [intros J X; discriminate X|]. split; [intros ? ? X; discriminate X|]. split; [|split]; intros ?; split; intros X; try discriminate X; exact (f_equal (fun o => match o with Exit y => Exit y | _ => Exit c end) X).
  - split; [intros J X; discriminate X|]. split; [intros ? ? X; discriminate X|]. split; [|split]; intros ?; split; intros X; try discriminate X; exact (f_equal (fun o => match o with Undef y => Undef y | _ => Undef u end) X).
  - split; [intros J X; discriminate X|]. split; [intros ? ? X; discriminate X|]. split; [|split]; intros ?; split; intros X; discriminate X.
Qed.
Print Assumptions C80_report.
(** from the command line and the contents of correctly printed files: everything that is printed *)
Lemma orbital_name_eq ty n : orbital_text ty n = orbital_name ty n.
Proof. unfold orbital_text, orbital_name. destruct n; cbn [Z.eqb Z.ltb Z.compare]; rewrite ?app_nil_r; reflexivity. Qed.
Lemma lines_spec N A pr h version p u a b c d : lines_of_run N A pr h version p u a b c d = (heading version p ++ result_lines A pr h a b c d, if u then [] else [order_warning]).
Proof. unfold lines_of_run, echo. rewrite !orbital_name_eq. reflexivity. Qed.
Lemma lines_same N A pr h version p q : same_request q p -> lines_of_run N A pr h version q = lines_of_run N A pr h version p.
Proof.
  intros (Ef & B1 & B2 & B3 & B4 & B5 & B6 & B7 & _). apply (f_equal (map snd)) in Ef. unfold CatnipSpec.files in Ef. cbn [map snd] in Ef.
  assert (F1 := f_equal (fun l => nth 0 l []) Ef). assert (F2 := f_equal (fun l => nth 1 l []) Ef). assert (F3 := f_equal (fun l => nth 2 l []) Ef).
  assert (F4 := f_equal (fun l => nth 3 l []) Ef). assert (F5 := f_equal (fun l => nth 4 l []) Ef). assert (F6 := f_equal (fun l => nth 5 l []) Ef). cbn [nth] in *.
  unfold lines_of_run, echo, echo_files. rewrite F1, F2, F3, F4, F5, F6, B1, B2, B3, B4, B5, B6, B7. reflexivity.
Qed.
Lemma numbers_lines N A pr h version p u q d f2 fP fS r1 r2 :
  numbers_of_job N A (lines_of_run N A pr h version p u) q d f2 fP fS r1 r2 =
  (heading version p ++ numbers_of_job N A (result_lines A pr h) q d f2 fP fS r1 r2, if u then [] else [order_warning]).
Proof. unfold numbers_of_job, numbers_value, numbers_of. apply lines_spec. Qed.
Theorem C80_files_as_read : forall E N A pr h version lab disk prog l p d r1 r2, clean_line E l -> asks E l p ->
  contain N disk p d -> belong N (counterPoise p) d -> rows_asked N p d r1 r2 ->
  ba1 N d = [] \/ ba2 N d = [] \/ baP N d = [] ->
  exists bound, forall fuel, (bound <= fuel)%nat ->
    main_output N A pr h version E lab disk fuel (prog :: words l) =
      Ok (heading version p ++ numbers_of_job N A (result_lines A pr h) p d (table N (coef2 N d)) (table N (coefP N d)) (symmetric N (over N d)) r1 r2, [order_warning]).
Proof.
  intros E N A pr h version lab disk prog l p d r1 r2 H1 H2 H3 H4 H5 H6.
  destruct (with_files_as_read E N A lab disk _ (lines_of_run N A pr h version) prog l p d r1 r2 (lines_same N A pr h version p) H1 H2 H3 H4 H5 H6) as (bound & H).
  exists bound. intros fuel Hf. specialize (H fuel Hf). rewrite numbers_lines in H. exact H.
Qed.
Print Assumptions C80_files_as_read.
Theorem C80_files_plain : forall E N A pr h version lab disk prog l p d r1 r2 oA oB, clean_line E l -> asks E l p -> counterPoise p = false ->
  contain N disk p d -> belong N false d -> rows_asked N p d r1 r2 ->
  ba1 N d <> [] -> ba2 N d <> [] -> baP N d <> [] -> total (baP N d) = size N d -> Forall (fun k => 1 <= k) (baP N d) ->
  count (at1 N d) = count oA -> count (at2 N d) = count oB -> count (atP N d) = count (baP N d) ->
  finds lab 3 (count (baP N d)) (position N (at1 N d)) (position N (atP N d)) oA ->
  finds lab 3 (count (baP N d)) (position N (at2 N d)) (position N (atP N d)) oB ->
  is_order (count (baP N d)) (oA ++ oB) ->
  exists bound, forall fuel, (bound <= fuel)%nat -> exists gP gS,
    blocks_moved (baP N d) (oA ++ oB) (table N (coefP N d)) gP /\ blocks_moved2 (baP N d) (oA ++ oB) (symmetric N (over N d)) gS /\
    main_output N A pr h version E lab disk fuel (prog :: words l) =
      Ok (heading version p ++ numbers_of_job N A (result_lines A pr h) p d (table N (coef2 N d)) gP gS r1 r2, []).
Proof.
  intros E N A pr h version lab disk prog l p d r1 r2 oA oB H1 H2 H3 H4 H5 H6 H7 H8 H9 H10 H11 H12 H13 H14 H15 H16 H17.
  destruct (with_files_plain E N A lab disk _ (lines_of_run N A pr h version) prog l p d r1 r2 oA oB (lines_same N A pr h version p) H1 H2 H3 H4 H5 H6 H7 H8 H9 H10 H11 H12 H13 H14 H15 H16 H17) as (bound & H).
  exists bound. intros fuel Hf. destruct (H fuel Hf) as (gP & gS & G1 & G2 & G). exists gP, gS. split; [exact G1|]. split; [exact G2|]. rewrite numbers_lines in G. exact G.
Qed.
Print Assumptions C80_files_plain.
Theorem C80_files_counterpoise : forall E N A pr h version lab disk prog l p d r1 r2 o2 oP, clean_line E l -> asks E l p -> counterPoise p = true ->
  contain N disk p d -> belong N true d -> rows_asked N p d r1 r2 ->
  ba1 N d <> [] -> length (ba2 N d) = length (baP N d) -> baP N d <> [] -> total (baP N d) = size N d -> total (ba2 N d) = size N d ->
  Forall (fun k => 1 <= k) (baP N d) -> Forall (fun k => 1 <= k) (ba2 N d) ->
  count (at1 N d) = count (baP N d) -> count (at2 N d) = count (baP N d) -> count (atP N d) = count (baP N d) ->
  finds lab 3 (count (baP N d)) (position N (at1 N d)) (position N (at2 N d)) o2 ->
  finds lab 3 (count (baP N d)) (position N (at1 N d)) (position N (atP N d)) oP ->
  is_order (count (baP N d)) o2 -> is_order (count (baP N d)) oP ->
  exists bound, forall fuel, (bound <= fuel)%nat -> exists g2 gP gS,
    blocks_moved (ba2 N d) o2 (table N (coef2 N d)) g2 /\
    blocks_moved (baP N d) oP (table N (coefP N d)) gP /\ blocks_moved2 (baP N d) oP (symmetric N (over N d)) gS /\
    main_output N A pr h version E lab disk fuel (prog :: words l) =
      Ok (heading version p ++ numbers_of_job N A (result_lines A pr h) p d g2 gP gS r1 r2, []).
Proof.
  intros E N A pr h version lab disk prog l p d r1 r2 o2 oP H1 H2 H3 H4 H5 H6 H7 H8 H9 H10 H11 H12 H13 H14 H15 H16 H17 H18 H19 H20.
  destruct (with_files_counterpoise E N A lab disk _ (lines_of_run N A pr h version) prog l p d r1 r2 o2 oP (lines_same N A pr h version p) H1 H2 H3 H4 H5 H6 H7 H8 H9 H10 H11 H12 H13 H14 H15 H16 H17 H18 H19 H20) as (bound & H).
  exists bound. intros fuel Hf. destruct (H fuel Hf) as (g2 & gP & gS & G1 & G2 & G3 & G). exists g2, gP, gS. split; [exact G1|]. split; [exact G2|]. split; [exact G3|]. rewrite numbers_lines in G. exact G.
Qed.
Print Assumptions C80_files_counterpoise.
(** in exact arithmetic the printed quantities, in eV, satisfy the formula of the effective coupling *)
Section Scale.
Context {T : Type} (A : arith T) (opp inv : T -> T) (HA : exact_arith A opp inv).
Let FT := ea_field A opp inv HA.
Add Field TFS : FT.
Notation "0" := (a_zero A). Notation "1" := (a_one A). Infix "+" := (a_add A). Infix "*" := (a_mul A). Infix "-" := (a_sub A). Infix "/" := (a_div A).
Lemma J_scaled a b c d h : 1 - d * d <> 0 -> 1 + 1 <> 0 ->
  (1 + 1) * ((a - 1 / (1 + 1) * (c + b) * d) / (1 - d * d) * h) * (1 - d * d) = (1 + 1) * (a * h) - (b * h + c * h) * d.
Proof. intros H1 H2. field. auto. Qed.
End Scale.
Theorem C80_consistent : forall N A opp inv pr h version E lab disk fuel argv out err, exact_arith A opp inv ->
  main_output N A pr h version E lab disk fuel argv = Ok (out, err) ->
  exists J_ab e_a e_b S_ab J rest,
    out = rest ++ [$"J_ab  " ++ pr J_ab ++ $" eV"; $"e_a   " ++ pr e_a ++ $" eV"; $"e_b   " ++ pr e_b ++ $" eV"; $"S_ab  " ++ pr S_ab; $"J_eff " ++ pr J ++ $" eV"] /\
    (a_sub A (a_one A) (a_mul A S_ab S_ab) <> a_zero A -> a_two A <> a_zero A ->
     a_mul A (a_mul A (a_two A) J) (a_sub A (a_one A) (a_mul A S_ab S_ab)) = a_sub A (a_mul A (a_two A) J_ab) (a_mul A (a_add A e_a e_b) S_ab)).
Proof.
  intros N A opp inv pr h version E lab disk fuel argv out err HA Ho.
  destruct (proj1 (proj2 (C80_report N A pr h version E lab disk fuel argv)) out err Ho) as (a & b & c & d & J & rest & _ & EJ & Eo).
  exists (a_mul A a h), (a_mul A b h), (a_mul A c h), d, (a_mul A J h), rest. split; [exact Eo|]. clear Eo Ho. intros H1 H2.
  rewrite (ea_pow2 A opp inv HA), (ea_two A opp inv HA) in EJ. rewrite (ea_two A opp inv HA) in *. rewrite EJ. exact (J_scaled A opp inv HA a b c d h H1 H2).
Qed.
Print Assumptions C80_consistent.
(** the warning about the order of the basis functions appears exactly if one of the
    three log files has no population analysis *)
Theorem C80_warning : forall N A pr h version E lab disk fuel argv out err,
  main_output N A pr h version E lab disk fuel argv = Ok (out, err) ->
  exists P p R, parse argv (catnip E) = Ok P /\ prepareParameters P = Ok p /\ readers_hold N disk fuel p R /\
    (b_1 N R <> [] /\ b_2 N R <> [] /\ b_P N R <> [] /\ err = [] \/ (b_1 N R = [] \/ b_2 N R = [] \/ b_P N R = []) /\ err = [order_warning]).
Proof.
  intros N A pr h version E lab disk fuel argv out err Ho.
  apply output_view in Ho as (p & u & a & b & c & d & Hm & Eo). apply view_facts in Hm as (P & R & HP & Hp & Hr & _ & _ & Hu & _).
  exists P, p, R. split; [exact HP|]. split; [exact Hp|]. split; [exact Hr|]. apply (f_equal snd) in Eo. cbn [snd lines_of_run] in Eo. rewrite Hu in Eo. unfold some_basis in Eo.
  destruct (b_1 N R), (b_2 N R), (b_P N R); cbn [length Nat.eqb negb andb] in Eo; first [right; split; [tauto|exact Eo]|left; repeat (split; [discriminate|]); exact Eo].
Qed.
Print Assumptions C80_warning.

(** ** C81: the exit status

    A run ends without [exit], or with status 1, or with status 0 on an
    informational word: no failure is reported as success.  (An exception
    that is not caught ends the process with SIGABRT.) *)
Theorem C81_status : forall E N A lab disk fuel argv c,
  (forall s c, n_stod N s <> Exit c) -> (forall s c, e_stod E s <> Exit c) ->
  main E N A lab disk fuel argv = Exit c -> c = 1 \/ c = 0 /\ exists w, In w (tl argv) /\ informational w.
Proof.
  intros E N A lab disk fuel argv c HN HE.
  assert (LN : forall s, loud (n_stod N s)) by (intros s x X; destruct (HN s x X)). assert (LE : forall s, loud (e_stod E s)) by (intros s x X; destruct (HE s x X)).
  pose proof (catnip_ok (E:=E)) as K. unfold main, main_with. revert K. generalize (catnip E) as C. generalize (prepareParser E) as Q. intros Q C -> H. cbn [bind] in H.
  destruct (parse argv C) as [P| |c0| |] eqn:Hp; cbn [bind] in H; try discriminate H.
  - left. revert c H. change (loud (par <- prepareParameters P ;; run_job_with N A lab disk (J_of_run A) fuel par)).
    apply loud_bind; [apply loud_prepare; exact LE|]. intros p. apply loud_job. exact LN.
  - apply (f_equal (fun o => match o with Exit x => x | _ => c0 end)) in H. cbn beta iota in H. subst c0.
    apply (parse_exit E LE) in Hp as [Hp|[Hp (w & I & Hw)]]; [left; exact Hp|]. right. split; [exact Hp|]. exists w. split; [exact I|].
    destruct (informational_dec w) as [X|X]; [exact X|]. apply not_info in X as (X1 & X2 & X3). rewrite X1, X2, X3 in Hw. discriminate Hw.
Qed.
Print Assumptions C81_status.
(** in particular: without informational words a run never ends with status 0 through [exit] *)
Theorem C81_no_silent_failure : forall E N A lab disk fuel argv,
  (forall s c, n_stod N s <> Exit c) -> (forall s c, e_stod E s <> Exit c) -> (forall w, In w (tl argv) -> ~ informational w) ->
  main E N A lab disk fuel argv <> Exit 0.
Proof.
  intros E N A lab disk fuel argv HN HE Hw H. destruct (C81_status E N A lab disk fuel argv 0 HN HE H) as [X|[_ (w & I & X)]]; [discriminate X|exact (Hw w I X)].
Qed.
Print Assumptions C81_no_silent_failure.

(** ** Concrete runs (see MainExample.v; numbers are printed in millionths) *)
Definition d_print (x : num D) : str := dec (if snd x + 6 <? 0 then fst x / 10 ^ (- (snd x + 6)) else fst x * 10 ^ (snd x + 6)) ++ $"e-6".
Definition the_output (disk : str -> option str) (l : list ParserSpec.item) : outcome (list str * list str) :=
  main_output D d_arith d_print (272114, -4) $"1.0" disk1 d_lab disk 3000 ($"calc_J" :: words l).
Example C79_example : exists out, the_output the_disk the_line = Ok (out, []) /\ ~ In nl $"1.0" /\ (forall n, In n (names (the_params false)) -> ~ In nl n) /\
  screen out = $"
Running calc_J VERSION 1.0
log file for first monomer is:      m1.log
log file for second monomer is:     m2.log
log file for dimer is:              runs/dimer.log
pun file for the first monomer is:  m1.pun
pun file for the second monomer is: m2.pun
pun file for the dimer is:          runs/dimer.pun

Dimer     Spin Alpha
Monomer 1 Spin Alpha Orbital HOMO
Monomer 2 Spin Alpha Orbital LUMO
J_ab  -4974576e-6 eV
e_a   4825024e-6 eV
e_b   -11144244e-6 eV
S_ab  -643073e-6
J_eff -11947040e-6 eV
".
Proof.
  assert (H : match the_output the_disk the_line with Ok (_, []) => true | _ => false end = true) by (vm_compute; reflexivity).
  destruct (the_output the_disk the_line) as [[out [|? ?]]| | | |] eqn:Ho; try discriminate H. clear H. exists out. split; [reflexivity|].
  split; [apply nl_b; reflexivity|]. split; [intros n I; unfold names in I; cbn [In the_params log1 log2 logP pun1 pun2 punP] in I; destruct I as [<-|[<-|[<-|[<-|[<-|[<-|[]]]]]]]; apply nl_b; reflexivity|].
  transitivity (match the_output the_disk the_line with Ok (o, e) => screen o | _ => [] end); [rewrite Ho; reflexivity|]. vm_compute. reflexivity.
Qed.
(** the hypotheses of C80_files_* are those of C73_files_* (see C73_plain_example, C73_as_read_example,
    C73_counterpoise_example); the warning appears with the incomplete files *)
Example C80_example : match the_output bare_disk the_line with Ok (out, err) => skipn 12 out = [$"J_ab  -3038213e-6 eV"; $"e_a   -25359482e-6 eV"; $"e_b   313089e-6 eV"; $"S_ab  -314835e-6"; $"J_eff -7749048e-6 eV"] /\ err = [order_warning]
  | _ => False end.
Proof. vm_compute. split; reflexivity. Qed.
(** eight rows of coefficients for four energies *)
Definition odd_disk : str -> option str :=
  six (file_of (mono_items carbon_1 pt1)) (file_of (mono_items carbon_2 pt2)) (file_of dimer_items) (the_pun m1_rows) (the_pun m2_rows) (the_pun (P_rows ++ P_rows)).
Lemma stoi_no_exit s c : stoi s <> Exit c.
Proof.
  unfold stoi. destruct (match drop_while is_space s with c :: t => _ | [] => _ end) as [sgn s2]. destruct s2 as [|x t]; [discriminate|].
  destruct (is_digit x); [|discriminate]. cbv zeta. repeat match goal with |- context [if ?b then _ else _] => destruct b end; discriminate.
Qed.
Example C81_example : (forall s c, n_stod D s <> Exit c) /\ (forall s c, e_stod disk1 s <> Exit c) /\
  main disk1 D d_arith d_lab odd_disk 3000 ($"calc_J" :: words the_line) = Exit 1 /\ main disk1 D d_arith d_lab the_disk 3000 [$"calc_J"; $"-h"] = Exit 0 /\
  main disk1 D d_arith d_lab the_disk 3000 [$"calc_J"; $"--log_1"; $"m1.log"] = Throw RuntimeError.
Proof.
  split; [intros s c H; cbn in H; destruct (parse_decimal s); discriminate H|].
  split; [exact stoi_no_exit|].
  split; [vm_compute; reflexivity|]. split; vm_compute; reflexivity.
Qed.
