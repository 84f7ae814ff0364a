(** * Property C101: the monomers exchanged on the command line *)
From Coq Require Import QArith Qcanon.
From Verif Require Import QcOrder QcFinal QcProps.
From Verif Require Import ExchangeRun.
From Verif Require Import ParserWf ParserCheck CatnipProps ReaderProps ReaderPunProps.
From Verif Require Import MainExample MainProps OutputProps AccPara ExchangeExample.
From Verif Require Export ExchangeSpec Exact.
From Verif Require Export ReaderModel MainSpec.
Import ReaderExample.
From Verif Require Export StrSpec StrModel.
Open Scope Z_scope.

(** [exchanged p]: what the line [l'] asks for is what [l] asks for with the names 1 and 2 exchanged.
    The same value; the same report except for the names of the files and the settings, with e_a and e_b exchanged. *)
Section J.
Context {T : Type} (A : arith T) (opp inv : T -> T) (HA : exact_arith A opp inv).
Let FT := ea_field A opp inv HA.
Add Field TFE : FT.
Lemma J_eff_swap j a b s : J_eff A j a b s = J_eff A j b a s.
Proof. unfold J_eff. f_equal. f_equal. f_equal. f_equal. ring. Qed.
End J.
(** with population analyses, without counterpoise correction; the atoms of monomer 1 have as many basis functions in the dimer as in monomer 1 *)
Theorem C101_plain : forall E N A opp inv lab disk prog prog' l l' p d r1 r2 oA oB, exact_arith A opp inv ->
  clean_line E l -> asks E l p -> clean_line E l' -> asks E l' (exchanged p) -> counterPoise p = false ->
  contain N disk p d -> belong N false d -> rows_asked N p d r1 r2 ->
  ba1 N d <> [] -> ba2 N d <> [] -> baP N d <> [] -> total (baP N d) = size N d -> Forall (fun k => 1 <= k) (baP N d) ->
  count (at1 N d) = count oA -> count (at2 N d) = count oB -> count (atP N d) = count (baP N d) ->
  finds lab 3 (count (baP N d)) (position N (at1 N d)) (position N (atP N d)) oA ->
  finds lab 3 (count (baP N d)) (position N (at2 N d)) (position N (atP N d)) oB ->
  is_order (count (baP N d)) (oA ++ oB) -> total (reordered (baP N d) oA) = width N (coef1 N d) ->
  exists bound, forall fuel, (bound <= fuel)%nat -> exists J, main E N A lab disk fuel (prog :: words l) = Ok J /\ main E N A lab disk fuel (prog' :: words l') = Ok J.
Proof.
  intros E N A opp inv lab disk prog prog' l l' p d r1 r2 oA oB HA H1 H2 H3 H4 H5 H6 H7 H8 H9 H10 H11 H12 H13 H14 H15 H16 H17 H18 H19 H20.
  destruct (exchange_plain E N A opp inv HA lab disk (num N) (J_of_run A) (fun _ _ _ => eq_refl) prog prog' l l' p d r1 r2 oA oB H1 H2 H3 H4 H5 H6 H7 H8 H9 H10 H11 H12 H13 H14 H15 H16 H17 H18 H19 H20) as (bound & H).
  exists bound. intros fuel Hf. destruct (H fuel Hf) as (j & a & b & s & Q1 & Q2). exists (J_eff A j a b s). split; [exact Q1|]. rewrite (J_eff_swap A opp inv HA). exact Q2.
Qed.
Print Assumptions C101_plain.
Theorem C101_plain_report : forall E N A opp inv pr h version lab disk prog prog' l l' p d r1 r2 oA oB, exact_arith A opp inv ->
  clean_line E l -> asks E l p -> clean_line E l' -> asks E l' (exchanged p) -> counterPoise p = false ->
  contain N disk p d -> belong N false d -> rows_asked N p d r1 r2 ->
  ba1 N d <> [] -> ba2 N d <> [] -> baP N d <> [] -> total (baP N d) = size N d -> Forall (fun k => 1 <= k) (baP N d) ->
  count (at1 N d) = count oA -> count (at2 N d) = count oB -> count (atP N d) = count (baP N d) ->
  finds lab 3 (count (baP N d)) (position N (at1 N d)) (position N (atP N d)) oA ->
  finds lab 3 (count (baP N d)) (position N (at2 N d)) (position N (atP N d)) oB ->
  is_order (count (baP N d)) (oA ++ oB) -> total (reordered (baP N d) oA) = width N (coef1 N d) ->
  exists bound, forall fuel, (bound <= fuel)%nat -> exists J_ab e_a e_b S_ab,
    main_output N A pr h version E lab disk fuel (prog :: words l) = Ok (heading version p ++ result_lines A pr h J_ab e_a e_b S_ab, []) /\
    main_output N A pr h version E lab disk fuel (prog' :: words l') = Ok (heading version (exchanged p) ++ result_lines A pr h J_ab e_b e_a S_ab, []).
Proof.
  intros E N A opp inv pr h version lab disk prog prog' l l' p d r1 r2 oA oB HA H1 H2 H3 H4 H5 H6 H7 H8 H9 H10 H11 H12 H13 H14 H15 H16 H17 H18 H19 H20.
  destruct (exchange_plain E N A opp inv HA lab disk _ (lines_of_run N A pr h version) (lines_same N A pr h version) prog prog' l l' p d r1 r2 oA oB H1 H2 H3 H4 H5 H6 H7 H8 H9 H10 H11 H12 H13 H14 H15 H16 H17 H18 H19 H20) as (bound & H).
  exists bound. intros fuel Hf. destruct (H fuel Hf) as (j & a & b & s & Q1 & Q2). exists j, a, b, s. rewrite !lines_spec in Q1, Q2. split; [exact Q1|exact Q2].
Qed.
Print Assumptions C101_plain_report.
(** with population analyses and counterpoise correction; every atom has the same number of basis functions in the three calculations *)
Theorem C101_counterpoise : forall E N A opp inv lab disk prog prog' l l' p d r1 r2 o2 oP, exact_arith A opp inv ->
  clean_line E l -> asks E l p -> clean_line E l' -> asks E l' (exchanged p) -> counterPoise p = true ->
  contain N disk p d -> belong N true d -> rows_asked N p d r1 r2 ->
  baP N d <> [] -> total (baP N d) = size N d -> Forall (fun k => 1 <= k) (baP N d) -> length (ba2 N d) = length (baP N d) -> Forall (fun k => 1 <= k) (ba2 N d) ->
  count (at1 N d) = count (baP N d) -> count (at2 N d) = count (baP N d) -> count (atP N d) = count (baP N d) ->
  finds lab 3 (count (baP N d)) (position N (at1 N d)) (position N (at2 N d)) o2 ->
  finds lab 3 (count (baP N d)) (position N (at1 N d)) (position N (atP N d)) oP ->
  is_order (count (baP N d)) o2 -> is_order (count (baP N d)) oP ->
  reordered (ba2 N d) o2 = ba1 N d -> reordered (baP N d) oP = ba1 N d ->
  exists bound, forall fuel, (bound <= fuel)%nat -> exists J, main E N A lab disk fuel (prog :: words l) = Ok J /\ main E N A lab disk fuel (prog' :: words l') = Ok J.
Proof.
  intros E N A opp inv lab disk prog prog' l l' p d r1 r2 o2 oP HA H1 H2 H3 H4 H5 H6 H7 H8 H9 H10 H11 H12 H13 H14 H15 H16 H17 H18 H19 H20 H21 H22.
  destruct (exchange_counterpoise E N A opp inv HA lab disk (num N) (J_of_run A) (fun _ _ _ => eq_refl) prog prog' l l' p d r1 r2 o2 oP H1 H2 H3 H4 H5 H6 H7 H8 H9 H10 H11 H12 H13 H14 H15 H16 H17 H18 H19 H20 H21 H22) as (bound & H).
  exists bound. intros fuel Hf. destruct (H fuel Hf) as (j & a & b & s & Q1 & Q2). exists (J_eff A j a b s). split; [exact Q1|]. rewrite (J_eff_swap A opp inv HA). exact Q2.
Qed.
Print Assumptions C101_counterpoise.
Theorem C101_counterpoise_report : forall E N A opp inv pr h version lab disk prog prog' l l' p d r1 r2 o2 oP, exact_arith A opp inv ->
  clean_line E l -> asks E l p -> clean_line E l' -> asks E l' (exchanged p) -> counterPoise p = true ->
  contain N disk p d -> belong N true d -> rows_asked N p d r1 r2 ->
  baP N d <> [] -> total (baP N d) = size N d -> Forall (fun k => 1 <= k) (baP N d) -> length (ba2 N d) = length (baP N d) -> Forall (fun k => 1 <= k) (ba2 N d) ->
  count (at1 N d) = count (baP N d) -> count (at2 N d) = count (baP N d) -> count (atP N d) = count (baP N d) ->
  finds lab 3 (count (baP N d)) (position N (at1 N d)) (position N (at2 N d)) o2 ->
  finds lab 3 (count (baP N d)) (position N (at1 N d)) (position N (atP N d)) oP ->
  is_order (count (baP N d)) o2 -> is_order (count (baP N d)) oP ->
  reordered (ba2 N d) o2 = ba1 N d -> reordered (baP N d) oP = ba1 N d ->
  exists bound, forall fuel, (bound <= fuel)%nat -> exists J_ab e_a e_b S_ab,
    main_output N A pr h version E lab disk fuel (prog :: words l) = Ok (heading version p ++ result_lines A pr h J_ab e_a e_b S_ab, []) /\
    main_output N A pr h version E lab disk fuel (prog' :: words l') = Ok (heading version (exchanged p) ++ result_lines A pr h J_ab e_b e_a S_ab, []).
Proof.
  intros E N A opp inv pr h version lab disk prog prog' l l' p d r1 r2 o2 oP HA H1 H2 H3 H4 H5 H6 H7 H8 H9 H10 H11 H12 H13 H14 H15 H16 H17 H18 H19 H20 H21 H22.
  destruct (exchange_counterpoise E N A opp inv HA lab disk _ (lines_of_run N A pr h version) (lines_same N A pr h version) prog prog' l l' p d r1 r2 o2 oP H1 H2 H3 H4 H5 H6 H7 H8 H9 H10 H11 H12 H13 H14 H15 H16 H17 H18 H19 H20 H21 H22) as (bound & H).
  exists bound. intros fuel Hf. destruct (H fuel Hf) as (j & a & b & s & Q1 & Q2). exists j, a, b, s. rewrite !lines_spec in Q1, Q2. split; [exact Q1|exact Q2].
Qed.
Print Assumptions C101_counterpoise_report.
(** with counterpoise correction, without a population analysis: the matrices are used as they were read *)
Theorem C101_as_read : forall E N A opp inv lab disk prog prog' l l' p d r1 r2 , exact_arith A opp inv ->
  clean_line E l -> asks E l p -> clean_line E l' -> asks E l' (exchanged p) -> counterPoise p = true ->
  contain N disk p d -> belong N true d -> rows_asked N p d r1 r2 ->
  ba1 N d = [] \/ ba2 N d = [] \/ baP N d = [] ->
  exists bound, forall fuel, (bound <= fuel)%nat -> exists J, main E N A lab disk fuel (prog :: words l) = Ok J /\ main E N A lab disk fuel (prog' :: words l') = Ok J.
Proof.
  intros E N A opp inv lab disk prog prog' l l' p d r1 r2  HA H1 H2 H3 H4 H5 H6 H7 H8 H9.
  destruct (exchange_as_read E N A opp inv HA lab disk (num N) (J_of_run A) (fun _ _ _ => eq_refl) prog prog' l l' p d r1 r2  H1 H2 H3 H4 H5 H6 H7 H8 H9) as (bound & H).
  exists bound. intros fuel Hf. destruct (H fuel Hf) as (j & a & b & s & Q1 & Q2). exists (J_eff A j a b s). split; [exact Q1|]. rewrite (J_eff_swap A opp inv HA). exact Q2.
Qed.
Print Assumptions C101_as_read.
Theorem C101_as_read_report : forall E N A opp inv pr h version lab disk prog prog' l l' p d r1 r2 , exact_arith A opp inv ->
  clean_line E l -> asks E l p -> clean_line E l' -> asks E l' (exchanged p) -> counterPoise p = true ->
  contain N disk p d -> belong N true d -> rows_asked N p d r1 r2 ->
  ba1 N d = [] \/ ba2 N d = [] \/ baP N d = [] ->
  exists bound, forall fuel, (bound <= fuel)%nat -> exists J_ab e_a e_b S_ab,
    main_output N A pr h version E lab disk fuel (prog :: words l) = Ok (heading version p ++ result_lines A pr h J_ab e_a e_b S_ab, [order_warning]) /\
    main_output N A pr h version E lab disk fuel (prog' :: words l') = Ok (heading version (exchanged p) ++ result_lines A pr h J_ab e_b e_a S_ab, [order_warning]).
Proof.
  intros E N A opp inv pr h version lab disk prog prog' l l' p d r1 r2  HA H1 H2 H3 H4 H5 H6 H7 H8 H9.
  destruct (exchange_as_read E N A opp inv HA lab disk _ (lines_of_run N A pr h version) (lines_same N A pr h version) prog prog' l l' p d r1 r2  H1 H2 H3 H4 H5 H6 H7 H8 H9) as (bound & H).
  exists bound. intros fuel Hf. destruct (H fuel Hf) as (j & a & b & s & Q1 & Q2). exists j, a, b, s. rewrite !lines_spec in Q1, Q2. split; [exact Q1|exact Q2].
Qed.
Print Assumptions C101_as_read_report.

(** ** Concrete runs, in fractions (files and lines in MainExample.v and ExchangeExample.v) *)
Definition the_value (o : outcome (num fractions)) : option Q := match o with Ok x => Some (this x) | _ => None end.
Definition q_run (disk : str -> option str) (l : list ParserSpec.item) : option Q := the_value (main disk1 fractions q_arith q_lab disk 3000 ($"calc_J" :: words l)).
Example C101_plain_example : exact_arith q_arith Qcopp Qcinv /\ clean_line disk1 the_line /\ asks disk1 the_line (the_params false) /\
  clean_line disk1 ex_line /\ asks disk1 ex_line (exchanged (the_params false)) /\
  (exists e, contain fractions the_disk (the_params false) e /\ belong fractions false e /\ rows_asked fractions (the_params false) e 1 2 /\
     ba1 fractions e = [2] /\ ba2 fractions e = [2] /\ baP fractions e = [2; 2] /\ total (baP fractions e) = size fractions e /\
     count (at1 fractions e) = 1 /\ count (at2 fractions e) = 1 /\ count (atP fractions e) = 2 /\
     finds q_lab 3 2 (position fractions (at1 fractions e)) (position fractions (atP fractions e)) [2] /\
     finds q_lab 3 2 (position fractions (at2 fractions e)) (position fractions (atP fractions e)) [1] /\ is_order 2 ([2] ++ [1]) /\
     total (reordered (baP fractions e) [2]) = width fractions (coef1 fractions e)) /\
  q_run the_disk the_line = q_run the_disk ex_line /\ q_run the_disk the_line <> None /\ q_run bare_disk the_line <> q_run bare_disk ex_line.
Proof.
  destruct (request_params the_line false the_request) as [H1 H2]. split; [exact qc_exact|]. split; [exact H1|]. split; [exact H2|]. destruct ex_plain as [H3 H4]. split; [exact H3|]. split; [exact H4|].
  split; [|split; [vm_compute; reflexivity|split; [vm_compute; discriminate|vm_compute; discriminate]]].
  destruct (fractions_contain the_disk (the_params false) the_data the_contain) as (e & He & R). exists e. split; [exact He|].
  split; [apply (belong_para D fractions ExchangeExample.reads false the_data e R); belong_b; cbv; repeat split; discriminate|].
  split; [apply (rows_para D fractions ExchangeExample.reads (the_params false) the_data e 1 2 R); split; reflexivity|].
  rewrite <- (dr_b1 _ _ _ _ _ R), <- (dr_b2 _ _ _ _ _ R), <- (dr_bP _ _ _ _ _ R), <- (dr_n _ _ _ _ _ R).
  rewrite (pts_frac _ _ (dr_a1 _ _ _ _ _ R) eq_refl), (pts_frac _ _ (dr_a2 _ _ _ _ _ R) eq_refl), (pts_frac _ _ (dr_aP _ _ _ _ _ R) eq_refl).
  rewrite <- (width_rel D fractions ExchangeExample.reads _ _ (dr_c1 _ _ _ _ _ R)).
  do 7 (split; [reflexivity|]). split; [apply ffinds_b; vm_compute; reflexivity|]. split; [apply ffinds_b; vm_compute; reflexivity|]. split; [order_b|]. reflexivity.
Qed.
Lemma values_differ (o o' : outcome (num fractions)) : the_value o <> None -> the_value o' <> None -> the_value o <> the_value o' ->
  exists J J', o = Ok J /\ o' = Ok J' /\ J <> J'.
Proof.
  intros H1 H2 H3. destruct o as [J| | | |]; [|exfalso; apply H1; reflexivity..]. destruct o' as [J'| | | |]; [|exfalso; apply H2; reflexivity..].
  exists J, J'. split; [reflexivity|]. split; [reflexivity|]. intros ->. apply H3. reflexivity.
Qed.
(** without population analysis and without counterpoise correction the value depends on which monomer is called the first *)
Theorem C101_depends : exists E disk l l' p e J J', exact_arith q_arith Qcopp Qcinv /\ clean_line E l /\ asks E l p /\ clean_line E l' /\ asks E l' (exchanged p) /\
  counterPoise p = false /\ contain fractions disk p e /\ belong fractions false e /\ rows_asked fractions p e 1 2 /\ ba1 fractions e = [] /\
  main E fractions q_arith q_lab disk 3000 ($"calc_J" :: words l) = Ok J /\ main E fractions q_arith q_lab disk 3000 ($"calc_J" :: words l') = Ok J' /\ J <> J'.
Proof.
  destruct (values_differ (main disk1 fractions q_arith q_lab bare_disk 3000 ($"calc_J" :: words the_line)) (main disk1 fractions q_arith q_lab bare_disk 3000 ($"calc_J" :: words ex_line))) as (J & J' & Q1 & Q2 & Q3);
    [vm_compute; discriminate|vm_compute; discriminate|vm_compute; discriminate|].
  destruct (fractions_contain bare_disk (the_params false) bare_data bare_contain) as (e & He & R).
  destruct (request_params the_line false the_request) as [H1 H2]. destruct ex_plain as [H3 H4].
  exists disk1, bare_disk, the_line, ex_line, (the_params false), e, J, J'.
  split; [exact qc_exact|]. split; [exact H1|]. split; [exact H2|]. split; [exact H3|]. split; [exact H4|]. split; [reflexivity|]. split; [exact He|].
  split; [apply (belong_para D fractions ExchangeExample.reads false bare_data e R); belong_b; cbv; repeat split; discriminate|].
  split; [apply (rows_para D fractions ExchangeExample.reads (the_params false) bare_data e 1 2 R); split; reflexivity|].
  split; [rewrite <- (dr_b1 _ _ _ _ _ R); reflexivity|]. split; [exact Q1|]. split; [exact Q2|exact Q3].
Qed.
Print Assumptions C101_depends.
Example C101_counterpoise_example : clean_line disk1 cp_line /\ asks disk1 cp_line (the_params true) /\ clean_line disk1 ex_cp_line /\ asks disk1 ex_cp_line (exchanged (the_params true)) /\
  (exists e, contain fractions cp_disk (the_params true) e /\ belong fractions true e /\ rows_asked fractions (the_params true) e 2 3 /\
     ba1 fractions e = [2; 2] /\ ba2 fractions e = [2; 2] /\ baP fractions e = [2; 2] /\ total (baP fractions e) = size fractions e /\
     count (at1 fractions e) = 2 /\ count (at2 fractions e) = 2 /\ count (atP fractions e) = 2 /\
     finds q_lab 3 2 (position fractions (at1 fractions e)) (position fractions (at2 fractions e)) [2; 1] /\
     finds q_lab 3 2 (position fractions (at1 fractions e)) (position fractions (atP fractions e)) [2; 1] /\ is_order 2 [2; 1] /\
     reordered (ba2 fractions e) [2; 1] = ba1 fractions e /\ reordered (baP fractions e) [2; 1] = ba1 fractions e) /\
  q_run cp_disk cp_line = q_run cp_disk ex_cp_line /\ q_run cp_disk cp_line <> None.
Proof.
  destruct (request_params cp_line true cp_request) as [H1 H2]. split; [exact H1|]. split; [exact H2|]. destruct ex_cp as [H3 H4]. split; [exact H3|]. split; [exact H4|].
  split; [|split; [vm_compute; reflexivity|vm_compute; discriminate]].
  destruct (fractions_contain cp_disk (the_params true) cp_data cp_contain) as (e & He & R). exists e. split; [exact He|].
  split; [apply (belong_para D fractions ExchangeExample.reads true cp_data e R); belong_b; cbv; repeat split; discriminate|].
  split; [apply (rows_para D fractions ExchangeExample.reads (the_params true) cp_data e 2 3 R); split; reflexivity|].
  rewrite <- (dr_b1 _ _ _ _ _ R), <- (dr_b2 _ _ _ _ _ R), <- (dr_bP _ _ _ _ _ R), <- (dr_n _ _ _ _ _ R).
  rewrite (pts_frac _ _ (dr_a1 _ _ _ _ _ R) eq_refl), (pts_frac _ _ (dr_a2 _ _ _ _ _ R) eq_refl), (pts_frac _ _ (dr_aP _ _ _ _ _ R) eq_refl).
  do 7 (split; [reflexivity|]). split; [apply ffinds_b; vm_compute; reflexivity|]. split; [apply ffinds_b; vm_compute; reflexivity|]. split; [order_b|]. split; reflexivity.
Qed.
