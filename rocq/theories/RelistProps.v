(** * Property C102: the order of the atoms in the files *)
From Verif Require Import QcOrder QcFinal QcProps.
From Verif Require Import RelistRun.
From Verif Require Import ParserWf ParserCheck CatnipProps ReaderProps ReaderPunProps.
From Verif Require Import MainExample MainProps OutputProps.
From Verif Require Export RelistSpec.
From Verif Require Export ReaderModel MainSpec.
Import ReaderExample.
From Verif Require Export StrSpec StrModel.
Open Scope Z_scope.

(** For every arithmetic of the numbers (binary64 included): the same value, bit for bit, and the same report
    after the heading, which names the files.  The two runs may use different files and command lines. *)
(** without counterpoise correction: the atoms of the dimer *)
Theorem C102_plain : forall E E' N A lab disk disk' prog prog' l l' p p' d d' r1 r2 oA oB s,
  clean_line E l -> asks E l p -> clean_line E' l' -> asks E' l' p' -> counterPoise p = false -> counterPoise p' = false ->
  contain N disk p d -> contain N disk' p' d' -> belong N false d -> belong N false d' -> rows_asked N p d r1 r2 -> rows_asked N p' d' r1 r2 ->
  ba1 N d <> [] -> ba2 N d <> [] -> baP N d <> [] -> total (baP N d) = size N d -> Forall (fun k => 1 <= k) (baP N d) ->
  count (at1 N d) = count oA -> count (at2 N d) = count oB -> count (atP N d) = count (baP N d) ->
  finds lab 3 (count (baP N d)) (position N (at1 N d)) (position N (atP N d)) oA ->
  finds lab 3 (count (baP N d)) (position N (at2 N d)) (position N (atP N d)) oB ->
  is_order (count (baP N d)) (oA ++ oB) -> same_1 N d d' -> same_2 N d d' -> dimer_relisted N s d d' ->
  exists bound, forall fuel, (bound <= fuel)%nat -> exists J, main E N A lab disk fuel (prog :: words l) = Ok J /\ main E' N A lab disk' fuel (prog' :: words l') = Ok J.
Proof.
  intros E E' N A lab disk disk' prog prog' l l' p p' d d' r1 r2 oA oB s H1 H2 H3 H4 H5 H6 H7 H8 H9 H10 H11 H12 H13 H14 H15 H16 H17 H18 H19 H20 H21 H22 H23 H24 H25 H26.
  destruct (relist_plain N A lab (num N) (J_of_run A) (fun _ _ _ => eq_refl) E E' disk disk' prog prog' l l' p p' d d' r1 r2 oA oB s H1 H2 H3 H4 H5 H6 H7 H8 H9 H10 H11 H12 H13 H14 H15 H16 H17 H18 H19 H20 H21 H22 H23 H24 H25 H26) as (bound & H).
  exists bound. intros fuel Hf. destruct (H fuel Hf) as (j & a & b & t & Q1 & Q2). exists (J_eff A j a b t). split; [exact Q1|exact Q2].
Qed.
Print Assumptions C102_plain.
Theorem C102_plain_report : forall E E' N A pr h version lab disk disk' prog prog' l l' p p' d d' r1 r2 oA oB s,
  clean_line E l -> asks E l p -> clean_line E' l' -> asks E' l' p' -> counterPoise p = false -> counterPoise p' = false ->
  contain N disk p d -> contain N disk' p' d' -> belong N false d -> belong N false d' -> rows_asked N p d r1 r2 -> rows_asked N p' d' r1 r2 ->
  ba1 N d <> [] -> ba2 N d <> [] -> baP N d <> [] -> total (baP N d) = size N d -> Forall (fun k => 1 <= k) (baP N d) ->
  count (at1 N d) = count oA -> count (at2 N d) = count oB -> count (atP N d) = count (baP N d) ->
  finds lab 3 (count (baP N d)) (position N (at1 N d)) (position N (atP N d)) oA ->
  finds lab 3 (count (baP N d)) (position N (at2 N d)) (position N (atP N d)) oB ->
  is_order (count (baP N d)) (oA ++ oB) -> same_1 N d d' -> same_2 N d d' -> dimer_relisted N s d d' ->
  exists bound, forall fuel, (bound <= fuel)%nat -> exists lines,
    main_output N A pr h version E lab disk fuel (prog :: words l) = Ok (heading version p ++ lines, []) /\
    main_output N A pr h version E' lab disk' fuel (prog' :: words l') = Ok (heading version p' ++ lines, []).
Proof.
  intros E E' N A pr h version lab disk disk' prog prog' l l' p p' d d' r1 r2 oA oB s H1 H2 H3 H4 H5 H6 H7 H8 H9 H10 H11 H12 H13 H14 H15 H16 H17 H18 H19 H20 H21 H22 H23 H24 H25 H26.
  destruct (relist_plain N A lab _ (lines_of_run N A pr h version) (lines_same N A pr h version) E E' disk disk' prog prog' l l' p p' d d' r1 r2 oA oB s H1 H2 H3 H4 H5 H6 H7 H8 H9 H10 H11 H12 H13 H14 H15 H16 H17 H18 H19 H20 H21 H22 H23 H24 H25 H26) as (bound & H).
  exists bound. intros fuel Hf. destruct (H fuel Hf) as (j & a & b & t & Q1 & Q2). exists (result_lines A pr h j a b t). rewrite !lines_spec in Q1, Q2. split; [exact Q1|exact Q2].
Qed.
Print Assumptions C102_plain_report.
(** with counterpoise correction: the atoms of the dimer and of monomer 2 *)
Theorem C102_counterpoise : forall E E' N A lab disk disk' prog prog' l l' p p' d d' r1 r2 o2 oP s s2,
  clean_line E l -> asks E l p -> clean_line E' l' -> asks E' l' p' -> counterPoise p = true -> counterPoise p' = true ->
  contain N disk p d -> contain N disk' p' d' -> belong N true d -> belong N true d' -> rows_asked N p d r1 r2 -> rows_asked N p' d' r1 r2 ->
  ba1 N d <> [] -> length (ba2 N d) = length (baP N d) -> baP N d <> [] -> total (baP N d) = size N d -> total (ba2 N d) = size N d ->
  Forall (fun k => 1 <= k) (baP N d) -> Forall (fun k => 1 <= k) (ba2 N d) ->
  count (at1 N d) = count (baP N d) -> count (at2 N d) = count (baP N d) -> count (atP N d) = count (baP N d) ->
  finds lab 3 (count (baP N d)) (position N (at1 N d)) (position N (at2 N d)) o2 ->
  finds lab 3 (count (baP N d)) (position N (at1 N d)) (position N (atP N d)) oP ->
  is_order (count (baP N d)) o2 -> is_order (count (baP N d)) oP -> same_1 N d d' -> second_relisted N s2 d d' -> dimer_relisted N s d d' ->
  exists bound, forall fuel, (bound <= fuel)%nat -> exists J, main E N A lab disk fuel (prog :: words l) = Ok J /\ main E' N A lab disk' fuel (prog' :: words l') = Ok J.
Proof.
  intros E E' N A lab disk disk' prog prog' l l' p p' d d' r1 r2 o2 oP s s2 H1 H2 H3 H4 H5 H6 H7 H8 H9 H10 H11 H12 H13 H14 H15 H16 H17 H18 H19 H20 H21 H22 H23 H24 H25 H26 H27 H28 H29.
  destruct (relist_counterpoise N A lab (num N) (J_of_run A) (fun _ _ _ => eq_refl) E E' disk disk' prog prog' l l' p p' d d' r1 r2 o2 oP s s2 H1 H2 H3 H4 H5 H6 H7 H8 H9 H10 H11 H12 H13 H14 H15 H16 H17 H18 H19 H20 H21 H22 H23 H24 H25 H26 H27 H28 H29) as (bound & H).
  exists bound. intros fuel Hf. destruct (H fuel Hf) as (j & a & b & t & Q1 & Q2). exists (J_eff A j a b t). split; [exact Q1|exact Q2].
Qed.
Print Assumptions C102_counterpoise.
Theorem C102_counterpoise_report : forall E E' N A pr h version lab disk disk' prog prog' l l' p p' d d' r1 r2 o2 oP s s2,
  clean_line E l -> asks E l p -> clean_line E' l' -> asks E' l' p' -> counterPoise p = true -> counterPoise p' = true ->
  contain N disk p d -> contain N disk' p' d' -> belong N true d -> belong N true d' -> rows_asked N p d r1 r2 -> rows_asked N p' d' r1 r2 ->
  ba1 N d <> [] -> length (ba2 N d) = length (baP N d) -> baP N d <> [] -> total (baP N d) = size N d -> total (ba2 N d) = size N d ->
  Forall (fun k => 1 <= k) (baP N d) -> Forall (fun k => 1 <= k) (ba2 N d) ->
  count (at1 N d) = count (baP N d) -> count (at2 N d) = count (baP N d) -> count (atP N d) = count (baP N d) ->
  finds lab 3 (count (baP N d)) (position N (at1 N d)) (position N (at2 N d)) o2 ->
  finds lab 3 (count (baP N d)) (position N (at1 N d)) (position N (atP N d)) oP ->
  is_order (count (baP N d)) o2 -> is_order (count (baP N d)) oP -> same_1 N d d' -> second_relisted N s2 d d' -> dimer_relisted N s d d' ->
  exists bound, forall fuel, (bound <= fuel)%nat -> exists lines,
    main_output N A pr h version E lab disk fuel (prog :: words l) = Ok (heading version p ++ lines, []) /\
    main_output N A pr h version E' lab disk' fuel (prog' :: words l') = Ok (heading version p' ++ lines, []).
Proof.
  intros E E' N A pr h version lab disk disk' prog prog' l l' p p' d d' r1 r2 o2 oP s s2 H1 H2 H3 H4 H5 H6 H7 H8 H9 H10 H11 H12 H13 H14 H15 H16 H17 H18 H19 H20 H21 H22 H23 H24 H25 H26 H27 H28 H29.
  destruct (relist_counterpoise N A lab _ (lines_of_run N A pr h version) (lines_same N A pr h version) E E' disk disk' prog prog' l l' p p' d d' r1 r2 o2 oP s s2 H1 H2 H3 H4 H5 H6 H7 H8 H9 H10 H11 H12 H13 H14 H15 H16 H17 H18 H19 H20 H21 H22 H23 H24 H25 H26 H27 H28 H29) as (bound & H).
  exists bound. intros fuel Hf. destruct (H fuel Hf) as (j & a & b & t & Q1 & Q2). exists (result_lines A pr h j a b t). rewrite !lines_spec in Q1, Q2. split; [exact Q1|exact Q2].
Qed.
Print Assumptions C102_counterpoise_report.

(** ** Concrete runs: the files of MainExample.v with the atoms of the dimer (and of monomer 2) in the other order *)
Definition turned (rows : list (list str)) : list (list str) := map (fun r => skipn 2 r ++ firstn 2 r) rows.
Definition turned_disk : str -> option str :=
  six (file_of (mono_items carbon_1 pt1)) (file_of (mono_items carbon_2 pt2)) (file_of (dimer_of [carbon_1; carbon_2] [pt1; pt2])) (MainExample.the_pun m1_rows) (MainExample.the_pun m2_rows) (MainExample.the_pun (turned P_rows)).
Definition turned_data : data D := mkData D (MainExample.vals m1_rows) (MainExample.vals m2_rows) (MainExample.vals (turned P_rows)) [(-50000, -5); (10000, -5)] [(-50000, -5); (10000, -5)]
  [(-60000, -5); (-50000, -5); (10000, -5); (20000, -5)] 1 1 2 [pt1] [pt2] [pt1; pt2] [2] [2] [2; 2] 4 tri_value.
Definition turned_cp_disk : str -> option str :=
  six (file_of (dimer_of [carbon_1; carbon_2] [pt1; pt2])) (file_of (dimer_of [carbon_1; carbon_2] [pt1; pt2])) (file_of (dimer_of [carbon_1; carbon_2] [pt1; pt2])) (MainExample.the_pun P_rows) (MainExample.the_pun (turned P_rows)) (MainExample.the_pun (turned P_rows)).
Definition turned_cp_data : data D := mkData D (MainExample.vals P_rows) (MainExample.vals (turned P_rows)) (MainExample.vals (turned P_rows)) dimer_en dimer_en dimer_en
  2 2 2 [pt1; pt2] [pt1; pt2] [pt1; pt2] [2; 2] [2; 2] [2; 2] 4 tri_value.
Lemma turned_rows : Forall2 (coord_row D) [carbon_1; carbon_2] [pt1; pt2].
Proof. constructor; [exact row1|constructor; [exact row2|constructor]]. Qed.
Lemma turned_contain : contain D turned_disk (the_params false) turned_data.
Proof.
  exists SAlpha, SAlpha, SAlpha, (mono_items carbon_1 pt1), (mono_items carbon_2 pt2), (dimer_of [carbon_1; carbon_2] [pt1; pt2]).
  split; [reflexivity|]. split; [reflexivity|]. split; [reflexivity|]. split; [disk_ok|]. split; [disk_ok|]. split; [disk_ok|].
  split; [apply mono_says; [exact (dot_log $"m1" eq_refl eq_refl)|reflexivity|exact row1]|]. split; [apply mono_says; [exact (dot_log $"m2" eq_refl eq_refl)|reflexivity|exact row2]|].
  split; [apply dimer_says; [exact (proj1 dot_dimer)|reflexivity|exact turned_rows]|apply dimer_overlap].
Qed.
Lemma turned_cp_contain : contain D turned_cp_disk (the_params true) turned_cp_data.
Proof.
  exists SAlpha, SAlpha, SAlpha, (dimer_of [carbon_1; carbon_2] [pt1; pt2]), (dimer_of [carbon_1; carbon_2] [pt1; pt2]), (dimer_of [carbon_1; carbon_2] [pt1; pt2]).
  split; [reflexivity|]. split; [reflexivity|]. split; [reflexivity|]. split; [disk_ok|]. split; [disk_ok|]. split; [disk_ok|].
  split; [apply dimer_says; [exact (dot_log $"m1" eq_refl eq_refl)|reflexivity|exact turned_rows]|]. split; [apply dimer_says; [exact (dot_log $"m2" eq_refl eq_refl)|reflexivity|exact turned_rows]|].
  split; [apply dimer_says; [exact (proj1 dot_dimer)|reflexivity|exact turned_rows]|apply dimer_overlap].
Qed.
Lemma two_blocks (Q : Z -> Z -> Prop) : Q 1 2 -> Q 2 1 -> forall i k, 1 <= i -> nth_error [2; 1] (Z.to_nat (i - 1)) = Some k -> Q i k.
Proof.
  intros H1 H2 i k Hi E. destruct (Z.to_nat (i - 1)) as [|[|n]] eqn:En; [| |destruct n; discriminate E].
  - assert (i = 1) as -> by lia. assert (k = 2) as -> by (cbn in E; congruence). exact H1.
  - assert (i = 2) as -> by lia. assert (k = 1) as -> by (cbn in E; congruence). exact H2.
Qed.
Lemma turned_moved rows : Forall (fun r => length r = 4%nat) rows -> blocks_moved [2; 2] [2; 1] (table D (MainExample.vals rows)) (table D (MainExample.vals (turned rows))).
Proof.
  intros F x i k j Hi Hk Hj. revert i k Hi Hk j Hj. apply (two_blocks (fun i k => forall j, 1 <= j <= size_of [2; 2] k -> table D (MainExample.vals (turned rows)) x (off (reordered [2; 2] [2; 1]) i + j) = table D (MainExample.vals rows) x (off [2; 2] k + j)));
    intros j Hj; change (1 <= j <= 2) in Hj; assert (j = 1 \/ j = 2) as [->| ->] by lia; unfold table, MainExample.vals, turned; rewrite !map_map; generalize (Z.to_nat (x - 1)); clear Hj;
    (induction F as [|r rows Hr _ IH]; intros [|n]; [reflexivity|reflexivity| |exact (IH n)]; cbn [map nth]; destruct r as [|a1 [|a2 [|a3 [|a4 [|]]]]]; try discriminate Hr; reflexivity).
Qed.
Lemma turned_moved2 : blocks_moved2 [2; 2] [2; 1] (symmetric D tri_value) (symmetric D tri_value).
Proof.
  intros i k j i' k' j' Hi Hk Hj Hi' Hk' Hj'.
  assert (W : forall i k, 1 <= i -> nth_error [2; 1] (Z.to_nat (i - 1)) = Some k -> i = 1 /\ k = 2 \/ i = 2 /\ k = 1) by (apply two_blocks; [left|right]; split; reflexivity).
  destruct (W i k Hi Hk) as [[-> ->]|[-> ->]], (W i' k' Hi' Hk') as [[-> ->]|[-> ->]]; change (1 <= j <= 2) in Hj; change (1 <= j' <= 2) in Hj';
    assert (j = 1 \/ j = 2) as [->| ->] by lia; assert (j' = 1 \/ j' = 2) as [->| ->] by lia; vm_compute; reflexivity.
Qed.
Lemma turned_points : points_relisted D [2; 1] [pt2; pt1] [pt1; pt2].
Proof. split; [reflexivity|]. apply two_blocks; reflexivity. Qed.
Example C102_plain_example : clean_line disk1 the_line /\ asks disk1 the_line (the_params false) /\ contain D the_disk (the_params false) the_data /\ contain D turned_disk (the_params false) turned_data /\
  belong D false the_data /\ belong D false turned_data /\ rows_asked D (the_params false) the_data 1 2 /\ rows_asked D (the_params false) turned_data 1 2 /\
  same_1 D the_data turned_data /\ same_2 D the_data turned_data /\ dimer_relisted D [2; 1] the_data turned_data /\ coefP D turned_data <> coefP D the_data /\
  the_result the_disk the_line = Ok (-439045374193071257403048, -24) /\ the_result turned_disk the_line = Ok (-439045374193071257403048, -24).
Proof.
  destruct (request_params the_line false the_request) as [H1 H2]. split; [exact H1|]. split; [exact H2|]. split; [exact the_contain|]. split; [exact turned_contain|].
  split; [belong_b; cbv; repeat split; discriminate|]. split; [belong_b; cbv; repeat split; discriminate|]. split; [split; reflexivity|]. split; [split; reflexivity|].
  split; [repeat split|]. split; [repeat split|]. split; [|split; [vm_compute; discriminate|split; vm_compute; reflexivity]].
  constructor; [order_b|reflexivity|exact turned_points|reflexivity|reflexivity|apply turned_moved; repeat constructor|exact turned_moved2].
Qed.
Example C102_counterpoise_example : clean_line disk1 cp_line /\ asks disk1 cp_line (the_params true) /\ contain D cp_disk (the_params true) cp_data /\ contain D turned_cp_disk (the_params true) turned_cp_data /\
  belong D true turned_cp_data /\ rows_asked D (the_params true) turned_cp_data 2 3 /\
  same_1 D cp_data turned_cp_data /\ second_relisted D [2; 1] cp_data turned_cp_data /\ dimer_relisted D [2; 1] cp_data turned_cp_data /\
  the_result cp_disk cp_line = Ok (-64504948252154140867241, -23) /\ the_result turned_cp_disk cp_line = Ok (-64504948252154140867241, -23).
Proof.
  destruct (request_params cp_line true cp_request) as [H1 H2]. split; [exact H1|]. split; [exact H2|]. split; [exact cp_contain|]. split; [exact turned_cp_contain|].
  split; [belong_b; cbv; repeat split; discriminate|]. split; [split; reflexivity|]. split; [repeat split|].
  split; [constructor; [order_b|reflexivity|exact turned_points|split; reflexivity|apply turned_moved; repeat constructor]|].
  split; [constructor; [order_b|reflexivity|exact turned_points|reflexivity|reflexivity|apply turned_moved; repeat constructor|exact turned_moved2]|].
  split; vm_compute; reflexivity.
Qed.
