(** * Property C86: the accuracy of what calc_J prints

    [report_accurate p d f2 fP fS r1 r2 lines] (AccReport.v): the five [lines] show
    J_ab, e_a, e_b, S_ab and J_eff in eV (S_ab without a unit), as they follow in real
    numbers from the numbers written in the files, to six digits and up to the stated
    rounding errors; J_eff if the denominator 1 - S_ab^2 is not lost in its own error. *)
From Coq Require Import Reals Psatz.
From Flocq Require Import Core IEEE754.BinarySingleNaN.
From Verif Require Import MainProps QcOrder OutputProps.
From Verif Require Import MainExample.
From Verif Require Export AccReport AccProps.
Import ReaderExample.
From Verif Require Export StrSpec StrModel.
Local Open Scope R_scope.

Theorem C86_as_read : forall E pow10 pow2 version lab disk prog l p d r1 r2, powers pow10 -> squares pow2 -> clean_line E l -> asks E l p ->
  contain written disk p d -> belong written (counterPoise p) d -> rows_asked written p d r1 r2 -> readable d ->
  ba1 written d = [] \/ ba2 written d = [] \/ baP written d = [] ->
  let f2 := table written (coef2 written d) in let fP := table written (coefP written d) in let fS := symmetric written (over written d) in
  exists bound, forall fuel, (bound <= fuel)%nat -> exists lines,
    main_output (machine pow10) (binary64 pow2) print_double hartreeToeV version E lab disk fuel (prog :: words l) = Ok (heading version p ++ lines, [order_warning]) /\
    report_accurate p d f2 fP fS r1 r2 lines.
Proof.
  intros E pow10 pow2 version lab disk prog l p d r1 r2 Pw Sq CL As C B Ra Re Nb. cbv zeta. intros. destruct (machine_contains pow10 disk p d Pw C) as (e & Ce & R).
  destruct (C80_files_as_read E (machine pow10) (binary64 pow2) print_double hartreeToeV version lab disk prog l p e r1 r2 CL As Ce (belong_para _ _ _ _ _ _ R B) (rows_para _ _ _ _ _ _ _ _ R Ra)) as (bound & H).
  { rewrite <- (dr_b1 _ _ _ _ _ R), <- (dr_b2 _ _ _ _ _ R), <- (dr_bP _ _ _ _ _ R). exact Nb. }
  exists bound. intros fuel Hf. eexists. split; [exact (H fuel Hf)|]. apply (job_report pow10 pow2 disk); auto.
  - intros i j _. apply table_matched; [apply (re_2 d Re)|apply (dr_c2 _ _ _ _ _ R)].
  - intros i j _. apply table_matched; [apply (re_P d Re)|apply (dr_cP _ _ _ _ _ R)].
  - intros i j Hi Hj. apply (symmetric_matched pow10 (size written d)); auto; [apply (re_S d Re)|apply (dr_S _ _ _ _ _ R)].
Qed.
Print Assumptions C86_as_read.

Theorem C86_plain : forall E pow10 pow2 version disk prog l p d r1 r2 oA oB gP gS, powers pow10 -> squares pow2 -> clean_line E l -> asks E l p -> counterPoise p = false ->
  contain written disk p d -> belong written false d -> rows_asked written p d r1 r2 -> readable d ->
  ba1 written d <> [] -> ba2 written d <> [] -> baP written d <> [] -> total (baP written d) = size written d -> Forall (fun k => 1 <= k)%Z (baP written d) ->
  count (at1 written d) = count oA -> count (at2 written d) = count oB -> count (atP written d) = count (baP written d) ->
  located 4 (count (baP written d)) (position written (at1 written d)) (position written (atP written d)) oA ->
  located 4 (count (baP written d)) (position written (at2 written d)) (position written (atP written d)) oB ->
  is_order (count (baP written d)) (oA ++ oB) ->
  blocks_moved (baP written d) (oA ++ oB) (table written (coefP written d)) gP -> blocks_moved2 (baP written d) (oA ++ oB) (symmetric written (over written d)) gS ->
  exists bound, forall fuel, (bound <= fuel)%nat -> exists lines,
    main_output (machine pow10) (binary64 pow2) print_double hartreeToeV version E (label 4) disk fuel (prog :: words l) = Ok (heading version p ++ lines, []) /\
    report_accurate p d (table written (coef2 written d)) gP gS r1 r2 lines.
Proof.
  intros E pow10 pow2 version disk prog l p d r1 r2 oA oB gP gS Pw Sq CL As Cp C B Ra Re N1 N2 NP Tt Po A1 A2 AP LA LB Or MP MS. destruct (machine_contains pow10 disk p d Pw C) as (e & Ce & R).
  pose proof (dr_bP _ _ _ _ _ R) as Rb. pose proof (dr_n _ _ _ _ _ R) as Rn.
  destruct (C80_files_plain E (machine pow10) (binary64 pow2) print_double hartreeToeV version (label 4) disk prog l p e r1 r2 oA oB CL As Cp Ce (belong_para _ _ _ _ _ _ R B) (rows_para _ _ _ _ _ _ _ _ R Ra)) as (bound & H);
    rewrite <- ?(dr_b1 _ _ _ _ _ R), <- ?(dr_b2 _ _ _ _ _ R), <- ?Rb, <- ?Rn, <- ?(count_rel _ _ _ (dr_a1 _ _ _ _ _ R)), <- ?(count_rel _ _ _ (dr_a2 _ _ _ _ _ R)), <- ?(count_rel _ _ _ (dr_aP _ _ _ _ _ R)); auto.
  - eapply located_finds; [exact LA| |]; intros; apply position_close; apply R.
  - eapply located_finds; [exact LB| |]; intros; apply position_close; apply R.
  - exists bound. intros fuel Hf. destruct (H fuel Hf) as (hP & hS & HP & HS & Em). rewrite <- Rb in HP, HS. eexists. split; [exact Em|]. apply (job_report pow10 pow2 disk); auto.
    + rewrite Cp. exact B.
    + intros i j _. apply table_matched; [apply (re_2 d Re)|apply (dr_c2 _ _ _ _ _ R)].
    + intros i j Hj. rewrite <- Tt in Hj. apply (moved_matched _ _ _ _ _ _ _ _ Po Or MP HP); [|exact Hj]. intros. apply table_matched; [apply (re_P d Re)|apply (dr_cP _ _ _ _ _ R)].
    + intros i j Hi Hj. rewrite <- Tt in Hi, Hj. apply (moved2_matched _ _ _ _ _ _ _ _ Po Or MS HS); auto. rewrite Tt. intros x y Hx Hy. apply (symmetric_matched pow10 (size written d)); auto; [apply (re_S d Re)|apply (dr_S _ _ _ _ _ R)].
Qed.
Print Assumptions C86_plain.

Theorem C86_counterpoise : forall E pow10 pow2 version disk prog l p d r1 r2 o2 oP g2 gP gS, powers pow10 -> squares pow2 -> clean_line E l -> asks E l p -> counterPoise p = true ->
  contain written disk p d -> belong written true d -> rows_asked written p d r1 r2 -> readable d ->
  ba1 written d <> [] -> length (ba2 written d) = length (baP written d) -> baP written d <> [] -> total (baP written d) = size written d -> total (ba2 written d) = size written d ->
  Forall (fun k => 1 <= k)%Z (baP written d) -> Forall (fun k => 1 <= k)%Z (ba2 written d) ->
  count (at1 written d) = count (baP written d) -> count (at2 written d) = count (baP written d) -> count (atP written d) = count (baP written d) ->
  located 4 (count (baP written d)) (position written (at1 written d)) (position written (at2 written d)) o2 ->
  located 4 (count (baP written d)) (position written (at1 written d)) (position written (atP written d)) oP ->
  is_order (count (baP written d)) o2 -> is_order (count (baP written d)) oP ->
  blocks_moved (ba2 written d) o2 (table written (coef2 written d)) g2 ->
  blocks_moved (baP written d) oP (table written (coefP written d)) gP -> blocks_moved2 (baP written d) oP (symmetric written (over written d)) gS ->
  exists bound, forall fuel, (bound <= fuel)%nat -> exists lines,
    main_output (machine pow10) (binary64 pow2) print_double hartreeToeV version E (label 4) disk fuel (prog :: words l) = Ok (heading version p ++ lines, []) /\
    report_accurate p d g2 gP gS r1 r2 lines.
Proof.
  intros E pow10 pow2 version disk prog l p d r1 r2 o2 oP g2 gP gS Pw Sq CL As Cp C B Ra Re N1 N2 NP Tt T2 Po P2 A1 A2 AP L2 LP O2 OP M2 MP MS. destruct (machine_contains pow10 disk p d Pw C) as (e & Ce & R).
  pose proof (dr_bP _ _ _ _ _ R) as Rb. pose proof (dr_b2 _ _ _ _ _ R) as Rb2. pose proof (dr_n _ _ _ _ _ R) as Rn.
  destruct (C80_files_counterpoise E (machine pow10) (binary64 pow2) print_double hartreeToeV version (label 4) disk prog l p e r1 r2 o2 oP CL As Cp Ce (belong_para _ _ _ _ _ _ R B) (rows_para _ _ _ _ _ _ _ _ R Ra)) as (bound & H);
    rewrite <- ?(dr_b1 _ _ _ _ _ R), <- ?Rb2, <- ?Rb, <- ?Rn, <- ?(count_rel _ _ _ (dr_a1 _ _ _ _ _ R)), <- ?(count_rel _ _ _ (dr_a2 _ _ _ _ _ R)), <- ?(count_rel _ _ _ (dr_aP _ _ _ _ _ R)); auto.
  - eapply located_finds; [exact L2| |]; intros; apply position_close; apply R.
  - eapply located_finds; [exact LP| |]; intros; apply position_close; apply R.
  - exists bound. intros fuel Hf. destruct (H fuel Hf) as (h2 & hP & hS & H2 & HP & HS & Em). rewrite <- Rb in HP, HS. rewrite <- Rb2 in H2. eexists. split; [exact Em|]. apply (job_report pow10 pow2 disk); auto.
    + rewrite Cp. exact B.
    + intros i j Hj. rewrite <- T2 in Hj. assert (O2' : is_order (Z.of_nat (length (ba2 written d))) o2) by (rewrite N2; exact O2).
      apply (moved_matched _ _ _ _ _ _ _ _ P2 O2' M2 H2); [|exact Hj]. intros. apply table_matched; [apply (re_2 d Re)|apply (dr_c2 _ _ _ _ _ R)].
    + intros i j Hj. rewrite <- Tt in Hj. apply (moved_matched _ _ _ _ _ _ _ _ Po OP MP HP); [|exact Hj]. intros. apply table_matched; [apply (re_P d Re)|apply (dr_cP _ _ _ _ _ R)].
    + intros i j Hi Hj. rewrite <- Tt in Hi, Hj. apply (moved2_matched _ _ _ _ _ _ _ _ Po OP MS HS); auto. rewrite Tt. intros x y Hx Hy. apply (symmetric_matched pow10 (size written d)); auto; [apply (re_S d Re)|apply (dr_S _ _ _ _ _ R)].
Qed.
Print Assumptions C86_counterpoise.

(** The hypotheses are those of C85, without [regular]: see C85_as_read_example,
    C85_plain_example and C85_counterpoise_example.  The output of these runs in binary64: *)
Definition binary64_run disk l := main_output (machine rounded_pow10) (binary64 (fun x => dmul x x)) print_double hartreeToeV $"1.0" disk1 (label 4) disk 3000 ($"calc_J" :: words l).
Definition last_lines (o : outcome (list str * list str)) : list str := match o with Ok (out, _) => skipn 12 out | _ => [] end.
Example C86_example : powers rounded_pow10 /\ squares (fun x => dmul x x) /\
  last_lines (binary64_run the_disk the_line) = [$"J_ab  -4.97458 eV"; $"e_a   4.82502 eV"; $"e_b   -11.1442 eV"; $"S_ab  -0.643073"; $"J_eff -11.947 eV"] /\
  last_lines (binary64_run bare_disk the_line) = [$"J_ab  -3.03821 eV"; $"e_a   -25.3595 eV"; $"e_b   0.31309 eV"; $"S_ab  -0.314835"; $"J_eff -7.74905 eV"].
Proof.
  split; [exact C85_powers|]. split; [exact C85_squares|]. split; [vm_compute; reflexivity|]. vm_compute. reflexivity.
Qed.
