(** * Property C85: from the decimal numbers in the files to the coupling

    [contain written disk p d]: the six files named in the request [p] contain the
    data [d], their numbers taken as exact real numbers (AccSpec.v, ReaderSpec.v,
    MainSpec.v).  [machine pow10] are the numbers the program gets from the same texts,
    [binary64 pow2] its arithmetic, [label 4] the text by which it compares coordinates. *)
From Coq Require Import Reals Psatz.
From Flocq Require Import Core IEEE754.BinarySingleNaN.
From Verif Require Import MainProps QcOrder.
From Verif Require Import MainExample.
From Verif Require Export AccJob AccExample ScanProps.
Import ReaderExample.
From Verif Require Export StrSpec StrModel.
Local Open Scope R_scope.

(** a decimal numeral is the number it denotes *)
Theorem C85_written : forall s v, begins_with s v -> v = 0 \/ / IZR (2 ^ 1022) <= Rabs v <= IZR (2 ^ 1023) ->
  exists neg, written_stod s = Ok (Some (neg, v)) /\ written_atof s = Some (neg, v) /\ (v <> 0 -> (neg = true <-> v < 0)).
Proof.
  intros s v H R. destruct (C84_in_range s v H R) as (x & Ex). destruct (scan_decimal s v H) as (neg & m & e & Es & Hm & Ev). exists neg.
  unfold written_stod, written_atof, dstod in *. rewrite Es in *. destruct (range_error (Number neg 10 m e)); [discriminate Ex|]. cbn [shown_number]. rewrite Ev.
  split; [reflexivity|]. split; [reflexivity|]. intros Nv. rewrite exactly_dec in Ev. pose proof (bpow_gt_0 ten e) as T. assert (0 <= IZR m) by (apply IZR_le; auto).
  assert (P : 0 <= IZR m * bpow ten e) by (apply Rmult_le_pos; lra). destruct neg; split; intros Q; try reflexivity; try discriminate; rewrite <- Ev in *; rewrite Rmult_assoc in *; lra.
Qed.
Print Assumptions C85_written.
(** functions as they are asked for exist: x * x, and the correctly rounded power *)
Theorem C85_squares : squares (fun x => dmul x x).
Proof.
  split; [exact C83_square|]. intros x F H. assert (O : ok 1 400 x) by (split; [exact F|]; rewrite Rmult_1_l, <- (pow_IZR 400) by lia; exact H).
  exact (proj1 (dmul_ok 400 400 x x ltac:(lia) O O)).
Qed.
Print Assumptions C85_squares.
Lemma Btrunc_int (y : double) k : B2R y = IZR k -> Btrunc y = k.
Proof.
  intros E. apply eq_IZR. rewrite (Btrunc_correct 53 1024 p53e y), E. apply round_generic; [typeclasses eauto|]. apply generic_format_FIX. exists (Float radix2 k 0); [|reflexivity].
  unfold F2R. cbn [Fnum Fexp]. rewrite Rmult_1_r. reflexivity.
Qed.
Definition rounded_pow10 (y : double) : double := to_double (Number false 10 1 (Btrunc y)).
Theorem C85_powers : powers rounded_pow10.
Proof.
  intros y k F E Hk. unfold rounded_pow10. rewrite (Btrunc_int y k E). destruct (to_double_spec false 10 1 k ltac:(lia) ltac:(lia)) as [S1 _].
  rewrite exactly_dec in S1. rewrite !Rmult_1_l in S1. pose proof (bpow_gt_0 ten k) as T.
  assert (B1 : bpow ten k <= bpow radix2 1000).
  { apply Rle_trans with (bpow ten 300); [apply bpow_le; lia|]. rewrite <- !IZR_Zpower by lia. apply IZR_le. vm_compute. discriminate. }
  assert (B2 : bpow radix2 (-1000) <= bpow ten k).
  { apply Rle_trans with (bpow ten (-300)); [|apply bpow_le; lia]. change (-1000)%Z with (- (1000))%Z. change (-300)%Z with (- (300))%Z. rewrite !bpow_opp. apply Rinv_le; [apply bpow_gt_0|].
    rewrite <- !IZR_Zpower by lia. apply IZR_le. vm_compute. discriminate. }
  assert (L : Rabs (fl (bpow ten k)) < bpow radix2 1024).
  { assert (Q : Rabs (bpow ten k) <= IZR 1 * bpow radix2 1000) by (rewrite Rabs_pos_eq; lra). apply Rle_lt_trans with (1 := fl_abs_le _ 1 1000 ltac:(lia) ltac:(lia) Q). rewrite Rmult_1_l. apply bpow_lt. lia. }
  destruct (S1 L) as [S2 S3]. split; [exact S2|]. rewrite S3. apply Rle_trans with (u * Rabs (bpow ten k)).
  - apply normal_error. rewrite Rabs_pos_eq by lra. apply Rle_trans with (2 := B2). apply bpow_le. lia.
  - rewrite Rabs_pos_eq by lra. apply Rmult_le_compat_r; [lra|]. rewrite <- gamma_1. apply gamma_le. lia.
Qed.
Print Assumptions C85_powers.


(** ** The program's value

    [accurate p d f2 fP fS r1 r2 c] (AccJob.v): [c] is finite and within the stated bound
    of the coupling computed in real numbers from the numbers written in the files;
    [regular]: the denominator 1 - S_ab^2 is not lost in its own error. *)
(** without a population analysis: the data are used as read *)
Theorem C85_as_read : forall E pow10 pow2 lab disk prog l p d r1 r2, powers pow10 -> squares pow2 -> clean_line E l -> asks E l p ->
  contain written disk p d -> belong written (counterPoise p) d -> rows_asked written p d r1 r2 -> readable d ->
  ba1 written d = [] \/ ba2 written d = [] \/ baP written d = [] ->
  let f2 := table written (coef2 written d) in let fP := table written (coefP written d) in let fS := symmetric written (over written d) in
  regular p d f2 fP fS r1 r2 ->
  exists bound, forall fuel, (bound <= fuel)%nat -> exists c, main E (machine pow10) (binary64 pow2) lab disk fuel (prog :: words l) = Ok c /\ accurate p d f2 fP fS r1 r2 c.
Proof.
  intros E pow10 pow2 lab disk prog l p d r1 r2 Pw Sq CL As C B Ra Re Nb. cbv zeta. intros Rg. destruct (machine_contains pow10 disk p d Pw C) as (e & Ce & R).
  destruct (C73_files_as_read E (machine pow10) (binary64 pow2) lab disk prog l p e r1 r2 CL As Ce (belong_para _ _ _ _ _ _ R B) (rows_para _ _ _ _ _ _ _ _ R Ra)) as (bound & H).
  { rewrite <- (dr_b1 _ _ _ _ _ R), <- (dr_b2 _ _ _ _ _ R), <- (dr_bP _ _ _ _ _ R). exact Nb. }
  exists bound. intros fuel Hf. eexists. split; [exact (H fuel Hf)|]. apply (job_accurate pow10 pow2 disk); auto.
  - intros i j _. apply table_matched; [apply (re_2 d Re)|apply (dr_c2 _ _ _ _ _ R)].
  - intros i j _. apply table_matched; [apply (re_P d Re)|apply (dr_cP _ _ _ _ _ R)].
  - intros i j Hi Hj. apply (symmetric_matched pow10 (size written d)); auto; [apply (re_S d Re)|apply (dr_S _ _ _ _ _ R)].
Qed.
Print Assumptions C85_as_read.
(** with population analyses: [gP] and [gS] are the dimer's coefficients and overlap in the order of the atoms of monomer 1, then of monomer 2 *)
Theorem C85_plain : forall E pow10 pow2 disk prog l p d r1 r2 oA oB gP gS, powers pow10 -> squares pow2 -> clean_line E l -> asks E l p -> counterPoise p = false ->
  contain written disk p d -> belong written false d -> rows_asked written p d r1 r2 -> readable d ->
  ba1 written d <> [] -> ba2 written d <> [] -> baP written d <> [] -> total (baP written d) = size written d -> Forall (fun k => 1 <= k)%Z (baP written d) ->
  count (at1 written d) = count oA -> count (at2 written d) = count oB -> count (atP written d) = count (baP written d) ->
  located 4 (count (baP written d)) (position written (at1 written d)) (position written (atP written d)) oA ->
  located 4 (count (baP written d)) (position written (at2 written d)) (position written (atP written d)) oB ->
  is_order (count (baP written d)) (oA ++ oB) ->
  blocks_moved (baP written d) (oA ++ oB) (table written (coefP written d)) gP -> blocks_moved2 (baP written d) (oA ++ oB) (symmetric written (over written d)) gS ->
  regular p d (table written (coef2 written d)) gP gS r1 r2 ->
  exists bound, forall fuel, (bound <= fuel)%nat -> exists c, main E (machine pow10) (binary64 pow2) (label 4) disk fuel (prog :: words l) = Ok c /\
    accurate p d (table written (coef2 written d)) gP gS r1 r2 c.
Proof.
  intros E pow10 pow2 disk prog l p d r1 r2 oA oB gP gS Pw Sq CL As Cp C B Ra Re N1 N2 NP Tt Po A1 A2 AP LA LB Or MP MS Rg. destruct (machine_contains pow10 disk p d Pw C) as (e & Ce & R).
  pose proof (dr_bP _ _ _ _ _ R) as Rb. pose proof (dr_n _ _ _ _ _ R) as Rn.
  destruct (C73_files_plain E (machine pow10) (binary64 pow2) (label 4) disk prog l p e r1 r2 oA oB CL As Cp Ce (belong_para _ _ _ _ _ _ R B) (rows_para _ _ _ _ _ _ _ _ R Ra)) as (bound & H);
    rewrite <- ?(dr_b1 _ _ _ _ _ R), <- ?(dr_b2 _ _ _ _ _ R), <- ?Rb, <- ?Rn, <- ?(count_rel _ _ _ (dr_a1 _ _ _ _ _ R)), <- ?(count_rel _ _ _ (dr_a2 _ _ _ _ _ R)), <- ?(count_rel _ _ _ (dr_aP _ _ _ _ _ R)); auto.
  - eapply located_finds; [exact LA| |]; intros; apply position_close; apply R.
  - eapply located_finds; [exact LB| |]; intros; apply position_close; apply R.
  - exists bound. intros fuel Hf. destruct (H fuel Hf) as (hP & hS & HP & HS & Em). rewrite <- Rb in HP, HS. eexists. split; [exact Em|]. apply (job_accurate pow10 pow2 disk); auto.
    + rewrite Cp. exact B.
    + intros i j _. apply table_matched; [apply (re_2 d Re)|apply (dr_c2 _ _ _ _ _ R)].
    + intros i j Hj. rewrite <- Tt in Hj. apply (moved_matched _ _ _ _ _ _ _ _ Po Or MP HP); [|exact Hj]. intros. apply table_matched; [apply (re_P d Re)|apply (dr_cP _ _ _ _ _ R)].
    + intros i j Hi Hj. rewrite <- Tt in Hi, Hj. apply (moved2_matched _ _ _ _ _ _ _ _ Po Or MS HS); auto. rewrite Tt. intros x y Hx Hy. apply (symmetric_matched pow10 (size written d)); auto; [apply (re_S d Re)|apply (dr_S _ _ _ _ _ R)].
Qed.
Print Assumptions C85_plain.
(** with the counterpoise correction: [g2] [gP] [gS] are in the order of the atoms of monomer 1 *)
Theorem C85_counterpoise : forall E pow10 pow2 disk prog l p d r1 r2 o2 oP g2 gP gS, powers pow10 -> squares pow2 -> clean_line E l -> asks E l p -> counterPoise p = true ->
  contain written disk p d -> belong written true d -> rows_asked written p d r1 r2 -> readable d ->
  ba1 written d <> [] -> length (ba2 written d) = length (baP written d) -> baP written d <> [] -> total (baP written d) = size written d -> total (ba2 written d) = size written d ->
  Forall (fun k => 1 <= k)%Z (baP written d) -> Forall (fun k => 1 <= k)%Z (ba2 written d) ->
  count (at1 written d) = count (baP written d) -> count (at2 written d) = count (baP written d) -> count (atP written d) = count (baP written d) ->
  located 4 (count (baP written d)) (position written (at1 written d)) (position written (at2 written d)) o2 ->
  located 4 (count (baP written d)) (position written (at1 written d)) (position written (atP written d)) oP ->
  is_order (count (baP written d)) o2 -> is_order (count (baP written d)) oP ->
  blocks_moved (ba2 written d) o2 (table written (coef2 written d)) g2 ->
  blocks_moved (baP written d) oP (table written (coefP written d)) gP -> blocks_moved2 (baP written d) oP (symmetric written (over written d)) gS ->
  regular p d g2 gP gS r1 r2 ->
  exists bound, forall fuel, (bound <= fuel)%nat -> exists c, main E (machine pow10) (binary64 pow2) (label 4) disk fuel (prog :: words l) = Ok c /\
    accurate p d g2 gP gS r1 r2 c.
Proof.
  intros E pow10 pow2 disk prog l p d r1 r2 o2 oP g2 gP gS Pw Sq CL As Cp C B Ra Re N1 N2 NP Tt T2 Po P2 A1 A2 AP L2 LP O2 OP M2 MP MS Rg. destruct (machine_contains pow10 disk p d Pw C) as (e & Ce & R).
  pose proof (dr_bP _ _ _ _ _ R) as Rb. pose proof (dr_b2 _ _ _ _ _ R) as Rb2. pose proof (dr_n _ _ _ _ _ R) as Rn.
  destruct (C73_files_counterpoise E (machine pow10) (binary64 pow2) (label 4) disk prog l p e r1 r2 o2 oP CL As Cp Ce (belong_para _ _ _ _ _ _ R B) (rows_para _ _ _ _ _ _ _ _ R Ra)) as (bound & H);
    rewrite <- ?(dr_b1 _ _ _ _ _ R), <- ?Rb2, <- ?Rb, <- ?Rn, <- ?(count_rel _ _ _ (dr_a1 _ _ _ _ _ R)), <- ?(count_rel _ _ _ (dr_a2 _ _ _ _ _ R)), <- ?(count_rel _ _ _ (dr_aP _ _ _ _ _ R)); auto.
  - eapply located_finds; [exact L2| |]; intros; apply position_close; apply R.
  - eapply located_finds; [exact LP| |]; intros; apply position_close; apply R.
  - exists bound. intros fuel Hf. destruct (H fuel Hf) as (h2 & hP & hS & H2 & HP & HS & Em). rewrite <- Rb in HP, HS. rewrite <- Rb2 in H2. eexists. split; [exact Em|]. apply (job_accurate pow10 pow2 disk); auto.
    + rewrite Cp. exact B.
    + intros i j Hj. rewrite <- T2 in Hj. assert (O2' : is_order (Z.of_nat (length (ba2 written d))) o2) by (rewrite N2; exact O2).
      apply (moved_matched _ _ _ _ _ _ _ _ P2 O2' M2 H2); [|exact Hj]. intros. apply table_matched; [apply (re_2 d Re)|apply (dr_c2 _ _ _ _ _ R)].
    + intros i j Hj. rewrite <- Tt in Hj. apply (moved_matched _ _ _ _ _ _ _ _ Po OP MP HP); [|exact Hj]. intros. apply table_matched; [apply (re_P d Re)|apply (dr_cP _ _ _ _ _ R)].
    + intros i j Hi Hj. rewrite <- Tt in Hi, Hj. apply (moved2_matched _ _ _ _ _ _ _ _ Po OP MS HS); auto. rewrite Tt. intros x y Hx Hy. apply (symmetric_matched pow10 (size written d)); auto; [apply (re_S d Re)|apply (dr_S _ _ _ _ _ R)].
Qed.
Print Assumptions C85_counterpoise.

(** ** The files of C73's examples meet the hypotheses *)
Ltac regular_q := vm_compute; discriminate.
Example C85_as_read_example : exists d, contain written bare_disk (the_params false) d /\ belong written false d /\ rows_asked written (the_params false) d 1 2 /\ readable d /\ ba1 written d = [] /\
  regular (the_params false) d (table written (coef2 written d)) (table written (coefP written d)) (symmetric written (over written d)) 1 2.
Proof.
  destruct (written_contain _ _ _ bare_contain) as (d & C & R). destruct C73_as_read_example as (_ & _ & _ & B & Ra & N1 & _). assert (U : unit_data bare_data = true) by (vm_compute; reflexivity).
  exists d. split; [exact C|]. split; [exact (belong_para _ _ _ _ _ _ R B)|]. split; [exact (rows_para _ _ _ _ _ _ _ _ R Ra)|]. split; [exact (e_readable _ _ R U)|].
  split; [rewrite <- (dr_b1 _ _ _ _ _ R); exact N1|].
  apply (e_regular bare_data d R U (the_params false) 2 (fun j => j) (fun j => j) 1 2); [rewrite <- (width_rel _ _ _ _ _ (dr_c1 _ _ _ _ _ R)); reflexivity|lia|auto|regular_q].
Qed.
Example C85_plain_example : exists d, contain written the_disk (the_params false) d /\ belong written false d /\ rows_asked written (the_params false) d 1 2 /\ readable d /\
  ba1 written d = [2]%Z /\ ba2 written d = [2]%Z /\ baP written d = [2; 2]%Z /\ size written d = 4%Z /\ count (at1 written d) = 1%Z /\ count (at2 written d) = 1%Z /\ count (atP written d) = 2%Z /\
  located 4 2 (position written (at1 written d)) (position written (atP written d)) [2%Z] /\ located 4 2 (position written (at2 written d)) (position written (atP written d)) [1%Z] /\
  exists gP gS, blocks_moved [2; 2]%Z [2; 1]%Z (table written (coefP written d)) gP /\ blocks_moved2 [2; 2]%Z [2; 1]%Z (symmetric written (over written d)) gS /\
    regular (the_params false) d (table written (coef2 written d)) gP gS 1 2.
Proof.
  destruct (written_contain _ _ _ the_contain) as (d & C & R). destruct C73_plain_example as (_ & _ & _ & B & Ra & _). assert (U : unit_data the_data = true) by (vm_compute; reflexivity).
  exists d. split; [exact C|]. split; [exact (belong_para _ _ _ _ _ _ R B)|]. split; [exact (rows_para _ _ _ _ _ _ _ _ R Ra)|]. split; [exact (e_readable _ _ R U)|].
  rewrite <- (dr_b1 _ _ _ _ _ R), <- (dr_b2 _ _ _ _ _ R), <- (dr_bP _ _ _ _ _ R), <- (dr_n _ _ _ _ _ R). split; [reflexivity|]. split; [reflexivity|]. split; [reflexivity|]. split; [reflexivity|].
  rewrite <- (count_rel _ _ _ (dr_a1 _ _ _ _ _ R)), <- (count_rel _ _ _ (dr_a2 _ _ _ _ _ R)), <- (count_rel _ _ _ (dr_aP _ _ _ _ _ R)). split; [reflexivity|]. split; [reflexivity|]. split; [reflexivity|].
  pose proof pts_small as Ps. inversion Ps as [|? ? S1 Ps']; subst. inversion Ps' as [|? ? S2 _]; subst.
  rewrite (points_val _ _ (dr_a1 _ _ _ _ _ R)) by (constructor; [exact S1|constructor]). rewrite (points_val _ _ (dr_a2 _ _ _ _ _ R)) by (constructor; [exact S2|constructor]).
  rewrite (points_val _ _ (dr_aP _ _ _ _ _ R)) by (constructor; [exact S2|constructor; [exact S1|constructor]]).
  split; [exact find_1|]. split; [exact find_2|]. eexists _, _. split; [apply sw_moved|]. split; [apply sw_moved2|].
  apply (e_regular the_data d R U (the_params false) 2 (fun j => j) sw 1 2); [rewrite <- (width_rel _ _ _ _ _ (dr_c1 _ _ _ _ _ R)); reflexivity|lia|exact sw_range|regular_q].
Qed.
Example C85_counterpoise_example : exists d, contain written cp_disk (the_params true) d /\ belong written true d /\ rows_asked written (the_params true) d 2 3 /\ readable d /\
  ba1 written d = [2; 2]%Z /\ ba2 written d = [2; 2]%Z /\ baP written d = [2; 2]%Z /\ size written d = 4%Z /\ count (at1 written d) = 2%Z /\ count (at2 written d) = 2%Z /\ count (atP written d) = 2%Z /\
  located 4 2 (position written (at1 written d)) (position written (at2 written d)) [2; 1]%Z /\ located 4 2 (position written (at1 written d)) (position written (atP written d)) [2; 1]%Z /\
  exists g2 gP gS, blocks_moved [2; 2]%Z [2; 1]%Z (table written (coef2 written d)) g2 /\ blocks_moved [2; 2]%Z [2; 1]%Z (table written (coefP written d)) gP /\
    blocks_moved2 [2; 2]%Z [2; 1]%Z (symmetric written (over written d)) gS /\ regular (the_params true) d g2 gP gS 2 3.
Proof.
  destruct (written_contain _ _ _ cp_contain) as (d & C & R). destruct C73_counterpoise_example as (_ & _ & _ & B & Ra & _). assert (U : unit_data cp_data = true) by (vm_compute; reflexivity).
  exists d. split; [exact C|]. split; [exact (belong_para _ _ _ _ _ _ R B)|]. split; [exact (rows_para _ _ _ _ _ _ _ _ R Ra)|]. split; [exact (e_readable _ _ R U)|].
  rewrite <- (dr_b1 _ _ _ _ _ R), <- (dr_b2 _ _ _ _ _ R), <- (dr_bP _ _ _ _ _ R), <- (dr_n _ _ _ _ _ R). split; [reflexivity|]. split; [reflexivity|]. split; [reflexivity|]. split; [reflexivity|].
  rewrite <- (count_rel _ _ _ (dr_a1 _ _ _ _ _ R)), <- (count_rel _ _ _ (dr_a2 _ _ _ _ _ R)), <- (count_rel _ _ _ (dr_aP _ _ _ _ _ R)). split; [reflexivity|]. split; [reflexivity|]. split; [reflexivity|].
  pose proof pts_small as Ps. inversion Ps as [|? ? S1 Ps']; subst. inversion Ps' as [|? ? S2 _]; subst.
  rewrite (points_val _ _ (dr_a1 _ _ _ _ _ R)) by (constructor; [exact S1|constructor; [exact S2|constructor]]). rewrite (points_val _ _ (dr_a2 _ _ _ _ _ R)) by (constructor; [exact S2|constructor; [exact S1|constructor]]).
  rewrite (points_val _ _ (dr_aP _ _ _ _ _ R)) by (constructor; [exact S2|constructor; [exact S1|constructor]]).
  split; [exact find_12|]. split; [exact find_12|]. eexists _, _, _. split; [apply sw_moved|]. split; [apply sw_moved|]. split; [apply sw_moved2|].
  apply (e_regular cp_data d R U (the_params true) 4 sw sw 2 3); [rewrite <- (width_rel _ _ _ _ _ (dr_c1 _ _ _ _ _ R)); reflexivity|lia|exact sw_range|regular_q].
Qed.
