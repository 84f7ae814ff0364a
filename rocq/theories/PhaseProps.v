(** * Property C103: the signs of the orbitals *)
From Coq Require Import QArith Qcanon.
From Verif Require Import QcOrder QcFinal QcProps.
From Verif Require Import PhaseRun.
From Verif Require Import ParserWf ParserCheck CatnipProps ReaderProps ReaderPunProps.
From Verif Require Import MainExample MainProps OutputProps AccPara ExchangeExample ExchangeProps.
From Verif Require Export PhaseSpec Exact.
From Verif Require Export ReaderModel MainSpec.
Import ReaderExample.
From Verif Require Export StrSpec StrModel.
Open Scope Z_scope.

(** Exact arithmetic.  The second run reads the same calculations with other signs of the orbitals (other
    files and command line). *)
Theorem C103_exact : forall E E' N A opp inv lab disk disk' prog prog' l l' p p' d d' r1 r2 s1 s2 sP u, exact_arith A opp inv ->
  clean_line E l -> asks E l p -> clean_line E' l' -> asks E' l' p' -> counterPoise p' = counterPoise p ->
  contain N disk p d -> contain N disk' p' d' -> belong N (counterPoise p) d -> belong N (counterPoise p) d' -> rows_asked N p d r1 r2 -> rows_asked N p' d' r1 r2 ->
  lined_up N lab (counterPoise p) d u -> phases N (fun s x y => y = signed opp s x) s1 s2 sP r1 r2 d d' ->
  exists bound, forall fuel, (bound <= fuel)%nat -> exists J,
    main E N A lab disk fuel (prog :: words l) = Ok J /\ main E' N A lab disk' fuel (prog' :: words l') = Ok (signed opp (xorb s1 s2) J).
Proof.
  intros E E' N A opp inv lab disk disk' prog prog' l l' p p' d d' r1 r2 s1 s2 sP u HA H1 H2 H3 H4 H5 H6 H7 H8 H9 H10 H11 H12 H13. pose proof (exact_laws A opp inv HA) as L.
  destruct (phase_run N A lab _ L (num N) (J_of_run A) (fun _ _ _ => eq_refl) E E' disk disk' prog prog' l l' p p' d d' r1 r2 s1 s2 sP u H1 H2 H3 H4 H5 H6 H7 H8 H9 H10 H11 H12 H13) as (bound & H).
  exists bound. intros fuel Hf. destruct (H fuel Hf) as (j & a & b & t & j' & a' & b' & t' & Q & Q1 & Q2). exists (J_eff A j a b t). split; [exact Q1|].
  apply (J_eff_sg A _ L) in Q. rewrite <- Q. exact Q2.
Qed.
Print Assumptions C103_exact.
Theorem C103_exact_report : forall E E' N A opp inv pr h version lab disk disk' prog prog' l l' p p' d d' r1 r2 s1 s2 sP u, exact_arith A opp inv ->
  clean_line E l -> asks E l p -> clean_line E' l' -> asks E' l' p' -> counterPoise p' = counterPoise p ->
  contain N disk p d -> contain N disk' p' d' -> belong N (counterPoise p) d -> belong N (counterPoise p) d' -> rows_asked N p d r1 r2 -> rows_asked N p' d' r1 r2 ->
  lined_up N lab (counterPoise p) d u -> phases N (fun s x y => y = signed opp s x) s1 s2 sP r1 r2 d d' ->
  exists bound, forall fuel, (bound <= fuel)%nat -> exists J_ab e_a e_b S_ab,
    main_output N A pr h version E lab disk fuel (prog :: words l) = Ok (heading version p ++ result_lines A pr h J_ab e_a e_b S_ab, advice u) /\
    main_output N A pr h version E' lab disk' fuel (prog' :: words l') =
      Ok (heading version p' ++ result_lines A pr h (signed opp (xorb s1 s2) J_ab) e_a e_b (signed opp (xorb s1 s2) S_ab), advice u).
Proof.
  intros E E' N A opp inv pr h version lab disk disk' prog prog' l l' p p' d d' r1 r2 s1 s2 sP u HA H1 H2 H3 H4 H5 H6 H7 H8 H9 H10 H11 H12 H13. pose proof (exact_laws A opp inv HA) as L.
  destruct (phase_run N A lab _ L _ (lines_of_run N A pr h version) (lines_same N A pr h version) E E' disk disk' prog prog' l l' p p' d d' r1 r2 s1 s2 sP u H1 H2 H3 H4 H5 H6 H7 H8 H9 H10 H11 H12 H13) as (bound & H).
  exists bound. intros fuel Hf. destruct (H fuel Hf) as (j & a & b & t & j' & a' & b' & t' & (P1 & P2 & P3 & P4) & Q1 & Q2). cbv beta in P1, P2, P3, P4. subst j' a' b' t'. cbn [signed] in Q2.
  rewrite !lines_spec in Q1, Q2. exists j, a, b, t. split; [exact Q1|exact Q2].
Qed.
Print Assumptions C103_exact_report.

(** ** Concrete runs in fractions: orbital 1 of monomer 1 and orbital 2 of the dimer with the other sign *)
Definition minus (f : str) : str := if str_eqb f f0 then f0 else match f with "-"%char :: t => " "%char :: t | " "%char :: t => "-"%char :: t | _ => f end.
Definition flipped (i : nat) (rows : list (list str)) : list (list str) := firstn i rows ++ map (map minus) (firstn 1 (skipn i rows)) ++ skipn (S i) rows.
Definition sign_disk : str -> option str :=
  six (file_of (mono_items carbon_1 pt1)) (file_of (mono_items carbon_2 pt2)) (file_of dimer_items) (MainExample.the_pun (flipped 0 m1_rows)) (MainExample.the_pun m2_rows) (MainExample.the_pun (flipped 1 P_rows)).
Definition sign_data : data D := mkData D (MainExample.vals (flipped 0 m1_rows)) (MainExample.vals m2_rows) (MainExample.vals (flipped 1 P_rows)) [(-50000, -5); (10000, -5)] [(-50000, -5); (10000, -5)]
  [(-60000, -5); (-50000, -5); (10000, -5); (20000, -5)] 1 1 2 [pt1] [pt2] [pt2; pt1] [2] [2] [2; 2] 4 tri_value.
Lemma sign_contain : contain D sign_disk (the_params false) sign_data.
Proof.
  exists SAlpha, SAlpha, SAlpha, (mono_items carbon_1 pt1), (mono_items carbon_2 pt2), dimer_items.
  split; [reflexivity|]. split; [reflexivity|]. split; [reflexivity|]. split; [disk_ok|]. split; [disk_ok|]. split; [disk_ok|].
  split; [apply mono_says; [exact (dot_log $"m1" eq_refl eq_refl)|reflexivity|exact row1]|]. split; [apply mono_says; [exact (dot_log $"m2" eq_refl eq_refl)|reflexivity|exact row2]|].
  split; [apply dimer_says; [exact (proj1 dot_dimer)|reflexivity|exact dimer_rows]|apply dimer_overlap].
Qed.
Lemma list_frac l q : Forall2 ExchangeExample.reads l q -> forallb small l = true -> q = map frac l.
Proof.
  induction 1 as [|x y l q H _ IH]; intros F; [reflexivity|]. cbn [forallb] in F. apply andb_true_iff in F as [F1 F2]. cbn [map]. rewrite (IH F2), (H (proj1 (Z.leb_le _ _) F1)). reflexivity.
Qed.
Lemma rows_frac l q : Forall2 (Forall2 ExchangeExample.reads) l q -> forallb (forallb small) l = true -> q = map (map frac) l.
Proof.
  induction 1 as [|x y l q H _ IH]; intros F; [reflexivity|]. cbn [forallb] in F. apply andb_true_iff in F as [F1 F2]. cbn [map]. rewrite (IH F2), (list_frac _ _ H F1). reflexivity.
Qed.
Definition q_opp (x : Qc) : Qc := Qcopp x.
Lemma sign_cells (l l' : list (list (num D))) (s : Z -> bool) (r1 : Z) n :
  forallb (fun c => Qeq_bool (this (table fractions (map (map frac) l') r1 (Z.of_nat c))) (this (signed Qcopp (s r1) (table fractions (map (map frac) l) r1 (Z.of_nat c))))) (seq 1 n) = true ->
  forall c, 1 <= c <= Z.of_nat n -> table fractions (map (map frac) l') r1 c = signed Qcopp (s r1) (table fractions (map (map frac) l) r1 c).
Proof.
  intros H c Hc. rewrite forallb_forall in H. apply Qc_is_canon. apply Qeq_bool_eq. specialize (H (Z.to_nat c)). rewrite Z2Nat.id in H by lia. apply H, in_seq. lia.
Qed.
Definition second (k : Z) : bool := k =? 2.
Example C103_exact_example : exact_arith q_arith Qcopp Qcinv /\ clean_line disk1 the_line /\ asks disk1 the_line (the_params false) /\
  (exists e e', contain fractions the_disk (the_params false) e /\ contain fractions sign_disk (the_params false) e' /\ belong fractions false e /\ belong fractions false e' /\
     rows_asked fractions (the_params false) e 1 2 /\ rows_asked fractions (the_params false) e' 1 2 /\ lined_up fractions q_lab false e true /\
     phases fractions (fun s x y => y = signed Qcopp s x) true false second 1 2 e e') /\
  exists J, main disk1 fractions q_arith q_lab the_disk 3000 ($"calc_J" :: words the_line) = Ok J /\ this J <> 0%Q /\
            main disk1 fractions q_arith q_lab sign_disk 3000 ($"calc_J" :: words the_line) = Ok (Qcopp J).
Proof.
  destruct (request_params the_line false the_request) as [H1 H2]. split; [exact qc_exact|]. split; [exact H1|]. split; [exact H2|]. split.
  - destruct (fractions_contain the_disk (the_params false) the_data the_contain) as (e & He & R). destruct (fractions_contain sign_disk (the_params false) sign_data sign_contain) as (e' & He' & R'). exists e, e'.
    split; [exact He|]. split; [exact He'|].
    split; [apply (belong_para D fractions ExchangeExample.reads false the_data e R); belong_b; cbv; repeat split; discriminate|].
    split; [apply (belong_para D fractions ExchangeExample.reads false sign_data e' R'); belong_b; cbv; repeat split; discriminate|].
    split; [apply (rows_para D fractions ExchangeExample.reads (the_params false) the_data e 1 2 R); split; reflexivity|].
    split; [apply (rows_para D fractions ExchangeExample.reads (the_params false) sign_data e' 1 2 R'); split; reflexivity|].
    pose proof (rows_frac _ _ (dr_c1 _ _ _ _ _ R) eq_refl) as C1. pose proof (rows_frac _ _ (dr_c2 _ _ _ _ _ R) eq_refl) as C2. pose proof (rows_frac _ _ (dr_cP _ _ _ _ _ R) eq_refl) as CP. pose proof (list_frac _ _ (dr_eP _ _ _ _ _ R) eq_refl) as EP.
    pose proof (rows_frac _ _ (dr_c1 _ _ _ _ _ R') eq_refl) as C1'. pose proof (rows_frac _ _ (dr_c2 _ _ _ _ _ R') eq_refl) as C2'. pose proof (rows_frac _ _ (dr_cP _ _ _ _ _ R') eq_refl) as CP'. pose proof (list_frac _ _ (dr_eP _ _ _ _ _ R') eq_refl) as EP'.
    pose proof (pts_frac _ _ (dr_a1 _ _ _ _ _ R) eq_refl) as A1. pose proof (pts_frac _ _ (dr_a2 _ _ _ _ _ R) eq_refl) as A2. pose proof (pts_frac _ _ (dr_aP _ _ _ _ _ R) eq_refl) as AP.
    pose proof (pts_frac _ _ (dr_a1 _ _ _ _ _ R') eq_refl) as A1'. pose proof (pts_frac _ _ (dr_a2 _ _ _ _ _ R') eq_refl) as A2'. pose proof (pts_frac _ _ (dr_aP _ _ _ _ _ R') eq_refl) as AP'.
    pose proof (dr_b1 _ _ _ _ _ R) as B1. pose proof (dr_b2 _ _ _ _ _ R) as B2. pose proof (dr_bP _ _ _ _ _ R) as BP. pose proof (dr_b1 _ _ _ _ _ R') as B1'. pose proof (dr_b2 _ _ _ _ _ R') as B2'. pose proof (dr_bP _ _ _ _ _ R') as BP'.
    pose proof (dr_n _ _ _ _ _ R) as Sn. pose proof (dr_n _ _ _ _ _ R') as Sn'. pose proof (dr_S _ _ _ _ _ R) as So. pose proof (dr_S _ _ _ _ _ R') as So'.
    split.
    + apply (lu_plain fractions q_lab false e [2] [1]); rewrite <- ?B1, <- ?B2, <- ?BP, <- ?Sn, ?A1, ?A2, ?AP; try reflexivity; try discriminate; [repeat constructor; lia|apply ffinds_b; vm_compute; reflexivity|apply ffinds_b; vm_compute; reflexivity|order_b].
    + constructor; rewrite ?C1, ?C2, ?CP, ?C1', ?C2', ?CP', ?EP, ?EP', ?A1, ?A2, ?AP, ?A1', ?A2', ?AP', <- ?B1, <- ?B2, <- ?BP, <- ?B1', <- ?B2', <- ?BP', <- ?Sn, <- ?Sn'.
      * apply (sign_cells _ _ (fun _ => true) 1 2). vm_compute. reflexivity.
      * apply (sign_cells _ _ (fun _ => false) 2 2). vm_compute. reflexivity.
      * intros k c Hk Hc. change (1 <= k <= 4) in Hk. change (1 <= c <= Z.of_nat 4) in Hc. revert c Hc. assert (k = 1 \/ k = 2 \/ k = 3 \/ k = 4) as [->|[->|[->| ->]]] by lia; apply (sign_cells _ _ second _ 4); vm_compute; reflexivity.
      * split; reflexivity.
      * reflexivity.
      * split; [reflexivity|]. intros i j Hj Hi. rewrite (So i j Hj Hi), (So' i j Hj Hi); [reflexivity| |]; change (size D the_data) with 4 in Hi; change (over D the_data) with tri_value; change (over D sign_data) with tri_value; clear - Hj Hi; apply Z.leb_le;
          assert (i = 1 \/ i = 2 \/ i = 3 \/ i = 4) as [->|[->|[->| ->]]] by lia; (assert (j = 1 \/ j = 2 \/ j = 3 \/ j = 4) as [->|[->|[->| ->]]] by lia); vm_compute; reflexivity.
      * split; [reflexivity|split; reflexivity].
      * split; [reflexivity|split; reflexivity].
  - assert (G : forall o o' : outcome (num fractions), (match the_value o, the_value o' with Some q, Some q' => Qeq_bool q' (- q)%Q && negb (Qeq_bool q 0%Q) | _, _ => false end) = true -> exists J, o = Ok J /\ this J <> 0%Q /\ o' = Ok (Qcopp J)).
    { clear. intros o o' H. destruct o as [J| | | |]; try discriminate H. destruct o' as [J'| | | |]; try discriminate H. cbn [the_value] in H. apply andb_true_iff in H as [Ha Hb]. exists J. split; [reflexivity|]. split.
      - intros Z0. rewrite Z0 in Hb. discriminate Hb.
      - f_equal. apply Qc_is_canon. apply Qeq_bool_eq in Ha. rewrite Ha. unfold Qcopp, Q2Qc. cbn [this]. symmetry. apply Qred_correct. }
    apply G. vm_compute. reflexivity.
Qed.
