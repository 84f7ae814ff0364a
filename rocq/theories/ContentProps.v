(** * Property C104: only the content of the files matters *)
From Verif Require Import ParserWf ParserCheck CatnipProps ReaderProps ReaderPunProps.
From Verif Require Import ContentRun.
From Verif Require Import MainExample MainProps OutputProps.
From Verif Require Export ContentSpec.
From Verif Require Export ReaderModel MainSpec.
Import ReaderExample.
From Verif Require Export StrSpec StrModel.
Open Scope Z_scope.

Definition with_flag {N : nums} (u : bool) (a b c d : num N) : bool * (num N * num N * num N * num N) := (u, (a, b, c, d)).
Lemma job_view E N A lab disk X (finish : params -> bool -> num N -> num N -> num N -> num N -> X) fuel prog l p :
  clean_line E l -> asks E l p -> (forall q, same_request q p -> finish q = finish p) ->
  main_with E N A lab disk finish fuel (prog :: words l) =
    (q <- run_job_with N A lab disk (no_names N with_flag) fuel p ;; Ok (finish p (fst q) (fst (fst (fst (snd q)))) (snd (fst (fst (snd q)))) (snd (fst (snd q))) (snd (snd q)))).
Proof.
  intros (V & Nw & On) Ha Hs. destruct (line_params E prog l p V Nw On Ha) as (P & p' & Hp & Hpp & Ef & K1 & K2 & K3 & K4 & K5 & K6 & K7 & K8).
  rewrite (main_params E N A lab disk finish fuel (prog :: words l) P p' Hp Hpp).
  assert (F : punP p' = punP p /\ pun1 p' = pun1 p /\ pun2 p' = pun2 p /\ logP p' = logP p /\ log1 p' = log1 p /\ log2 p' = log2 p).
  { apply (f_equal (map snd)) in Ef. unfold CatnipSpec.files in Ef. cbn [map snd] in Ef. repeat split; congruence. }
  destruct F as (F1 & F2 & F3 & F4 & F5 & F6). assert (Hq : finish p' = finish p) by (apply Hs; repeat (split; [assumption|]); assumption).
  unfold run_job_with, compute_with, calcJ_with. rewrite F1, F2, F3, F4, F5, F6, K1, K2, K3, K4, K5, K6, K7, K8, Hq. cbv zeta.
  repeat (first [reflexivity | apply bind_map; intros ?]).
Qed.

(** For every arithmetic (binary64 included), every pair of command lines and files with the same content: the same
    result, bit for bit, whether it is a value or a failure. *)
Theorem C104_value : forall E E' N A lab disk disk' prog prog' l l' p p' d d' r1 r2 r1' r2',
  clean_line E l -> asks E l p -> clean_line E' l' -> asks E' l' p' -> counterPoise p' = counterPoise p ->
  contain N disk p d -> contain N disk' p' d' -> belong N (counterPoise p) d -> belong N (counterPoise p) d' ->
  rows_asked N p d r1 r2 -> rows_asked N p' d' r1' r2' -> same_content N (counterPoise p) d d' r1 r2 r1' r2' ->
  exists bound, forall fuel, (bound <= fuel)%nat -> main E' N A lab disk' fuel (prog' :: words l') = main E N A lab disk fuel (prog :: words l).
Proof.
  intros E E' N A lab disk disk' prog prog' l l' p p' d d' r1 r2 r1' r2' H1 H2 H3 H4 H5 H6 H7 H8 H9 H10 H11 H12.
  destruct (job_same N A lab with_flag disk disk' p p' d d' r1 r2 r1' r2' H5 H6 H7 H8 H9 H10 H11 H12) as (bound & H). exists bound. intros fuel Hf.
  pose proof (job_view E N A lab disk (num N) (J_of_run A) fuel prog l p H1 H2 (fun _ _ => eq_refl)) as V.
  pose proof (job_view E' N A lab disk' (num N) (J_of_run A) fuel prog' l' p' H3 H4 (fun _ _ => eq_refl)) as V'.
  rewrite (H fuel Hf) in V'. exact (eq_trans V' (eq_sym V)).
Qed.
Print Assumptions C104_value.
(** and the same report after the heading, which names the files and orbitals *)
Theorem C104_report : forall E E' N A pr h version lab disk disk' prog prog' l l' p p' d d' r1 r2 r1' r2',
  clean_line E l -> asks E l p -> clean_line E' l' -> asks E' l' p' -> counterPoise p' = counterPoise p ->
  contain N disk p d -> contain N disk' p' d' -> belong N (counterPoise p) d -> belong N (counterPoise p) d' ->
  rows_asked N p d r1 r2 -> rows_asked N p' d' r1' r2' -> same_content N (counterPoise p) d d' r1 r2 r1' r2' ->
  exists bound, forall fuel, (bound <= fuel)%nat -> exists result : outcome (list str * list str),
    main_output N A pr h version E lab disk fuel (prog :: words l) = (r <- result ;; Ok (heading version p ++ fst r, snd r)) /\
    main_output N A pr h version E' lab disk' fuel (prog' :: words l') = (r <- result ;; Ok (heading version p' ++ fst r, snd r)).
Proof.
  intros E E' N A pr h version lab disk disk' prog prog' l l' p p' d d' r1 r2 r1' r2' H1 H2 H3 H4 H5 H6 H7 H8 H9 H10 H11 H12.
  destruct (job_same N A lab with_flag disk disk' p p' d d' r1 r2 r1' r2' H5 H6 H7 H8 H9 H10 H11 H12) as (bound & H). exists bound. intros fuel Hf.
  pose proof (job_view E N A lab disk _ (lines_of_run N A pr h version) fuel prog l p H1 H2 (lines_same N A pr h version p)) as V.
  pose proof (job_view E' N A lab disk' _ (lines_of_run N A pr h version) fuel prog' l' p' H3 H4 (lines_same N A pr h version p')) as V'.
  rewrite (H fuel Hf) in V'.
  exists (q <- run_job_with N A lab disk (no_names N with_flag) fuel p ;;
    Ok (result_lines A pr h (fst (fst (fst (snd q)))) (snd (fst (fst (snd q)))) (snd (fst (snd q))) (snd (snd q)), if fst q then [] else [order_warning])).
  split; [refine (eq_trans V _)|refine (eq_trans V' _)]; clear; destruct (run_job_with N A lab disk (no_names N with_flag) fuel p) as [[u [[[a b] c] e]]| | | |]; cbn [bind fst snd]; rewrite ?lines_spec; reflexivity.
Qed.
Print Assumptions C104_report.

(** ** A case: the orbitals of monomer 1 in the other order and the other one asked for *)
Definition other_disk : str -> option str :=
  six (file_of (mono_items carbon_1 pt1)) (file_of (mono_items carbon_2 pt2)) (file_of dimer_items) (the_pun (rev m1_rows)) (the_pun m2_rows) (the_pun P_rows).
Definition other_line : list ParserSpec.item := the_line ++ [IVal $"-orb_ty_1" $"--orbital_type_1" $"LUMO"].
Definition other_params : params := mkParams $"m1.log" $"m2.log" $"runs/dimer.log" $"m1.pun" $"m2.pun" $"runs/dimer.pun" $"Alpha" $"Alpha" $"Alpha" [] $"LUMO" $"LUMO" 0 0 0 (Some false) false.
Definition other_data : data D := mkData D (MainExample.vals (rev m1_rows)) (MainExample.vals m2_rows) (MainExample.vals P_rows) [(-50000, -5); (10000, -5)] [(-50000, -5); (10000, -5)]
  [(-60000, -5); (-50000, -5); (10000, -5); (20000, -5)] 1 1 2 [pt1] [pt2] [pt2; pt1] [2] [2] [2; 2] 4 tri_value.
Lemma other_contain : contain D other_disk other_params other_data.
Proof.
  exists SAlpha, SAlpha, SAlpha, (mono_items carbon_1 pt1), (mono_items carbon_2 pt2), dimer_items.
  split; [reflexivity|]. split; [reflexivity|]. split; [reflexivity|]. split; [disk_ok|]. split; [disk_ok|]. split; [disk_ok|].
  split; [apply mono_says; [exact (dot_log $"m1" eq_refl eq_refl)|reflexivity|exact row1]|]. split; [apply mono_says; [exact (dot_log $"m2" eq_refl eq_refl)|reflexivity|exact row2]|].
  split; [apply dimer_says; [exact (proj1 dot_dimer)|reflexivity|exact dimer_rows]|apply dimer_overlap].
Qed.
Lemma other_asks : clean_line disk1 other_line /\ asks disk1 other_line other_params.
Proof.
  assert (R : result disk1 other_line = Ok ([$"m1.log"; $"m2.log"; $"runs/dimer.log"; $"m1.pun"; $"m2.pun"; $"runs/dimer.pun"],
     ([$"Alpha"; $"Alpha"; $"Alpha"; []; $"LUMO"; $"LUMO"], [0; 0; 0], Some false, false))) by (vm_compute; reflexivity).
  apply result_inv in R as (P & p & Hp & Hpp & H3).
  assert (Hn : names p = [$"m1.log"; $"m2.log"; $"runs/dimer.log"; $"m1.pun"; $"m2.pun"; $"runs/dimer.pun"]) by exact (eq_sym (f_equal fst H3)).
  assert (Hs : settings p = ([$"Alpha"; $"Alpha"; $"Alpha"; []; $"LUMO"; $"LUMO"], [0; 0; 0], Some false, false)) by exact (eq_sym (f_equal snd H3)).
  assert (Hc : clean_line disk1 other_line).
  { split; [apply validb_ok; [apply catnip_wf|vm_compute; reflexivity]|]. split; [apply tame_b; vm_compute; reflexivity|].
    intros f I; apply once_b; unfold file_flags in I; cbn [In] in I; destruct I as [<-|[<-|[<-|[<-|[<-|[<-|[]]]]]]]; vm_compute; reflexivity. }
  split; [exact Hc|]. rewrite <- (params_fields p _ _ _ _ _ _ _ _ _ _ _ _ _ _ _ _ _ Hn Hs : p = other_params).
  apply (accepted_asks disk1 $"calc_J" other_line P p Hc Hp Hpp). intros n I. rewrite Hn in I. cbn [In] in I.
  destruct I as [<-|[<-|[<-|[<-|[<-|[<-|[]]]]]]]; vm_compute; reflexivity.
Qed.
Example C104_example : clean_line disk1 the_line /\ asks disk1 the_line (the_params false) /\ clean_line disk1 other_line /\ asks disk1 other_line other_params /\
  contain D the_disk (the_params false) the_data /\ contain D other_disk other_params other_data /\ belong D false the_data /\ belong D false other_data /\
  rows_asked D (the_params false) the_data 1 2 /\ rows_asked D other_params other_data 2 2 /\ same_content D false the_data other_data 1 2 2 2 /\
  coef1 D other_data <> coef1 D the_data /\
  the_result the_disk the_line = Ok (-439045374193071257403048, -24) /\ the_result other_disk other_line = Ok (-439045374193071257403048, -24).
Proof.
  destruct (request_params the_line false the_request) as [H1 H2]. destruct other_asks as [H3 H4]. split; [exact H1|]. split; [exact H2|]. split; [exact H3|]. split; [exact H4|].
  split; [exact the_contain|]. split; [exact other_contain|]. split; [belong_b; cbv; repeat split; discriminate|]. split; [belong_b; cbv; repeat split; discriminate|].
  split; [split; reflexivity|]. split; [split; reflexivity|]. split; [|split; [vm_compute; discriminate|split; vm_compute; reflexivity]].
  constructor.
  - split; [reflexivity|]. intros c Hc. change (1 <= c <= 2) in Hc. assert (c = 1 \/ c = 2) as [->| ->] by lia; reflexivity.
  - split; reflexivity.
  - split; reflexivity.
  - split; reflexivity.
  - repeat split.
  - repeat split.
Qed.
