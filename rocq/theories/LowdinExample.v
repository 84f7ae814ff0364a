(** * The files of MainExample.v with two orbitals of overlap 24/25 and the same energy

    In an orthonormal basis the functions of the dimer are (0 0 1 1), (24 6 3 2)/25, (1 0 0 0) and (0 1 0 0), and
    the orbitals of the dimer (3/5 4/5 0 0), (-4/5 3/5 0 0), (0 0 1 0) and (0 0 0 1).  Used to show that the hypotheses
    of C109 and C110 can be met: (1 + s)^(-1/2) = 5/7 and (1 - s)^(-1/2) = 5 for the overlap s. *)
From Verif Require Import ParserWf ParserCheck CatnipProps ReaderProps ReaderPunProps.
From Verif Require Export MainExample LevelsExample.
Import ReaderExample.
From Verif Require Export StrSpec StrModel.
Open Scope Z_scope.

Definition tri5 : list (list str) := [[$"0.200000D+01"]; [$"0.200000D+00"; $"0.100000D+01"]; [$"0.000000D+00"; $"0.960000D+00"; $"0.100000D+01"]; [$"0.000000D+00"; $"0.240000D+00"; $"0.000000D+00"; $"0.100000D+01"]].
Definition tri5_value (i j : Z) : num D := value_of (cell tri5 i j).
Definition overlaps5 : ReaderSpec.item D := Overlaps D $" *** Overlap ***"
   [$"                1             2             3             4";
    $"      1  0.200000D+01";
    $"      2  0.200000D+00  0.100000D+01";
    $"      3  0.000000D+00  0.960000D+00  0.100000D+01";
    $"      4  0.000000D+00  0.240000D+00  0.000000D+00  0.100000D+01"] (Some []) 4 tri5_value.
Lemma overlaps5_ok rest tail : item_ok D overlaps5 rest tail.
Proof.
  cbn [item_ok overlaps5]. split; [apply line_b; reflexivity|]. split; [apply begins_b; reflexivity|]. split; [lia|]. split; [vm_compute; discriminate|].
  split; [|split; [apply line_b; reflexivity|intros _; eexists; split; [reflexivity|left; apply words_b; reflexivity]]].
  exists (cell tri5). split.
    + exists [match overlaps5 with Overlaps _ _ ls _ _ _ => ls | _ => [] end]. split; [reflexivity|]. split.
      * change (range 0 ((4 - 1) / 5)) with [0]. constructor; [|constructor].
      eexists _, _. split; [reflexivity|]. split; [apply words_b; vm_compute; reflexivity|].
      change (range (5 * 0 + 1) 4) with [1; 2; 3; 4]. repeat apply Forall2_cons; try apply Forall2_nil; (apply row_b; [vm_compute; reflexivity|vm_compute; reflexivity]).
      * repeat (apply Forall_cons; [apply line_b; reflexivity|]). apply Forall_nil.
    + apply in_tri. change (range 1 4) with [1; 2; 3; 4]. intros i Hi j Hj. apply coef_b.
    each; match type of Hj with In _ (range 1 ?k) => let r := eval vm_compute in (range 1 k) in change (range 1 k) with r in Hj end; each; vm_compute; reflexivity.
Qed.
Section Energies.
Variables (lo lv : str) (eo ev : list str).
Hypothesis Hb : begins KAlpha lo.
Hypothesis Ho : energy_line D false lo (true, map (n_atof D) eo).
Hypothesis Hv : energy_line D false lv (false, map (n_atof D) ev).
Hypothesis Hn : length eo = 2%nat /\ length ev = 2%nat.
Definition low_of (rows : list str) (points : list (num D * num D * num D)) : list (ReaderSpec.item D) :=
  [Other D $" Entering Gaussian System"; coords rows points; overlaps5; energies_item lo lv eo ev; Other D $" Mulliken";
   populations [$"   1 1   C  1S          1.99222"; $"   2        2S          1.17000"; $"   3 2   C  1S          1.99222"; $"   4        2S          1.17000"] dimer_atoms].
Lemma low_file rows pts : Forall2 (coord_row D) rows pts -> log_file D (low_of rows pts) (file_of (low_of rows pts)).
Proof.
  intros Hp. exists (concat (map (item_lines D) (low_of rows pts))), $" Normal termination". split; [reflexivity|]. split; [apply line_b; reflexivity|]. split; [apply no_mark_b; reflexivity|].
  unfold low_of. cbn [map concat].
  apply log_item; [oline|]. apply log_item; [apply coords_ok, Hp|]. apply log_item; [apply overlaps5_ok|].
  apply log_item; [apply energies_ok2; [exact Hb|exact Ho|exact Hv|cbn [app item_lines first_of]; split; apply not_occurs_b; reflexivity]|].
  apply log_item; [oline|]. apply log_item; [apply populations_ok; [discriminate|]|apply log_nil].
  apply (pop_atom D $"C" $"1S" [(199222, -5)] [($"2S", [(117000, -5)])] $"   1 1   C  1S          1.99222" [$"   2        2S          1.17000"] _ [$"   3 2   C  1S          1.99222"; $"   4        2S          1.17000"]).
  - apply (first_b _ _ _ _ $"1" $"1" [$"1.99222"]); try reflexivity. constructor; [reflexivity|constructor].
  - constructor; [|constructor]. apply (other_b _ _ $"2" $"1.17000" []); try reflexivity. constructor; [reflexivity|constructor].
  - apply (pop_atom D $"C" $"1S" [(199222, -5)] [($"2S", [(117000, -5)])] $"   3 2   C  1S          1.99222" [$"   4        2S          1.17000"] [] []); [| |apply pop_nil].
    + apply (first_b _ _ _ _ $"3" $"2" [$"1.99222"]); try reflexivity. constructor; [reflexivity|constructor].
    + constructor; [|constructor]. apply (other_b _ _ $"4" $"1.17000" []); try reflexivity. constructor; [reflexivity|constructor].
Qed.
Lemma low_says disk name rows pts en : en = map (n_atof D) eo ++ map (n_atof D) ev -> one_dot name $".log" -> disk name = Some (file_of (low_of rows pts)) -> Forall2 (coord_row D) rows pts ->
  log_says D disk name SAlpha (low_of rows pts) en 2 pts [2; 2].
Proof.
  intros -> Hd Hf Hc. constructor.
  - exact Hd.
  - eexists. split; [exact Hf|]. apply low_file. exact Hc.
  - eexists _, _. split; [|split].
    + exists (firstn 3 (low_of rows pts)), (skipn 4 (low_of rows pts)). split; [reflexivity|]. split; [reflexivity|]. intros it [<-|[<-|[]]] H; exact H.
    + cbn [filter map fst snd concat app negb]. rewrite ?app_nil_r. reflexivity.
    + cbn [filter map fst snd concat app negb]. rewrite ?app_nil_r. rewrite map_length, (proj1 Hn). reflexivity.
  - eexists _, _, _, _, _. exists (firstn 1 (low_of rows pts)), (skipn 2 (low_of rows pts)). split; [reflexivity|]. split; [exact I|]. intros it [<-|[<-|[<-|[<-|[]]]]] H; exact H.
  - left. eexists _, _, _, _, _. split; [right; right; right; right; right; left; reflexivity|]. split; [|reflexivity].
    intros h a ls e atoms [H|[H|[H|[H|[H|[H|[]]]]]]]; try discriminate H. unfold populations in H. inversion H; subst. split; [repeat constructor|].
    constructor; [|constructor; [|constructor]]; cbn [snd map fst]; repeat (constructor; [cbn [In]; intuition discriminate|]); constructor.
Qed.
Lemma low_overlap rows pts : overlap_says D (low_of rows pts) 4 tri5_value.
Proof.
  eexists _, _, _. exists (firstn 2 (low_of rows pts)), (skipn 3 (low_of rows pts)). split; [reflexivity|]. split; [exact I|]. intros it [<-|[<-|[<-|[]]]] H; exact H.
Qed.
End Energies.
Definition low_lo : str := $" Alpha  occ. eigenvalues --   -0.60000  -0.50000".
Definition low_lv : str := $" Alpha virt. eigenvalues --    0.50000   0.84100".
Definition low_items : list (ReaderSpec.item D) := low_of low_lo low_lv [$"-0.60000"; $"-0.50000"] [$"0.50000"; $"0.84100"] [carbon_2; carbon_P] [pt2; pt1].
Definition low_en : list (num D) := [(-60000, -5); (-50000, -5); (50000, -5); (84100, -5)].
Definition low_mono : list (list str) := [[f1; f0]; [f0; f1]].
Definition low_rows : list (list str) :=
  [[f0; f0; $" 0.60000000D+00"; $" 0.80000000D+00"]; [f0; f0; $"-0.80000000D+00"; $" 0.60000000D+00"];
   [$"-0.20000000D+01"; $" 0.25000000D+02"; $"-0.24000000D+02"; $"-0.60000000D+01"]; [$" 0.30000000D+01"; $"-0.25000000D+02"; $" 0.24000000D+02"; $" 0.60000000D+01"]].
Definition low_disk : str -> option str :=
  six (file_of (mono_items carbon_1 pt1)) (file_of (mono_items carbon_2 pt2)) (file_of low_items) (MainExample.the_pun low_mono) (MainExample.the_pun low_mono) (MainExample.the_pun low_rows).
Definition low_data : data D := mkData D (MainExample.vals low_mono) (MainExample.vals low_mono) (MainExample.vals low_rows) [(-50000, -5); (10000, -5)] [(-50000, -5); (10000, -5)]
  low_en 1 1 2 [pt1] [pt2] [pt2; pt1] [2] [2] [2; 2] 4 tri5_value.
Lemma low_contain : contain D low_disk (the_params false) low_data.
Proof.
  exists SAlpha, SAlpha, SAlpha, (mono_items carbon_1 pt1), (mono_items carbon_2 pt2), low_items.
  split; [reflexivity|]. split; [reflexivity|]. split; [reflexivity|]. split; [disk_ok|]. split; [disk_ok|]. split; [disk_ok|].
  split; [apply mono_says; [exact (dot_log $"m1" eq_refl eq_refl)|reflexivity|exact row1]|]. split; [apply mono_says; [exact (dot_log $"m2" eq_refl eq_refl)|reflexivity|exact row2]|].
  split; [|apply low_overlap]. apply low_says; [apply begins_b; reflexivity| | |split; reflexivity|vm_compute; reflexivity|exact (proj1 dot_dimer)|reflexivity|exact dimer_rows].
  - eline [$"-0.60000"; $"-0.50000"].
  - eline [$"0.50000"; $"0.84100"].
Qed.
