(** * The files of MainExample.v with other overlaps and complete orbitals of the dimer

    The overlap matrix is L L^T and the orbitals of the dimer are the rows of the inverse of L, for
    L = (1 0 0 0; 0.6 0.8 0 0; 0.36 0.48 0.8 0; 0 0.36 0.48 0.8).  Used to show that the hypotheses of C107 and
    C108 can be met. *)
From Verif Require Import ParserWf ParserCheck CatnipProps ReaderProps ReaderPunProps.
From Verif Require Export MainExample LevelsExample.
Import ReaderExample.
From Verif Require Export StrSpec StrModel.
Open Scope Z_scope.

(** [far]: the functions of the two atoms do not overlap *)
Definition tri4 (far : bool) : list (list str) :=
  if far then [[$"0.100000D+01"]; [$"0.600000D+00"; $"0.100000D+01"]; [$"0.000000D+00"; $"0.000000D+00"; $"0.100000D+01"]; [$"0.000000D+00"; $"0.000000D+00"; $"0.556800D+00"; $"0.100000D+01"]]
  else [[$"0.100000D+01"]; [$"0.600000D+00"; $"0.100000D+01"]; [$"0.360000D+00"; $"0.600000D+00"; $"0.100000D+01"]; [$"0.000000D+00"; $"0.288000D+00"; $"0.556800D+00"; $"0.100000D+01"]].
Definition tri4_value (far : bool) (i j : Z) : num D := value_of (cell (tri4 far) i j).
Definition overlaps4 (far : bool) : ReaderSpec.item D := Overlaps D $" *** Overlap ***"
  (if far then
   [$"                1             2             3             4";
    $"      1  0.100000D+01";
    $"      2  0.600000D+00  0.100000D+01";
    $"      3  0.000000D+00  0.000000D+00  0.100000D+01";
    $"      4  0.000000D+00  0.000000D+00  0.556800D+00  0.100000D+01"]
   else
   [$"                1             2             3             4";
    $"      1  0.100000D+01";
    $"      2  0.600000D+00  0.100000D+01";
    $"      3  0.360000D+00  0.600000D+00  0.100000D+01";
    $"      4  0.000000D+00  0.288000D+00  0.556800D+00  0.100000D+01"]) (Some []) 4 (tri4_value far).
Lemma overlaps4_ok far rest tail : item_ok D (overlaps4 far) rest tail.
Proof.
  destruct far.
  - cbn [item_ok overlaps4]. split; [apply line_b; reflexivity|]. split; [apply begins_b; reflexivity|]. split; [lia|]. split; [vm_compute; discriminate|].
  split; [|split; [apply line_b; reflexivity|intros _; eexists; split; [reflexivity|left; apply words_b; reflexivity]]].
  exists (cell (tri4 true)). split.
    + exists [match overlaps4 true with Overlaps _ _ ls _ _ _ => ls | _ => [] end]. split; [reflexivity|]. split.
      * change (range 0 ((4 - 1) / 5)) with [0]. constructor; [|constructor].
      eexists _, _. split; [reflexivity|]. split; [apply words_b; vm_compute; reflexivity|].
      change (range (5 * 0 + 1) 4) with [1; 2; 3; 4]. repeat apply Forall2_cons; try apply Forall2_nil; (apply row_b; [vm_compute; reflexivity|vm_compute; reflexivity]).
      * repeat (apply Forall_cons; [apply line_b; reflexivity|]). apply Forall_nil.
    + apply in_tri. change (range 1 4) with [1; 2; 3; 4]. intros i Hi j Hj. apply coef_b.
    each; match type of Hj with In _ (range 1 ?k) => let r := eval vm_compute in (range 1 k) in change (range 1 k) with r in Hj end; each; vm_compute; reflexivity.
  - cbn [item_ok overlaps4]. split; [apply line_b; reflexivity|]. split; [apply begins_b; reflexivity|]. split; [lia|]. split; [vm_compute; discriminate|].
  split; [|split; [apply line_b; reflexivity|intros _; eexists; split; [reflexivity|left; apply words_b; reflexivity]]].
  exists (cell (tri4 false)). split.
    + exists [match overlaps4 false with Overlaps _ _ ls _ _ _ => ls | _ => [] end]. split; [reflexivity|]. split.
      * change (range 0 ((4 - 1) / 5)) with [0]. constructor; [|constructor].
      eexists _, _. split; [reflexivity|]. split; [apply words_b; vm_compute; reflexivity|].
      change (range (5 * 0 + 1) 4) with [1; 2; 3; 4]. repeat apply Forall2_cons; try apply Forall2_nil; (apply row_b; [vm_compute; reflexivity|vm_compute; reflexivity]).
      * repeat (apply Forall_cons; [apply line_b; reflexivity|]). apply Forall_nil.
    + apply in_tri. change (range 1 4) with [1; 2; 3; 4]. intros i Hi j Hj. apply coef_b.
    each; match type of Hj with In _ (range 1 ?k) => let r := eval vm_compute in (range 1 k) in change (range 1 k) with r in Hj end; each; vm_compute; reflexivity.
Qed.

Section Energies.
Variable far : bool.
Variables (lo lv : str) (eo ev : list str).
Hypothesis Hb : begins KAlpha lo.
Hypothesis Ho : energy_line D false lo (true, map (n_atof D) eo).
Hypothesis Hv : energy_line D false lv (false, map (n_atof D) ev).
Hypothesis Hn : length eo = 2%nat /\ length ev = 2%nat.
Definition elt_of (rows : list str) (points : list (num D * num D * num D)) : list (ReaderSpec.item D) :=
  [Other D $" Entering Gaussian System"; coords rows points; overlaps4 far; energies_item lo lv eo ev; Other D $" Mulliken";
   populations [$"   1 1   C  1S          1.99222"; $"   2        2S          1.17000"; $"   3 2   C  1S          1.99222"; $"   4        2S          1.17000"] dimer_atoms].
Lemma elt_file rows pts : Forall2 (coord_row D) rows pts -> log_file D (elt_of rows pts) (file_of (elt_of rows pts)).
Proof.
  intros Hp. exists (concat (map (item_lines D) (elt_of rows pts))), $" Normal termination". split; [reflexivity|]. split; [apply line_b; reflexivity|]. split; [apply no_mark_b; reflexivity|].
  unfold elt_of. cbn [map concat].
  apply log_item; [oline|]. apply log_item; [apply coords_ok, Hp|]. apply log_item; [apply overlaps4_ok|].
  apply log_item; [apply energies_ok2; [exact Hb|exact Ho|exact Hv|cbn [app item_lines first_of]; split; apply not_occurs_b; reflexivity]|].
  apply log_item; [oline|]. apply log_item; [apply populations_ok; [discriminate|]|apply log_nil].
  apply (pop_atom D $"C" $"1S" [(199222, -5)] [($"2S", [(117000, -5)])] $"   1 1   C  1S          1.99222" [$"   2        2S          1.17000"] _ [$"   3 2   C  1S          1.99222"; $"   4        2S          1.17000"]).
  - apply (first_b _ _ _ _ $"1" $"1" [$"1.99222"]); try reflexivity. constructor; [reflexivity|constructor].
  - constructor; [|constructor]. apply (other_b _ _ $"2" $"1.17000" []); try reflexivity. constructor; [reflexivity|constructor].
  - apply (pop_atom D $"C" $"1S" [(199222, -5)] [($"2S", [(117000, -5)])] $"   3 2   C  1S          1.99222" [$"   4        2S          1.17000"] [] []); [| |apply pop_nil].
    + apply (first_b _ _ _ _ $"3" $"2" [$"1.99222"]); try reflexivity. constructor; [reflexivity|constructor].
    + constructor; [|constructor]. apply (other_b _ _ $"4" $"1.17000" []); try reflexivity. constructor; [reflexivity|constructor].
Qed.
Lemma elt_says disk name rows pts en : en = map (n_atof D) eo ++ map (n_atof D) ev -> one_dot name $".log" -> disk name = Some (file_of (elt_of rows pts)) -> Forall2 (coord_row D) rows pts ->
  log_says D disk name SAlpha (elt_of rows pts) en 2 pts [2; 2].
Proof.
  intros -> Hd Hf Hc. constructor.
  - exact Hd.
  - eexists. split; [exact Hf|]. apply elt_file. exact Hc.
  - eexists _, _. split; [|split].
    + exists (firstn 3 (elt_of rows pts)), (skipn 4 (elt_of rows pts)). split; [reflexivity|]. split; [reflexivity|]. intros it [<-|[<-|[]]] H; exact H.
    + cbn [filter map fst snd concat app negb]. rewrite ?app_nil_r. reflexivity.
    + cbn [filter map fst snd concat app negb]. rewrite ?app_nil_r. rewrite map_length, (proj1 Hn). reflexivity.
  - eexists _, _, _, _, _. exists (firstn 1 (elt_of rows pts)), (skipn 2 (elt_of rows pts)). split; [reflexivity|]. split; [exact I|]. intros it [<-|[<-|[<-|[<-|[]]]]] H; exact H.
  - left. eexists _, _, _, _, _. split; [right; right; right; right; right; left; reflexivity|]. split; [|reflexivity].
    intros h a ls e atoms [H|[H|[H|[H|[H|[H|[]]]]]]]; try discriminate H. unfold populations in H. inversion H; subst. split; [repeat constructor|].
    constructor; [|constructor; [|constructor]]; cbn [snd map fst]; repeat (constructor; [cbn [In]; intuition discriminate|]); constructor.
Qed.
Lemma elt_overlap rows pts : overlap_says D (elt_of rows pts) 4 (tri4_value far).
Proof.
  eexists _, _, _. exists (firstn 2 (elt_of rows pts)), (skipn 3 (elt_of rows pts)). split; [reflexivity|]. split; [exact I|]. intros it [<-|[<-|[<-|[]]]] H; exact H.
Qed.
End Energies.
Definition elt_items (far : bool) (c : choice) : list (ReaderSpec.item D) := elt_of far (occ_of c) (virt_of c) (eo_of c) (ev_of c) [carbon_2; carbon_P] [pt2; pt1].
Definition unit_rows : list (list str) := [[f1; f0]; [f0; f1]].
Definition inverse_rows (far : bool) : list (list str) :=
  if far then [[f1; f0; f0; f0]; [$"-0.75000000D+00"; $" 0.12500000D+01"; f0; f0]; [f0; f0; f1; f0]; [f0; f0; f0; f1]] else
  [[f1; f0; f0; f0]; [$"-0.75000000D+00"; $" 0.12500000D+01"; f0; f0]; [f0; $"-0.75000000D+00"; $" 0.12500000D+01"; f0];
   [$" 0.33750000D+00"; $"-0.11250000D+00"; $"-0.75000000D+00"; $" 0.12500000D+01"]].
Definition elt_disk (far : bool) (c : choice) : str -> option str :=
  six (file_of (mono_items carbon_1 pt1)) (file_of (mono_items carbon_2 pt2)) (file_of (elt_items far c)) (MainExample.the_pun unit_rows) (MainExample.the_pun unit_rows) (MainExample.the_pun (inverse_rows far)).
Definition elt_data (far : bool) (c : choice) : data D := mkData D (MainExample.vals unit_rows) (MainExample.vals unit_rows) (MainExample.vals (inverse_rows far)) [(-50000, -5); (10000, -5)] [(-50000, -5); (10000, -5)]
  (en_of c) 1 1 2 [pt1] [pt2] [pt2; pt1] [2] [2] [2; 2] 4 (tri4_value far).
Lemma elt_contain far c : contain D (elt_disk far c) (the_params false) (elt_data far c).
Proof.
  exists SAlpha, SAlpha, SAlpha, (mono_items carbon_1 pt1), (mono_items carbon_2 pt2), (elt_items far c).
  split; [reflexivity|]. split; [reflexivity|]. split; [reflexivity|]. split; [disk_ok|]. split; [disk_ok|]. split; [destruct far; disk_ok|].
  split; [apply mono_says; [exact (dot_log $"m1" eq_refl eq_refl)|reflexivity|exact row1]|]. split; [apply mono_says; [exact (dot_log $"m2" eq_refl eq_refl)|reflexivity|exact row2]|].
  split; [|apply elt_overlap]. apply elt_says; [destruct c; apply begins_b; reflexivity|destruct c|destruct c|destruct c; split; reflexivity|destruct c; vm_compute; reflexivity|exact (proj1 dot_dimer)|reflexivity|exact dimer_rows].
  - eline [$"-0.60000"; $"-0.50000"].
  - eline [$"-0.30000"; $"-0.20000"].
  - eline [$"1.30000"; $"1.10000"].
  - eline [$"1.00000"; $"1.00000"].
  - eline [$"0.10000"; $"0.20000"].
  - eline [$"0.40000"; $"0.50000"].
  - eline [$"-0.10000"; $"-0.30000"].
  - eline [$"1.00000"; $"1.00000"].
Qed.
