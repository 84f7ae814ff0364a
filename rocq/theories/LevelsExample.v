(** * The files of MainExample.v with other energies of the dimer

    Used to show that the hypotheses of C106 can be met: the projections of the two monomer orbitals
    on the orbitals of the dimer are (1, 0, 0, 0) and (3/5, 4/5, 0, 0). *)
From Verif Require Import ParserWf ParserCheck CatnipProps ReaderProps ReaderPunProps.
From Verif Require Export MainExample.
Import ReaderExample.
From Verif Require Export StrSpec StrModel.
Open Scope Z_scope.

Section Energies.
Variables (lo lv : str) (eo ev : list str).
Hypothesis Hb : begins KAlpha lo.
Hypothesis Ho : energy_line D false lo (true, map (n_atof D) eo).
Hypothesis Hv : energy_line D false lv (false, map (n_atof D) ev).
Hypothesis Hn : length eo = 2%nat /\ length ev = 2%nat.
Definition lev_of (rows : list str) (points : list (num D * num D * num D)) : list (ReaderSpec.item D) :=
  [Other D $" Entering Gaussian System"; coords rows points; overlaps; energies_item lo lv eo ev; Other D $" Mulliken";
   populations [$"   1 1   C  1S          1.99222"; $"   2        2S          1.17000"; $"   3 2   C  1S          1.99222"; $"   4        2S          1.17000"] dimer_atoms].
Lemma lev_file rows pts : Forall2 (coord_row D) rows pts -> log_file D (lev_of rows pts) (file_of (lev_of rows pts)).
Proof.
  intros Hp. exists (concat (map (item_lines D) (lev_of rows pts))), $" Normal termination". split; [reflexivity|]. split; [apply line_b; reflexivity|]. split; [apply no_mark_b; reflexivity|].
  unfold lev_of. cbn [map concat].
  apply log_item; [oline|]. apply log_item; [apply coords_ok, Hp|]. apply log_item; [apply overlaps_ok|].
  apply log_item; [apply energies_ok2; [exact Hb|exact Ho|exact Hv|cbn [app item_lines first_of]; split; apply not_occurs_b; reflexivity]|].
  apply log_item; [oline|]. apply log_item; [apply populations_ok; [discriminate|]|apply log_nil].
  apply (pop_atom D $"C" $"1S" [(199222, -5)] [($"2S", [(117000, -5)])] $"   1 1   C  1S          1.99222" [$"   2        2S          1.17000"] _ [$"   3 2   C  1S          1.99222"; $"   4        2S          1.17000"]).
  - apply (first_b _ _ _ _ $"1" $"1" [$"1.99222"]); try reflexivity. constructor; [reflexivity|constructor].
  - constructor; [|constructor]. apply (other_b _ _ $"2" $"1.17000" []); try reflexivity. constructor; [reflexivity|constructor].
  - apply (pop_atom D $"C" $"1S" [(199222, -5)] [($"2S", [(117000, -5)])] $"   3 2   C  1S          1.99222" [$"   4        2S          1.17000"] [] []); [| |apply pop_nil].
    + apply (first_b _ _ _ _ $"3" $"2" [$"1.99222"]); try reflexivity. constructor; [reflexivity|constructor].
    + constructor; [|constructor]. apply (other_b _ _ $"4" $"1.17000" []); try reflexivity. constructor; [reflexivity|constructor].
Qed.
Lemma lev_says disk name rows pts en : en = map (n_atof D) eo ++ map (n_atof D) ev -> one_dot name $".log" -> disk name = Some (file_of (lev_of rows pts)) -> Forall2 (coord_row D) rows pts ->
  log_says D disk name SAlpha (lev_of rows pts) en 2 pts [2; 2].
Proof.
  intros -> Hd Hf Hc. constructor.
  - exact Hd.
  - eexists. split; [exact Hf|]. apply lev_file. exact Hc.
  - eexists _, _. split; [|split].
    + exists (firstn 3 (lev_of rows pts)), (skipn 4 (lev_of rows pts)). split; [reflexivity|]. split; [reflexivity|]. intros it [<-|[<-|[]]] H; exact H.
    + cbn [filter map fst snd concat app negb]. rewrite ?app_nil_r. reflexivity.
    + cbn [filter map fst snd concat app negb]. rewrite ?app_nil_r. rewrite map_length, (proj1 Hn). reflexivity.
  - eexists _, _, _, _, _. exists (firstn 1 (lev_of rows pts)), (skipn 2 (lev_of rows pts)). split; [reflexivity|]. split; [exact I|]. intros it [<-|[<-|[<-|[<-|[]]]]] H; exact H.
  - left. eexists _, _, _, _, _. split; [right; right; right; right; right; left; reflexivity|]. split; [|reflexivity].
    intros h a ls e atoms [H|[H|[H|[H|[H|[H|[]]]]]]]; try discriminate H. unfold populations in H. inversion H; subst. split; [repeat constructor|].
    constructor; [|constructor; [|constructor]]; cbn [snd map fst]; repeat (constructor; [cbn [In]; intuition discriminate|]); constructor.
Qed.
Lemma lev_overlap rows pts : overlap_says D (lev_of rows pts) 4 tri_value.
Proof.
  eexists _, _, _. exists (firstn 2 (lev_of rows pts)), (skipn 3 (lev_of rows pts)). split; [reflexivity|]. split; [exact I|]. intros it [<-|[<-|[<-|[]]]] H; exact H.
Qed.
End Energies.
(** four choices of the energies: some energies, the same + 0.3, the same times -2 + 0.1, ones *)
Inductive choice := Some_energies | Shifted | Affine | Ones.
Definition occ_of (c : choice) : str := match c with
  | Some_energies => $" Alpha  occ. eigenvalues --   -0.60000  -0.50000" | Shifted => $" Alpha  occ. eigenvalues --   -0.30000  -0.20000"
  | Affine => $" Alpha  occ. eigenvalues --    1.30000   1.10000" | Ones => $" Alpha  occ. eigenvalues --    1.00000   1.00000" end.
Definition virt_of (c : choice) : str := match c with
  | Some_energies => $" Alpha virt. eigenvalues --    0.10000   0.20000" | Shifted => $" Alpha virt. eigenvalues --    0.40000   0.50000"
  | Affine => $" Alpha virt. eigenvalues --   -0.10000  -0.30000" | Ones => $" Alpha virt. eigenvalues --    1.00000   1.00000" end.
Definition eo_of (c : choice) : list str := match c with
  | Some_energies => [$"-0.60000"; $"-0.50000"] | Shifted => [$"-0.30000"; $"-0.20000"] | Affine => [$"1.30000"; $"1.10000"] | Ones => [$"1.00000"; $"1.00000"] end.
Definition ev_of (c : choice) : list str := match c with
  | Some_energies => [$"0.10000"; $"0.20000"] | Shifted => [$"0.40000"; $"0.50000"] | Affine => [$"-0.10000"; $"-0.30000"] | Ones => [$"1.00000"; $"1.00000"] end.
Definition en_of (c : choice) : list (num D) := match c with
  | Some_energies => [(-60000, -5); (-50000, -5); (10000, -5); (20000, -5)] | Shifted => [(-30000, -5); (-20000, -5); (40000, -5); (50000, -5)]
  | Affine => [(130000, -5); (110000, -5); (-10000, -5); (-30000, -5)] | Ones => [(100000, -5); (100000, -5); (100000, -5); (100000, -5)] end.
Definition lev_items (c : choice) : list (ReaderSpec.item D) := lev_of (occ_of c) (virt_of c) (eo_of c) (ev_of c) [carbon_2; carbon_P] [pt2; pt1].
Definition lev_m2_rows : list (list str) := [[f3; f1]; [f2; f1]].
Definition lev_P_rows : list (list str) :=
  [[$" 0.70000000D+00"; $" 0.10000000D+00"; $" 0.49600000D+00"; $" 0.62000000D+00"]; [$" 0.10155000D+01"; $" 0.77500000D-01"; $" 0.10000000D+00"; $"-0.20000000D+00"];
   [f0; f0; f0; f0]; [f0; f0; f0; f0]].
Definition lev_disk (c : choice) : str -> option str :=
  six (file_of (mono_items carbon_1 pt1)) (file_of (mono_items carbon_2 pt2)) (file_of (lev_items c)) (MainExample.the_pun m1_rows) (MainExample.the_pun lev_m2_rows) (MainExample.the_pun lev_P_rows).
Definition lev_data (c : choice) : data D := mkData D (MainExample.vals m1_rows) (MainExample.vals lev_m2_rows) (MainExample.vals lev_P_rows) [(-50000, -5); (10000, -5)] [(-50000, -5); (10000, -5)]
  (en_of c) 1 1 2 [pt1] [pt2] [pt2; pt1] [2] [2] [2; 2] 4 tri_value.
Lemma lev_contain c : contain D (lev_disk c) (the_params false) (lev_data c).
Proof.
  exists SAlpha, SAlpha, SAlpha, (mono_items carbon_1 pt1), (mono_items carbon_2 pt2), (lev_items c).
  split; [reflexivity|]. split; [reflexivity|]. split; [reflexivity|]. split; [disk_ok|]. split; [disk_ok|]. split; [disk_ok|].
  split; [apply mono_says; [exact (dot_log $"m1" eq_refl eq_refl)|reflexivity|exact row1]|]. split; [apply mono_says; [exact (dot_log $"m2" eq_refl eq_refl)|reflexivity|exact row2]|].
  split; [|apply lev_overlap]. apply lev_says; [destruct c; apply begins_b; reflexivity|destruct c|destruct c|destruct c; split; reflexivity|destruct c; vm_compute; reflexivity|exact (proj1 dot_dimer)|reflexivity|exact dimer_rows].
  - eline [$"-0.60000"; $"-0.50000"].
  - eline [$"-0.30000"; $"-0.20000"].
  - eline [$"1.30000"; $"1.10000"].
  - eline [$"1.00000"; $"1.00000"].
  - eline [$"0.10000"; $"0.20000"].
  - eline [$"0.40000"; $"0.50000"].
  - eline [$"-0.10000"; $"-0.30000"].
  - eline [$"1.00000"; $"1.00000"].
Qed.
