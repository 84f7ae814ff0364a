(** * A calculation of the dimer with two orbitals of the same energy, and the same with the two rotated

    The files of MainExample.v with other energies of the dimer; the second pun file of the dimer has
    orbitals 1 and 2 rotated (by 3/5 and 4/5) and orbital 4 with the other sign.  Used to show that the
    hypotheses of C105 can be met. *)
From Verif Require Import ParserWf ParserCheck CatnipProps ReaderProps ReaderPunProps.
From Verif Require Export MainExample.
Import ReaderExample.
From Verif Require Export StrSpec StrModel.
Open Scope Z_scope.

Definition deg_of (rows : list str) (points : list (num D * num D * num D)) : list (ReaderSpec.item D) :=
  [Other D $" Entering Gaussian System"; coords rows points; overlaps;
   energies_item $" Alpha  occ. eigenvalues --   -0.50000  -0.50000" $" Alpha virt. eigenvalues --    0.10000   0.20000" [$"-0.50000"; $"-0.50000"] [$"0.10000"; $"0.20000"]; Other D $" Mulliken";
   populations [$"   1 1   C  1S          1.99222"; $"   2        2S          1.17000"; $"   3 2   C  1S          1.99222"; $"   4        2S          1.17000"] dimer_atoms].
Lemma deg_file rows pts : Forall2 (coord_row D) rows pts -> log_file D (deg_of rows pts) (file_of (deg_of rows pts)).
Proof.
  intros Hp. exists (concat (map (item_lines D) (deg_of rows pts))), $" Normal termination". split; [reflexivity|]. split; [apply line_b; reflexivity|]. split; [apply no_mark_b; reflexivity|].
  unfold deg_of. cbn [map concat].
  apply log_item; [oline|]. apply log_item; [apply coords_ok, Hp|]. apply log_item; [apply overlaps_ok|].
  apply log_item; [apply energies_ok2; [apply begins_b; reflexivity|eline [$"-0.50000"; $"-0.50000"]|eline [$"0.10000"; $"0.20000"]|cbn [app item_lines first_of]; split; apply not_occurs_b; reflexivity]|].
  apply log_item; [oline|]. apply log_item; [apply populations_ok; [discriminate|]|apply log_nil].
  apply (pop_atom D $"C" $"1S" [(199222, -5)] [($"2S", [(117000, -5)])] $"   1 1   C  1S          1.99222" [$"   2        2S          1.17000"] _ [$"   3 2   C  1S          1.99222"; $"   4        2S          1.17000"]).
  - apply (first_b _ _ _ _ $"1" $"1" [$"1.99222"]); try reflexivity. constructor; [reflexivity|constructor].
  - constructor; [|constructor]. apply (other_b _ _ $"2" $"1.17000" []); try reflexivity. constructor; [reflexivity|constructor].
  - apply (pop_atom D $"C" $"1S" [(199222, -5)] [($"2S", [(117000, -5)])] $"   3 2   C  1S          1.99222" [$"   4        2S          1.17000"] [] []); [| |apply pop_nil].
    + apply (first_b _ _ _ _ $"3" $"2" [$"1.99222"]); try reflexivity. constructor; [reflexivity|constructor].
    + constructor; [|constructor]. apply (other_b _ _ $"4" $"1.17000" []); try reflexivity. constructor; [reflexivity|constructor].
Qed.
Definition deg_en : list (num D) := [(-50000, -5); (-50000, -5); (10000, -5); (20000, -5)].
Lemma deg_says disk name rows pts : one_dot name $".log" -> disk name = Some (file_of (deg_of rows pts)) -> Forall2 (coord_row D) rows pts ->
  log_says D disk name SAlpha (deg_of rows pts) deg_en 2 pts [2; 2].
Proof.
  intros Hd Hf Hc. constructor.
  - exact Hd.
  - eexists. split; [exact Hf|]. apply deg_file. exact Hc.
  - eexists _, _. split; [|split].
    + exists (firstn 3 (deg_of rows pts)), (skipn 4 (deg_of rows pts)). split; [reflexivity|]. split; [reflexivity|]. intros it [<-|[<-|[]]] H; exact H.
    + vm_compute. reflexivity.
    + vm_compute. reflexivity.
  - eexists _, _, _, _, _. exists (firstn 1 (deg_of rows pts)), (skipn 2 (deg_of rows pts)). split; [reflexivity|]. split; [exact I|]. intros it [<-|[<-|[<-|[<-|[]]]]] H; exact H.
  - left. eexists _, _, _, _, _. split; [right; right; right; right; right; left; reflexivity|]. split; [|reflexivity].
    intros h a ls e atoms [H|[H|[H|[H|[H|[H|[]]]]]]]; try discriminate H. unfold populations in H. inversion H; subst. split; [repeat constructor|].
    constructor; [|constructor; [|constructor]]; cbn [snd map fst]; repeat (constructor; [cbn [In]; intuition discriminate|]); constructor.
Qed.
Lemma deg_overlap rows pts : overlap_says D (deg_of rows pts) 4 tri_value.
Proof.
  eexists _, _, _. exists (firstn 2 (deg_of rows pts)), (skipn 3 (deg_of rows pts)). split; [reflexivity|]. split; [exact I|]. intros it [<-|[<-|[<-|[]]]] H; exact H.
Qed.
Definition deg_items : list (ReaderSpec.item D) := deg_of [carbon_2; carbon_P] [pt2; pt1].
Definition p3 : str := $" 0.30000000D+00". Definition p4 : str := $" 0.40000000D+00". Definition p6 : str := $" 0.60000000D+00". Definition p8 : str := $" 0.80000000D+00".
Definition q4 : str := $"-0.40000000D+00". Definition q8 : str := $"-0.80000000D+00". Definition q10 : str := $"-0.10000000D+01".
Definition mix_rows : list (list str) := [[p6; p8; p3; p4]; [q8; p6; q4; p3]; [f2; f0; f1; f0]; [f0; f2; f3; q10]].
Definition deg_disk (rows : list (list str)) : str -> option str :=
  six (file_of (mono_items carbon_1 pt1)) (file_of (mono_items carbon_2 pt2)) (file_of deg_items) (MainExample.the_pun m1_rows) (MainExample.the_pun m2_rows) (MainExample.the_pun rows).
Definition deg_data (rows : list (list str)) : data D := mkData D (MainExample.vals m1_rows) (MainExample.vals m2_rows) (MainExample.vals rows) [(-50000, -5); (10000, -5)] [(-50000, -5); (10000, -5)]
  deg_en 1 1 2 [pt1] [pt2] [pt2; pt1] [2] [2] [2; 2] 4 tri_value.
Lemma deg_contain rows : rows = P_rows \/ rows = mix_rows -> contain D (deg_disk rows) (the_params false) (deg_data rows).
Proof.
  intros [->| ->]; exists SAlpha, SAlpha, SAlpha, (mono_items carbon_1 pt1), (mono_items carbon_2 pt2), deg_items;
  (split; [reflexivity|]; split; [reflexivity|]; split; [reflexivity|]; split; [disk_ok|]; split; [disk_ok|]; split; [disk_ok|];
  split; [apply mono_says; [exact (dot_log $"m1" eq_refl eq_refl)|reflexivity|exact row1]|]; split; [apply mono_says; [exact (dot_log $"m2" eq_refl eq_refl)|reflexivity|exact row2]|];
  split; [apply deg_says; [exact (proj1 dot_dimer)|reflexivity|exact dimer_rows]|apply deg_overlap]).
Qed.
