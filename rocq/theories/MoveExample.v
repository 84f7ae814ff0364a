(** * The files of LevelsExample.v with the molecules moved by (1.5, -2.25, 0.125)

    Used to show that the hypotheses of C112 can be met. *)
From Verif Require Import ParserWf ParserCheck CatnipProps ReaderProps ReaderPunProps.
From Verif Require Export MainExample LevelsExample.
Import ReaderExample.
From Verif Require Export StrSpec StrModel.
Open Scope Z_scope.

Definition moved_1 : str := $"      1          6           0        1.500000   -2.250000    0.795000".
Definition moved_2 : str := $"      1          6           0        1.500000   -2.250000    5.795000".
Definition moved_P : str := $"      2          6           0        1.500000   -2.250000    0.795000".
Definition mpt1 : num D * num D * num D := ((1500000, -6), (-2250000, -6), (795000, -6)).
Definition mpt2 : num D * num D * num D := ((1500000, -6), (-2250000, -6), (5795000, -6)).
Lemma mrow1 : coord_row D moved_1 mpt1. Proof. eapply coord_b; vm_compute; reflexivity. Qed.
Lemma mrow2 : coord_row D moved_2 mpt2. Proof. eapply coord_b; vm_compute; reflexivity. Qed.
Lemma mrowP : coord_row D moved_P mpt1. Proof. eapply coord_b; vm_compute; reflexivity. Qed.
Lemma moved_rows : Forall2 (coord_row D) [moved_2; moved_P] [mpt2; mpt1].
Proof. constructor; [apply mrow2|constructor; [apply mrowP|constructor]]. Qed.
Definition mov_items : list (ReaderSpec.item D) := lev_of (occ_of Some_energies) (virt_of Some_energies) (eo_of Some_energies) (ev_of Some_energies) [moved_2; moved_P] [mpt2; mpt1].
Definition mov_disk : str -> option str :=
  six (file_of (mono_items moved_1 mpt1)) (file_of (mono_items moved_2 mpt2)) (file_of mov_items) (MainExample.the_pun m1_rows) (MainExample.the_pun lev_m2_rows) (MainExample.the_pun lev_P_rows).
Definition mov_data : data D := mkData D (MainExample.vals m1_rows) (MainExample.vals lev_m2_rows) (MainExample.vals lev_P_rows) [(-50000, -5); (10000, -5)] [(-50000, -5); (10000, -5)]
  (en_of Some_energies) 1 1 2 [mpt1] [mpt2] [mpt2; mpt1] [2] [2] [2; 2] 4 tri_value.
Lemma mov_contain : contain D mov_disk (the_params false) mov_data.
Proof.
  exists SAlpha, SAlpha, SAlpha, (mono_items moved_1 mpt1), (mono_items moved_2 mpt2), mov_items.
  split; [reflexivity|]. split; [reflexivity|]. split; [reflexivity|]. split; [disk_ok|]. split; [disk_ok|]. split; [disk_ok|].
  split; [apply mono_says; [exact (dot_log $"m1" eq_refl eq_refl)|reflexivity|exact mrow1]|]. split; [apply mono_says; [exact (dot_log $"m2" eq_refl eq_refl)|reflexivity|exact mrow2]|].
  split; [|apply lev_overlap]. apply lev_says; [apply begins_b; reflexivity| | |split; reflexivity|vm_compute; reflexivity|exact (proj1 dot_dimer)|reflexivity|exact moved_rows].
  - eline [$"-0.60000"; $"-0.50000"].
  - eline [$"0.10000"; $"0.20000"].
Qed.
