(** * Property C73: calc_J as a whole *)
From Verif Require Import QcOrder QcFinal QcProps.
From Verif Require Import ParserWf ParserCheck CatnipProps ReaderProps ReaderPunProps.
From Verif Require Export MainRun.
From Verif Require Import MainExample.
Import ReaderExample.
From Verif Require Export StrSpec StrModel.
Open Scope Z_scope.

(** ** For every command line and all files the readers accept

    [p]: the parameters CATNIP takes from the command line [argv] (C58, C62);
    [R]: what the readers hold after reading the six files (C64-C71);
    r1, r2: the rows of the requested orbitals (C34). *)

(** a file without population analysis: the matrices are used as they were read *)
Theorem C73_as_read : forall E N A lab disk fuel argv P p R n1 n2 n a b fP fS x1 x2 xP r1 r2,
  parse argv (catnip E) = Ok P -> prepareParameters P = Ok p ->
  readers_hold N disk fuel p R -> agree N (counterPoise p) R n1 n2 n a b fP fS ->
  three N (x_1 N R) x1 -> three N (x_2 N R) x2 -> three N (x_P N R) xP ->
  orbital_row (count (e_1 N R)) (h_1 N R) (orb_type1 p) (orb_num1 p) = Some r1 ->
  orbital_row (count (e_2 N R)) (h_2 N R) (orb_type2 p) (orb_num2 p) = Some r2 ->
  b_1 N R = [] \/ b_2 N R = [] \/ b_P N R = [] ->
  main E N A lab disk fuel argv = Ok (J_value A (counterPoise p) n1 n (count (e_P N R)) a b fP fS (entry N (e_P N R)) r1 r2).
Proof. intros E N A lab disk. exact (with_as_read E N A lab disk (num N) (J_of_run A)). Qed.
Print Assumptions C73_as_read.
(** with population analyses, without counterpoise correction: the dimer's basis
    functions are first put in the order of the atoms of monomer 1, then of monomer 2 *)
Theorem C73_plain : forall E N A lab disk fuel argv P p R n1 n2 n a b fP fS r1 r2 oA oB,
  parse argv (catnip E) = Ok P -> prepareParameters P = Ok p -> counterPoise p = false ->
  readers_hold N disk fuel p R -> agree N false R n1 n2 n a b fP fS ->
  three N (x_1 N R) (count oA) -> three N (x_2 N R) (count oB) -> three N (x_P N R) (count (b_P N R)) ->
  orbital_row (count (e_1 N R)) (h_1 N R) (orb_type1 p) (orb_num1 p) = Some r1 ->
  orbital_row (count (e_2 N R)) (h_2 N R) (orb_type2 p) (orb_num2 p) = Some r2 ->
  b_1 N R <> [] -> b_2 N R <> [] -> b_P N R <> [] ->
  finds lab 3 (count (b_P N R)) (place N (x_1 N R)) (place N (x_P N R)) oA ->
  finds lab 3 (count (b_P N R)) (place N (x_2 N R)) (place N (x_P N R)) oB ->
  is_order (count (b_P N R)) (oA ++ oB) -> Forall (fun k => 1 <= k) (b_P N R) -> total (b_P N R) = n -> (length (b_P N R) + 2 <= fuel)%nat ->
  exists gP gS, blocks_moved (b_P N R) (oA ++ oB) fP gP /\ blocks_moved2 (b_P N R) (oA ++ oB) fS gS /\
    main E N A lab disk fuel argv = Ok (J_value A false n1 n (count (e_P N R)) a b gP gS (entry N (e_P N R)) r1 r2).
Proof. intros E N A lab disk. exact (with_plain E N A lab disk (num N) (J_of_run A)). Qed.
Print Assumptions C73_plain.
(** with population analyses and counterpoise correction: the basis functions of
    monomer 2 and of the dimer are put in the order of the atoms of monomer 1 *)
Theorem C73_counterpoise : forall E N A lab disk fuel argv P p R n1 n2 n a b fP fS r1 r2 o2 oP,
  parse argv (catnip E) = Ok P -> prepareParameters P = Ok p -> counterPoise p = true ->
  readers_hold N disk fuel p R -> agree N true R n1 n2 n a b fP fS -> 1 <= count (e_2 N R) ->
  three N (x_1 N R) (count (b_P N R)) -> three N (x_2 N R) (count (b_P N R)) -> three N (x_P N R) (count (b_P N R)) ->
  orbital_row (count (e_1 N R)) (h_1 N R) (orb_type1 p) (orb_num1 p) = Some r1 ->
  orbital_row (count (e_2 N R)) (h_2 N R) (orb_type2 p) (orb_num2 p) = Some r2 ->
  b_1 N R <> [] -> length (b_2 N R) = length (b_P N R) -> b_P N R <> [] ->
  finds lab 3 (count (b_P N R)) (place N (x_1 N R)) (place N (x_2 N R)) o2 ->
  finds lab 3 (count (b_P N R)) (place N (x_1 N R)) (place N (x_P N R)) oP ->
  is_order (count (b_P N R)) o2 -> is_order (count (b_P N R)) oP ->
  Forall (fun k => 1 <= k) (b_P N R) -> Forall (fun k => 1 <= k) (b_2 N R) -> total (b_P N R) = n -> total (b_2 N R) = n -> (length (b_P N R) + 2 <= fuel)%nat ->
  exists g2 gP gS, blocks_moved (b_2 N R) o2 b g2 /\ blocks_moved (b_P N R) oP fP gP /\ blocks_moved2 (b_P N R) oP fS gS /\
    main E N A lab disk fuel argv = Ok (J_value A true n1 n (count (e_P N R)) a g2 gP gS (entry N (e_P N R)) r1 r2).
Proof. intros E N A lab disk. exact (with_counterpoise E N A lab disk (num N) (J_of_run A)). Qed.
Print Assumptions C73_counterpoise.
(** conversely a value is computed only if the command line is accepted and the six files chosen by it are read *)
Theorem C73_only : forall E N A lab disk fuel argv J, main E N A lab disk fuel argv = Ok J ->
  exists P p R, parse argv (catnip E) = Ok P /\ prepareParameters P = Ok p /\ readers_hold N disk fuel p R.
Proof. intros E N A lab disk. exact (with_only E N A lab disk (num N) (J_of_run A)). Qed.
Print Assumptions C73_only.

(** ** From the command line and the contents of correctly printed files *)
Theorem C73_files_as_read : forall E N A lab disk prog l p d r1 r2, clean_line E l -> asks E l p ->
  contain N disk p d -> belong N (counterPoise p) d -> rows_asked N p d r1 r2 ->
  ba1 N d = [] \/ ba2 N d = [] \/ baP N d = [] ->
  exists bound, forall fuel, (bound <= fuel)%nat ->
    main E N A lab disk fuel (prog :: words l) = Ok (J_of_job N A p d (table N (coef2 N d)) (table N (coefP N d)) (symmetric N (over N d)) r1 r2).
Proof. intros E N A lab disk prog l p d r1 r2. exact (with_files_as_read E N A lab disk (num N) (J_of_run A) prog l p d r1 r2 (fun _ _ => eq_refl)). Qed.
Print Assumptions C73_files_as_read.
Theorem C73_files_plain : forall E N A lab disk prog l p d r1 r2 oA oB, clean_line E l -> asks E l p -> counterPoise p = false ->
  contain N disk p d -> belong N false d -> rows_asked N p d r1 r2 ->
  ba1 N d <> [] -> ba2 N d <> [] -> baP N d <> [] -> total (baP N d) = size N d -> Forall (fun k => 1 <= k) (baP N d) ->
  count (at1 N d) = count oA -> count (at2 N d) = count oB -> count (atP N d) = count (baP N d) ->
  finds lab 3 (count (baP N d)) (position N (at1 N d)) (position N (atP N d)) oA ->
  finds lab 3 (count (baP N d)) (position N (at2 N d)) (position N (atP N d)) oB ->
  is_order (count (baP N d)) (oA ++ oB) ->
  exists bound, forall fuel, (bound <= fuel)%nat -> exists gP gS,
    blocks_moved (baP N d) (oA ++ oB) (table N (coefP N d)) gP /\ blocks_moved2 (baP N d) (oA ++ oB) (symmetric N (over N d)) gS /\
    main E N A lab disk fuel (prog :: words l) = Ok (J_of_job N A p d (table N (coef2 N d)) gP gS r1 r2).
Proof. intros E N A lab disk prog l p d r1 r2 oA oB. exact (with_files_plain E N A lab disk (num N) (J_of_run A) prog l p d r1 r2 oA oB (fun _ _ => eq_refl)). Qed.
Print Assumptions C73_files_plain.
Theorem C73_files_counterpoise : forall E N A lab disk prog l p d r1 r2 o2 oP, clean_line E l -> asks E l p -> counterPoise p = true ->
  contain N disk p d -> belong N true d -> rows_asked N p d r1 r2 ->
  ba1 N d <> [] -> length (ba2 N d) = length (baP N d) -> baP N d <> [] -> total (baP N d) = size N d -> total (ba2 N d) = size N d ->
  Forall (fun k => 1 <= k) (baP N d) -> Forall (fun k => 1 <= k) (ba2 N d) ->
  count (at1 N d) = count (baP N d) -> count (at2 N d) = count (baP N d) -> count (atP N d) = count (baP N d) ->
  finds lab 3 (count (baP N d)) (position N (at1 N d)) (position N (at2 N d)) o2 ->
  finds lab 3 (count (baP N d)) (position N (at1 N d)) (position N (atP N d)) oP ->
  is_order (count (baP N d)) o2 -> is_order (count (baP N d)) oP ->
  exists bound, forall fuel, (bound <= fuel)%nat -> exists g2 gP gS,
    blocks_moved (ba2 N d) o2 (table N (coef2 N d)) g2 /\
    blocks_moved (baP N d) oP (table N (coefP N d)) gP /\ blocks_moved2 (baP N d) oP (symmetric N (over N d)) gS /\
    main E N A lab disk fuel (prog :: words l) = Ok (J_of_job N A p d g2 gP gS r1 r2).
Proof. intros E N A lab disk prog l p d r1 r2 o2 oP. exact (with_files_counterpoise E N A lab disk (num N) (J_of_run A) prog l p d r1 r2 o2 oP (fun _ _ => eq_refl)). Qed.
Print Assumptions C73_files_counterpoise.

(** ** Concrete runs (files and command lines in MainExample.v)

    Two monomers of one atom, two basis functions each; the dimer lists the atom
    of monomer 2 first; HOMO of monomer 1 and LUMO of monomer 2 are asked for. *)
Ltac order_b := split; [reflexivity|split; [repeat (constructor; [cbn [In]; lia|]); constructor|repeat (constructor; [cbv -[Z.le]; lia|]); constructor]].
Ltac belong_b := constructor; [reflexivity|reflexivity|reflexivity|reflexivity|first [reflexivity|split; reflexivity]|].
Example C73_plain_example : clean_line disk1 the_line /\ asks disk1 the_line (the_params false) /\ contain D the_disk (the_params false) the_data /\
  belong D false the_data /\ rows_asked D (the_params false) the_data 1 2 /\ Forall (fun k => 1 <= k) (baP D the_data) /\ total (baP D the_data) = size D the_data /\
  count (at1 D the_data) = 1 /\ count (at2 D the_data) = 1 /\ count (atP D the_data) = 2 /\
  finds d_lab 3 2 (position D (at1 D the_data)) (position D (atP D the_data)) [2] /\
  finds d_lab 3 2 (position D (at2 D the_data)) (position D (atP D the_data)) [1] /\ is_order 2 ([2] ++ [1]) /\
  the_result the_disk the_line = Ok (-439045374193071257403048, -24).
Proof.
  destruct (request_params the_line false the_request) as [H1 H2]. split; [exact H1|]. split; [exact H2|]. split; [exact the_contain|].
  split; [belong_b; cbv; repeat split; discriminate|]. split; [split; reflexivity|]. split; [repeat constructor; discriminate|]. split; [reflexivity|]. split; [reflexivity|]. split; [reflexivity|]. split; [reflexivity|].
  split; [apply finds_b; vm_compute; reflexivity|]. split; [apply finds_b; vm_compute; reflexivity|]. split; [order_b|].
  vm_compute. reflexivity.
Qed.
(** the same calculations without the population analysis of monomer 1: another value *)
Example C73_as_read_example : clean_line disk1 the_line /\ asks disk1 the_line (the_params false) /\ contain D bare_disk (the_params false) bare_data /\
  belong D false bare_data /\ rows_asked D (the_params false) bare_data 1 2 /\ ba1 D bare_data = [] /\
  the_result bare_disk the_line = Ok (-284772081725000262202966, -24).
Proof.
  destruct (request_params the_line false the_request) as [H1 H2]. split; [exact H1|]. split; [exact H2|]. split; [exact bare_contain|].
  split; [belong_b; cbv; repeat split; discriminate|]. split; [split; reflexivity|]. split; [reflexivity|]. vm_compute. reflexivity.
Qed.
Example C73_counterpoise_example : clean_line disk1 cp_line /\ asks disk1 cp_line (the_params true) /\ contain D cp_disk (the_params true) cp_data /\
  belong D true cp_data /\ rows_asked D (the_params true) cp_data 2 3 /\ Forall (fun k => 1 <= k) (baP D cp_data) /\ Forall (fun k => 1 <= k) (ba2 D cp_data) /\
  total (baP D cp_data) = size D cp_data /\ total (ba2 D cp_data) = size D cp_data /\ ba1 D cp_data = [2; 2] /\ length (ba2 D cp_data) = length (baP D cp_data) /\
  count (at1 D cp_data) = 2 /\ count (at2 D cp_data) = 2 /\ count (atP D cp_data) = 2 /\
  finds d_lab 3 2 (position D (at1 D cp_data)) (position D (at2 D cp_data)) [2; 1] /\
  finds d_lab 3 2 (position D (at1 D cp_data)) (position D (atP D cp_data)) [2; 1] /\ is_order 2 [2; 1] /\
  the_result cp_disk cp_line = Ok (-64504948252154140867241, -23).
Proof.
  destruct (request_params cp_line true cp_request) as [H1 H2]. split; [exact H1|]. split; [exact H2|]. split; [exact cp_contain|].
  split; [belong_b; cbv; repeat split; discriminate|]. split; [split; reflexivity|]. split; [repeat constructor; discriminate|]. split; [repeat constructor; discriminate|].
  split; [reflexivity|]. split; [reflexivity|]. split; [reflexivity|]. split; [reflexivity|]. split; [reflexivity|]. split; [reflexivity|]. split; [reflexivity|].
  split; [apply finds_b; vm_compute; reflexivity|]. split; [apply finds_b; vm_compute; reflexivity|]. split; [order_b|].
  vm_compute. reflexivity.
Qed.
