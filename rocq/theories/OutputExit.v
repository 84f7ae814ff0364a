(** * Exit statuses: nothing but the informational words ends the process with another status than 1 *)
From Verif Require Export MatrixModel QcModel.
Open Scope Z_scope.

Definition loud {A} (o : outcome A) : Prop := forall c, o = Exit c -> c = 1.
Ltac nox := let Q := fresh in intros ? Q; first [discriminate Q | injection Q as <-; reflexivity].
Lemma loud_bind {A B} (o : outcome A) (k : A -> outcome B) : loud o -> (forall a, loud (k a)) -> loud (bind o k).
Proof. intros H K. destruct o; cbn [bind]; try (intros ? X; discriminate X); auto. intros c X. injection X as <-. apply H. reflexivity. Qed.
Lemma loud_for_n {S0} n : forall i (body : Z -> S0 -> outcome S0) s, (forall i s, loud (body i s)) -> loud (for_n n i body s).
Proof. induction n as [|n IH]; intros i body s H; cbn [for_n]; [nox|]. apply loud_bind; auto. Qed.
Lemma loud_for_dn {S0} n : forall i (body : Z -> S0 -> outcome S0) s, (forall i s, loud (body i s)) -> loud (for_dn n i body s).
Proof. induction n as [|n IH]; intros i body s H; cbn [for_dn]; [nox|]. apply loud_bind; auto. Qed.
Lemma loud_up {S0} lo hi (body : Z -> S0 -> outcome S0) s : (forall i s, loud (body i s)) -> loud (for_up lo hi body s).
Proof. apply loud_for_n. Qed.
Lemma loud_down {S0} lo hi (body : Z -> S0 -> outcome S0) s : (forall i s, loud (body i s)) -> loud (for_down lo hi body s).
Proof. apply loud_for_dn. Qed.
Lemma loud_each {A S0} l : forall (body : A -> S0 -> outcome S0) s, (forall a s, loud (body a s)) -> loud (for_each l body s).
Proof. induction l as [|a l IH]; intros body s H; cbn [for_each]; [nox|]. apply loud_bind; auto. Qed.

Create HintDb loud.
Ltac loud1 := match goal with
| |- loud (bind _ _) => apply loud_bind; [|intros ?]
| |- loud (for_up _ _ _ _) => apply loud_up; intros ? ?
| |- loud (for_down _ _ _ _) => apply loud_down; intros ? ?
| |- loud (for_each _ _ _) => apply loud_each; intros ? ?
| |- loud (Ok _) => nox
| |- loud (Throw _) => nox
| |- loud (Undef _) => nox
| |- loud NoFuel => nox
| |- loud (Exit 1) => nox
| |- loud (if ?b then _ else _) => destruct b
| |- loud (match ?x with _ => _ end) => destruct x
| |- loud (let _ := _ in _) => cbv zeta
| |- _ => solve [auto with loud]
end.
Ltac louds := repeat loud1.
Lemma loud_ichk z : loud (ichk z). Proof. unfold ichk. louds. Qed.
#[global] Hint Resolve loud_ichk : loud.
Lemma loud_iadd a b : loud (iadd a b). Proof. unfold iadd. louds. Qed.
Lemma loud_isub a b : loud (isub a b). Proof. unfold isub. louds. Qed.
Lemma loud_imul a b : loud (imul a b). Proof. unfold imul. louds. Qed.
#[global] Hint Resolve loud_iadd loud_isub loud_imul : loud.
Lemma loud_vat {A} (l : list A) k : loud (vat l k). Proof. unfold vat. louds. Qed.
Lemma loud_vat_set {A} (l : list A) k a : loud (vat_set l k a). Proof. unfold vat_set. louds. Qed.
#[global] Hint Resolve loud_vat loud_vat_set : loud.

(** ** matrices *)
Section Mat.
Context {T : Type} (zero : T).
Lemma loud_new_cells n : loud (@new_cells T n). Proof. unfold new_cells; louds. Qed.
Lemma loud_rd (l : list (option T)) k : loud (rd l k). Proof. unfold rd; louds. Qed.
Lemma loud_wr (l : list (option T)) k v : loud (wr l k v). Proof. unfold wr; louds. Qed.
Lemma loud_flat c s i j k : loud (flat c s i j k). Proof. unfold flat; louds. Qed.
#[local] Hint Resolve loud_new_cells loud_rd loud_wr loud_flat : loud.
Lemma loud_index (x : mat T) r c s : loud (index x r c s). Proof. unfold index; louds. Qed.
Lemma loud_prod3 r c s : loud (prod3 r c s). Proof. unfold prod3; louds. Qed.
Hint Resolve loud_index loud_prod3 : loud.
Lemma loud_new0 : loud (Matrix_new0 zero). Proof. unfold Matrix_new0; louds. Qed.
Lemma loud_of_vec (v : list T) : loud (Matrix_of_vec v). Proof. unfold Matrix_of_vec; louds. Qed.
Lemma loud_of_vecs (v : list (list T)) : loud (Matrix_of_vecs v). Proof. unfold Matrix_of_vecs; louds. Qed.
Lemma loud_new1 r : loud (Matrix_new1 zero r). Proof. unfold Matrix_new1; louds. Qed.
Lemma loud_new2 r c : loud (Matrix_new2 zero r c). Proof. unfold Matrix_new2; louds. Qed.
Lemma loud_new3 r c s : loud (Matrix_new3 zero r c s). Proof. unfold Matrix_new3; louds. Qed.
Hint Resolve loud_new0 loud_of_vec loud_of_vecs loud_new1 loud_new2 loud_new3 : loud.
Lemma loud_store v r c s (x : mat T) : loud (store v r c s x). Proof. unfold store; louds. Qed.
Lemma loud_load r c s (x : mat T) : loud (load x r c s). Proof. unfold load; louds. Qed.
Hint Resolve loud_store loud_load : loud.
Lemma loud_set1 v r (x : mat T) : loud (set_elem1 v r x). Proof. unfold set_elem1; louds. Qed.
Lemma loud_set2 v r c (x : mat T) : loud (set_elem2 v r c x). Proof. unfold set_elem2; louds. Qed.
Lemma loud_set3 v r c s (x : mat T) : loud (set_elem3 v r c s x). Proof. unfold set_elem3; louds. Qed.
Lemma loud_get1 r (x : mat T) : loud (get_elem1 x r). Proof. unfold get_elem1; louds. Qed.
Lemma loud_get2 r c (x : mat T) : loud (get_elem2 x r c). Proof. unfold get_elem2; louds. Qed.
Lemma loud_get3 r c s (x : mat T) : loud (get_elem3 x r c s). Proof. unfold get_elem3; louds. Qed.
Hint Resolve loud_set1 loud_set2 loud_set3 loud_get1 loud_get2 loud_get3 : loud.
Lemma loud_get_col (x : mat T) c : loud (get_col x c). Proof. unfold get_col; louds. Qed.
Lemma loud_get_row (x : mat T) c : loud (get_row x c). Proof. unfold get_row; louds. Qed.
Lemma loud_total (x : mat T) : loud (total_elem x). Proof. unfold total_elem; louds. Qed.
Lemma loud_resize r c (x : mat T) : loud (resize zero r c x). Proof. unfold resize; louds. Qed.
Hint Resolve loud_get_col loud_get_row loud_resize loud_total : loud.
Lemma loud_assign (x y : mat T) : loud (assign zero x y). Proof. unfold assign; louds. Qed.
Lemma loud_set_row r c (x : mat T) : loud (set_row zero r c x). Proof. unfold set_row; louds. Qed.
Lemma loud_set_col r c (x : mat T) : loud (set_col zero r c x). Proof. unfold set_col; louds. Qed.
Hint Resolve loud_assign loud_set_row loud_set_col : loud.
Lemma loud_invert (x : mat T) : loud (invert zero x). Proof. unfold invert; louds. Qed.
Lemma loud_getRow (x : mat T) r : loud (getRow zero x r). Proof. unfold getRow; louds. Qed.
Lemma loud_getCol (x : mat T) r : loud (getCol zero x r). Proof. unfold getCol; louds. Qed.
Lemma loud_diag (x : mat T) : loud (Matrix_diag zero x). Proof. unfold Matrix_diag; louds. Qed.
Lemma loud_cat_rows (x y : mat T) : loud (Matrix_concatenate_rows zero x y). Proof. unfold Matrix_concatenate_rows; louds. Qed.
Lemma loud_cat_cols (x y : mat T) : loud (Matrix_concatenate_cols zero x y). Proof. unfold Matrix_concatenate_cols; louds. Qed.

Context {L : Type} (lab : T -> L) (leqb : L -> L -> bool).
Lemma loud_same n : forall j x y, (forall j, loud (x j)) -> (forall j, loud (y j)) -> loud (same_label lab leqb n j x y).
Proof. induction n as [|n IH]; intros j x y Hx Hy; cbn [same_label]; louds. Qed.
Hint Resolve loud_same : loud.
Lemma loud_matchCol (x y : mat T) : loud (matchCol lab leqb x y). Proof. unfold matchCol; louds. Qed.
End Mat.
#[global] Hint Resolve loud_new0 loud_of_vec loud_of_vecs loud_new1 loud_new2 loud_new3 loud_set1 loud_set2 loud_set3 loud_get1 loud_get2 loud_get3
  loud_get_col loud_get_row loud_resize loud_total loud_assign loud_set_row loud_set_col loud_invert loud_getRow loud_getCol loud_diag loud_cat_rows loud_cat_cols loud_matchCol : loud.
Lemma loud_mul {T} (A : arith T) x y : loud (mat_mul A x y). Proof. unfold mat_mul; louds. Qed.
#[global] Hint Resolve loud_mul : loud.

(** ** qc_functions *)
Section Qc.
Context {T : Type} (A : arith T).
Notation zero := (a_zero A).
Lemma loud_retarget fuel : forall was is l pos, loud (retarget fuel was is l pos).
Proof. induction fuel as [|n IH]; intros; cbn [retarget]; louds. Qed.
Lemma loud_pair_at l i : loud (pair_at l i). Proof. unfold pair_at; louds. Qed.
Hint Resolve loud_retarget loud_pair_at : loud.
Lemma loud_refresh1 fuel l : loud (refreshSwapOrder1 fuel l). Proof. unfold refreshSwapOrder1; louds. Qed.
Lemma loud_refresh2 fuel l m : loud (refreshSwapOrder2 fuel l m). Proof. unfold refreshSwapOrder2; louds. Qed.
Lemma loud_list_at {X} (l : list X) k : loud (list_at l k). Proof. unfold list_at; louds. Qed.
Hint Resolve loud_list_at : loud.
Lemma loud_list_put {X} (l : list X) k x : loud (list_put l k x). Proof. unfold list_put; louds. Qed.
Hint Resolve loud_refresh1 loud_refresh2 loud_list_at loud_list_put : loud.
Lemma loud_swap {X} p (l : list X) : loud (swap_blocks p l). Proof. unfold swap_blocks; louds. Qed.
Hint Resolve loud_swap : loud.
Lemma loud_update1 {X} a (l : list X) : loud (updateSwapLists1 a l). Proof. unfold updateSwapLists1; louds. Qed.
Lemma loud_update2 {X} b a (l : list X) : loud (updateSwapLists2 b a l). Proof. unfold updateSwapLists2; louds. Qed.
Lemma loud_split d (m : mat T) t : loud (splitMatrixIntoList zero d m t). Proof. unfold splitMatrixIntoList; louds. Qed.
Lemma loud_merge (l : list (mat T)) r c t : loud (mergeListOfMatrices zero l r c t). Proof. unfold mergeListOfMatrices; louds. Qed.
Hint Resolve loud_update1 loud_update2 loud_split loud_merge : loud.
Lemma loud_u2 fuel a b c (m : mat T) t : loud (unscramble2 zero fuel a b c m t). Proof. unfold unscramble2; louds. Qed.
Lemma loud_u1 fuel a c (m : mat T) t : loud (unscramble1 zero fuel a c m t). Proof. unfold unscramble1; louds. Qed.
Hint Resolve loud_u1 loud_u2 : loud.
Lemma loud_c2 fuel a b c (m : mat T) : loud (unscramble_Coef2 zero fuel a b c m). Proof. unfold unscramble_Coef2; louds. Qed.
Lemma loud_c1 fuel a c (m : mat T) : loud (unscramble_Coef1 zero fuel a c m). Proof. unfold unscramble_Coef1; louds. Qed.
Lemma loud_s2 fuel a b c (m : mat T) : loud (unscramble_S2 zero fuel a b c m). Proof. unfold unscramble_S2; louds. Qed.
Lemma loud_s1 fuel a c (m : mat T) : loud (unscramble_S1 zero fuel a c m). Proof. unfold unscramble_S1; louds. Qed.
Hint Resolve loud_c1 loud_c2 loud_s1 loud_s2 : loud.
Lemma loud_transfer {R} (f : T -> T -> T -> T -> R) m1 m2 P S0 OE cp : loud (transfer_with A f m1 m2 P S0 OE cp). Proof. unfold transfer_with; louds. Qed.
Lemma loud_complex (m1 m2 P : mat T) o1 o2 S0 OE cp : loud (TransferComplex m1 m2 P o1 o2 S0 OE cp). Proof. unfold TransferComplex; louds. Qed.
Lemma loud_tc_unscramble lab fuel tc c1 c2 cP bP b2 : loud (tc_unscramble A lab fuel tc c1 c2 cP bP b2). Proof. unfold tc_unscramble; louds. Qed.
Lemma loud_map_at {V} (m : list (str * V)) k : loud (map_at m k). Proof. induction m as [|[? ?] ? IH]; cbn [map_at]; louds. Qed.
Lemma loud_select m c o ty n : loud (select_row A m c o ty n). Proof. unfold select_row; louds. Qed.
Hint Resolve loud_transfer loud_map_at loud_select : loud.
Lemma loud_calcJ {R} (f : T -> T -> T -> T -> R) tc ot on : loud (calcJ_with A f tc ot on). Proof. unfold calcJ_with; louds. Qed.
End Qc.
#[global] Hint Resolve loud_complex loud_tc_unscramble loud_calcJ : loud.

(** ** the readers: [std::stod] does not end the process *)
From Verif Require Export MainRun.
From Verif Require Export StrSpec StrModel.
Section Readers.
Context (N : nums) (stod_loud : forall s, loud (n_stod N s)).
Hint Resolve stod_loud : loud.
Lemma loud_substr s a b : loud (substr s a b). Proof. unfold substr; louds. Qed.
Lemma loud_stoi s : loud (stoi s). Proof. unfold stoi; louds. Qed.
Hint Resolve loud_substr loud_stoi : loud.
Lemma loud_substr1 s a : loud (substr1 s a). Proof. unfold substr1; louds. Qed.
Lemma loud_lsp fuel : forall s, loud (lastStringInPath_loop fuel s).
Proof. induction fuel as [|n IH]; intros; cbn [lastStringInPath_loop]; louds. Qed.
Hint Resolve loud_substr1 loud_lsp : loud.
Lemma loud_last s : loud (lastStringInPath s). Proof. unfold lastStringInPath; louds. Qed.
Hint Resolve loud_last : loud.
Lemma loud_fileExt s : loud (fileExt_ s). Proof. unfold fileExt_; louds. Qed.
Lemma loud_check a b : loud (checkSections_ a b). Proof. unfold checkSections_; louds. Qed.
Hint Resolve loud_substr loud_stoi loud_fileExt loud_check : loud.
Lemma loud_read_loop {M} hs (rd : nat -> str -> fstate -> M -> outcome (fstate * M)) : (forall n t f m, loud (rd n t f m)) -> forall fuel f line m, loud (read_loop hs rd fuel f line m).
Proof. intros H. induction fuel as [|n IH]; intros; cbn [read_loop]; louds. Qed.
Hint Resolve loud_read_loop : loud.
Lemma loud_read {M} files hs (rd : nat -> str -> fstate -> M -> outcome (fstate * M)) fuel n p m : (forall n t f m, loud (rd n t f m)) -> loud (read files hs rd fuel n p m).
Proof. intros H. unfold read; louds. Qed.
Hint Resolve loud_read : loud.
Lemma loud_glue fuel : forall s p l, loud (glue_loop fuel s p l).
Proof. induction fuel as [|n IH]; intros s [p|] l; cbn [glue_loop]; louds. Qed.
Hint Resolve loud_glue : loud.
Lemma loud_split_e l : loud (splitStEnergies l). Proof. unfold splitStEnergies; louds. Qed.
Hint Resolve loud_split_e : loud.
Lemma loud_ao_values fuel : forall i v, loud (ao_values N fuel i v).
Proof. induction fuel as [|n IH]; intros; cbn [ao_values]; louds. Qed.
Hint Resolve loud_ao_values : loud.
Lemma loud_ao_inner fuel : forall a b c d e f g, loud (ao_inner N fuel a b c d e f g).
Proof. induction fuel as [|n IH]; intros; cbn [ao_inner]; louds. Qed.
Lemma loud_sat l k : loud (sat l k). Proof. unfold sat; louds. Qed.
Hint Resolve loud_ao_inner loud_sat : loud.
Lemma loud_ao_outer fuel : forall a b c d, loud (ao_outer N fuel a b c d).
Proof. induction fuel as [|n IH]; intros; cbn [ao_outer]; louds. Qed.
Hint Resolve loud_ao_outer : loud.
Lemma loud_ao fuel f d : loud (AOFunctionSectionReader N fuel f d). Proof. unfold AOFunctionSectionReader; louds. Qed.
Lemma loud_coef_of s : loud (coef_of N s). Proof. unfold coef_of, grabStrBeforeFirstOccurance, grabStrAfterFirstOccurance; louds. Qed.
Hint Resolve loud_ao loud_coef_of : loud.
Lemma loud_ov_values fuel : forall i v, loud (ov_values N fuel i v).
Proof. induction fuel as [|n IH]; intros; cbn [ov_values]; louds. Qed.
Hint Resolve loud_ov_values : loud.
Lemma loud_ov_first fuel : forall a b c d e, loud (ov_first N fuel a b c d e).
Proof. induction fuel as [|n IH]; intros; cbn [ov_first]; louds. Qed.
Lemma loud_ov_fill a m : loud (ov_fill N a m). Proof. unfold ov_fill; louds. Qed.
Lemma loud_ov_row fuel : forall i r c m, loud (ov_row N fuel i r c m).
Proof. induction fuel as [|n IH]; intros; cbn [ov_row]; louds. Qed.
Hint Resolve loud_ov_first loud_ov_fill loud_ov_row : loud.
Lemma loud_ov fuel f d : loud (OverlapSectionReader N fuel f d). Proof. unfold OverlapSectionReader; louds. Qed.
Hint Resolve loud_ov : loud.
Lemma loud_oe_loop fuel : forall a b c d e, loud (oe_loop N fuel a b c d e).
Proof. induction fuel as [|n IH]; intros; cbn [oe_loop]; louds. Qed.
Hint Resolve loud_oe_loop : loud.
Lemma loud_oe fuel o f d : loud (ReadOrbEnergies N fuel o f d). Proof. unfold ReadOrbEnergies; louds. Qed.
Hint Resolve loud_oe : loud.
Lemma loud_coord_loop fuel : forall a b c d e, loud (coord_loop N fuel a b c d e).
Proof. induction fuel as [|n IH]; intros; cbn [coord_loop]; louds. Qed.
Hint Resolve loud_coord_loop : loud.
Lemma loud_coord fuel f d : loud (CoordSectionReader N fuel f d). Proof. unfold CoordSectionReader; louds. Qed.
Hint Resolve loud_coord : loud.
Lemma loud_log_section fuel t f d : loud (log_section N fuel t f d). Proof. unfold log_section; louds. Qed.
Hint Resolve loud_log_section : loud.
Lemma loud_gaus fuel : forall a b c, loud (gaus_loop N fuel a b c).
Proof. induction fuel as [|n IH]; intros; cbn [gaus_loop]; louds. Qed.
Hint Resolve loud_gaus : loud.
Lemma loud_coef_inner fuel : forall a b c d e, loud (coef_inner N fuel a b c d e).
Proof. induction fuel as [|n IH]; intros; cbn [coef_inner]; unfold readGausCoefLine; louds. Qed.
Hint Resolve loud_coef_inner : loud.
Lemma loud_coef_outer fuel : forall a b c d e, loud (coef_outer N fuel a b c d e).
Proof. induction fuel as [|n IH]; intros; cbn [coef_outer]; louds. Qed.
Hint Resolve loud_coef_outer : loud.
Lemma loud_coef fuel o f d : loud (ReadCoef N fuel o f d). Proof. unfold ReadCoef; louds. Qed.
Hint Resolve loud_coef : loud.
Lemma loud_pun_section fuel t f d : loud (pun_section N fuel t f d). Proof. unfold pun_section; louds. Qed.
Hint Resolve loud_pun_section : loud.
Lemma loud_pun_new s : loud (PunReader_new N s). Proof. unfold PunReader_new; louds. Qed.
Lemma loud_log_new s : loud (LogReader_new N s). Proof. unfold LogReader_new; louds. Qed.
Lemma loud_pun_read files fuel r : loud (pun_read N files fuel r). Proof. unfold pun_read; louds. Qed.
Lemma loud_log_read files fuel r : loud (log_read N files fuel r). Proof. unfold log_read; louds. Qed.
Lemma loud_g1 r : loud (getOverlapMatrix N r). Proof. unfold getOverlapMatrix; louds. Qed.
Lemma loud_g2 r o : loud (getOE N r o). Proof. unfold getOE; louds. Qed.
Lemma loud_g3 r o : loud (getHOMOLevel N r o). Proof. unfold getHOMOLevel; louds. Qed.
Lemma loud_g4 r o : loud (getCoefsMatrix N r o). Proof. unfold getCoefsMatrix; louds. Qed.
Hint Resolve loud_pun_new loud_log_new loud_pun_read loud_log_read loud_g1 loud_g2 loud_g3 loud_g4 : loud.
Lemma loud_open_pun disk fuel n : loud (open_pun N disk fuel n). Proof. unfold open_pun; louds. Qed.
Lemma loud_open_log disk fuel n : loud (open_log N disk fuel n). Proof. unfold open_log; louds. Qed.
Hint Resolve loud_open_pun loud_open_log : loud.
Lemma loud_job A lab disk X (finish : params -> bool -> num N -> num N -> num N -> num N -> X) fuel p : loud (run_job_with N A lab disk finish fuel p).
Proof. unfold run_job_with, compute_with; louds. Qed.
End Readers.
#[global] Hint Resolve loud_substr loud_stoi loud_substr1 loud_lsp loud_last : loud.

(** ** the command line: [std::stod] does not end the process *)
Section Parser.
Context (E : env) (stod_loud : forall s, loud (e_stod E s)).
Hint Resolve stod_loud : loud.
Lemma loud_getPath_loop fuel : forall a b c, loud (getPath_loop fuel a b c).
Proof. induction fuel as [|n IH]; intros; cbn [getPath_loop]; louds. Qed.
Lemma loud_before a b : loud (grabStrBeforeLastOccurance a b). Proof. unfold grabStrBeforeLastOccurance; louds. Qed.
Lemma loud_after a b : loud (grabStrAfterLastOccuranceInclusive a b). Proof. unfold grabStrAfterLastOccuranceInclusive; louds. Qed.
Lemma loud_getPropOption {T} (p : prop T) o : loud (getPropOption p o). Proof. unfold getPropOption; louds. Qed.
Hint Resolve loud_getPath_loop loud_before loud_after loud_getPropOption : loud.
Lemma loud_v_int w p : loud (v_int E w p). Proof. unfold v_int, exist_propValid; louds. Qed.
Lemma loud_v_size w p : loud (v_size w p). Proof. unfold v_size, string_propValid; louds. Qed.
Lemma loud_v_str w p : loud (v_str w p). Proof. unfold v_str, switch_propValid; louds. Qed.
Lemma loud_v_set w p : loud (v_set w p). Proof. unfold v_set, ext_propValid, extSupported, ext_checkExt, choice_propValid; louds. Qed.
Lemma loud_v_vec w p : loud (v_vec E w p). Proof. unfold v_vec, sister_propValid, getPath; louds. Qed.
Lemma loud_int_valid w p : loud (int_propValid w p). Proof. unfold int_propValid; louds. Qed.
Lemma loud_dbl_valid w p : loud (double_propValid E w p). Proof. unfold double_propValid; louds. Qed.
Hint Resolve loud_v_int loud_v_size loud_v_str loud_v_set loud_v_vec loud_int_valid loud_dbl_valid : loud.
Lemma loud_argeach {A} (f : A -> outcome A) l : (forall x, loud (f x)) -> loud (each f l).
Proof. intros H. induction l; cbn [each]; louds. Qed.
Hint Resolve loud_argeach : loud.
Lemma loud_valid_str w a : loud (argValid_str E w a). Proof. unfold argValid_str; louds. Qed.
Lemma loud_valid_int w a : loud (argValid_int E w a). Proof. unfold argValid_int; louds. Qed.
Lemma loud_valid_dbl w a : loud (argValid_dbl E w a). Proof. unfold argValid_dbl; louds. Qed.
Lemma loud_next_word i a : loud (next_word i a). Proof. unfold next_word; louds. Qed.
Lemma loud_positive w : loud (positive_str w). Proof. unfold positive_str; louds. Qed.
Hint Resolve loud_valid_str loud_valid_int loud_valid_dbl loud_next_word loud_positive : loud.
Lemma loud_parse_str f a st : loud (parse_str (E:=E) f a st). Proof. unfold parse_str; louds. Qed.
Lemma loud_parse_switch f a st : loud (parse_switch (E:=E) f a st). Proof. unfold parse_switch; louds. Qed.
Lemma loud_parse_int f a st : loud (parse_int (E:=E) f a st). Proof. unfold parse_int; louds. Qed.
Lemma loud_parse_double f a st : loud (parse_double (E:=E) f a st). Proof. unfold parse_double; louds. Qed.
Lemma loud_parse_file f a st : loud (parse_file (E:=E) f a st). Proof. unfold parse_file; louds. Qed.
Hint Resolve loud_parse_str loud_parse_switch loud_parse_int loud_parse_double loud_parse_file : loud.
Lemma loud_parseArg i a (P : parser E) : loud (parseArg_ i a P). Proof. unfold parseArg_; louds. Qed.
Lemma loud_post (P : parser E) : loud (postParseCheck P). Proof. unfold postParseCheck, postArgCheck, exist_postCheck; louds. Qed.
Lemma loop_exit args c : forall fuel i al (P : parser E), (1 <= i)%nat -> parse_loop fuel args i al P = Exit c ->
  c = 1 \/ (c = 0 /\ exists w, In w (tl args) /\ is_help w || is_version w || is_citation w = true).
Proof.
  induction fuel as [|n IH]; intros i al P Hi H; cbn [parse_loop] in H; [discriminate|].
  destruct (nth_error args i) as [w|] eqn:En; [|discriminate].
  assert (I : In w (tl args)).
  { destruct args as [|x t]; [destruct i; discriminate|]. destruct i; [lia|]. cbn [nth_error tl] in *. eapply nth_error_In; eauto. }
  destruct (is_help w) eqn:E1.
  { destruct (al =? length args)%nat; [|apply IH in H; auto]. injection H as <-. right. split; auto. exists w. rewrite E1. auto. }
  destruct (is_version w) eqn:E2; [injection H as <-; right; split; auto; exists w; rewrite E1, E2; auto|].
  destruct (is_citation w) eqn:E3.
  { destruct (al =? length args)%nat; [|apply IH in H; auto]. injection H as <-. right. split; auto. exists w. rewrite E1, E2, E3. auto. }
  pose proof (loud_parseArg i args P) as L. destruct (parseArg_ i args P) as [r| |c'| |] eqn:Ep; cbn [bind] in H; try discriminate.
  - apply IH in H; [auto|lia].
  - injection H as <-. left. apply L. reflexivity.
Qed.
Lemma parse_exit args c (P : parser E) : parse args P = Exit c ->
  c = 1 \/ (c = 0 /\ exists w, In w (tl args) /\ is_help w || is_version w || is_citation w = true).
Proof.
  unfold parse. destruct args as [|x [|y t]]; try discriminate. intros H.
  destruct (parse_loop (length (x :: y :: t)) (x :: y :: t) 1 2 P) as [P'| |c'| |] eqn:El; cbn [bind] in H; try discriminate.
  - left. revert c H. change (loud (postParseCheck P' ;;; Ok P')). apply loud_bind; [apply loud_post|]. intros. nox.
  - injection H as <-. apply loop_exit in El; auto.
Qed.
Lemma loud_prop_value {T} (t : T -> str) a b ps r : prop_value t a b ps = Some r -> loud r.
Proof.
  induction ps as [|p ps IH]; cbn [prop_value]; [discriminate|]. destruct (str_eqb a (prop_name (p_kind p)) && existsb (str_eqb b) (prop_opts (p_kind p))); auto.
  intros X. injection X as <-. louds.
Qed.
Lemma loud_getPropertyValues (a : arg E) x y : loud (getPropertyValues E a x y).
Proof.
  unfold getPropertyValues, orelse.
  repeat match goal with |- context [prop_value ?t ?a ?b ?l] => let X := fresh in destruct (prop_value t a b l) eqn:X; [exact (loud_prop_value _ _ _ _ _ X)|] end. nox.
Qed.
Hint Resolve loud_getPropertyValues : loud.
Lemma loud_flag_value (m : smap (arg E)) a b c d r : flag_value m a b c d = Some r -> loud r.
Proof. unfold flag_value. destruct (m_find a m); [|discriminate]. destruct (str_eqb _ b); [|discriminate]. intros X. injection X as <-. louds. Qed.
Lemma loud_flagopt (P : parser E) a b c d : loud (getFlagArgOptValue P a b c d).
Proof.
  unfold getFlagArgOptValue, orelse.
  repeat match goal with |- context [flag_value ?m ?a ?b ?c ?d] => let X := fresh in destruct (flag_value m a b c d) eqn:X; [exact (loud_flag_value _ _ _ _ _ _ X)|] end. nox.
Qed.
Lemma loud_getStr (P : parser E) f : loud (getStr P f). Proof. unfold getStr; louds. Qed.
Lemma loud_getInt (P : parser E) f : loud (getInt P f). Proof. unfold getInt; louds. Qed.
Hint Resolve loud_flagopt loud_getStr loud_getInt : loud.
Lemma loud_resolve_flag (P : parser E) ff m : loud (resolve_flag P ff m). Proof. unfold resolve_flag; louds. Qed.
Lemma loud_pick m f : loud (pick m f). Proof. unfold pick; louds. Qed.
Lemma loud_orbital (P : parser E) a b : loud (ParserModel.orbital P a b). Proof. unfold ParserModel.orbital; louds. Qed.
Lemma loud_ext a b : loud (check_ext a b). Proof. unfold check_ext, lastN; louds. Qed.
Hint Resolve loud_resolve_flag loud_pick loud_orbital loud_ext : loud.
Lemma loud_prepare (P : parser E) : loud (prepareParameters P).
Proof. unfold prepareParameters, setPunP, setPun1, setPun2, setLogP, setLog1, setLog2; louds. Qed.
End Parser.
