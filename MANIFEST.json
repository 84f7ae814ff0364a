{
 "claims": [
  {
   "property": "C01",
   "status": "proved",
   "theorems": [
    "C01_store_load",
    "C01_every_matrix",
    "C01_overloads"
   ],
   "note": ""
  },
  {
   "property": "C02",
   "status": "partial",
   "theorems": [
    "C02_out_of_range_exits",
    "C02_short_overloads_exit",
    "C02_in_range_safe",
    "C02_missing_shelf_refuted"
   ],
   "note": "True for the three-index accessors; refuted for the short overloads on a matrix that has lost its shelves (set_shel(0))."
  },
  {
   "property": "C03",
   "status": "proved",
   "theorems": [
    "C03_constructors",
    "C03_bad_dimensions_exit",
    "C03_vector",
    "C03_vector_of_vectors",
    "C03_ragged_rejected",
    "C03_empty_rejected",
    "C03_empty_matrix",
    "C03_total_elem"
   ],
   "note": ""
  },
  {
   "property": "C04",
   "status": "proved",
   "theorems": [
    "C04_resize",
    "C04_resize_bad"
   ],
   "note": ""
  },
  {
   "property": "C05",
   "status": "partial",
   "theorems": [
    "C05_assign_partial",
    "C05_assign_drops_shelves",
    "C05_assign_refuted",
    "C05_assign_empty_refuted"
   ],
   "note": "operator= is right for sources with one shelf; refuted for sources with more shelves (dropped) and for empty sources (process exits)."
  },
  {
   "property": "C06",
   "status": "proved",
   "theorems": [
    "C06_copy"
   ],
   "note": ""
  },
  {
   "property": "C07",
   "status": "partial",
   "theorems": [
    "C07_programs",
    "C07_answers",
    "C07_assignment_partial",
    "C07_matrix_copy_partial",
    "C07_assignment_value",
    "C07_matrix_copy_value",
    "C07_calls_agree_with_values",
    "C07_copy_construction_shares",
    "C07_copy_construction_dangles",
    "C07_copy_construction_refuted",
    "C07_assign_between_copies_refuted"
   ],
   "note": "proved for assignment, Matrix_copy and every function returning a matrix, for every later history; whole programs without copy construction and self-assignment give, call by call, the outcomes and answers of the same functions on separate values (C07_programs, C07_answers); refuted for copy construction (the block is shared: writes are visible, a resize of the copy leaves the original dangling)."
  },
  {
   "property": "C08",
   "status": "proved",
   "theorems": [
    "C08_transpose",
    "C08_involution",
    "C08_3d_exits"
   ],
   "note": ""
  },
  {
   "property": "C09",
   "status": "proved",
   "theorems": [
    "C09_product",
    "C09_incompatible_exits",
    "C09_associative_exact",
    "C09_transpose_exact"
   ],
   "note": ""
  },
  {
   "property": "C10",
   "status": "proved",
   "theorems": [
    "C10_diag",
    "C10_rejects"
   ],
   "note": ""
  },
  {
   "property": "C11",
   "status": "proved",
   "theorems": [
    "C11_concat_rows",
    "C11_concat_cols",
    "C11_mismatch"
   ],
   "note": ""
  },
  {
   "property": "C12",
   "status": "proved",
   "theorems": [
    "C12_set_row",
    "C12_wrong_length",
    "C12_get_row_col"
   ],
   "note": ""
  },
  {
   "property": "C13",
   "status": "partial",
   "theorems": [
    "C13_set_col_partial",
    "C13_set_col_refuted"
   ],
   "note": "set_col works on square matrices only; refuted otherwise (throws for a right-length column)."
  },
  {
   "property": "C14",
   "status": "partial",
   "theorems": [
    "C14_swap_row",
    "C14_swap_row_twice",
    "C14_swap_col_partial",
    "C14_swap_col_refuted"
   ],
   "note": "swap_row proved on shelf 1; swap_col only for square matrices, refuted otherwise; other shelves are not exchanged."
  },
  {
   "property": "C15",
   "status": "partial",
   "theorems": [
    "C15_move_row",
    "C15_move_row_back",
    "C15_move_col_partial",
    "C15_move_col_refuted",
    "C15_move_col_all_refuted"
   ],
   "note": "move_row proved; move_col only for square matrices, refuted otherwise."
  },
  {
   "property": "C16",
   "status": "partial",
   "theorems": [
    "C16_getRow",
    "C16_getCol_partial",
    "C16_getCol_tall_refuted",
    "C16_getCol_wide_refuted"
   ],
   "note": "getRow proved; getCol right for square matrices only, refuted for tall and wide ones."
  },
  {
   "property": "C17",
   "status": "partial",
   "theorems": [
    "C17_set_rows_shrink_partial",
    "C17_set_rows_grow_refuted",
    "C17_set_cols_grow_refuted",
    "C17_set_cols_shrink_refuted",
    "C17_set_shel_refuted",
    "C17_trivial",
    "C17_set_cols_grow_all_refuted",
    "C17_set_cols_grow_hole_refuted",
    "C17_set_cols_shrink_all_refuted",
    "C17_set_cols_shrink_partial",
    "C17_set_shel_grow_all_refuted",
    "C17_set_shel_shrink_all_refuted",
    "C17_set_shel_shrink_partial"
   ],
   "note": "shrinking rows keeps the remaining elements (also shrinking the columns of a single row and the shelves of a single position); growing and changing columns or shelves refuted for all other shapes (indeterminate or misplaced elements)."
  },
  {
   "property": "C18",
   "status": "proved",
   "theorems": [
    "C18_matchCol",
    "C18_matchRow",
    "C18_shape_mismatch",
    "C18_shelves_exit"
   ],
   "note": ""
  },
  {
   "property": "C19",
   "status": "proved",
   "theorems": [
    "C19_match_recovers_order",
    "C19_injective"
   ],
   "note": ""
  },
  {
   "property": "C20",
   "status": "partial",
   "theorems": [
    "C20_decimals_refuted",
    "C20_exact_partial",
    "C20_equal_partial",
    "C20_different_partial",
    "C20_zero_sign_refuted",
    "C20_boundary_refuted",
    "C20_large_refuted",
    "C20_match_partial"
   ],
   "note": "binary64 (Flocq). Proved for coordinates of at most 999999 units of the last decimal (|x| < 100 at the 4 decimals CATNIP uses): at least one unit apart => different; within 1/2-10^-9 units of the same decimal, with the same sign around zero => equal; plus the exact criterion and the consequence for matchCol. Refuted without these conditions: 0 and -0 print differently, ties are rounded twice, six digits are not enough from 100 on."
  },
  {
   "property": "C21",
   "status": "partial",
   "theorems": [
    "C21_print_partial",
    "C21_print_shows_shelf_1",
    "C21_print_refuted"
   ],
   "note": "proved for one shelf; refuted for more (only shelf 1 is printed, repeatedly)."
  },
  {
   "property": "C22",
   "status": "proved",
   "theorems": [
    "C22_dimer",
    "C22_single"
   ],
   "note": ""
  },
  {
   "property": "C23",
   "status": "partial",
   "theorems": [
    "C23_dimer_exact_partial",
    "C23_single_exact_partial",
    "C23_dimer_partial",
    "C23_single_partial",
    "C23_dimer_refuted",
    "C23_single_refuted"
   ],
   "note": "terminates when no place is claimed twice; refuted otherwise (infinite loop). Exact for every match vector: it runs forever iff some cycle of the match is entered from a later place (C23_dimer_exact_partial, C23_single_exact_partial)."
  },
  {
   "property": "C24",
   "status": "partial",
   "theorems": [
    "C24_dimer_exact_partial",
    "C24_single_exact_partial",
    "C24_dimer_partial",
    "C24_single_partial",
    "C24_dimer_refuted",
    "C24_single_refuted"
   ],
   "note": "safe for complete one-to-one matches; refuted when an atom has no counterpart (iterator before begin). Exact for every match that ends: safe iff every place names an atom and there are no more places than atoms (C24_dimer_exact_partial, C24_single_exact_partial)."
  },
  {
   "property": "C25",
   "status": "proved",
   "theorems": [
    "C25_columns",
    "C25_rows"
   ],
   "note": ""
  },
  {
   "property": "C26",
   "status": "proved",
   "theorems": [
    "C26_unscramble_Coef_dimer",
    "C26_every_column"
   ],
   "note": ""
  },
  {
   "property": "C27",
   "status": "proved",
   "theorems": [
    "C27_unscramble_Coef_single"
   ],
   "note": ""
  },
  {
   "property": "C28",
   "status": "proved",
   "theorems": [
    "C28_unscramble_S_dimer",
    "C28_unscramble_S_single"
   ],
   "note": ""
  },
  {
   "property": "C29",
   "status": "proved",
   "theorems": [
    "C29_atom_order_plain",
    "C29_atom_order_cp"
   ],
   "note": ""
  },
  {
   "property": "C30",
   "status": "proved",
   "theorems": [
    "C30_calcJ_formula",
    "C30_exact"
   ],
   "note": ""
  },
  {
   "property": "C31",
   "status": "proved",
   "theorems": [
    "C31_symmetric"
   ],
   "note": ""
  },
  {
   "property": "C32",
   "status": "proved",
   "theorems": [
    "C32_phases"
   ],
   "note": ""
  },
  {
   "property": "C33",
   "status": "proved",
   "theorems": [
    "C33_scale",
    "C33_shift"
   ],
   "note": ""
  },
  {
   "property": "C34",
   "status": "proved",
   "theorems": [
    "C34_rows",
    "C34_rejects_1",
    "C34_rejects_2",
    "C34_missing_key_1",
    "C34_missing_key_2"
   ],
   "note": ""
  },
  {
   "property": "C35",
   "status": "proved",
   "theorems": [
    "C35_constructor"
   ],
   "note": ""
  },
  {
   "property": "C36",
   "status": "partial",
   "theorems": [
    "C36_evaluates_partial",
    "C36_short_refuted",
    "C36_energies_refuted",
    "C36_exact_partial"
   ],
   "note": "proved when the sizes agree; refuted: monomers together narrower than the dimer, or a wrong number of energies, are accepted and then exit(1). C36_exact_partial gives the outcome for every combination of shapes the constructor accepts."
  },
  {
   "property": "C37",
   "status": "partial",
   "theorems": [
    "C37_ranks_partial",
    "C37_column_refuted",
    "C37_exact_partial",
    "C37_right_iff_square_partial"
   ],
   "note": "proved for square energy matrices (getCol defect) and any correct sort; refuted for the usual column of 2 or more energies (exit(1)). C37_exact_partial gives the result for every two shapes, C37_right_iff_square_partial: right iff both matrices are square."
  },
  {
   "property": "C38",
   "status": "proved",
   "theorems": [
    "C38_trim_exact",
    "C38_ltrimmed_exact",
    "C38_rtrimmed_exact",
    "C38_trim_unique",
    "C38_idempotent"
   ],
   "note": ""
  },
  {
   "property": "C39",
   "status": "proved",
   "theorems": [
    "C39_split_words",
    "C39_every_string"
   ],
   "note": ""
  },
  {
   "property": "C40",
   "status": "proved",
   "theorems": [
    "C40_path_split"
   ],
   "note": ""
  },
  {
   "property": "C41",
   "status": "proved",
   "theorems": [
    "C41_prefix",
    "C41_suffix",
    "C41_out_of_range"
   ],
   "note": ""
  },
  {
   "property": "C42",
   "status": "proved",
   "theorems": [
    "C42_found",
    "C42_first_occurrence",
    "C42_first_exists",
    "C42_no_occurrence"
   ],
   "note": ""
  },
  {
   "property": "C43",
   "status": "partial",
   "theorems": [
    "C43_single_character_partial",
    "C43_no_occurrence_partial",
    "C43_character_set",
    "C43_longer_refuted",
    "C43_no_character",
    "C43_longer_exact_refuted"
   ],
   "note": "proved for one-character patterns; refuted for longer ones (find_last_of searches a character set), with the exact behaviour for every pattern."
  },
  {
   "property": "C44",
   "status": "proved",
   "theorems": [
    "C44_letters"
   ],
   "note": ""
  },
  {
   "property": "C45",
   "status": "proved",
   "theorems": [
    "C45_stoi",
    "C45_limits"
   ],
   "note": ""
  },
  {
   "property": "C46",
   "status": "proved",
   "theorems": [
    "C46_lengths",
    "C46_default_accepts_all"
   ],
   "note": ""
  },
  {
   "property": "C47",
   "status": "proved",
   "theorems": [
    "C47_choices"
   ],
   "note": ""
  },
  {
   "property": "C48",
   "status": "partial",
   "theorems": [
    "C48_single_choice_refuted",
    "C48_set_partial",
    "C48_enforced",
    "C48_set_overload"
   ],
   "note": "refuted for the string overload (stores, then throws); proved for the set overload and through argument objects."
  },
  {
   "property": "C49",
   "status": "proved",
   "theorems": [
    "C49_extension",
    "C49_every_path",
    "C49_unique",
    "C49_configuration"
   ],
   "note": ""
  },
  {
   "property": "C50",
   "status": "proved",
   "theorems": [
    "C50_sisters",
    "C50_configuration"
   ],
   "note": ""
  },
  {
   "property": "C51",
   "status": "partial",
   "theorems": [
    "C51_accepts",
    "C51_history_partial",
    "C51_last_file_refuted",
    "C51_post_check",
    "C51_int_constructor_refuted",
    "C51_int_constructor"
   ],
   "note": "acceptance and post check proved, for both constructors; FILE_DOES_EXIST after a history is refuted (it says whether any checked file existed), as is the post check of the int constructor before any file was checked."
  },
  {
   "property": "C52",
   "status": "proved",
   "theorems": [
    "C52_last",
    "C52_accepts",
    "C52_registers"
   ],
   "note": ""
  },
  {
   "property": "C53",
   "status": "proved",
   "theorems": [
    "C53_command_line",
    "C53_only_valid",
    "C53_missing_file",
    "C53_defaults",
    "C53_unset",
    "C53_unset_files"
   ],
   "note": "for regular configurations (one flag per word, one argument kind per flag); CATNIP's parser is proved regular."
  },
  {
   "property": "C54",
   "status": "partial",
   "theorems": [
    "C54_catnip_flags",
    "C54_spelling_partial",
    "C54_at_flag_partial"
   ],
   "note": "proved for every flag except the informational words; --version and its abbreviation -v behave differently (C57_v_refuted)."
  },
  {
   "property": "C55",
   "status": "proved",
   "theorems": [
    "C55_value_every_parser",
    "C55_unknown_word",
    "C55_flag_without_argument",
    "C55_value_missing",
    "C55_value_rejected",
    "C55_empty_line",
    "C55_value_exception"
   ],
   "note": ""
  },
  {
   "property": "C56",
   "status": "partial",
   "theorems": [
    "C56_switch_on_partial",
    "C56_switch_value_refuted"
   ],
   "note": "a switch without value is proved to be on; a switch followed by a value is refuted (parsing always fails)."
  },
  {
   "property": "C57",
   "status": "partial",
   "theorems": [
    "C57_exactly",
    "C57_only_notes_partial",
    "C57_version_partial",
    "C57_v_refuted"
   ],
   "note": "proved for help/citation lines and --version; exactly the other lines do not stop the process (C57_exactly); refuted for -v."
  },
  {
   "property": "C58",
   "status": "partial",
   "theorems": [
    "C58_exact_partial",
    "C58_exact_complete_partial",
    "C58_defined",
    "C58_uses_unique",
    "C58_suffixes",
    "C58_resolved_partial",
    "C58_unique",
    "C58_complete_partial",
    "C58_repeated_refuted"
   ],
   "note": "proved for arguments without white space and without a repeated flag; with a repeated flag it is refuted (the existence bit of an earlier value is kept). For every line the parser accepts the names used are characterised exactly (C58_exact_partial, C58_exact_complete_partial, C58_uses_unique), and the only other outcome is an exception (C58_defined)."
  },
  {
   "property": "C59",
   "status": "partial",
   "theorems": [
    "C59_pun_partial",
    "C59_others_refuted"
   ],
   "note": ".pun proved; the advertised .orb/.7 extensions are refuted (rejected)."
  },
  {
   "property": "C60",
   "status": "partial",
   "theorems": [
    "C60_no_blanks_partial",
    "C60_first_word_refuted",
    "C60_white_refuted",
    "C60_witness_refuted",
    "C60_plain_partial"
   ],
   "note": "refuted: a path with white space is cut at the first blank (C60_first_word_refuted says which name is used); proved for paths without white space."
  },
  {
   "property": "C61",
   "status": "partial",
   "theorems": [
    "C61_one_dot_partial",
    "C61_more_dots_refuted",
    "C61_every_name",
    "C61_readers",
    "C61_witness_refuted"
   ],
   "note": "proved for names whose last component has one dot; with more dots it is refuted (the reader takes the extension from the first dot and throws)."
  },
  {
   "property": "C62",
   "status": "proved",
   "theorems": [
    "C62_settings",
    "C62_rejected",
    "C62_refusal"
   ],
   "note": ""
  },
  {
   "property": "C63",
   "status": "proved",
   "theorems": [
    "C63_setters"
   ],
   "note": ""
  },
  {
   "property": "C64",
   "status": "proved",
   "theorems": [
    "C64_dispatch",
    "C64_registration"
   ],
   "note": ""
  },
  {
   "property": "C65",
   "status": "partial",
   "theorems": [
    "C65_round_trip_partial",
    "C65_small_refuted"
   ],
   "note": "proved for every size; for n <= 5 it is refuted when the next line begins with a word that is not a number (the read throws), which is how Gaussian continues."
  },
  {
   "property": "C66",
   "status": "partial",
   "theorems": [
    "C66_energies_partial",
    "C66_no_occupied_refuted"
   ],
   "note": "proved for sections that begin with occupied orbitals, for up to five energies per line, glued or not; refuted for a spin with virtual orbitals only (the getters throw)."
  },
  {
   "property": "C67",
   "status": "partial",
   "theorems": [
    "C67_split_partial",
    "C67_unique",
    "C67_five_partial",
    "C67_nine_refuted"
   ],
   "note": "proved for every line whose number of words is not nine, and for up to five energies in general; lines of nine words are refuted (never split)."
  },
  {
   "property": "C68",
   "status": "proved",
   "theorems": [
    "C68_coordinates"
   ],
   "note": ""
  },
  {
   "property": "C69",
   "status": "partial",
   "theorems": [
    "C69_counts_partial",
    "C69_repeated_refuted",
    "C69_exact_partial",
    "C69_unique"
   ],
   "note": "proved for files whose tables show one molecule in one basis with different labels per atom; repeated labels are refuted (counted once). C69_exact_partial covers every file with any number of tables: one count per different (number, element), equal to the number of different labels shown for it; C69_unique says that determines the answer."
  },
  {
   "property": "C70",
   "status": "partial",
   "theorems": [
    "C70_round_trip_partial",
    "C70_elements",
    "C70_single_refuted"
   ],
   "note": "proved for every number of orbitals and coefficients if a single orbital is followed by another title; refuted otherwise (a single orbital at the end of the file is read forever)."
  },
  {
   "property": "C71",
   "status": "partial",
   "theorems": [
    "C71_separated_partial",
    "C71_adjacent_refuted",
    "C71_restricted"
   ],
   "note": "proved when another line stands between the two sets; refuted for Gaussian's layout (Beta directly after Alpha: the first Beta title is consumed and the Beta set is never available)."
  },
  {
   "property": "C72",
   "status": "partial",
   "theorems": [
    "C72_printed_line",
    "C72_overlap_cut_refuted",
    "C72_coordinates_refuted",
    "C72_coordinates_partial",
    "C72_dashes_refuted",
    "C72_coordinates_never_partial",
    "C72_population_never_partial",
    "C72_population_refuted",
    "C72_population_partial",
    "C72_overlap_refuted",
    "C72_energies_refuted",
    "C72_energies_inside_refuted",
    "C72_energies_endless_refuted",
    "C72_energies_cut_refuted",
    "C72_pun_first_refuted",
    "C72_pun_later_refuted",
    "C72_pun_never_partial",
    "C72_pun_repeated_refuted"
   ],
   "note": "every cut point of coordinate tables is decided (refuted: endless after a complete row, accepted as empty after the dashes; otherwise throws); populations, first orbitals without their end are never accepted; endless or silently accepted cases are refuted with witnesses. Cuts inside energy sections are never reported: accepted with the energies read so far, or (cut after the dashes of a title) endless. Overlap tables cut after any whole line are accepted from the first row on (C72_overlap_cut_refuted: size and missing elements, exactly)."
  },
  {
   "property": "C73",
   "status": "proved",
   "theorems": [
    "C73_as_read",
    "C73_plain",
    "C73_counterpoise",
    "C73_only",
    "C73_files_as_read",
    "C73_files_plain",
    "C73_files_counterpoise"
   ],
   "note": "C73_as_read/_plain/_counterpoise: for every command line and all files the readers accept (matrix sizes agreeing, every atom of the monomers found once in the dimer); C73_files_*: from the command line items and the texts of correctly printed files; C73_only: conversely, a value implies that the six chosen files were read. The value printed is J_value (QcSpec.v)."
  },
  {
   "property": "C74",
   "status": "proved",
   "theorems": [
    "C74_remove_space",
    "C74_unterminated"
   ],
   "note": ""
  },
  {
   "property": "C75",
   "status": "partial",
   "theorems": [
    "C75_help_partial",
    "C75_stable",
    "C75_order",
    "C75_no_abbreviation_refuted"
   ],
   "note": "proved when every registered flag has an abbreviation (as in CATNIP); refuted otherwise (size_t underflow: at least 2^63 blanks)."
  },
  {
   "property": "C76",
   "status": "partial",
   "theorems": [
    "C76_views_partial",
    "C76_not_given",
    "C76_number_partial",
    "C76_views_refuted",
    "C76_text",
    "C76_counter_poise_refuted"
   ],
   "note": "proved when no text is configured for the switch (with or without a default number) and for switches not given; refuted with a default text t, which always wins over the command line (as in CATNIP)."
  },
  {
   "property": "C77",
   "status": "partial",
   "theorems": [
    "C77_garbage_accepted_refuted",
    "C77_no_number_partial",
    "C77_every_text",
    "C77_exact_partial"
   ],
   "note": "refuted: text after the digits is ignored; rejection proved for texts without a leading number; C77_exact_partial gives the outcome for every text."
  },
  {
   "property": "C78",
   "status": "partial",
   "theorems": [
    "C78_limits_refuted"
   ],
   "note": "refuted: every call that could set the limits throws, on every parser."
  },
  {
   "property": "C79",
   "status": "proved",
   "theorems": [
    "C79_identifies",
    "C79_counterpoise"
   ],
   "note": "C79_identifies: equal output text => equal names, spins, orbitals (names without line breaks); C79_counterpoise: the counterpoise flag follows from the files."
  },
  {
   "property": "C80",
   "status": "proved",
   "theorems": [
    "C80_report",
    "C80_files_as_read",
    "C80_files_plain",
    "C80_files_counterpoise",
    "C80_consistent",
    "C80_warning"
   ],
   "note": "C80_files_*: the complete output from the command line and the texts of correctly printed files; C80_consistent: the printed values satisfy the formula in exact arithmetic; C80_warning; C80_report: prints iff a value is computed. The text of a number is a parameter pr (see C20 for binary64 text)."
  },
  {
   "property": "C81",
   "status": "proved",
   "theorems": [
    "C81_status",
    "C81_no_silent_failure"
   ],
   "note": "for every command line and all files; the hypotheses say that std::stod does not call exit."
  },
  {
   "property": "C82",
   "status": "proved",
   "theorems": [
    "C82_accurate",
    "C82_nearest",
    "C82_not_finite",
    "C82_report"
   ],
   "note": "binary64 (Flocq); print_double models operator<< with default precision."
  },
  {
   "property": "C83",
   "status": "proved",
   "theorems": [
    "C83_real_exact",
    "C83_gamma",
    "C83_square",
    "C83_product",
    "C83_numbers",
    "C83_coupling",
    "C83_calcJ",
    "C83_run"
   ],
   "note": "binary64 (Flocq), each operation rounded on its own (no fused multiply-add); std::pow(x,2) is a parameter assumed accurate to 1 ulp (x*x is an instance, C83_square). C83_run: files without population analysis; C83_calcJ: any assembled complex."
  },
  {
   "property": "C84",
   "status": "proved",
   "theorems": [
    "C84_accurate",
    "C84_in_range",
    "C84_too_large",
    "C84_atof",
    "C84_rejects",
    "C84_not_finite",
    "C84_printed"
   ],
   "note": "binary64 (Flocq). dstod/datof model the C library and libstdc++, not code of the repository; they are the values the reader model's parameters n_stod/n_atof take in the program."
  },
  {
   "property": "C85",
   "status": "proved",
   "theorems": [
    "C85_written",
    "C85_squares",
    "C85_powers",
    "C85_as_read",
    "C85_plain",
    "C85_counterpoise"
   ],
   "note": "binary64 (Flocq). C85_as_read (no population analysis), C85_plain, C85_counterpoise: from the command line and the texts of the six files to a finite coupling within the stated bound of true_J, the coupling in real numbers of the numbers written. std::pow is a parameter assumed accurate to 1 ulp (instances C85_powers, C85_squares)."
  },
  {
   "property": "C86",
   "status": "proved",
   "theorems": [
    "C86_as_read",
    "C86_plain",
    "C86_counterpoise"
   ],
   "note": "binary64 (Flocq). C86_as_read, C86_plain, C86_counterpoise: the output of the run is the heading and five lines whose numerals are within 6e-6 relative plus the stated rounding error of the values in real numbers of what the files say. Same hypotheses as C85 without regular, which is needed for J_eff only."
  },
  {
   "property": "C87",
   "status": "partial",
   "theorems": [
    "C87_history_partial",
    "C87_present_partial",
    "C87_unchanged_partial",
    "C87_pun_history_partial",
    "C87_stale_refuted",
    "C87_energies_first_refuted",
    "C87_atoms_refuted"
   ],
   "note": "proved for histories whose later files do not begin with energies: the getters return the last section of the history. Refuted: sections missing in the new file keep old values, atoms of earlier files are counted, and a file that begins with energies loses them on the second read."
  },
  {
   "property": "C88",
   "status": "partial",
   "theorems": [
    "C88_element_partial",
    "C88_follows_partial",
    "C88_write_partial",
    "C88_distinct_partial",
    "C88_dangles_refuted",
    "C88_unchecked_refuted"
   ],
   "note": "proved for positions inside the matrix and as long as the object is not resized, assigned to or otherwise reallocated. Refuted: after such a change the pointer dangles, and positions outside the matrix are not checked: column C+1 gives the element of the next row."
  },
  {
   "property": "C89",
   "status": "partial",
   "theorems": [
    "C89_accepted",
    "C89_last_partial",
    "C89_initial_partial",
    "C89_known_options",
    "C89_settable_options",
    "C89_double_refuted"
   ],
   "note": "proved for int, string, switch and file arguments; the five options parse itself writes only if no parse follows. Refuted: options of double arguments can be set but getFlagArgOptValue always throws for them."
  },
  {
   "property": "C90",
   "status": "partial",
   "theorems": [
    "C90_limits_any",
    "C90_limits_partial",
    "C90_default",
    "C90_nan_refuted",
    "C90_command_line"
   ],
   "note": "binary64 (Flocq). Proved for every double but NaN and all settings of the limits; refuted for NaN, which passes every limit and which the text nan produces (text after a number is ignored, as in C77)."
  },
  {
   "property": "C91",
   "status": "partial",
   "theorems": [
    "C91_fresh",
    "C91_second_refuted",
    "C91_missing_partial",
    "C91_third_partial",
    "C91_third_pun_partial"
   ],
   "note": "refuted: the call after an exception inside an existing file returns normally, reads nothing and keeps the old members (the handle was left open). Proved: a missing file leaves the object unchanged; the second call after the exception reads the file; calls on objects no exception has left behave as in C64-C72."
  },
  {
   "property": "C92",
   "status": "partial",
   "theorems": [
    "C92_same",
    "C92_unchanged_partial",
    "C92_set_col_refuted",
    "C92_move_col_refuted"
   ],
   "note": "proved for set_row, swap_row, swap_col, move_row on all matrices, set_col on matrices with at most as many rows as columns and with vectors that do not have one entry per column, move_col on square matrices; refuted exactly elsewhere (half a column is written; the moved column is lost)."
  },
  {
   "property": "C93",
   "status": "partial",
   "theorems": [
    "C93_same",
    "C93_rejected",
    "C93_usable",
    "C93_options",
    "C93_again_partial",
    "C93_values_stay_refuted",
    "C93_refused_file_refuted"
   ],
   "note": "proved for every rejected line: which items were dealt with, why it was rejected and with which exception (C93_rejected), the parser stays usable (C93_usable), options are kept but for those parse itself writes (C93_options), a later line's values are the ones it gives (C93_again_partial). Refuted: the values of a rejected line stay and are returned for flags the later line does not give; a file refused for its extension counts as found, so that a later line without the required file is accepted; a word after a switch that is no flag is stored as its value."
  },
  {
   "property": "C94",
   "status": "partial",
   "theorems": [
    "C94_kept",
    "C94_kept_pun",
    "C94_fresh_partial",
    "C94_overlap_refuted",
    "C94_fresh_pun",
    "C94_program",
    "C94_program_overlap_refuted"
   ],
   "note": "proved for every text without the section's marks, however damaged otherwise (C94_kept, C94_fresh_partial, C94_fresh_pun) and for the whole program (C94_program: no value and no report). Refuted for the overlap matrix: LogReader's pointer S_ is never initialised, so getOverlapMatrix returns an indeterminate pointer (C94_overlap_refuted) and calc_J goes on with it instead of throwing (C94_program_overlap_refuted)."
  },
  {
   "property": "C95",
   "status": "proved",
   "theorems": [
    "C95_listed",
    "C95_values"
   ],
   "note": ""
  },
  {
   "property": "C96",
   "status": "partial",
   "theorems": [
    "C96_log_partial",
    "C96_pun_partial",
    "C96_small_files",
    "C96_overflow_refuted"
   ],
   "note": "proved for every content, reader object and number of steps: no out-of-bounds access and no use of an uninitialised value; no undefined behaviour at all for log files with at most 46340 line ends and pun files with (line ends + 1) * characters <= 15 * INT_MAX. Refuted beyond: a correct overlap section with 46341 or more rows overflows int in the Matrix constructor (C96_overflow_refuted). Assumption: std::stod returns or throws."
  },
  {
   "property": "C97",
   "status": "partial",
   "theorems": [
    "C97_steps",
    "C97_one_answer",
    "C97_steps_pun",
    "C97_steps_log",
    "C97_run_partial",
    "C97_never",
    "C97_safe",
    "C97_defined",
    "C97_run_refuted",
    "C97_overflow_refuted"
   ],
   "note": "proved for every command line, file system, arithmetic and number of steps: never an access out of bounds (matrices are values in this model; freeing memory is modelled in C07 and C88); with an overlap matrix and log files that line up (or one without populations) the only undefined behaviour left is the overflow of an int, and that only if a reader overflows or a matrix, list of energies, coordinates or populations has more than 46340 entries in a direction (C97_defined: otherwise nothing is undefined). The code violates the rest, with witnesses: a monomer with an atom that is not in the dimer (BadIterator), a dimer's log file without overlap section (Uninitialised), an overlap matrix of 46341 rows (SignedOverflow). Assumption: std::stod returns or throws."
  },
  {
   "property": "C98",
   "status": "partial",
   "theorems": [
    "C98_setters",
    "C98_history_partial",
    "C98_total",
    "C98_argument_refuted",
    "C98_extension_refuted",
    "C98_extension_partial",
    "C98_supported",
    "C98_switch_numbers"
   ],
   "note": "proved for every history of calls on a PropertySisterFile itself, and for switches; the code violates the rest: through an argument object the computed options can be overwritten (setPropOption is not virtual), and PropertyFileExt::setPropOption stores malformed extensions that its constructors refuse."
  },
  {
   "property": "C99",
   "status": "partial",
   "theorems": [
    "C99_add_partial",
    "C99_unknown_type",
    "C99_double_partial",
    "C99_double_refuted"
   ],
   "note": "proved for int, switch, string and file arguments and unknown types; the code violates it for doubles: argumentparser.cpp:186 looks for an existing file argument instead, so a second double argument is accepted and loses the limits of the first, and a flag with a file argument cannot get a double argument."
  },
  {
   "property": "C100",
   "status": "proved",
   "theorems": [
    "C100_interleaved",
    "C100_any_order",
    "C100_program"
   ],
   "note": ""
  },
  {
   "property": "C101",
   "status": "proved",
   "theorems": [
    "C101_plain",
    "C101_plain_report",
    "C101_counterpoise",
    "C101_counterpoise_report",
    "C101_as_read",
    "C101_as_read_report",
    "C101_depends"
   ],
   "note": ""
  },
  {
   "property": "C102",
   "status": "proved",
   "theorems": [
    "C102_plain",
    "C102_plain_report",
    "C102_counterpoise",
    "C102_counterpoise_report"
   ],
   "note": ""
  },
  {
   "property": "C103",
   "status": "proved",
   "theorems": [
    "C103_binary64",
    "C103_binary64_report",
    "C103_even",
    "C103_exact",
    "C103_exact_report"
   ],
   "note": ""
  },
  {
   "property": "C104",
   "status": "proved",
   "theorems": [
    "C104_value",
    "C104_report"
   ],
   "note": ""
  },
  {
   "property": "C105",
   "status": "proved",
   "theorems": [
    "C105_value",
    "C105_report",
    "C105_order"
   ],
   "note": ""
  },
  {
   "property": "C106",
   "status": "proved",
   "theorems": [
    "C106_affine",
    "C106_unit",
    "C106_zero"
   ],
   "note": ""
  },
  {
   "property": "C107",
   "status": "proved",
   "theorems": [
    "C107_elements",
    "C107_zero"
   ],
   "note": ""
  },
  {
   "property": "C108",
   "status": "proved",
   "theorems": [
    "C108_apart"
   ],
   "note": ""
  },
  {
   "property": "C109",
   "status": "proved",
   "theorems": [
    "C109_orthogonalised"
   ],
   "note": ""
  },
  {
   "property": "C110",
   "status": "proved",
   "theorems": [
    "C110_splitting"
   ],
   "note": ""
  },
  {
   "property": "C111",
   "status": "proved",
   "theorems": [
    "C111_basis"
   ],
   "note": ""
  },
  {
   "property": "C112",
   "status": "proved",
   "theorems": [
    "C112_positions"
   ],
   "note": ""
  },
  {
   "property": "C113",
   "status": "proved",
   "theorems": [
    "C113_bounded"
   ],
   "note": "the order is a hypothesis (ordered field); the rational numbers are the instance of the example."
  },
  {
   "property": "C114",
   "status": "partial",
   "theorems": [
    "C114_undefined",
    "C114_defined_partial",
    "C114_nan_refuted"
   ],
   "note": "refuted by the code: in exact arithmetic the value of every such request is 0/0, reported like any other with no further message (C114_undefined); in doubles the run succeeds, without a warning, and prints J_eff nan (C114_nan_refuted). Proved: in an ordered field every other request has a defined value (C114_defined_partial)."
  },
  {
   "property": "C115",
   "status": "proved",
   "theorems": [
    "C115_stable"
   ],
   "note": ""
  },
  {
   "property": "C116",
   "status": "proved",
   "theorems": [
    "C116_ghosts"
   ],
   "note": ""
  },
  {
   "property": "C117",
   "status": "proved",
   "theorems": [
    "C117_first",
    "C117_second"
   ],
   "note": ""
  },
  {
   "property": "C118",
   "status": "proved",
   "theorems": [
    "C118_selection_rule"
   ],
   "note": ""
  },
  {
   "property": "C119",
   "status": "proved",
   "theorems": [
    "C119_finite",
    "C119_ways",
    "C119_three_ways",
    "C119_undefined"
   ],
   "note": ""
  }
 ]
}