PARTIAL.update({
"C43":"proved for one-character patterns; refuted for longer ones (find_last_of searches a character set), with the exact behaviour for every pattern.",
})
PARTIAL.update({
"C48":"refuted for the string overload (stores, then throws); proved for the set overload and through argument objects.",
"C51":"acceptance and post check proved; FILE_DOES_EXIST after a history is refuted (it says whether any checked file existed), as is the int constructor.",
"C77":"refuted: text after the digits is ignored; rejection proved for texts without a leading number; C77_exact_partial gives the outcome for every text.",
})
PARTIAL.update({
"C54":"proved for every flag except the informational words; --version and its abbreviation -v behave differently (C57_v_refuted).",
"C56":"a switch without value is proved to be on; a switch followed by a value is refuted (parsing always fails).",
"C57":"proved for help/citation lines and --version; exactly the other lines do not stop the process (C57_exactly); refuted for -v.",
"C76":"proved when no text is configured for the switch (with or without a default number) and for switches not given; refuted with a default text t, which always wins over the command line (as in CATNIP).",
"C78":"refuted: every call that could set the limits throws, on every parser.",
})
NOTE.update({"C53":"for regular configurations (one flag per word, one argument kind per flag); CATNIP's parser is proved regular."})
PARTIAL.update({
"C58":"proved for arguments without white space and without a repeated flag; with a repeated flag it is refuted (the existence bit of an earlier value is kept). For every line the parser accepts the names used are characterised exactly (C58_exact_partial, C58_exact_complete_partial, C58_uses_unique), and the only other outcome is an exception (C58_defined).",
"C59":".pun proved; the advertised .orb/.7 extensions are refuted (rejected).",
"C60":"refuted: a path with white space is cut at the first blank (C60_first_word_refuted says which name is used); proved for paths without white space.",
})
PARTIAL.update({"C75":"proved when every registered flag has an abbreviation (as in CATNIP); refuted otherwise (size_t underflow: at least 2^63 blanks)."})
PARTIAL.update({
"C61":"proved for names whose last component has one dot; with more dots it is refuted (the reader takes the extension from the first dot and throws).",
"C65":"proved for every size; for n <= 5 it is refuted when the next line begins with a word that is not a number (the read throws), which is how Gaussian continues.",
"C66":"proved for sections that begin with occupied orbitals, for up to five energies per line, glued or not; refuted for a spin with virtual orbitals only (the getters throw).",
"C67":"proved for every line whose number of words is not nine, and for up to five energies in general; lines of nine words are refuted (never split).",
"C69":"proved for files whose tables show one molecule in one basis with different labels per atom; repeated labels are refuted (counted once). C69_exact_partial covers every file with any number of tables: one count per different (number, element), equal to the number of different labels shown for it; C69_unique says that determines the answer.",
})
PARTIAL.update({
"C70":"proved for every number of orbitals and coefficients if a single orbital is followed by another title; refuted otherwise (a single orbital at the end of the file is read forever).",
"C71":"proved when another line stands between the two sets; refuted for Gaussian's layout (Beta directly after Alpha: the first Beta title is consumed and the Beta set is never available).",
"C89":"proved for int, string, switch and file arguments; the five options parse itself writes only if no parse follows. Refuted: options of double arguments can be set but getFlagArgOptValue always throws for them.",
"C88":"proved for positions inside the matrix and as long as the object is not resized, assigned to or otherwise reallocated. Refuted: after such a change the pointer dangles, and positions outside the matrix are not checked: column C+1 gives the element of the next row.",
"C87":"proved for histories whose later files do not begin with energies: the getters return the last section of the history. Refuted: sections missing in the new file keep old values, atoms of earlier files are counted, and a file that begins with energies loses them on the second read.",
"C72":"every cut point of coordinate tables is decided (refuted: endless after a complete row, accepted as empty after the dashes; otherwise throws); populations, first orbitals without their end are never accepted; endless or silently accepted cases are refuted with witnesses. Cuts inside energy sections are never reported: accepted with the energies read so far, or (cut after the dashes of a title) endless. Overlap tables cut after any whole line are accepted from the first row on (C72_overlap_cut_refuted: size and missing elements, exactly).",
})
PARTIAL.update({"C07":"proved for assignment, Matrix_copy and every function returning a matrix, for every later history; whole programs without copy construction and self-assignment give, call by call, the outcomes and answers of the same functions on separate values (C07_programs, C07_answers); refuted for copy construction (the block is shared: writes are visible, a resize of the copy leaves the original dangling)."})
PARTIAL.update({"C20":"binary64 (Flocq). Proved for coordinates of at most 999999 units of the last decimal (|x| < 100 at the 4 decimals CATNIP uses): at least one unit apart => different; within 1/2-10^-9 units of the same decimal, with the same sign around zero => equal; plus the exact criterion and the consequence for matchCol. Refuted without these conditions: 0 and -0 print differently, ties are rounded twice, six digits are not enough from 100 on."})
NOTE.update({"C73":"C73_as_read/_plain/_counterpoise: for every command line and all files the readers accept (matrix sizes agreeing, every atom of the monomers found once in the dimer); C73_files_*: from the command line items and the texts of correctly printed files; C73_only: conversely, a value implies that the six chosen files were read. The value printed is J_value (QcSpec.v)."})
NOTE.update({"C79":"C79_identifies: equal output text => equal names, spins, orbitals (names without line breaks); C79_counterpoise: the counterpoise flag follows from the files.",
"C80":"C80_files_*: the complete output from the command line and the texts of correctly printed files; C80_consistent: the printed values satisfy the formula in exact arithmetic; C80_warning; C80_report: prints iff a value is computed. The text of a number is a parameter pr (see C20 for binary64 text).",
"C81":"for every command line and all files; the hypotheses say that std::stod does not call exit."})
NOTE.update({"C82":"binary64 (Flocq); print_double models operator<< with default precision.",
"C83":"binary64 (Flocq), each operation rounded on its own (no fused multiply-add); std::pow(x,2) is a parameter assumed accurate to 1 ulp (x*x is an instance, C83_square). C83_run: files without population analysis; C83_calcJ: any assembled complex."})
NOTE.update({"C84":"binary64 (Flocq). dstod/datof model the C library and libstdc++, not code of the repository; they are the values the reader model's parameters n_stod/n_atof take in the program."})
NOTE.update({"C85":"binary64 (Flocq). C85_as_read (no population analysis), C85_plain, C85_counterpoise: from the command line and the texts of the six files to a finite coupling within the stated bound of true_J, the coupling in real numbers of the numbers written. std::pow is a parameter assumed accurate to 1 ulp (instances C85_powers, C85_squares)."})
NOTE.update({"C86":"binary64 (Flocq). C86_as_read, C86_plain, C86_counterpoise: the output of the run is the heading and five lines whose numerals are within 6e-6 relative plus the stated rounding error of the values in real numbers of what the files say. Same hypotheses as C85 without regular, which is needed for J_eff only."})

PARTIAL.update({"C90":"binary64 (Flocq). Proved for every double but NaN and all settings of the limits; refuted for NaN, which passes every limit and which the text nan produces (text after a number is ignored, as in C77).",
"C51":"acceptance and post check proved, for both constructors; FILE_DOES_EXIST after a history is refuted (it says whether any checked file existed), as is the post check of the int constructor before any file was checked."})

PARTIAL.update({"C17":"shrinking rows keeps the remaining elements (also shrinking the columns of a single row and the shelves of a single position); growing and changing columns or shelves refuted for all other shapes (indeterminate or misplaced elements)."})

PARTIAL.update({"C91":"refuted: the call after an exception inside an existing file returns normally, reads nothing and keeps the old members (the handle was left open). Proved: a missing file leaves the object unchanged; the second call after the exception reads the file; calls on objects no exception has left behave as in C64-C72."})

PARTIAL.update({"C92":"proved for set_row, swap_row, swap_col, move_row on all matrices, set_col on matrices with at most as many rows as columns and with vectors that do not have one entry per column, move_col on square matrices; refuted exactly elsewhere (half a column is written; the moved column is lost)."})

PARTIAL.update({"C93":"proved for every rejected line: which items were dealt with, why it was rejected and with which exception (C93_rejected), the parser stays usable (C93_usable), options are kept but for those parse itself writes (C93_options), a later line's values are the ones it gives (C93_again_partial). Refuted: the values of a rejected line stay and are returned for flags the later line does not give; a file refused for its extension counts as found, so that a later line without the required file is accepted; a word after a switch that is no flag is stored as its value."})
PARTIAL.update({"C94":"proved for every text without the section's marks, however damaged otherwise (C94_kept, C94_fresh_partial, C94_fresh_pun) and for the whole program (C94_program: no value and no report). Refuted for the overlap matrix: LogReader's pointer S_ is never initialised, so getOverlapMatrix returns an indeterminate pointer (C94_overlap_refuted) and calc_J goes on with it instead of throwing (C94_program_overlap_refuted)."})

PARTIAL.update({"C96":"proved for every content, reader object and number of steps: no out-of-bounds access and no use of an uninitialised value; no undefined behaviour at all for log files with at most 46340 line ends and pun files with (line ends + 1) * characters <= 15 * INT_MAX. Refuted beyond: a correct overlap section with 46341 or more rows overflows int in the Matrix constructor (C96_overflow_refuted). Assumption: std::stod returns or throws."})
PARTIAL.update({"C97":"proved for every command line, file system, arithmetic and number of steps: never an access out of bounds (matrices are values in this model; freeing memory is modelled in C07 and C88); with an overlap matrix and log files that line up (or one without populations) the only undefined behaviour left is the overflow of an int, and that only if a reader overflows or a matrix, list of energies, coordinates or populations has more than 46340 entries in a direction (C97_defined: otherwise nothing is undefined). The code violates the rest, with witnesses: a monomer with an atom that is not in the dimer (BadIterator), a dimer's log file without overlap section (Uninitialised), an overlap matrix of 46341 rows (SignedOverflow). Assumption: std::stod returns or throws."})
PARTIAL.update({"C98":"proved for every history of calls on a PropertySisterFile itself, and for switches; the code violates the rest: through an argument object the computed options can be overwritten (setPropOption is not virtual), and PropertyFileExt::setPropOption stores malformed extensions that its constructors refuse."})
PARTIAL.update({"C99":"proved for int, switch, string and file arguments and unknown types; the code violates it for doubles: argumentparser.cpp:186 looks for an existing file argument instead, so a second double argument is accepted and loses the limits of the first, and a flag with a file argument cannot get a double argument."})
NOTE.update({"C113":"the order is a hypothesis (ordered field); the rational numbers are the instance of the example."})
PARTIAL.update({"C114":"refuted by the code: in exact arithmetic the value of every such request is 0/0, reported like any other with no further message (C114_undefined); in doubles the run succeeds, without a warning, and prints J_eff nan (C114_nan_refuted). Proved: in an ordered field every other request has a defined value (C114_defined_partial)."})
