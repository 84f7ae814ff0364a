# QC_Tools (CATNIP): formal model in Rocq/Coq 8.16.1

This document says what is modelled, how each property of `properties.jsonl`
is expressed and proved, and what has to be trusted.

## 1. Shape of the development

All files are in `rocq/theories/` (logical name `Verif`).  Only the standard library
is used, except in `Float*`, `Print*`, `Round*`, `Scan*`, `Acc*` and `DoubleArg*` (Flocq, for IEEE binary64).

| files | content |
|---|---|
| `Outcome.v`, `Arith.v`, `Exact.v` | `outcome A` = `Ok` / `Throw exn` / `Exit code` / `Undef ub` / `NoFuel`; bounded loops; checked `int` arithmetic; the record of floating point operations, its exact instances |
| `MatrixModel.v`, `MatrixSpec.v`, `MatrixFacts/Ctor/Ops/Ops2/Print/Reach/Final.v`, `MatrixProps.v`, `MatrixShape.v`, `MatrixShapeProps.v`, `MatrixStateModel/StateProps.v` (C92) | `matrix.cpp` on values (C01-C06, C08-C19, C21, C92) |
| `HeapModel/Spec/Facts/Value/Props.v`, `HeapProg/ProgProps.v` | programs over several `Matrix` variables sharing memory (C07); `HeapPtrModel/Props.v`: pointers to elements (C88) |
| `FloatModel/Format/Digits/Round/Tol/Props.v` | `double_tos`, `std::round`, printing of doubles, in binary64 (C20) |
| `QcModel.v`, `QcSpec/ExactSpec.v`, `QcBlocks/Swap/Term/Order/Unscramble/Transfer/Exact/Final.v`, `QcProps.v`, `QcCycleSpec/QcCycle/QcCycleProps.v`, `QcShape.v`, `QcShapeProps.v` | `qc_functions.cpp` (C22-C37; the Cycle files: C23, C24 exact for every match vector; the Shape files: C36, C37 exact for every combination of shapes) |
| `StrBase/Model/Spec/Facts/Props.v` | `string_support.cpp` (C38-C44, C74) |
| `ArgsModel/Spec/Facts/Props.v` | `io/arguments/**` (C45-C51, C77) |
| `ParserModel.v`, `ParserSpec/Wf/Check/Line/Run/Effect/Facts/More.v`, `ParserProps.v`, `ParserUnset.v`, `ParserStateModel.v`, `ParserStateWf.v`, `ParserReject*.v` (C93: the parser an exception leaves), `ParserThrow.v` (C55: which exception a refused value gives), `ParserExit.v` (C57: exactly which lines end the process), `ParserEnds.v` (C119: parsing always ends, in one of three ways), `CatnipFlags.v` (the flag table of `io.cpp`) | `argumentparser.cpp` (C52-C57, C76, C78, C93); `ParserModel.v` also has `io.cpp` and `parameters.cpp` |
| `OptionSpec/Facts/History/Props/Exact.v` | options of flags, read back through all histories; exactly which options accept which values (C89) |
| `ListModel/Spec/Props.v` | listing properties, options and values of an argument (C95) |
| `HelpSpec/Props.v` | the help text (C75) |
| `CatnipSpec/Facts/Files/Params/More.v`, `CatnipProps.v`, `CatnipExact.v`, `CatnipExactProps.v` | `prepareParser`, `prepareParameters`, `Parameters` (C58-C60, C62, C63) |
| `ReaderModel.v`, `ReaderSpec.v`, `ReaderFacts/File/Log/Overlap/Pop/Pun/Fuel/Trunc/Cut/Names/Example.v`, `ReaderProps/PunProps/TruncProps/AgainProps.v`, `ReaderTables.v` (C69), `ReaderOverlapCut.v` (C72), `ReaderRetryModel/RetryProps.v` (C91: the file handle after an exception), `ReaderMissingSpec/Missing.v`, `MissingProps.v` (C94), `ReaderSafeSpec/Safe/SafeProps.v` (C96) | `io/file_readers` (C61, C64-C72, C87, C91, C94, C96) |
| `MemFacts/MemQc.v`, `MainSafeSpec/MainSafe/MainSafeProps.v` | the whole program on any input (C97) |
| `PropertyModel/Spec/Props.v` | overloads of property objects (C98) |
| `AddProps.v` | addFlagArg (C99) |
| `ParserOrderSpec/ParserOrder/ParserOrderProps.v` | order of the items of a command line (C100) |
| `ExchangeSpec/Facts/Run/Example/Props.v` | exchanging the monomers (C101) |
| `RelistSpec/Run/Props.v` | order of the atoms in the files (C102) |
| `PhaseSpec/Run/Props.v`, `PhaseFloatSpec/Float/FloatProps.v` | signs of the orbitals, in exact arithmetic and in binary64 (C103) |
| `ContentSpec/Run/Props.v` | two runs on files with the same content (C104) |
| `MixSpec/Run/Example/Props.v` | combinations of the dimer's orbitals (C105) |
| `FuelFacts.v`, `FuelProps.v` | the number of steps does not change an outcome (C97) |
| `LevelsSpec/Run/Example/Props.v` | unit and zero of the energies (C106) |
| `ElementSpec/Run/Example/Props.v` | matrix elements (C107), monomers that do not interact (C108) |
| `LowdinSpec/Run/Example/Props.v` | orthogonalised orbitals (C109), splitting of the levels (C110) |
| `BasisSpec/Example/Props.v` | other basis functions (C111) |
| `MoveSpec/Run/Example/Props.v` | positions of the molecules (C112) |
| `RangeSpec/Run/Props.v`, `RangeSame.v`, `RangeExample.v` | bounds of the coupling in an ordered field (C113), requests without a defined coupling (C114) |
| `StableSpec/Run/Props.v` | two calculations with different energies: the coupling changes no more than the energies (C115) |
| `GhostSpec/Run/Props.v` | a run without and a run with counterpoise correction (C116) |
| `SuperSpec/Run/Props.v` | runs with other orbitals of the monomers: superposition (C117) |
| `SymmetrySpec/Example/Props.v` | symmetries of the dimer: selection rule (C118) |
| `ParserLast.v` | several entries with the same flag (C52) |
| `MainModel/Spec/Facts/Run/Example/Props.v` | `tools/main.cpp` (C73) |
| `OutputSpec/Facts/Exit/Props.v` | what `main.cpp` and `calculate_transfer_integral` print, exit statuses (C79-C81) |
| `PrintSpec/Facts/Props.v` | decimal numerals and the accuracy of printed doubles (C82; Flocq) |
| `RoundSpec/Facts/Props.v` | binary64 arithmetic of matrix products and of the coupling, rounding error bounds (C83; Flocq) |
| `ScanModel/Spec/Facts/Props.v` | `std::stod` and `atof` in binary64 (C84; Flocq) |
| `DoubleArgSpec/Props.v` | arguments of type double over binary64 (C90; Flocq) |
| `AccPara/Fin/Spec/Facts/Match/Coupling/Job/Example/Props.v`, `AccReport.v`, `AccReportProps.v` | the whole program in binary64 against the real numbers written in the files (C85), and what it prints (C86; Flocq) |

`*Model.v` has only definitions, each with a comment `file:lines` and the
simplifications made.  `*Spec.v` has the independent specification vocabulary.
`*Props.v` has only property theorems, their `Print Assumptions`, and the
non-vacuity `Example`s.  The other files have lemmas.

Undefined behaviour is a distinct outcome.  Out-of-bounds heap access, reading an
uninitialised `double`, signed `int` overflow, invalid iterators and use after free
all give `Undef _`, so a theorem that concludes `Ok` also states their absence.
`exit(1)` is `Exit 1`, C++ exceptions are `Throw _`.  Unbounded `while` loops take
fuel; `NoFuel` is not a normal result.  "Terminates" is "there is a bound such that
every larger fuel gives this result"; "runs forever" is "for every fuel, `NoFuel`".

## 2. Modelling decisions (simplifications)

* `int`/`size_t` values are `Z`; `int` arithmetic that can overflow on data is checked
  (`imul`, `iadd`, `isub`), `size_t` subtraction wraps, loop counters are mathematical
  integers.
* `Matrix` is a record of the three dimensions and the list of cells; a cell is
  `option T`, `None` = not yet written after `new double[n]`.  Generic in `T`.
  Aliasing is handled at the heap level only (`Heap*.v`).
* Arithmetic is a record of operations without laws.  Theorems that need no law
  (accumulation order, order independence, C73) hold for any such record, hence for
  IEEE binary64; algebraic theorems (`exact_arith`) have the laws of a field as an
  explicit hypothesis, and are instantiated at the rationals `Qc`.
* Strings are `list ascii` (the C locale for `isspace`, `isalpha`).  `std::map` and `std::set` are
  sorted lists.
* The file system is `str -> bool` (existence) and `str -> option str` (contents);
  `stod`, `atof` and `pow` are parameters (`nums`, `env`), so the theorems hold for every
  implementation; ScanModel.v gives the binary64 one; `stoi` is modelled exactly.
* `std::ifstream`/`istringstream` are positions with eofbit and failbit; `badbit` never set.
* `delete p` applied to `new[]` memory is treated as the matching release.
* Allocation never fails.  Of the output only `operator<<` for matrices, the help text
  and the echo of `main` are modelled; log messages are not.
* Memory leaks, timing and the locale are not modelled.  There are no threads.

### Not modelled

`log.hpp` (macro printing to stdout at `LOG_LEVEL`), the version banner, CMake files, tests, `organize_P_Coef`
and `unscramble_OE` (declared, never defined).  Throwing member functions that
have already written some cells are covered in `HeapModel.v` by allowing any contents.

## 3. Properties

"R" = the code violates the full property: a `_refuted` theorem gives a witness (or a
whole class) and `_partial` theorems give the domain on which it holds.

| id | modelled | proof |
|---|---|---|
| C01 | all set_elem/get_elem overloads | nth/update lemma over the injective index; every reachable matrix is well formed |
| C02 | bounds checks, index | case analysis; index range by nia; R: a matrix without shelves passes the check of the short overloads |
| C03 | constructors | nested loop region lemma |
| C04 | resize | region lemma (shelves beyond the first are dropped, as the statement says) |
| C05 | operator= | partial (1 shelf), R for more shelves and for empty right sides |
| C06 | Matrix_copy | region lemma |
| C07 | heap level | separation invariant over all histories of statements for deep copies; programs without copy construction simulate programs over separate values (`HeapProg`); R for copy construction |
| C08 | invert | region lemma |
| C09 | operator* | accumulation loop invariant; associativity/transposition over a field |
| C10 | Matrix_diag | region lemma |
| C11 | concatenations | region lemma |
| C12 | set_row, get_row, get_col | region lemma |
| C13 | set_col | R (square only) |
| C14 | swap_row, swap_col | from C12/C13; R for swap_col |
| C15 | move_row, move_col | loop invariant; R for move_col |
| C16 | getRow, getCol | R for getCol |
| C17 | set_rows, set_cols, set_shel | R; partial for shrinking rows |
| C18, C19 | matchRow, matchCol generic in the label function | loop invariant (last match) |
| C20 | double_tos in binary64 | error analysis of the scaled rounding, injectivity of the printed text; R (sign of zero, six significant digits, double rounding) |
| C21 | operator<< | R for shelves > 1 |
| C22 | refreshSwapOrder, updateSwapLists | invariant over the pending swap list |
| C23 | same with fuel | termination for distinct matches; R for duplicates; exact criterion for every match vector (`trapped`: a cycle entered from a later place) |
| C24 | same | R for an unmatched atom; safety for valid matches; exact safety criterion for every match vector |
| C25 | splitMatrixIntoList, merge | prefix sums |
| C26, C27, C28 | unscramble_Coef, unscramble_S | composition of C22 and C25 |
| C29 | unscramble + calcJ | from C26-C28, C30 with law-free sums over permuted blocks |
| C30 | calculate_transfer_integral, calcJ | evaluation theorem |
| C31-C33 | same over a field | sum algebra |
| C34 | calcJ selection | case analysis |
| C35, C36 | TransferComplex constructor, calcJ | case analysis; R for C36; exact outcome of calcJ for all accepted shapes |
| C37 | findRank | sorted map + permutation; R (n x 1 exits); exact for all shapes, right iff both matrices are square |
| C38-C42, C44 | string_support | list induction |
| C43 | last occurrence helpers | R (find_last_of is a character set) |
| C45-C51 | properties/arguments | case analysis; R for C48, C51 |
| C52-C57 | argument parser | induction over the command line; R for parts of C54, C56, C57 |
| C58-C63 | prepareParser, prepareParameters, Parameters | symbolic evaluation of CATNIP's parser; R for parts of C58-C61 |
| C64 | FileReader::read, startSection_, checkSections_ | induction over the lines |
| C65 | OverlapSectionReader | induction over the printed blocks; R for n <= 5 |
| C66, C67 | ReadOrbEnergies, splitStEnergies | induction over the lines/characters; R for virtual-only spins, nine words |
| C68 | CoordSectionReader | induction over the rows |
| C69 | AOFunctionSectionReader | induction over the rows; R for repeated labels; ReaderTables: exact counts for any number of tables (induction over the ordered map) |
| C70, C71 | PunReader | induction over orbitals and lines; R for one orbital at the end of the file, Beta directly after Alpha |
| C72 | all section readers on cut files | fuel induction; R (several endless or accepted cuts) |
| C73 | main | composition of C30, C29's unscrambling theorems, C34, C58, C62, C65-C71 |
| C74 | removeSpace on a buffer | list induction |
| C75 | showUsage | list induction; sortedness of the flag map for the order; R for flags without abbreviation |
| C76 | getInt, getStr on switches | induction over the line; R with a default text |
| C77 | stoi | R (trailing text ignored); rejection of texts without a leading number |
| C78 | setFlagArgOpt on string length | R (no call can set the limits) |
| C79 | main_output | the heading lines are decoded from the text (injectivity of every line); counterpoise from the sizes of the matrices |
| C80 | main_output | main with the printing as last step; the same theorems as C73 for the printed lines; field arithmetic for the formula |
| C81 | main | no `exit` but `exit(1)` in every function of the model, by one lemma per function; `parse` by induction over the words |
| C82 | `print_double` (FloatModel) = `operator<<` with default precision | nearest six-digit decimal by the integer arithmetic of `six_digits`, shown equal to Flocq's `round ten (FLX_exp 6) ZnearestE`; uniqueness of the value of a numeral by parsing from the left |
| C83 | `mat_mul`, `calcJ`, `main` instantiated with Flocq's binary64 | logical relation between binary64, real and magnitude arithmetic: `near k c x m` is preserved by every operation with the number of roundings added; sums by induction; the quotient separately. `std::pow(x,2)` is a parameter with at most 1 ulp error |
| C84 | `std::stod`/`atof` as C's `strtod` in the C locale with glibc's range errors and libstdc++'s exceptions: white space, sign, inf/nan, hexadecimal and decimal numerals; nearest double by Flocq's division | the scanner returns exactly the mantissa and exponent of the numeral (induction on the digit strings); the rounding of the quotient from Flocq's `Bdiv_correct_aux` |
| C85 | `main` with the numbers `machine pow10` (C84's conversions), the arithmetic `binary64 pow2` and the comparison `label 4`; assumptions on the C library: pow(10, k) for whole abs(k) <= 300 within 1 ulp (`powers`), pow(x, 2) within 1 ulp and finite for moderate x (`squares`); both have instances (C85_powers, C85_squares) | the description of the files is parametric in the numbers (AccPara.v), so the same files contain the real data and the doubles; C73 gives the run, C83 the error, bounds on exponents exclude overflow (AccFin.v), C20 the matching of atoms |
| C86 | `main_output` with `machine pow10`, `binary64 pow2`, `print_double` and hartreeToeV = the double nearest to 27.2114 | C80_files_* give the lines in terms of the machine's data; C83_numbers and the magnitude bounds of AccFin.v give finiteness and error of the four numbers, C85's coupling that of J_eff; one lemma adds the errors of the factor, of its product and of the six printed digits (C82) |
| C87 | repeated read() on one reader | effects of the sections over the whole history; R (stale sections, stale atoms, stale position) |
| C88 | `get_elem_ptr`, reading and writing through the pointer, over all programs of `HeapModel` | index lemma; the block of an object changes only when the object is reallocated; R (dangling after resize etc., unchecked positions) |
| C89 | setFlagArgOpt (five overloads), getFlagArgOptValue, all other calls | every call, rejected ones included, changes at most one option of one argument; induction over the history; R (doubles cannot be read) |
| C90 | ArgumentDouble, PropertyDouble, setArgPropertyOpt, argValid over any type of numbers with a comparison, then over binary64 with C++'s < (false on NaN) and C84's std::stod | induction over the settings; the comparison from Flocq's `Bltb_correct`; command line from C53 and C84; R (NaN passes every limit, and the text "nan" is read as NaN) |
| C91 | read() with the state of the file handle between calls; members after an exception are arbitrary | case analysis on the handle; R (the call after an exception returns normally and reads nothing); the one after that reads the file |
| C92 | the throwing member functions of Matrix, element by element (`MatrixStateModel.v`) | same results as C12-C15; loops that cannot throw; R (set_col on tall matrices, move_col on non-square ones, with the object they leave) |
| C93 | parse statement by statement with the parser an exception leaves (`ParserStateModel.v`), same results as `parse` (C93_same) | the items dealt with before the error and the step that throws; case analysis of that step; R (values of the rejected line stay; a file refused for its extension counts as found). C55, C89 and `built` count rejected lines as calls like any other |
| C94 | `FileReader::read`, both readers, `main` | every function of the readers leaves the text of the stream alone, so each line read occurs in the file and a section is entered only if its mark occurs; a section reader changes only its own data; R (`S_` is never initialised: `getOverlapMatrix` returns an indeterminate pointer) |
| C95 | `ListModel.v`: getProperties, getPropertyOptions, getPropertyValues() | the shape of an argument is kept by every member function; induction over the properties for the table |
| C96 | both readers on arbitrary text | a predicate "only SignedOverflow, and only if the text is long" closed under bind and loops; every matrix written is well formed and bounds checked; the number of rows of the overlap matrix is at most the number of line ends (a line that could not be read is not counted twice), the first row of the coefficients at most 1/15 of the characters; R (46341 rows: `r * c` overflows, with an explicit file for the hypotheses) |
| C97 | main with arbitrary arguments and files | `good U P`: a value of P or undefined behaviour of U, closed under bind and loops, for every function that main calls; matrices are `full` (all elements there and initialised) after reading and stay so; with at most 46340 rows and columns no `int` product or sum overflows; swap lists stay inside the list of blocks, unless an atom was not matched; the parser is `defined`; R (three witnesses: an atom that is not in the dimer, no overlap section, 46341 basis functions) |
| C98 | setPropOption overloads of PropertySisterFile and PropertyFileExt, propValid(int) of PropertySwitch (`PropertyModel`) | invariants over histories of calls; R through argument objects (setPropOption is not virtual) and for PropertyFileExt::setPropOption (no check) |
| C99 | addFlagArg on every parser that can be built | frame lemmas for the five maps of arguments; R for doubles (line 186 looks into the map of files) |
| C100 | parse, prepareParameters, main | the effects of two items of different flags on the parser's maps commute (`m_set` at different keys); a line is run item by item; induction over the line, moving the first item of a flag to the front |
| C101 | whole program, exact arithmetic | both runs are given by the formula of C73; the formula for the exchanged data is the formula with its sums reordered (permutation of the basis functions, symmetry of S); a concrete run shows that the hypotheses on the order are needed |
| C102 | whole program, any arithmetic | the tables the program works with after unscramble are the same for both listings (composition of the orders found by matchRow); no law of arithmetic is used |
| C103 | whole program, exact arithmetic and binary64 | laws of a relation "equal up to this sign" (sign_laws) carried through the transfer integral (PhaseRun); the laws hold in exact arithmetic and, for Flocq's doubles, because rounding to nearest is odd (PhaseFloat) |
| C104 | whole program | both runs reduced to the same expression: equal matrices are equal objects (`denotes_inj`), the requested rows are equal rows, the reordering is the same term; no success assumed |
| C105 | whole program, exact arithmetic | a sum of products of two combined vectors is the sum of products of the vectors (orthonormal columns); an energy may be taken inside since U(k,m) ε'_k = U(k,m) ε_m; projections are linear; the reordering of the columns commutes with combining rows; `C105_order` is the special case of a permutation |
| C106 | whole program, exact arithmetic | the run is reduced to four sums over the energies with coefficients that depend on neither energies nor files (`levels_run`); sums are affine (`numbers_affine`); J_eff is homogeneous, and shift-invariant if n_a = n_b = 1. The hypothesis n_a = n_b = 1 is stated as a run with all energies one that reports e_a = e_b = 1 |
| C107 | whole program, exact arithmetic | `levels_run` now also yields that the four sums are over projections g_k = P_k^T S w of the orbitals w written in the dimer's basis (`projections_are`, `shape_in_dimer`); sum_k e_k g1_k g2_k = w1^T F w2 by the eigenvalue equation and completeness (`element_sum`, `overlap_sum`). w is tied to the files by `in_dimer`, which only speaks of atoms' blocks |
| C108 | whole program, exact arithmetic | every term of J_ab and S_ab has a factor that vanishes (`apart_zero`) |
| C109 | whole program, exact arithmetic | C107 gives the four matrix elements; X S X = 1 with X symmetric of non-zero trace forces equal diagonal elements (`lowdin_shape`), hence x^2 + y^2 and x y in terms of the overlap and the value (`lowdin_value`); energies by determinants (`kernel_det`, `energy_det`). Uses `classic` for equality of numbers with zero |
| C110 | whole program, exact arithmetic | the determinant of the 2 by 2 secular problem factors if the levels are equal (`splitting_value`) |
| C111 | whole program, exact arithmetic | the projections are invariant (`overlap_rebased`), the four numbers are made of them |
| C112 | whole program, any arithmetic | `moved_run`: as `levels_run`, with the atoms of the second calculations found by the hypothesis |
| C113 | whole program, exact arithmetic with an order | projections have the norms of the orbitals (completeness); weighted sums of squares of g, h, g + h and g - h lie between lo and hi times the norms (`weighted_range`); the combination gives the bound (`coupling_bound`); equality in the Cauchy-Schwarz inequality forces proportional projections, hence proportional orbitals |
| C114 | whole program, exact arithmetic; binary64 for the witness | as C113; the sums for proportional projections; a run of the model in doubles. Refuted by the code, positive part proved |
| C115 | whole program, exact arithmetic with an order | one pair of projections serves both runs (`relevelled_run`); J_ab, e_a, e_b and the value are linear in the energies, so their differences are those of the energies' differences, which C113's bounds put between -c and c |
| C116 | whole program, any arithmetic | the two matchings of the counterpoise run are the identity and the order of the plain run (`finds_itself`, `finds_app`, `finds_same`), so both runs project the same padded vectors with the same matrices |
| C117 | whole program, exact arithmetic | one pair of matrices and one way of placing the coefficients serve all runs (`super_run`, any arithmetic); placing, projecting and the sums over the dimer's orbitals are linear |
| C118 | projections of the two orbitals on an orbital of the dimer with eigenvalue s satisfy x = a s x and y = b s y, hence x y = 0 when a <> b; uses C111's change of basis with the symmetry itself; example: functions of each atom exchanged |
| C119 | parse on any argument list | the loop needs at most one step per word (induction on the fuel, switch with a word: the next step throws); no undefined case (`MainSafe`), the exits (C57_exactly), the throws (C93_rejected), the returns (C53); every other parser: the same or undefined, and undefined only with an emptied STRING_CHOICE_ENFORCED (C119_undefined, with a witness that it is reachable) |

## 4. Trusted base

* The Coq 8.16.1 kernel, including its `vm_compute` reduction.
* What `Print Assumptions` lists (section 5); every property theorem is followed by it.
* The faithfulness of the `*Model.v` files to `/repo` (read, not extracted).

No axiom is declared in this development, no kernel check is switched off and nothing is
admitted.  Section variables are all discharged.

## 5. Assumptions reported

* All theorems outside the files named in the next two points: "Closed under the global context".
* `LowdinProps.v`, `RangeProps.v`, `RangeSame.v`, `StableProps.v` (C109, C110, C113, C114, C115): `Classical_Prop.classic` (a number is zero or not).
* Theorems of `Float*.v` (C20), `Print*.v` (C82), `Round*.v` (C83), `Scan*.v` (C84), `DoubleArg*.v`
  (C90), `Acc*.v` (C85, C86), `PhaseFloat*.v` (C103 in doubles) and `RangeSame.v` (C114) and their lemmas rest on the standard library's real numbers:
  `ClassicalDedekindReals.sig_not_dec`, `ClassicalDedekindReals.sig_forall_dec`,
  `FunctionalExtensionality.functional_extensionality_dep` and (through Flocq)
  `Classical_Prop.classic`.
* `vcheck` also lists the parameters of the opaque modules of the standard library that are
  loaded with the reals and with ssreflect (`Coq.Reals.Rdefinitions.RbaseSymbolsImpl.*`,
  `RinvImpl.*`, `Coq.ssr.ssrunder.Under_rel.*`); they are sealed definitions
  of the standard library, and `Print Assumptions` does not report them for any theorem here.

## 6. Tests of the theorems

`seeded/LOG.jsonl` lists the wrong programs tried: definition edited, edit, claim broken,
lemmas/theorems whose proof failed, theorems tightened.
