{"id": "C01", "title": "Element store/load law", "statement": "For every Matrix of any shape and every in-range position, set_elem(v,r,c,s) followed by get_elem at the same position returns v, and get_elem at every other position returns exactly what it returned before; the dimensions never change. The shorter overloads act on shelf 1 (and column 1).", "quantifier": "every matrix of size up to INT_MAX cells, every pair of in-range positions, every value", "why_tests_cant": "Needs the flattening (r,c,s)->offset to be injective and in range for all dimension triples at once.", "anchors": ["src/libcatnip/matrix.cpp:Matrix::set_elem", "src/libcatnip/matrix.cpp:Matrix::get_elem", "src/libcatnip/matrix.cpp:Matrix::index"]}
{"id": "C02", "title": "Bounds enforcement", "statement": "get_elem and set_elem with any out-of-range row, column or shelf stop the process with exit(1) before touching memory; with in-range positions they never access memory outside the allocation nor overflow an int.", "quantifier": "every matrix, every int position (in or out of range)", "why_tests_cant": "All int positions times all shapes.", "anchors": ["src/libcatnip/matrix.cpp:Matrix::set_elem", "src/libcatnip/matrix.cpp:Matrix::get_elem"]}
{"id": "C03", "title": "Constructors", "statement": "Matrix(r,c), Matrix(r,c,s) and Matrix(r) build a matrix of exactly those dimensions filled with 0, and stop the process for non-positive (for Matrix(r): negative) dimensions; the vector constructors hold exactly the supplied values in order; a ragged vector<vector> is rejected with invalid_argument and an empty one with out_of_range; total_elem of any matrix is the number of its elements.", "quantifier": "all dimension triples whose product fits an int, all vectors and vectors of vectors (with at most INT_MAX elements)", "why_tests_cant": "The domain is unbounded (all sizes and all element values); a unit test samples a handful of small matrices.", "anchors": ["src/libcatnip/matrix.cpp:Matrix::Matrix"]}
{"id": "C04", "title": "resize keeps the common block", "statement": "After resize(r,c) the matrix is r x c x 1, every element inside both the old and new shape keeps its value (shelf 1), every other element is 0; r<1 or c<1 stops the process.", "quantifier": "all shapes, all target shapes with at most INT_MAX elements, all contents", "why_tests_cant": "The domain is unbounded (all sizes and all element values); a unit test samples a handful of small matrices.", "anchors": ["src/libcatnip/matrix.cpp:Matrix::resize"]}
{"id": "C05", "title": "Assignment copies the value", "statement": "After a = b, a has the same rows, columns, shelves and elements as b.", "quantifier": "all pairs of matrices including three-dimensional ones", "why_tests_cant": "The domain is unbounded (all sizes and all element values); a unit test samples a handful of small matrices.", "anchors": ["src/libcatnip/matrix.cpp:Matrix::operator="]}
{"id": "C06", "title": "Matrix_copy is an exact copy", "statement": "Matrix_copy(m) has the same three dimensions and the same elements as m.", "quantifier": "all matrices with at least one element", "why_tests_cant": "The domain is unbounded (all sizes and all element values); a unit test samples a handful of small matrices.", "anchors": ["src/libcatnip/matrix.cpp:Matrix_copy"]}
{"id": "C07", "title": "Copies are independent", "statement": "After b is made as a copy of a (copy construction, assignment, Matrix_copy), changing b through the API never changes what a's accessors return and never invalidates a.", "quantifier": "all matrices and all later mutations of the copy", "why_tests_cant": "A statement about every history of mutations after the copy and about memory, not about one observed value.", "anchors": ["src/libcatnip/matrix.hpp:Matrix (implicit copy constructor)", "src/libcatnip/matrix.cpp:Matrix::operator=", "src/libcatnip/matrix.cpp:Matrix_copy"]}
{"id": "C08", "title": "invert is transposition", "statement": "m.invert() has swapped dimensions with element (i,j) of the result equal to element (j,i) of m, inverting twice gives back m, and 3-D matrices stop the process.", "quantifier": "all 2-D matrices with at least one element", "why_tests_cant": "The domain is unbounded (all sizes and all element values); a unit test samples a handful of small matrices.", "anchors": ["src/libcatnip/matrix.cpp:Matrix::invert"]}
{"id": "C09", "title": "Matrix product", "statement": "A*B has A's rows and B's columns; its (i,j) element is the left-to-right floating point accumulation, starting from 0, of A(i,k)*B(k,j) for k=1..n; incompatible or 3-D operands stop the process. In exact arithmetic the product is associative and (AB)^T = B^T A^T.", "quantifier": "all pairs/triples of compatible non-empty matrices over any element arithmetic, whose results have at most INT_MAX elements", "why_tests_cant": "The domain is unbounded (all sizes and all element values); a unit test samples a handful of small matrices.", "anchors": ["src/libcatnip/matrix.cpp:operator*"]}
{"id": "C10", "title": "Matrix_diag", "statement": "For a row or column vector of length n, Matrix_diag returns the n x n matrix with the vector on the diagonal and 0 elsewhere; a genuine 2-D or 3-D matrix is rejected with invalid_argument.", "quantifier": "all matrices; vectors whose square fits an int", "why_tests_cant": "The domain is unbounded (all sizes and all element values); a unit test samples a handful of small matrices.", "anchors": ["src/libcatnip/matrix.cpp:Matrix_diag"]}
{"id": "C11", "title": "Concatenation", "statement": "Matrix_concatenate_rows(a,b) stacks a above b and Matrix_concatenate_cols(a,b) puts a left of b, preserving all elements of all shelves; when the other dimensions disagree a 1x1 zero matrix is returned.", "quantifier": "all pairs of matrices whose concatenation has at most INT_MAX elements", "why_tests_cant": "The domain is unbounded (all sizes and all element values); a unit test samples a handful of small matrices.", "anchors": ["src/libcatnip/matrix.cpp:Matrix_concatenate_rows", "src/libcatnip/matrix.cpp:Matrix_concatenate_cols"]}
{"id": "C12", "title": "Row replacement", "statement": "set_row(v,r) with v as long as the matrix is wide makes get_row(r) equal v and leaves all other rows alone; a vector of any other length is rejected with invalid_argument and get_row/get_col return exactly the row/column.", "quantifier": "all matrices, in-range rows, all vectors", "why_tests_cant": "The domain is unbounded (all sizes and all element values); a unit test samples a handful of small matrices.", "anchors": ["src/libcatnip/matrix.cpp:Matrix::set_row", "src/libcatnip/matrix.cpp:Matrix::get_row", "src/libcatnip/matrix.cpp:Matrix::get_col"]}
{"id": "C13", "title": "Column replacement", "statement": "set_col(v,c) with v as long as the matrix is tall makes get_col(c) equal v and leaves all other columns alone, for every matrix shape.", "quantifier": "all matrices (square or not), in-range columns, all vectors of length rows", "why_tests_cant": "The domain is unbounded (all sizes and all element values); a unit test samples a handful of small matrices.", "anchors": ["src/libcatnip/matrix.cpp:Matrix::set_col"]}
{"id": "C14", "title": "Row/column swap", "statement": "swap_row/swap_col exchange exactly the two named rows/columns, leave everything else alone, and doing it twice restores the matrix.", "quantifier": "all matrices and pairs of in-range indices", "why_tests_cant": "The domain is unbounded (all sizes and all element values); a unit test samples a handful of small matrices.", "anchors": ["src/libcatnip/matrix.cpp:Matrix::swap_row", "src/libcatnip/matrix.cpp:Matrix::swap_col"]}
{"id": "C15", "title": "Row/column move", "statement": "move_row(from,to) (and move_col) put the row at its new place, shift exactly the rows in between by one keeping their order, leave the others alone, and move_row(to,from) undoes it.", "quantifier": "all matrices and pairs of in-range indices", "why_tests_cant": "The domain is unbounded (all sizes and all element values); a unit test samples a handful of small matrices.", "anchors": ["src/libcatnip/matrix.cpp:Matrix::move_row", "src/libcatnip/matrix.cpp:Matrix::move_col"]}
{"id": "C16", "title": "Row/column extraction", "statement": "getRow(r)/getCol(c) return the 1 x cols (rows x 1) matrix holding exactly that row/column, for every matrix shape.", "quantifier": "all matrices (square or not), in-range indices", "why_tests_cant": "The domain is unbounded (all sizes and all element values); a unit test samples a handful of small matrices.", "anchors": ["src/libcatnip/matrix.cpp:Matrix::getRow", "src/libcatnip/matrix.cpp:Matrix::getCol"]}
{"id": "C17", "title": "Changing one dimension preserves data", "statement": "set_rows/set_cols/set_shel to a larger value keep all existing elements, to a smaller value keep the surviving ones; no memory outside the allocation is written and no element is left uninitialised.", "quantifier": "all matrices and all target sizes", "why_tests_cant": "The domain is unbounded (all sizes and all element values); a unit test samples a handful of small matrices.", "anchors": ["src/libcatnip/matrix.cpp:Matrix::set_rows", "src/libcatnip/matrix.cpp:Matrix::set_cols", "src/libcatnip/matrix.cpp:Matrix::set_shel"]}
{"id": "C18", "title": "Coordinate matching result", "statement": "matchRow/matchCol return one entry per row/column of the receiver; an entry is -1 exactly when no row/column of the argument prints identically in all its components, otherwise it is the largest index of one that does; shape mismatches are rejected with invalid_argument; operands that are not 2-D stop the process with status 1.", "quantifier": "all matrices and every significant-figure setting", "why_tests_cant": "The domain is unbounded (all sizes and all element values); a unit test samples a handful of small matrices.", "anchors": ["src/libcatnip/matrix.cpp:Matrix::matchRow", "src/libcatnip/matrix.cpp:Matrix::matchCol"]}
{"id": "C19", "title": "Matching recovers atom order", "statement": "If every atom of a monomer occurs exactly once (up to printed rounding) in the dimer, then the match vector lists, injectively, the position in the dimer of each monomer atom.", "quantifier": "all monomer/dimer geometries and all permutations of the atoms", "why_tests_cant": "The domain is unbounded (all sizes and all element values); a unit test samples a handful of small matrices.", "anchors": ["src/libcatnip/matrix.cpp:Matrix::matchCol"]}
{"id": "C20", "title": "Matching tolerance", "statement": "Two coordinates that agree to the requested number of decimals are treated as equal, and two that differ by at least one unit in that decimal are treated as different.", "quantifier": "all doubles", "why_tests_cant": "Depends on IEEE rounding, std::round, and default 6-significant-digit stream formatting over all doubles, including -0.", "anchors": ["src/libcatnip/matrix.cpp:double_tos", "src/libcatnip/matrix.cpp:Matrix::matchCol"]}
{"id": "C21", "title": "Matrix printing", "statement": "operator<< prints the dimensions and, for each shelf, exactly that shelf's elements.", "quantifier": "all matrices including 3-D", "why_tests_cant": "The domain is unbounded (all sizes and all element values); a unit test samples a handful of small matrices.", "anchors": ["src/libcatnip/matrix.cpp:operator<<"]}
{"id": "C22", "title": "Swap sequence realises the match", "statement": "For match vectors whose entries are pairwise distinct valid positions, the reordering used by unscrambling moves to position i exactly the block that was at the position named by entry i (monomer A first, then B).", "quantifier": "all numbers of atoms and all injective match vectors, all block contents", "why_tests_cant": "Permutation correctness over all permutations of all lengths; the sequential swap bookkeeping is easy to get right on one example only.", "anchors": ["src/libcatnip/qc_functions.cpp:refreshSwapOrder", "src/libcatnip/qc_functions.cpp:updateSwapLists"]}
{"id": "C23", "title": "Unscrambling terminates", "statement": "Computing the swap order terminates for every pair of match vectors.", "quantifier": "all match vectors, including ones with duplicate or missing (-1) entries", "why_tests_cant": "Termination on all inputs; a test cannot observe non-termination.", "anchors": ["src/libcatnip/qc_functions.cpp:refreshSwapOrder"]}
{"id": "C24", "title": "Unscrambling is memory-safe", "statement": "Unscrambling never reads or writes outside the block list, also when an atom of a monomer has no counterpart in the dimer.", "quantifier": "all match vectors that matchCol can return", "why_tests_cant": "Undefined behaviour may go unnoticed in a test run.", "anchors": ["src/libcatnip/qc_functions.cpp:updateSwapLists", "src/libcatnip/matrix.cpp:Matrix::matchCol"]}
{"id": "C25", "title": "Split/merge round-trip", "statement": "Cutting a matrix into per-atom blocks of columns (rows) and merging the blocks in the same order gives back the matrix, when the block sizes are positive and add up to its width (height).", "quantifier": "all matrices and all block size vectors", "why_tests_cant": "The domain is unbounded (all sizes and all element values); a unit test samples a handful of small matrices.", "anchors": ["src/libcatnip/qc_functions.cpp:splitMatrixIntoList", "src/libcatnip/qc_functions.cpp:mergeListOfMatrices"]}
{"id": "C26", "title": "Dimer coefficient unscrambling", "statement": "unscramble_Coef(matchA,matchB,basis,C) returns a matrix of the same shape in which the columns of the atom at the i-th position are, in order, the columns C has for the dimer atom matchA/matchB assigns to position i.", "quantifier": "all molecules, all injective complete matches, all numbers of basis functions per atom, all coefficients", "why_tests_cant": "The domain is unbounded (all sizes and all element values); a unit test samples a handful of small matrices.", "anchors": ["src/libcatnip/qc_functions.cpp:unscramble_Coef"]}
{"id": "C27", "title": "Counterpoise coefficient unscrambling", "statement": "The single-match unscramble_Coef permutes the column blocks in the same way.", "quantifier": "as above for one match vector", "why_tests_cant": "The domain is unbounded (all sizes and all element values); a unit test samples a handful of small matrices.", "anchors": ["src/libcatnip/qc_functions.cpp:unscramble_Coef"]}
{"id": "C28", "title": "Overlap unscrambling", "statement": "unscramble_S permutes rows and columns of S with the same block permutation as unscramble_Coef uses for the columns of the coefficients; symmetry of S is preserved.", "quantifier": "as above", "why_tests_cant": "The domain is unbounded (all sizes and all element values); a unit test samples a handful of small matrices.", "anchors": ["src/libcatnip/qc_functions.cpp:unscramble_S"]}
{"id": "C29", "title": "Atom order independence of J", "statement": "The transfer integral obtained after unscrambling does not depend on the order in which the atoms are listed in the dimer calculation (bit for bit, in any arithmetic).", "quantifier": "all molecules, all atom orders of the dimer, all arithmetic", "why_tests_cant": "A relational (two-run) property over all permutations.", "anchors": ["src/libcatnip/qc_functions.cpp:TransferComplex::unscramble", "src/libcatnip/qc_functions.cpp:TransferComplex::calcJ"]}
{"id": "C30", "title": "Transfer integral formula", "statement": "With gamma_X(k) the projection of monomer orbital X on dimer orbital k, calcJ returns (J - (eA+eB)S/2)/(1-S^2) with J = sum_k gB_k e_k gA_k, eX = sum_k e_k gX_k^2, S = sum_k gB_k gA_k, with zero padding of the monomers without counterpoise and without padding with counterpoise.", "quantifier": "all molecules in exact arithmetic", "why_tests_cant": "The domain is unbounded (all sizes and all element values); a unit test samples a handful of small matrices.", "anchors": ["src/libcatnip/qc_functions.cpp:calculate_transfer_integral"]}
{"id": "C31", "title": "J is symmetric in the monomers", "statement": "Exchanging the roles of monomer 1 and monomer 2 (with the matching exchange of basis blocks) leaves J unchanged.", "quantifier": "all molecules, exact arithmetic", "why_tests_cant": "Relational property.", "anchors": ["src/libcatnip/qc_functions.cpp:calculate_transfer_integral"]}
{"id": "C32", "title": "J and orbital phases", "statement": "Flipping the sign of one monomer orbital flips the sign of J; flipping the sign of any dimer orbital leaves J unchanged.", "quantifier": "all molecules, exact arithmetic", "why_tests_cant": "Relational property.", "anchors": ["src/libcatnip/qc_functions.cpp:calculate_transfer_integral"]}
{"id": "C33", "title": "J and energy scale/zero", "statement": "Scaling all dimer energies scales J; shifting all dimer energies by a constant leaves J unchanged when the projected monomer orbitals are normalised.", "quantifier": "all molecules, exact arithmetic", "why_tests_cant": "Relational property.", "anchors": ["src/libcatnip/qc_functions.cpp:calculate_transfer_integral"]}
{"id": "C34", "title": "Orbital selection", "statement": "calcJ uses for each monomer the coefficient row HOMO+n for (HOMO,n<=0) and HOMO+1+n for (LUMO,n>=0); it throws invalid_argument exactly when the sign is wrong, the orbital does not exist, or the type is neither HOMO nor LUMO, and out_of_range if a key is missing.", "quantifier": "all orbital requests and orbital counts", "why_tests_cant": "All ints and strings, boundary values at both ends.", "anchors": ["src/libcatnip/qc_functions.cpp:TransferComplex::calcJ"]}
{"id": "C35", "title": "TransferComplex construction checks", "statement": "The constructor rejects with invalid_argument exactly the inputs whose overlap width differs from the dimer's, whose counterpoise monomers differ in width from the dimer, or (no counterpoise) whose monomers are together wider than the dimer.", "quantifier": "all shapes", "why_tests_cant": "The domain is unbounded (all sizes and all element values); a unit test samples a handful of small matrices.", "anchors": ["src/libcatnip/qc_functions.cpp:TransferComplex::TransferComplex"]}
{"id": "C36", "title": "Accepted inputs can be evaluated", "statement": "If the constructor accepts the matrices then calcJ on existing orbitals returns a value instead of stopping the process.", "quantifier": "all shapes", "why_tests_cant": "The domain is unbounded (all sizes and all element values); a unit test samples a handful of small matrices.", "anchors": ["src/libcatnip/qc_functions.cpp:TransferComplex::TransferComplex", "src/libcatnip/qc_functions.cpp:TransferComplex::calcJ"]}
{"id": "C37", "title": "findRank ranks orbital energies", "statement": "findRank returns, for ranks 1..n, all alpha and beta energies in non-decreasing order, each tagged with its spin.", "quantifier": "all energy columns", "why_tests_cant": "The domain is unbounded (all sizes and all element values); a unit test samples a handful of small matrices.", "anchors": ["src/libcatnip/qc_functions.cpp:findRank"]}
{"id": "C38", "title": "Trimming", "statement": "trim/ltrimmed/rtrimmed/trimmed remove exactly the maximal leading/trailing run of white space, change nothing inside, and are idempotent.", "quantifier": "all strings", "why_tests_cant": "All strings.", "anchors": ["src/libcatnip/string_support.cpp:trim", "src/libcatnip/string_support.cpp:ltrimmed", "src/libcatnip/string_support.cpp:rtrimmed", "src/libcatnip/string_support.cpp:trimmed"]}
{"id": "C39", "title": "Word splitting", "statement": "splitSt returns the non-empty maximal white-space-free words in order; splitting words joined by single (or any) white space returns the words.", "quantifier": "all strings", "why_tests_cant": "All strings.", "anchors": ["src/libcatnip/string_support.cpp:splitSt"]}
{"id": "C40", "title": "Path splitting", "statement": "getPath(p) followed by lastStringInPath(p) is p; the file part contains no separator and the directory part is empty or ends with one.", "quantifier": "all strings", "why_tests_cant": "All strings.", "anchors": ["src/libcatnip/string_support.cpp:getPath", "src/libcatnip/string_support.cpp:lastStringInPath"]}
{"id": "C41", "title": "Prefix/suffix cutting", "statement": "For 0<=n<=size: firstN(s,n)+cut_beg(s,n)=s and cut_end(s,n)+lastN(s,n)=s with lastN/firstN of length n; for n<0 or n>size lastN and cut_beg throw out_of_range and firstN and cut_end return the whole string.", "quantifier": "all strings and ints", "why_tests_cant": "All strings and all ints, including the size_t wrap-around.", "anchors": ["src/libcatnip/string_support.cpp:lastN", "src/libcatnip/string_support.cpp:cut_end", "src/libcatnip/string_support.cpp:firstN", "src/libcatnip/string_support.cpp:cut_beg"]}
{"id": "C42", "title": "Substring search helpers", "statement": "foundSubStrInStr decides substring containment; grabStrBefore/AfterFirstOccurance split the string around the first occurrence; without occurrence they return the whole string / the empty string.", "quantifier": "all strings", "why_tests_cant": "All strings.", "anchors": ["src/libcatnip/string_support.cpp:foundSubStrInStr", "src/libcatnip/string_support.cpp:grabStrAfterFirstOccurance", "src/libcatnip/string_support.cpp:grabStrBeforeFirstOccurance"]}
{"id": "C43", "title": "Last-occurrence helpers", "statement": "grabStrBefore/AfterLastOccurance(Inclusive) split the string around the last occurrence of the given string.", "quantifier": "all strings and all patterns", "why_tests_cant": "All strings.", "anchors": ["src/libcatnip/string_support.cpp:grabStrAfterLastOccurance", "src/libcatnip/string_support.cpp:grabStrBeforeLastOccurance"]}
{"id": "C44", "title": "isAlphabetical", "statement": "isAlphabetical is true exactly for non-empty strings of ASCII letters.", "quantifier": "all strings", "why_tests_cant": "All strings.", "anchors": ["src/libcatnip/string_support.cpp:isAlphabetical"]}
{"id": "C45", "title": "Integer arguments", "statement": "stoi of the decimal text of any int is that int, and an int argument with limits [MIN,MAX] accepts exactly the ints within the limits and rejects the others with invalid_argument.", "quantifier": "all ints and limits", "why_tests_cant": "2^32 values times all limits.", "anchors": ["src/libcatnip/io/arguments/properties/propertyint.cpp:PropertyInt::intValid", "src/libcatnip/io/argumentparser.cpp:ArgumentParser::parseArg_"]}
{"id": "C46", "title": "String length arguments", "statement": "A string argument is accepted exactly when its length lies within [MIN_LENGTH,MAX_LENGTH].", "quantifier": "all strings and limits", "why_tests_cant": "All strings.", "anchors": ["src/libcatnip/io/arguments/properties/propertystring.cpp:PropertyString::stringValid"]}
{"id": "C47", "title": "String choice arguments", "statement": "When a choice is enforced exactly the listed strings are accepted; otherwise every string is.", "quantifier": "all strings, all choice sets", "why_tests_cant": "All strings.", "anchors": ["src/libcatnip/io/arguments/properties/propertystringchoice.cpp:PropertyStringChoice::propValid"]}
{"id": "C48", "title": "String choice configuration", "statement": "Setting the STRING_CHOICES option of a string-choice property with a single string succeeds and makes it the only choice.", "quantifier": "all strings", "why_tests_cant": "All strings.", "anchors": ["src/libcatnip/io/arguments/properties/propertystringchoice.cpp:PropertyStringChoice::setPropOption"]}
{"id": "C49", "title": "File extension arguments", "statement": "A path is accepted exactly when its extension (from the last dot of the last path component) is one of the allowed ones or a wildcard is allowed.", "quantifier": "all paths and allowed extension sets", "why_tests_cant": "All strings.", "anchors": ["src/libcatnip/io/arguments/properties/propertyfileext.cpp:PropertyFileExt::propValid"]}
{"id": "C50", "title": "Sister files", "statement": "For a path dir/core.ext the sister files reported are dir/core+e for each allowed sister extension e, in order, each flagged with whether it exists.", "quantifier": "all paths, extension lists and file systems", "why_tests_cant": "All strings and all file system states.", "anchors": ["src/libcatnip/io/arguments/properties/propertysisterfile.cpp:PropertySisterFile::propValid"]}
{"id": "C51", "title": "File existence arguments", "statement": "A file argument that must exist is accepted only if it exists; FILE_DOES_EXIST afterwards says whether the last accepted file exists.", "quantifier": "all histories of checks and file systems", "why_tests_cant": "Histories of any length.", "anchors": ["src/libcatnip/io/arguments/properties/propertyfileexist.cpp:PropertyFileExist::propValid"]}
{"id": "C52", "title": "Flag registration", "statement": "The ArgumentParser constructor accepts exactly the flag sets in which each entry has at most three items with exactly one --name, at most one -abbreviation and at most one description.", "quantifier": "all flag sets", "why_tests_cant": "All sets of vectors of strings.", "anchors": ["src/libcatnip/io/argumentparser.cpp:ArgumentParser::ArgumentParser"]}
{"id": "C53", "title": "Command line values", "statement": "Parsing a command line made of known value flags each followed by an admissible value succeeds and afterwards each getter returns the value given last for its flag, or the default if the flag was not given.", "quantifier": "all command lines of any length", "why_tests_cant": "Command lines of any length and order.", "anchors": ["src/libcatnip/io/argumentparser.cpp:ArgumentParser::parse", "src/libcatnip/io/argumentparser.cpp:ArgumentParser::parseArg_", "src/libcatnip/io/argumentparser.cpp:ArgumentParser::getStr", "src/libcatnip/io/argumentparser.cpp:ArgumentParser::getInt"]}
{"id": "C54", "title": "Abbreviations", "statement": "A registered abbreviation may be used instead of the full flag anywhere with the same effect.", "quantifier": "all registered flags, all command lines", "why_tests_cant": "All command lines.", "anchors": ["src/libcatnip/io/argumentparser.cpp:ArgumentParser::parseArg_"]}
{"id": "C55", "title": "Unknown flags are rejected", "statement": "A word that is neither a registered flag nor a value of one makes parsing fail with invalid_argument; a value flag at the end of the line fails with runtime_error; an empty command line fails with runtime_error; on calc_J's command line (and that of every parser with no emptied STRING_CHOICE_ENFORCED option) a value its flag does not accept always ends the parse with an exception: invalid_argument, or, for an integer flag, what the conversion to a number throws.", "quantifier": "all command lines", "why_tests_cant": "All command lines.", "anchors": ["src/libcatnip/io/argumentparser.cpp:ArgumentParser::parse", "src/libcatnip/io/argumentparser.cpp:ArgumentParser::parseArg_"]}
{"id": "C56", "title": "Switches", "statement": "A switch flag without value turns it on; a switch flag followed by ON/TRUE/1 or OFF/FALSE/0 sets it accordingly and parsing continues after the value.", "quantifier": "all command lines containing switches", "why_tests_cant": "All command lines.", "anchors": ["src/libcatnip/io/argumentparser.cpp:ArgumentParser::parseArg_"]}
{"id": "C57", "title": "Informational flags", "statement": "-h, --help, -cite, --citation alone and --version or its abbreviation -v stop the process with exit code 0.", "quantifier": "all command lines", "why_tests_cant": "All command lines.", "anchors": ["src/libcatnip/io/argumentparser.cpp:ArgumentParser::parse", "src/libcatnip/io/io.cpp:prepareParser"]}
{"id": "C58", "title": "Input files are resolved", "statement": "When prepareParameters succeeds, every log name ends in .log and every pun name in .pun, and each is either the existing file given by its flag or, if that is missing, an existing sister of the file given by the partner flag.", "quantifier": "all command lines and file systems", "why_tests_cant": "All command lines and file systems.", "anchors": ["src/libcatnip/io/io.cpp:prepareParameters", "src/libcatnip/parameters.cpp:Parameters::setLog1"]}
{"id": "C59", "title": "Advertised pun extensions work", "statement": "Any existing file with one of the advertised extensions .pun, .orb, .7 given for a pun flag is accepted through to the parameters.", "quantifier": "all paths", "why_tests_cant": "All paths.", "anchors": ["src/libcatnip/io/io.cpp:prepareParser", "src/libcatnip/io/io.cpp:prepareParameters", "src/libcatnip/parameters.cpp:Parameters::setPun1"]}
{"id": "C60", "title": "Paths with spaces", "statement": "Sister file resolution works for every path, including paths that contain white space.", "quantifier": "all paths", "why_tests_cant": "All paths.", "anchors": ["src/libcatnip/io/io.cpp:prepareParameters"]}
{"id": "C61", "title": "Parser and readers agree on names", "statement": "Every .log/.pun file name accepted by the command line layer is accepted by the corresponding reader.", "quantifier": "all paths", "why_tests_cant": "All paths.", "anchors": ["src/libcatnip/io/file_readers/filereader.cpp:FileReader::fileExt_", "src/libcatnip/io/arguments/properties/propertyfileext.cpp:PropertyFileExt::propValid"]}
{"id": "C62", "title": "Orbital parameters are consistent", "statement": "When prepareParameters succeeds the orbital types are HOMO or LUMO, HOMO numbers are <=0 and LUMO numbers >=0, spins are Alpha or Beta, and omitted flags give HOMO, 0, Alpha and counterpoise off; when the six file names resolve but an orbital number has the wrong sign, prepareParameters throws invalid_argument.", "quantifier": "all command lines", "why_tests_cant": "All command lines.", "anchors": ["src/libcatnip/io/io.cpp:prepareParser", "src/libcatnip/io/io.cpp:prepareParameters"]}
{"id": "C63", "title": "Parameter file setters", "statement": "setLogX/setPunX store the name exactly when it ends in .log/.pun and otherwise throw and change nothing.", "quantifier": "all strings", "why_tests_cant": "All strings.", "anchors": ["src/libcatnip/parameters.cpp:Parameters::setLog1"]}
{"id": "C64", "title": "Section dispatch", "statement": "While reading, every line that contains a registered header starts the reader of the alphabetically first matching section; other lines are skipped; a reader set with a header but no reader (or vice versa) is rejected at construction.", "quantifier": "all files", "why_tests_cant": "All files.", "anchors": ["src/libcatnip/io/file_readers/filereader.cpp:FileReader::read", "src/libcatnip/io/file_readers/filereader.cpp:FileReader::startSection_", "src/libcatnip/io/file_readers/filereader.cpp:FileReader::checkSections_"]}
{"id": "C65", "title": "Overlap matrix round-trip", "statement": "Reading an overlap section printed in Gaussian's lower-triangular blocks of five columns yields the symmetric matrix that was printed.", "quantifier": "all sizes and all entries", "why_tests_cant": "All matrix sizes; block boundary cases at multiples of five.", "anchors": ["src/libcatnip/io/file_readers/logreader.cpp:LogReader::OverlapSectionReader"]}
{"id": "C66", "title": "Orbital energies", "statement": "After reading, getOE lists all occupied and then virtual energies of the last eigenvalue section in printed order, and getHOMOLevel is the number of occupied ones.", "quantifier": "all files", "why_tests_cant": "All numbers of lines and values per line.", "anchors": ["src/libcatnip/io/file_readers/logreader.cpp:LogReader::ReadOrbEnergies"]}
{"id": "C67", "title": "Glued energies are separated", "statement": "Energies printed without separating blanks are split at the minus signs without losing or altering any character.", "quantifier": "all lines", "why_tests_cant": "All strings.", "anchors": ["src/libcatnip/io/file_readers/logreader.cpp:splitStEnergies"]}
{"id": "C68", "title": "Coordinates", "statement": "getCoords returns the coordinates of the last coordinate table in the file, one column per atom in order.", "quantifier": "all files", "why_tests_cant": "All tables.", "anchors": ["src/libcatnip/io/file_readers/logreader.cpp:LogReader::CoordSectionReader"]}
{"id": "C69", "title": "Basis functions per atom", "statement": "getBasisFuncCount returns for each atom in order the number of basis functions listed for it.", "quantifier": "all population tables", "why_tests_cant": "All tables.", "anchors": ["src/libcatnip/io/file_readers/logreader.cpp:LogReader::AOFunctionSectionReader", "src/libcatnip/io/file_readers/logreader.cpp:LogReader::getBasisFuncCount"]}
{"id": "C70", "title": "MO coefficients round-trip", "statement": "Reading a pun file with coefficients in 15-character fields yields the coefficient matrix, one row per molecular orbital.", "quantifier": "all numbers of orbitals and coefficients", "why_tests_cant": "All sizes; last line partial or full.", "anchors": ["src/libcatnip/io/file_readers/punreader.cpp:PunReader::ReadCoef", "src/libcatnip/io/file_readers/punreader.cpp:PunReader::readGausCoefLine"]}
{"id": "C71", "title": "Alpha and Beta coefficients", "statement": "For a pun file with Alpha orbitals followed by Beta orbitals both sets are available afterwards.", "quantifier": "all unrestricted pun files", "why_tests_cant": "All files.", "anchors": ["src/libcatnip/io/file_readers/punreader.cpp:PunReader::ReadCoef", "src/libcatnip/io/file_readers/filereader.cpp:FileReader::read"]}
{"id": "C72", "title": "Truncated files are rejected", "statement": "Reading a file that ends in the middle of a section terminates with an error rather than running forever.", "quantifier": "all truncation points", "why_tests_cant": "All crash/truncation points.", "anchors": ["src/libcatnip/io/file_readers/logreader.cpp:LogReader::CoordSectionReader", "src/libcatnip/io/file_readers/logreader.cpp:LogReader::AOFunctionSectionReader", "src/libcatnip/io/file_readers/punreader.cpp:PunReader::ReadCoef"]}
{"id": "C73", "title": "End-to-end selection", "statement": "calc_J evaluates the transfer integral with exactly the coefficient rows, overlap, energies and coordinates read from the files chosen on the command line (after putting the dimer's basis functions in the order of the monomers' atoms when all three population analyses are present); and it evaluates one only if all six chosen files were read.", "quantifier": "all command lines and file contents for which the readers succeed and the matrix sizes agree", "why_tests_cant": "Composition over all inputs.", "anchors": ["src/tools/main.cpp:main"]}
{"id": "C74", "title": "removeSpace", "statement": "removeSpace turns a NUL-terminated buffer into the same text without its blanks, NUL-terminated, without writing outside the original text; on a buffer without terminator it reads out of bounds.", "quantifier": "all buffers", "why_tests_cant": "All texts and buffer contents.", "anchors": ["src/libcatnip/string_support.cpp:removeSpace"]}
{"id": "C75", "title": "Help text layout", "statement": "The help printed for the registered flags lists every flag, its abbreviation and all words of its description in order, and pads the columns with a number of blanks equal to the difference to the longest name; the flags are listed in dictionary order whatever the order of registration.", "quantifier": "all flag sets", "why_tests_cant": "Ranges over unboundedly many inputs.", "anchors": ["src/libcatnip/io/argumentparser.cpp:ArgumentParser::showUsage"]}
{"id": "C76", "title": "Two views of a switch agree", "statement": "After any command line the text view (getStr) and the integer view (getInt) of a switch flag agree: ON/1 or OFF/0.", "quantifier": "all command lines", "why_tests_cant": "Ranges over unboundedly many inputs.", "anchors": ["src/libcatnip/io/argumentparser.cpp:ArgumentParser::getStr", "src/libcatnip/io/argumentparser.cpp:ArgumentParser::getInt"]}
{"id": "C77", "title": "Malformed integers are rejected", "statement": "A value for an integer flag that is not entirely a decimal integer is rejected.", "quantifier": "all strings", "why_tests_cant": "Ranges over unboundedly many inputs.", "anchors": ["src/libcatnip/io/argumentparser.cpp:ArgumentParser::parseArg_"]}
{"id": "C78", "title": "String length limits are configurable", "statement": "The length limits of a string flag can be set with setFlagArgOpt and are enforced by parse.", "quantifier": "all flags, limits and command lines", "why_tests_cant": "Ranges over unboundedly many inputs.", "anchors": ["src/libcatnip/io/argumentparser.cpp:ArgumentParser::setFlagArgOpt", "src/libcatnip/io/arguments/argumentobject.hpp:ArgumentObject::setArgPropertyOpt"]}
{"id": "C79", "title": "The output identifies the run", "statement": "Two completed calc_J runs that print the same text used the same six file names, the same three spins and the same two orbitals (type and offset), whatever the command lines and files were; with the same files on disk they also used the same counterpoise setting.", "quantifier": "all pairs of command lines, disks and arithmetics (file names without line breaks)", "why_tests_cant": "Ranges over all pairs of runs.", "anchors": ["src/tools/main.cpp:main"]}
{"id": "C80", "title": "The report states the computed coupling", "statement": "A completed calc_J run prints the request, then J_ab, e_a, e_b, S_ab and J_eff of the selected orbitals of the selected files, energies in eV, such that J_eff = (J_ab - 1/2 (e_a + e_b) S_ab)/(1 - S_ab^2) holds for the printed quantities; it warns on standard error exactly if one of the log files has no population analysis; a run that fails prints no result.", "quantifier": "all command lines, files and arithmetics", "why_tests_cant": "Ranges over all files and command lines.", "anchors": ["src/tools/main.cpp:main", "src/libcatnip/qc_functions.cpp:calculate_transfer_integral", "src/libcatnip/qc_functions.cpp:TransferComplex::calcJ"]}
{"id": "C81", "title": "Failures are not reported as success", "statement": "calc_J calls exit with status 0 only if an informational word (help, version, citation) is on the command line; every other exit has status 1.", "quantifier": "all command lines and file contents", "why_tests_cant": "Ranges over all files and command lines.", "anchors": ["src/tools/main.cpp:main", "src/libcatnip/matrix.cpp", "src/libcatnip/io/argumentparser.cpp:ArgumentParser::parse"]}
{"id": "C82", "title": "The printed numbers are accurate to six significant digits", "statement": "Every finite double calc_J prints appears as decimal text that denotes exactly one real number, which is the double rounded to six significant decimal digits, to nearest with ties to even (so it differs from the double by at most half a unit of the sixth significant digit); infinities and NaNs are never printed as something that reads as a number.", "quantifier": "all binary64 values, all completed runs", "why_tests_cant": "Ranges over 2^64 doubles and all runs.", "anchors": ["src/libcatnip/qc_functions.cpp:calculate_transfer_integral", "src/libcatnip/qc_functions.cpp:TransferComplex::calcJ", "src/libcatnip/matrix.cpp:double_tos"]}
{"id": "C83", "title": "Rounding errors of the coupling are bounded", "statement": "In IEEE double arithmetic every matrix product, S_ab, J_ab, e_a, e_b and the coupling J_eff differ from the exact real-number values for the stored coefficients, overlaps and energies by at most a stated bound that grows linearly with the numbers of basis functions and orbitals times 2^-53, whatever the sizes and values, provided the computed numbers are finite and the denominator 1 - S_ab^2 is not lost in its own rounding error.", "quantifier": "all matrices, sizes, orbitals, all binary64 entries and input errors", "why_tests_cant": "Ranges over all double matrices of all sizes; accumulated rounding errors cannot be enumerated.", "anchors": ["src/libcatnip/matrix.cpp:operator*", "src/libcatnip/qc_functions.cpp:calculate_transfer_integral", "src/libcatnip/qc_functions.cpp:TransferComplex::calcJ"]}
{"id": "C84", "title": "Decimal numbers are read with correct rounding", "statement": "For every text that begins (after white space) with a decimal numeral, the number obtained from it by the readers and by the command line is the double nearest to the value the numeral denotes, hence within 2^-53 of it relatively; zero and every value in the range of the normal doubles is accepted, values beyond the doubles are refused with out_of_range, texts without a number with invalid_argument (0 where atof is used). A number printed by the program reads back equal to six digits.", "quantifier": "all texts, all numbers of digits and exponents", "why_tests_cant": "Ranges over all numerals of any length; correct rounding at ties and range limits cannot be enumerated.", "anchors": ["src/libcatnip/io/file_readers/logreader.cpp:stod, atof", "src/libcatnip/io/file_readers/punreader.cpp:stod", "src/libcatnip/io/argumentparser.cpp"]}
{"id": "C85", "title": "From the decimals in the files to the printed coupling: end-to-end accuracy", "statement": "For a command line and six correctly printed files whose numbers are at most 2^30 in size, the program (in IEEE double arithmetic, with its own text-to-number conversion and its comparison of coordinates at four decimals) terminates with a finite coupling, which differs from the coupling computed in exact real arithmetic from the numbers as written in the files by at most a stated bound (a few hundred units of 2^-53 times the sizes of the sums), provided 1 - S_ab^2 is not lost in its own error. With population analyses the dimer's basis functions are first matched to the monomers: written coordinates close to the same four-decimal number are the same atom, coordinates more than 0.0001 apart are different atoms.", "quantifier": "all command lines, all correctly printed files of any size, all numerals", "why_tests_cant": "Ranges over all files and all numerals in them; overflow and accumulated error cannot be excluded by examples.", "anchors": ["src/tools/main.cpp:main", "src/libcatnip/qc_functions.cpp:TransferComplex::calcJ", "src/libcatnip/io/file_readers/logreader.cpp", "src/libcatnip/io/file_readers/punreader.cpp", "src/libcatnip/matrix.cpp:operator*"]}
{"id": "C86", "title": "The printed report is accurate to six digits with respect to the files", "statement": "For a command line and six correctly printed files whose numbers are at most 2^30 in size, the program prints the heading that repeats the request followed by five lines; the texts after J_ab, e_a, e_b, S_ab are decimal numerals (never inf or nan) of the overlap and the energies (in eV, 27.2114 times the Hartree value) that follow in exact real arithmetic from the numbers written in the files, each within 6 parts in a million of the exact number plus a stated rounding error; the same holds for J_eff whenever 1 - S_ab^2 is not lost in its own error.", "quantifier": "all command lines, all correctly printed files of any size, all numerals", "why_tests_cant": "Ranges over all files; combines reading, arithmetic, unit conversion and printing errors for every value.", "anchors": ["src/libcatnip/qc_functions.cpp:calculate_transfer_integral", "src/libcatnip/constants.hpp:hartreeToeV", "src/tools/main.cpp:main"]}
{"id": "C87", "title": "Reading again returns the current contents", "statement": "After read() on a LogReader or PunReader the getters return what the file contains at that time, however often and with whatever earlier contents read() has been called before on the same object.", "quantifier": "all histories of calls and file contents", "why_tests_cant": "All histories.", "anchors": ["src/libcatnip/io/file_readers/filereader.cpp:FileReader::read", "src/libcatnip/io/file_readers/logreader.cpp:LogReader::ReadOrbEnergies", "src/libcatnip/io/file_readers/logreader.cpp:LogReader::AOFunctionSectionReader", "src/libcatnip/io/file_readers/punreader.cpp:PunReader::ReadCoef"]}
{"id": "C88", "title": "Pointers to elements", "statement": "get_elem_ptr(r,c) returns a pointer to element (r,c): reading through it always gives what get_elem(r,c) gives, writing through it does what set_elem(v,r,c) does, different elements have different pointers, and positions outside the matrix are rejected.", "quantifier": "all matrices, positions and programs run while the pointer is held", "why_tests_cant": "All later programs.", "anchors": ["src/libcatnip/matrix.cpp:Matrix::get_elem_ptr"]}
{"id": "C89", "title": "Configured flag options can be read back", "statement": "getFlagArgOptValue returns the value last given to the option with setFlagArgOpt (or its initial value), whatever other options are set, flags added, defaults set or command lines parsed in between. setFlagArgOpt accepts exactly the options that exist, each with the kinds of values it takes, and rejects everything else with invalid_argument; options that do not exist are rejected when read.", "quantifier": "all parsers, flags, argument types, options, values and later calls", "why_tests_cant": "All histories of calls.", "anchors": ["src/libcatnip/io/argumentparser.cpp:ArgumentParser::setFlagArgOpt", "src/libcatnip/io/argumentparser.cpp:ArgumentParser::getFlagArgOptValue", "src/libcatnip/io/arguments/argumentobject.hpp:ArgumentObject::getPropertyValues", "src/libcatnip/io/arguments/argumentobject.hpp:ArgumentObject::setArgPropertyOpt"]}
{"id": "C90", "title": "Double arguments", "statement": "A double argument accepts exactly the numbers from its MIN to its MAX (both included; all finite doubles unless limits were set) and rejects all others with invalid_argument; a value on the command line becomes the double nearest to the number written.", "quantifier": "all doubles, all sequences of limit settings, all command lines", "why_tests_cant": "All binary64 values, all limits and all numerals.", "anchors": ["src/libcatnip/io/arguments/properties/propertydouble.cpp:PropertyDouble::doubleValid", "src/libcatnip/io/arguments/argumentdouble.hpp:ArgumentDouble", "src/libcatnip/io/argumentparser.cpp:ArgumentParser::parseArg_"]}
{"id": "C91", "title": "Reading again after a failed read", "statement": "When read() of a log or pun reader has thrown, the object can be used again: a later call of read() on the same object, after the file was completed or repaired, either reads the file as it is then or throws; it never returns normally without having read it. A call that throws because the file does not exist leaves the object as it was.", "quantifier": "all readers, all failed calls at any point of any file, all contents of the file at the next calls", "why_tests_cant": "Every point at which an exception can leave read(), and every later state of the file system.", "anchors": ["src/libcatnip/io/file_readers/filereader.cpp:FileReader::read", "src/libcatnip/io/file_readers/filereader.cpp:FileReader::open", "src/libcatnip/io/file_readers/filereader.cpp:FileReader::close"]}
{"id": "C92", "title": "Matrix functions that throw", "statement": "A member function of Matrix that throws (set_row, set_col, swap_row, swap_col, move_row, move_col) leaves the matrix exactly as it was before the call.", "quantifier": "all matrices, all vectors and indices", "why_tests_cant": "All shapes and all points at which an exception can leave the function.", "anchors": ["src/libcatnip/matrix.cpp:Matrix::set_row", "src/libcatnip/matrix.cpp:Matrix::set_col", "src/libcatnip/matrix.cpp:Matrix::swap_col", "src/libcatnip/matrix.cpp:Matrix::move_row", "src/libcatnip/matrix.cpp:Matrix::move_col"]}
{"id": "C93", "title": "Rejected command lines", "statement": "When ArgumentParser::parse throws, the parser object stays usable: the items before the one in error have been dealt with as if they had been the whole line, the item in error and the words after it have no effect, the flags, their options and the files required are as before, and a later call of parse on a correct line returns what that line says, as if the rejected line had never been parsed.", "quantifier": "all parsers, all rejected command lines at whichever word the exception is thrown, all later command lines", "why_tests_cant": "Every point at which an exception can leave parse(), for every configuration of flags and every later line.", "anchors": ["src/libcatnip/io/argumentparser.cpp:ArgumentParser::parse", "src/libcatnip/io/argumentparser.cpp:ArgumentParser::parseArg_", "src/libcatnip/io/arguments/argumentobject.hpp:ArgumentObject::argValid"]}
{"id": "C94", "title": "Missing sections", "statement": "After a log or pun file has been read, the accessors for a section that does not occur in the file (coordinates, overlap matrix, alpha or beta energies, populations, coefficients of a spin) never return data: they throw or return an empty result; a reader object that has read other files before keeps what it had. calc_J prints no coupling when one of its six files lacks a section the calculation needs.", "quantifier": "all file contents in which the marks of the section do not occur, all reader objects, all command lines and all contents of the other files", "why_tests_cant": "Ranges over every file content without the section, however damaged otherwise.", "anchors": ["src/libcatnip/io/file_readers/filereader.cpp:FileReader::read", "src/libcatnip/io/file_readers/logreader.hpp:LogReader::getOverlapMatrix", "src/libcatnip/io/file_readers/logreader.hpp:LogReader::getOE", "src/libcatnip/io/file_readers/punreader.cpp:PunReader::getCoefsMatrix", "src/tools/main.cpp:main"]}
{"id": "C95", "title": "Listing the options of an argument", "statement": "For every argument object, whatever was set or parsed before: getProperties and getPropertyOptions return exactly the properties and options of its type, getPropertyValues(property, option) succeeds exactly for the listed ones, and the table returned by getPropertyValues() has exactly one entry per option, with the value getPropertyValues(property, option) returns.", "quantifier": "all argument objects of the five types reachable through the public member functions, all property and option names", "why_tests_cant": "Three functions must agree after every history of settings and parsed values.", "anchors": ["src/libcatnip/io/arguments/argumentobject.hpp:ArgumentObject::getProperties", "src/libcatnip/io/arguments/argumentobject.hpp:ArgumentObject::getPropertyOptions", "src/libcatnip/io/arguments/argumentobject.hpp:ArgumentObject::getPropertyValues"]}
{"id": "C96", "title": "Reading a file of any content is memory safe", "statement": "LogReader::read and PunReader::read never access memory out of bounds and never use an uninitialised value, whatever bytes the file contains: they return, throw, exit or keep reading. Undefined behaviour can only be an int overflow, and only for files with more than 46340 lines (log) or of more than 179000 characters (pun).", "quantifier": "all file contents, all reader objects, all numbers of steps", "why_tests_cant": "There are infinitely many malformed files; a test (or fuzzer) tries some of them.", "anchors": ["src/libcatnip/io/file_readers/filereader.cpp:FileReader::read", "src/libcatnip/io/file_readers/logreader.cpp:LogReader::OverlapSectionReader", "src/libcatnip/io/file_readers/logreader.cpp:LogReader::AOFunctionSectionReader", "src/libcatnip/io/file_readers/logreader.cpp:LogReader::CoordSectionReader", "src/libcatnip/io/file_readers/punreader.cpp:PunReader::ReadCoef"]}
{"id": "C97", "title": "calc_J on any command line and any files", "statement": "Whatever the command line and whatever the files contain, calc_J returns, throws, exits or keeps reading; it never accesses a matrix, vector or string out of bounds. Undefined behaviour is only an overlap matrix that was never read (the dimer's log file has none), atoms that do not line up (the log files have populations, but an atom of a monomer has no counterpart, or the populations list too few atoms), or an int that overflows because the files are too large (more than 46340 rows, columns, energies, atoms or basis functions of an atom, or an overflow while one of the files is read). If all files are read, have an overlap matrix, line up and are not too large, nothing is undefined. The same command line and files have one answer: allowing more steps never changes it.", "quantifier": "all command lines, all file systems and file contents, all arithmetics (including binary64), all numbers of steps", "why_tests_cant": "The inputs are arbitrary texts; a test or fuzzer tries some of them, and a sanitizer only sees the executions that were run.", "anchors": ["src/tools/main.cpp:main", "src/libcatnip/qc_functions.cpp:TransferComplex::unscramble", "src/libcatnip/qc_functions.cpp:TransferComplex::calcJ", "src/libcatnip/matrix.cpp:Matrix", "src/libcatnip/io/argumentparser.cpp:ArgumentParser::parse", "src/libcatnip/io/io.cpp:prepareParameters"]}
{"id": "C98", "title": "Protected options of property objects", "statement": "The options a sister file property computes itself (name, path, path and name, existence) always describe the file checked last and the extensions in force at that check; callers cannot set them, and extension options only take well formed extensions, whether they are set on the property or through an argument object. A switch property accepts exactly the numbers whose text it accepts.", "quantifier": "all histories of calls, option names, values and file systems", "why_tests_cant": "All histories and all strings.", "anchors": ["src/libcatnip/io/arguments/properties/propertysisterfile.cpp:PropertySisterFile::setPropOption", "src/libcatnip/io/arguments/properties/propertyfileext.cpp:PropertyFileExt::setPropOption", "src/libcatnip/io/arguments/properties/propertyswitch.cpp:PropertySwitch::switchValid", "src/libcatnip/io/arguments/argumentobject.hpp:ArgumentObject::setArgPropertyOpt"]}
{"id": "C99", "title": "Attaching arguments to flags", "statement": "addFlagArg gives a flag an argument of the named type with the initial options, leaves every other option, value and the help text as they were, and throws invalid_argument if the flag already has an argument of that type or the type is unknown.", "quantifier": "all parsers, flags and type names", "why_tests_cant": "All parsers that any sequence of calls can build.", "anchors": ["src/libcatnip/io/argumentparser.cpp:ArgumentParser::addFlagArg"]}
{"id": "C100", "title": "The order of the items of a command line", "statement": "The order in which different flags are written on the command line does not matter: two accepted command lines that say the same about every flag (the same values in the same order, the same switches), however the items of different flags are mixed, abbreviated or accompanied by informational words, leave the parser in the same state, and calc_J computes the same value and prints the same report, bit for bit. Reordering the items of an accepted line without informational words gives an accepted line.", "quantifier": "all parsers built through the public interface with one flag per word and one argument per flag, all command lines, all file systems and contents", "why_tests_cant": "The number of orders grows with the factorial of the number of items, and the values are arbitrary.", "anchors": ["src/libcatnip/io/argumentparser.cpp:ArgumentParser::parse", "src/libcatnip/io/argumentparser.cpp:ArgumentParser::parseArg_", "src/libcatnip/io/io.cpp:prepareParameters", "src/tools/main.cpp:main"]}
{"id": "C101", "title": "Exchanging the monomers", "statement": "Calling monomer 1 monomer 2 and conversely (files, spins, orbitals) gives the same transfer integral and the same report with e_a and e_b exchanged, in exact arithmetic, provided the order of the basis functions is known (population analyses in the three log files, with the same numbers of basis functions for the same atoms) or the counterpoise correction is used. Without both, the value depends on which monomer comes first in the dimer.", "quantifier": "all command lines, file systems and contents of the files", "why_tests_cant": "All sizes of molecules, orders of atoms, coefficients and overlaps.", "anchors": ["src/tools/main.cpp:main", "src/libcatnip/qc_functions.cpp:TransferComplex::unscramble", "src/libcatnip/qc_functions.cpp:TransferComplex::calcJ", "src/libcatnip/qc_functions.cpp:calculate_transfer_integral"]}
{"id": "C102", "title": "The order of the atoms in the files", "statement": "If the atoms of the dimer (and, with counterpoise correction, of monomer 2) are listed in another order in the Gaussian calculation, so that the coefficients and overlaps are listed in the corresponding order, calc_J computes the same value, bit for bit in any arithmetic, and prints the same report after its heading.", "quantifier": "all orders of the atoms, command lines, file systems and contents of the files", "why_tests_cant": "The number of orders grows with the factorial of the number of atoms; all coefficients and overlaps.", "anchors": ["src/tools/main.cpp:main", "src/libcatnip/qc_functions.cpp:TransferComplex::unscramble", "src/libcatnip/qc_functions.cpp:unscramble_Coef", "src/libcatnip/qc_functions.cpp:unscramble_S", "src/libcatnip/matrix.cpp:Matrix::matchRow"]}
{"id": "C103", "title": "The signs of the orbitals", "statement": "The sign of an orbital in a pun file has no physical meaning. Changing the sign of the orbital asked of monomer 1 or 2, or of any orbitals of the dimer, changes at most the sign of J_ab, S_ab and the transfer integral: each of the two signs of the monomers' orbitals changes it once, those of the dimer never; e_a, e_b, the warnings and the rest of the report stay the same. The other orbitals and the energies of the monomers do not matter at all. This holds in exact arithmetic and for the machine's doubles (overflow and NaN included; the sign of a zero is not compared).", "quantifier": "all command lines, file systems and contents of the files, all choices of signs, all doubles", "why_tests_cant": "2^n choices of signs for n orbitals of the dimer; all coefficients, all roundings.", "anchors": ["src/tools/main.cpp:main", "src/libcatnip/qc_functions.cpp:calculate_transfer_integral", "src/libcatnip/qc_functions.cpp:TransferComplex::calcJ"]}
{"id": "C104", "title": "Only the content of the files matters", "statement": "Two runs of calc_J, with whatever command lines, file names and layouts of the files, give the same value bit for bit, or the same failure, and the same report after the heading, if the files hold the same content: the coefficients of the requested orbital of each monomer (with counterpoise correction: all orbitals of monomer 2), the orbitals and energies of the dimer, the lower triangle of its overlap matrix, and the atoms with their numbers of basis functions. In particular the other sections of the files, the spin they are read from, the number under which an orbital is requested, and the energies, occupations and other orbitals of the monomers do not matter.", "quantifier": "all pairs of command lines, file systems and correctly printed files with the same content; every arithmetic, binary64 included", "why_tests_cant": "Pairs of arbitrary files; failing runs included.", "anchors": ["src/tools/main.cpp:main", "src/libcatnip/qc_functions.cpp:TransferComplex::calcJ", "src/libcatnip/io/logreader.cpp:LogReader", "src/libcatnip/io/punreader.cpp:PunReader"]}
{"id": "C105", "title": "Combinations of the dimer's orbitals", "statement": "In exact arithmetic, if the orbitals of the dimer's calculation are replaced by combinations of them with orthonormal coefficients, among orbitals of equal energies only, J_ab, e_a, e_b, S_ab and J_eff are unchanged, and so is the whole report after the heading. In particular the order in which the dimer's orbitals are listed with their energies, their signs, and the choice of orbitals among degenerate ones do not matter.", "quantifier": "all calculations, all combinations U with orthonormal columns that mix equal energies only, all command lines and correctly printed files, with and without counterpoise correction", "why_tests_cant": "All orthogonal matrices of every size.", "anchors": ["src/tools/main.cpp:main", "src/libcatnip/qc_functions.cpp:TransferComplex::calcJ", "src/libcatnip/qc_functions.cpp:calculate_transfer_integral"]}
{"id": "C106", "title": "The unit and the zero of the energies", "statement": "In exact arithmetic, once the orbitals, overlaps and atoms are given, the report of calc_J is an affine function of the energies of the dimer's orbitals: energies s e + c give s J_ab + c S_ab, s e_a + c n_a, s e_b + c n_b and the same S_ab, for numbers J_ab, e_a, e_b, S_ab, n_a, n_b that do not depend on s and c. In particular energies in another unit give the transfer integral in that unit, and if the projections of the two requested orbitals on the dimer's orbitals are normalised (n_a = n_b = 1) the zero of the energies does not matter to the transfer integral.", "quantifier": "all numbers s and c, all calculations, all command lines and correctly printed files, with and without counterpoise correction", "why_tests_cant": "All units and zeros, all files of all sizes.", "anchors": ["src/tools/main.cpp:main", "src/libcatnip/qc_functions.cpp:TransferComplex::calcJ", "src/libcatnip/qc_functions.cpp:calculate_transfer_integral"]}
{"id": "C107", "title": "The numbers are matrix elements", "statement": "In exact arithmetic, if the orbitals in the dimer's files solve F P_k = e_k S P_k for an operator F with the overlaps S and the energies e_k listed there, and are complete (sum_k P_k P_k^T S = 1, as when there are as many orthonormal orbitals as basis functions), then calc_J reports J_ab = <1|F|2>, e_a = <1|F|1>, e_b = <2|F|2> and S_ab = <1|S|2>, where 1 and 2 are the requested orbitals of the monomers written in the basis functions of the dimer (functions of an atom of a monomer are those of the atom at the same position in the dimer); the value is made of these. If in addition <1|S|1> = <2|S|2> = 1, adding a constant to all energies of the dimer does not change the value.", "quantifier": "all operators F, all calculations with complete orbitals, all command lines and correctly printed files, with and without counterpoise correction", "why_tests_cant": "All operators, all bases of all sizes; the reference value is a different formula than the one the program evaluates.", "anchors": ["src/tools/main.cpp:main", "src/libcatnip/qc_functions.cpp:TransferComplex::calcJ", "src/libcatnip/qc_functions.cpp:calculate_transfer_integral", "src/libcatnip/qc_functions.cpp:TransferComplex::unscramble"]}
{"id": "C108", "title": "Monomers that do not interact", "statement": "In exact arithmetic, if the basis functions of the dimer fall into two sides such that functions of different sides do not overlap, every orbital of the dimer is on one side, and the requested orbitals of the two monomers are on different sides, then calc_J reports J_ab = 0 and S_ab = 0 and the transfer integral is 0.", "quantifier": "all ways to divide the basis functions, all calculations, all command lines and correctly printed files, with and without counterpoise correction", "why_tests_cant": "All divisions of bases of all sizes.", "anchors": ["src/tools/main.cpp:main", "src/libcatnip/qc_functions.cpp:TransferComplex::calcJ", "src/libcatnip/qc_functions.cpp:calculate_transfer_integral"]}
{"id": "C109", "title": "The value is the coupling of the orthogonalised orbitals", "statement": "In exact arithmetic, if the dimer's orbitals solve F P_k = e_k S P_k and are complete, and the two requested orbitals 1 and 2 of the monomers are normalised, the value calc_J prints is the coupling <v1|F|v2> of the symmetrically (Loewdin) orthogonalised orbitals v1, v2: orthonormal combinations of 1 and 2 by a symmetric matrix of non-zero trace, such as S^(-1/2). The energies of the two coupled orbitals (solutions of F u = e S u in their space) are those of the two-level system with levels <v1|F|v1>, <v2|F|v2> and this coupling.", "quantifier": "all operators F, all calculations with complete orbitals, all orthogonalisations, all energies, command lines and correctly printed files, with and without counterpoise correction", "why_tests_cant": "All operators and bases of all sizes; the physical quantity is defined by another construction than the formula the program evaluates.", "anchors": ["src/tools/main.cpp:main", "src/libcatnip/qc_functions.cpp:TransferComplex::calcJ", "src/libcatnip/qc_functions.cpp:calculate_transfer_integral"]}
{"id": "C110", "title": "Equivalent monomers: half the splitting", "statement": "In exact arithmetic, if the dimer's orbitals solve F P_k = e_k S P_k and are complete, the two requested orbitals are normalised, not parallel and have the same energy <1|F|1> = <2|F|2>, then the value calc_J prints is, up to sign, half the difference of the two energies of the coupled orbitals (solutions of F u = e S u in their space).", "quantifier": "all operators F, all calculations with complete orbitals, command lines and correctly printed files, with and without counterpoise correction", "why_tests_cant": "All operators and bases of all sizes.", "anchors": ["src/tools/main.cpp:main", "src/libcatnip/qc_functions.cpp:TransferComplex::calcJ", "src/libcatnip/qc_functions.cpp:calculate_transfer_integral"]}
{"id": "C111", "title": "The basis functions do not matter", "statement": "In exact arithmetic, two sets of calculations that describe the same orbitals in different basis functions (other functions, another number of them, functions turned or scaled, with or without counterpoise correction) give the same value and the same report after its heading: with new functions sum_i B_ij (old function i), overlaps B^T S B, and coefficients that B maps to the old ones.", "quantifier": "all matrices B, all pairs of calculations, command lines and correctly printed files", "why_tests_cant": "All changes of basis of all sizes.", "anchors": ["src/tools/main.cpp:main", "src/libcatnip/qc_functions.cpp:TransferComplex::calcJ", "src/libcatnip/qc_functions.cpp:calculate_transfer_integral", "src/libcatnip/qc_functions.cpp:TransferComplex::unscramble"]}
{"id": "C112", "title": "The positions of the molecules do not matter", "statement": "The positions of the atoms are used only to recognise the atoms of the monomers in the dimer: if the molecules are moved in all calculations such that every atom is still found where it was, calc_J prints the same value, bit for bit in any arithmetic, and the same report after its heading.", "quantifier": "all positions, calculations, command lines and correctly printed files, with and without counterpoise correction", "why_tests_cant": "All motions of all molecules.", "anchors": ["src/tools/main.cpp:main", "src/libcatnip/qc_functions.cpp:TransferComplex::unscramble", "src/libcatnip/matrix.cpp:Matrix::matchRow"]}
{"id": "C113", "title": "The coupling is bounded by the spectrum of the dimer", "statement": "In exact arithmetic over an ordered field (rational or real numbers), if the dimer's orbitals are complete and the two requested orbitals of the monomers are normalised: 1 - S_ab^2 is never negative, and zero exactly if the two orbitals are the same in the dimer up to the sign; e_a and e_b lie between the lowest and the highest energy of the dimer's orbitals; and otherwise twice the value calc_J prints is at most the difference of these two energies, in both directions.", "quantifier": "all bounds of the energies, all calculations with complete orbitals, command lines and correctly printed files, with and without counterpoise correction", "why_tests_cant": "All calculations of all sizes; an inequality over all real inputs.", "anchors": ["src/tools/main.cpp:main", "src/libcatnip/qc_functions.cpp:TransferComplex::calcJ", "src/libcatnip/qc_functions.cpp:calculate_transfer_integral"]}
{"id": "C114", "title": "A coupling that is not defined is reported", "statement": "If the two requested orbitals are the same in the dimer up to the sign (one calculation given for both monomers, for example), their coupling is not defined: calc_J must say so instead of printing a result. For all other normalised orbitals the value printed is the number J with J (1 - S_ab^2) = J_ab - (e_a + e_b) S_ab / 2, the factor not being zero.", "quantifier": "all calculations with complete orbitals, command lines and correctly printed files, with and without counterpoise correction", "why_tests_cant": "All requests for which the denominator vanishes or does not.", "anchors": ["src/tools/main.cpp:main", "src/libcatnip/qc_functions.cpp:TransferComplex::calcJ", "src/libcatnip/qc_functions.cpp:calculate_transfer_integral"]}
{"id": "C115", "title": "The coupling changes no more than the energies", "statement": "In exact arithmetic over an ordered field, if the dimer's orbitals are complete and the two requested orbitals of the monomers are normalised and not the same up to the sign: two sets of calculations that differ only in the energies of the dimer's orbitals, each by at most c, give couplings J_ab, site energies e_a and e_b and values of calc_J that differ by at most c, and the same overlap S_ab.", "quantifier": "all bounds c, all pairs of calculations that agree but for the energies of the dimer's orbitals (and what the value is not made of), command lines and correctly printed files, with and without counterpoise correction", "why_tests_cant": "A Lipschitz bound over all pairs of real inputs of all sizes.", "anchors": ["src/tools/main.cpp:main", "src/libcatnip/qc_functions.cpp:TransferComplex::calcJ", "src/libcatnip/qc_functions.cpp:calculate_transfer_integral"]}
{"id": "C116", "title": "Counterpoise correction without use of the ghost functions", "statement": "A run with counterpoise correction on monomer calculations whose requested orbitals have no weight on the ghost basis functions (the atoms of both listed as those of monomer 1 followed by those of monomer 2) prints the same numbers, and yields the same value, as the run without counterpoise correction on the monomers alone. This holds for any arithmetic, doubles with their rounding included.", "quantifier": "all pairs of calculations so related, with the same dimer, all command lines and correctly printed files", "why_tests_cant": "All calculations of all sizes; two different code paths that have to agree bit for bit.", "anchors": ["src/tools/main.cpp:main", "src/libcatnip/qc_functions.cpp:TransferComplex::calcJ", "src/libcatnip/qc_functions.cpp:calculate_transfer_integral", "src/libcatnip/qc_functions.cpp:TransferComplex::unscramble"]}
{"id": "C117", "title": "Couplings and overlaps are linear in the orbitals of the monomers", "statement": "In exact arithmetic, if three sets of calculations have the same dimer, and the orbital requested of one monomer is the same in all while that of the other monomer in the third is a times that of the first plus b times that of the second, then J_ab and S_ab of the third run are a times those of the first plus b times those of the second, and the site energy of the unchanged monomer is the same.", "quantifier": "all a and b, either monomer, all triples of calculations so related, command lines and correctly printed files, with and without counterpoise correction", "why_tests_cant": "An identity between three runs over all real inputs of all sizes.", "anchors": ["src/tools/main.cpp:main", "src/libcatnip/qc_functions.cpp:TransferComplex::calcJ", "src/libcatnip/qc_functions.cpp:calculate_transfer_integral"]}
{"id": "C118", "title": "Selection rule", "statement": "In exact arithmetic, if a symmetry of the dimer (a matrix M over the basis functions with M^T S M = S, for instance a mirror plane, of which every orbital of the dimer is an eigenvector, even or odd for instance) multiplies the requested orbitals of the two monomers by different numbers, one even and the other odd for instance, calc_J reports J_ab = 0 and S_ab = 0 and the transfer integral is 0.", "quantifier": "all symmetry matrices and factors, all calculations, command lines and correctly printed files, with and without counterpoise correction", "why_tests_cant": "It ranges over all symmetries and all dimers that have them, of every size.", "anchors": ["src/tools/main.cpp:main", "src/libcatnip/qc_functions.cpp:TransferComplex::calcJ", "src/libcatnip/qc_functions.cpp:calculate_transfer_integral"]}
{"id": "C119", "title": "Parsing always ends, in one of three ways", "statement": "ArgumentParser::parse, called with any argument list on calc_J's parser, always ends, without undefined behaviour: it returns, and the line is a sequence of acceptable flags, values and switches; or it throws, and the line is acceptable up to an unknown word, a missing or refused value, a switch followed by a stray word, or a required file that was not found; or it ends the process with status 0, and the line has only help and citation words or is acceptable up to a version word. Every parser behaves like this, but for undefined behaviour that needs a flag whose STRING_CHOICE_ENFORCED option was set to the empty set.", "quantifier": "all argument lists, all regular parsers built through the API", "why_tests_cant": "Termination and the completeness of the classification are claims about every list of words.", "anchors": ["src/libcatnip/io/argumentparser.cpp:ArgumentParser::parse", "src/libcatnip/io/argumentparser.cpp:ArgumentParser::parseArg_"]}
