{
 "C18": {
  "note": "Exact for all widths but 256 bits; isequalV256 compares two of four elements, so the property is refuted there (C18_isequalV256_refuted) and its behaviour characterised."
 },
 "C20": {
  "note": "HWU256 is declared in the header but not defined in the source, hence w <> W256."
 },
 "C25": {
  "note": "The expectation is false: refuted with witnesses; the functions that do ignore the unused bits are proved to do so."
 },
 "C29": {
  "note": "For randV the hypothesis w <> W64 is needed: see C30. genaffinepair64 is covered because genMatpair reseeds first."
 },
 "C30": {
  "note": "The reproducibility expectation is refuted for randV64 (C30_randV64_refuted); the seed independence and the constant are proved."
 },
 "C37": {
  "note": "Positive description of the big-endian layout, refutation of block-diagonality, byte-order independence of the rest."
 },
 "C34": {
  "note": "printbitM256 does not exist in C; the theorem covers it as the evident continuation."
 },
 "C36": {
  "note": "printU64/printU128 proved undefined for every argument; the other four print the value."
 },
 "C38": {
  "note": "In-place call characterised (drawn matrix or identity) and refuted as inverse pair for every width; also genaffinepair."
 },
 "C44": {
  "note": "Reverse Gauss: invertible unless the int counter randseed overflows (undefined). Rejection: first invertible draw; a clock on which it never ends exists for every width."
 },
 "C45": {
  "note": "Proved for one word to a row with unwritten locals undefined; for 128/256 bits refuted (uninitialised reads; M[i][4] of a four-word row), and proved invertible under the flat reading with arbitrary memory content."
 },
 "C41": {
  "note": "Little-endian platform (affinecomM8to32 has another layout on big-endian ones, see C37). Covers table generation (wbsm4_gen.c), the key schedule and encryption (test/main.c), with the older library copy of the example."
 },
 "C47": {
  "note": "Specification SpecSM4.v written from the standard, S-box computed by field inversion; the standard's example is checked in C47_ex."
 },
 "C42": {
  "note": "Both byte orders. Signed left shifts are taken to wrap (see C55). Covers genTables.c (computeTables, the encryption by tables) and expandKey of aes.c; the unused parts of the tables are covered too."
 },
 "C43": {
  "note": "Full description: after n calls each of the first ten round keys is rotated n times by ShiftRows, call n+1 makes tables for AES with those round keys; witness of a wrong ciphertext in C43_second_call_refuted."
 },
 "C53": {
  "note": "The key is a local array of zeros in the C function; the expected property \"encrypts under the caller's key\" cannot be stated since there is no key argument."
 },
 "C55": {
  "note": "Negative result about the ISO C reading of the signed shifts."
 },
 "C56": {
  "note": "Negative security result: one extraction function that works for all keys and all random choices."
 },
 "C58": {
  "note": "rand() values are an arbitrary sequence; the tables are transcribed from the file"
 },
 "C59": {
  "note": "finding: the 128-bit tables hold singular matrices; characterisation for all draws, and a refutation of the comment's claim"
 },
 "C60": {
  "note": "the static state variable is a parameter (0 at program start); bitset<80> is an 80-bit number"
 },
 "C61": {
  "note": "the uninitialised local is an arbitrary fixed memory content"
 },
 "C62": {
  "note": "finding: the program hangs for some contents of the stack; the uninitialised local is an arbitrary fixed memory content"
 },
 "C63": {
  "note": "the macro TEST is a parameter; uninitialised locals are arbitrary memory of the right type; finding: fails on big-endian machines"
 },
 "C64": {
  "note": "finding: 32 bits of entropy whatever the width; counts over all worlds (processes, clocks, seeds, generator states)"
 },
 "C65": {
  "note": "positive for square matrices, which is how the suite calls it; findings: rank for M > Q and computeRank refuted with witnesses"
 },
 "C66": {
  "note": "finding. Probabilities are exact rationals, the exponential is that of Coq's real numbers (standard library axioms of Reals listed in DESIGN.md); floating point is not modelled. The result agrees with the reports WBMatrix_32bits.txt and WBMatrix_32bits_inv.txt in the repository. C66_chisq is without axioms."
 },
 "C67": {
  "note": "finding: the returned polynomial lacks its last coefficient; the suite only uses the length"
 },
 "C68": {
  "note": "mean and classes with rational numbers instead of floating point; the p-value is not modelled"
 },
 "C69": {
  "note": "rational numbers instead of floating point"
 },
 "C70": {
  "note": "the comparison with 2/sqrt(n) is squared; p-value not modelled; finding: constant sequences of at most 16 bits raise ZeroDivisionError"
 },
 "C71": {
  "note": "finding: the table for blocks of 10000 bits is off in the third digit; p-value not modelled"
 },
 "C72": {
  "note": "p_value is modelled only as far as the division by z"
 },
 "C73": {
  "note": "chi-square and p-values not modelled; a walk that ends at 0 gets an extra cycle 0, 0 (as the text of the standard says)"
 },
 "C74": {
  "note": "finding: the last position of each block is not searched"
 },
 "C75": {
  "note": "finding: sigma is the variance and is squared again; rounding is not modelled"
 },
 "C76": {
  "note": "exact rational arithmetic; p-values in C80"
 },
 "C77": {
  "note": "logarithms, mean and p-value not modelled"
 },
 "C78": {
  "note": "finding: balanced sequences fail or raise ZeroDivisionError"
 },
 "C79": {
  "note": "over the real numbers; rounding not modelled"
 },
 "C80": {
  "note": "over the real numbers; rounding not modelled; non-integer a only at x = 0"
 },
 "C81": {
  "note": ""
 },
 "C82": {
  "note": "memory blocks and padding of rows are not modelled: a row is an array of its own"
 },
 "C83": {
  "note": "as C82"
 },
 "C84": {
  "note": "as C82; full = TRUE, no heuristic; k = 0 with at most 3 rows and more than 87381 columns is the non-terminating case"
 },
 "C85": {
  "note": "as C82; a matrix that is not square stops at an assert"
 },
 "C86": {
  "note": "rows are arrays of their own (no memory blocks, no padding); the case of matrices split into several blocks (_mzd_transpose_multiblock) is not modelled; junk is the content of the uninitialised array"
 },
 "C87": {
  "note": "the portable version of parity.h"
 },
 "C88": {
  "note": "rows are arrays of their own (no memory blocks, no padding); the cache-dependent table size is a parameter; one table block (B small enough for one block)"
 },
 "C89": {
  "note": "rows are arrays of their own (no memory blocks, no padding); target NULL, i.e. a new matrix"
 },
 "C90": {
  "note": "rows are arrays of their own (no memory blocks, no padding)"
 },
 "C91": {
  "note": "rows are arrays of their own (no memory blocks, no padding); singular_refuted is a witness against the expectation that failure is signalled"
 },
 "C92": {
  "note": "rows are arrays of their own (no memory blocks, no padding)"
 },
 "C93": {
  "note": "rows are arrays of their own (no memory blocks, no padding); the _refuted theorems are witnesses against the expectations for other sizes and values"
 },
 "C94": {
  "note": "rows are arrays of their own (no memory blocks, no padding); uninitialised stack arrays have the same content at every call"
 },
 "C95": {
  "note": "rows are arrays of their own (no memory blocks, no padding); the destination is not an operand (see C98)"
 },
 "C96": {
  "note": "rows are arrays of their own (no memory blocks, no padding); uint32_t is stored in little-endian order"
 },
 "C97": {
  "note": "rows are arrays of their own (no memory blocks, no padding); the loop has a bound on its rounds as parameter, random() is an arbitrary sequence"
 },
 "C98": {
  "note": "a memory of matrices in which addresses are not used again"
 },
 "C99": {
  "note": "matrices are values (no freeing); loops of the random generation have a bound on their rounds as parameter, random() is an arbitrary sequence"
 },
 "C100": {
  "note": "matrices are values (no freeing); signed left shifts are taken to wrap except in the theorem on ISO C; the loops of the random generation have a bound on their rounds as parameter, random() is an arbitrary sequence; a bug (second call) is shown by a refutation"
 },
 "C101": {
  "note": "the extraction function is the one of C56 for the first round"
 },
 "C102": {
  "note": "NTL is not in the repository: determinant and inverse are arbitrary functions with hypothesis ntl_ok (determinant 1 iff invertible, inv gives a two-sided inverse), satisfied by an example; random bits are an arbitrary sequence; a bound on the rounds of the rejection loops is a parameter"
 },
 "C103": {
  "note": "NTL is not in the repository: determinant and inverse are arbitrary functions with hypothesis ntl_ok (determinant 1 iff invertible, inv gives a two-sided inverse), satisfied by an example; random bits are an arbitrary sequence; signed left shifts wrap (C++14 and later); a bug (second call) is shown by a refutation"
 },
 "C104": {
  "note": "NTL is not in the repository: determinant and inverse are arbitrary functions with hypothesis ntl_ok (determinant 1 iff invertible, inv gives a two-sided inverse), satisfied by an example; random bits are an arbitrary sequence; the extraction function is the one of C56 for the first round"
 },
 "C105": {
  "note": "NTL is not in the repository: determinant and inverse are arbitrary functions with hypothesis ntl_ok (determinant 1 iff invertible, inv gives a two-sided inverse), satisfied by an example; random bits are an arbitrary sequence; the non-termination in dimensions 1 and 2 is shown as: no bound on the rounds is enough"
 },
 "C106": {
  "note": "NTL is not in the repository: determinant and inverse are arbitrary functions with hypothesis ntl_ok (determinant 1 iff invertible, inv gives a two-sided inverse), satisfied by an example; random bits are an arbitrary sequence"
 },
 "C107": {
  "note": "NTL is not in the repository: determinant and inverse are arbitrary functions with hypothesis ntl_ok (determinant 1 iff invertible, inv gives a two-sided inverse), satisfied by an example; random bits are an arbitrary sequence; an NTL error (index out of range, wrong dimensions) counts as undefined"
 },
 "C108": {
  "note": "floats are exact rationals, a division by zero stops the computation; that every invertible matrix is inverted is refuted"
 },
 "C109": {
  "note": "floats are exact rationals, a division by zero stops the computation; that every invertible matrix is inverted is refuted, for the benchmark's own matrix too"
 },
 "C110": {
  "note": "floats are exact rationals, a division by zero stops the computation; order 1 is refuted"
 },
 "C111": {
  "note": "floats are exact rationals, a division by zero stops the computation; order 1 is refuted"
 },
 "C112": {
  "note": "floats are exact rationals, a division by zero stops the computation; int overflow is undefined; order 1 is refuted"
 },
 "C113": {
  "note": "rand() is an arbitrary sequence of non-negative numbers; invertibility for n = 3 is refuted by a concrete sequence"
 },
 "C114": {
  "note": "addresses are integers; the system's allocator is any function that returns separate regions and does not fail; one thread; size 0 is refuted"
 },
 "C115": {
  "note": "addresses are integers; the system's allocator is any function that returns separate regions and does not fail; one thread"
 },
 "C116": {
  "note": "addresses are integers; the system's allocator is any function that returns separate regions and does not fail; one thread; mzd_row for matrices of 2^31 words or more is refuted"
 },
 "C117": {
  "note": "addresses are integers; the system's allocator is any function that returns separate regions and does not fail; one thread; mzd_remaining_rows_in_block on windows inside a block, and windows on matrices without columns, are refuted"
 },
 "C118": {
  "note": "windows are copies of their words that are written back; C overlaps neither A nor B; matrices of one memory block; sizes 86 to 127 with cutoffs 1 to 127 are C120"
 },
 "C119": {
  "note": "windows are copies of their words that are written back; C overlaps neither A nor B; matrices of one memory block; sizes 86 to 127 with cutoffs 1 to 127 are excluded, see C120 The condition on the cutoff is exact: C120_addmul."
 },
 "C120": {
  "note": "windows are copies of their words that are written back; C overlaps neither A nor B; matrices of one memory block; the claim that every cutoff works is refuted"
 },
 "C121": {
  "note": "chars are bit patterns; the functions are the same in the three variants"
 },
 "C122": {
  "note": "windows are copies of their words that are written back; B does not overlap the triangular matrix; matrices of one memory block; the size of the tables that floating point arithmetic gives is arbitrary"
 },
 "C123": {
  "note": "windows are copies of their words that are written back; B does not overlap the triangular matrix; matrices of one memory block; the size of the tables that floating point arithmetic gives is arbitrary; cutoffs 1 to 63, which reach the Strassen product without being rounded, are not covered"
 },
 "C124": {
  "note": "row_swap as in C89; matrices of one memory block"
 },
 "C125": {
  "note": "matrices of one memory block; blocks of rows are left out where rows are independent; the statement for short permutations is C125_right_short and C125_right_short_refuted"
 },
 "C126": {
  "note": "windows are copies of their words that are written back; matrices of one memory block"
 },
 "C127": {
  "note": "windows are copies of their words that are written back; matrices of one memory block; the factorisation is any that satisfies pluq_of, and that of _mzd_pluq_naive (C127_naive); what _mzd_solve_left calls for it (mzd_pluq) is not part of this property"
 },
 "C128": {
  "note": "windows are copies of their words that are written back; matrices of one memory block; the factorisation as in C127"
 },
 "C129": {
  "note": "windows are copies of their words that are written back; matrices of one memory block"
 },
 "C130": {
  "note": "windows are copies of their words that are written back; matrices of one memory block"
 },
 "C131": {
  "note": "windows are copies of their words that are written back; matrices of one memory block; _mzd_ple_russian is a parameter of the model with the hypothesis factorises, which C131_base shows for _mzd_ple_naive"
 },
 "C132": {
  "note": "windows are copies of their words that are written back; matrices of one memory block; _mzd_ple_russian is a parameter of the model with the hypothesis factorises, which C131_base shows for _mzd_ple_naive"
 },
 "C133": {
  "note": "windows are copies of their words that are written back; matrices of one memory block; _mzd_ple_russian is a parameter of the model with the hypothesis factorises, which C131_base shows for _mzd_ple_naive"
 },
 "C134": {
  "note": "windows are copies of their words that are written back; matrices of one memory block"
 },
 "C135": {
  "note": "windows are copies of their words that are written back; matrices of one memory block; for more columns see C139"
 },
 "C136": {
  "note": "false: C136_trtri_refuted, a 70 x 70 matrix for which the last row of a table is read beyond the memory of the table"
 },
 "C137": {
  "note": "square matrices, k = 0 as in the calls of the library; the word read behind a table (C136) is a parameter"
 },
 "C138": {
  "note": "windows are copies of their words that are written back; matrices of one memory block; the word read behind a table (C136) is a parameter"
 },
 "C139": {
  "note": "windows are copies of their words that are written back; matrices of one memory block; the word read behind a table (C136) is a parameter; C139_diagonal_refuted is a witness against the expectation that the diagonal is not read"
 }
}