{
 "claims": [
  {
   "property": "C01",
   "status": "proved",
   "theorems": [
    "C01_MatMulMat"
   ],
   "note": ""
  },
  {
   "property": "C02",
   "status": "proved",
   "theorems": [
    "C02_MatMulVec",
    "C02_MatMulNum"
   ],
   "note": ""
  },
  {
   "property": "C03",
   "status": "proved",
   "theorems": [
    "C03_Mattrans",
    "C03_involution"
   ],
   "note": ""
  },
  {
   "property": "C04",
   "status": "proved",
   "theorems": [
    "C04_isinvert"
   ],
   "note": ""
  },
  {
   "property": "C05",
   "status": "proved",
   "theorems": [
    "C05_invs",
    "C05_invs_products"
   ],
   "note": ""
  },
  {
   "property": "C06",
   "status": "proved",
   "theorems": [
    "C06_invs_singular"
   ],
   "note": ""
  },
  {
   "property": "C07",
   "status": "proved",
   "theorems": [
    "C07_genMatpair"
   ],
   "note": ""
  },
  {
   "property": "C08",
   "status": "proved",
   "theorems": [
    "C08_trail"
   ],
   "note": ""
  },
  {
   "property": "C09",
   "status": "proved",
   "theorems": [
    "C09_keeps_draw"
   ],
   "note": ""
  },
  {
   "property": "C10",
   "status": "proved",
   "theorems": [
    "C10_genaffinepair"
   ],
   "note": ""
  },
  {
   "property": "C11",
   "status": "proved",
   "theorems": [
    "C11_affinemix"
   ],
   "note": ""
  },
  {
   "property": "C12",
   "status": "proved",
   "theorems": [
    "C12_Matrixcom"
   ],
   "note": ""
  },
  {
   "property": "C13",
   "status": "proved",
   "theorems": [
    "C13_affinecom"
   ],
   "note": ""
  },
  {
   "property": "C14",
   "status": "proved",
   "theorems": [
    "C14_invertible_iff",
    "C14_inverse"
   ],
   "note": ""
  },
  {
   "property": "C15",
   "status": "proved",
   "theorems": [
    "C15_readbit",
    "C15_flipbit",
    "C15_setbit"
   ],
   "note": ""
  },
  {
   "property": "C16",
   "status": "proved",
   "theorems": [
    "C16_defined_iff"
   ],
   "note": ""
  },
  {
   "property": "C17",
   "status": "proved",
   "theorems": [
    "C17_isequalM",
    "C17_isequalM_bits"
   ],
   "note": ""
  },
  {
   "property": "C18",
   "status": "proved",
   "theorems": [
    "C18_isequalV",
    "C18_isequalV256",
    "C18_isequalV256_refuted"
   ],
   "note": "Exact for all widths but 256 bits; isequalV256 compares two of four elements, so the property is refuted there (C18_isequalV256_refuted) and its behaviour characterised."
  },
  {
   "property": "C19",
   "status": "proved",
   "theorems": [
    "C19_xorU"
   ],
   "note": ""
  },
  {
   "property": "C20",
   "status": "proved",
   "theorems": [
    "C20_HWU"
   ],
   "note": "HWU256 is declared in the header but not defined in the source, hence w <> W256."
  },
  {
   "property": "C21",
   "status": "proved",
   "theorems": [
    "C21_mul_assoc",
    "C21_distributive",
    "C21_identity_zero",
    "C21_vectors"
   ],
   "note": ""
  },
  {
   "property": "C22",
   "status": "proved",
   "theorems": [
    "C22_trans_mul"
   ],
   "note": ""
  },
  {
   "property": "C23",
   "status": "proved",
   "theorems": [
    "C23_isinvert_mul",
    "C23_isinvert_trans",
    "C23_invs_laws"
   ],
   "note": ""
  },
  {
   "property": "C24",
   "status": "proved",
   "theorems": [
    "C24_matrices",
    "C24_vectors"
   ],
   "note": ""
  },
  {
   "property": "C25",
   "status": "proved",
   "theorems": [
    "C25_high_nibble_refuted",
    "C25_ignored"
   ],
   "note": "The expectation is false: refuted with witnesses; the functions that do ignore the unused bits are proved to do so."
  },
  {
   "property": "C26",
   "status": "proved",
   "theorems": [
    "C26_permuteQPR"
   ],
   "note": ""
  },
  {
   "property": "C27",
   "status": "proved",
   "theorems": [
    "C27_no_repetition",
    "C27_full_period"
   ],
   "note": ""
  },
  {
   "property": "C28",
   "status": "proved",
   "theorems": [
    "C28_distinct_rows"
   ],
   "note": ""
  },
  {
   "property": "C29",
   "status": "proved",
   "theorems": [
    "C29_reproducible",
    "C29_SetRandSeed"
   ],
   "note": "For randV the hypothesis w <> W64 is needed: see C30. genaffinepair64 is covered because genMatpair reseeds first."
  },
  {
   "property": "C30",
   "status": "proved",
   "theorems": [
    "C30_randV64",
    "C30_randV64_refuted"
   ],
   "note": "The reproducibility expectation is refuted for randV64 (C30_randV64_refuted); the seed independence and the constant are proved."
  },
  {
   "property": "C31",
   "status": "proved",
   "theorems": [
    "C31_rand_range"
   ],
   "note": ""
  },
  {
   "property": "C32",
   "status": "proved",
   "theorems": [
    "C32_constructors"
   ],
   "note": ""
  },
  {
   "property": "C33",
   "status": "proved",
   "theorems": [
    "C33_matrices",
    "C33_vectors",
    "C33_concatenation"
   ],
   "note": ""
  },
  {
   "property": "C34",
   "status": "proved",
   "theorems": [
    "C34_printbit"
   ],
   "note": "printbitM256 does not exist in C; the theorem covers it as the evident continuation."
  },
  {
   "property": "C35",
   "status": "proved",
   "theorems": [
    "C35_printM",
    "C35_printV",
    "C35_injective"
   ],
   "note": ""
  },
  {
   "property": "C36",
   "status": "proved",
   "theorems": [
    "C36_printU64_printU128_refuted",
    "C36_others"
   ],
   "note": "printU64/printU128 proved undefined for every argument; the other four print the value."
  },
  {
   "property": "C37",
   "status": "proved",
   "theorems": [
    "C37_big_endian",
    "C37_block_diagonal_refuted",
    "C37_byte_order_free"
   ],
   "note": "Positive description of the big-endian layout, refutation of block-diagonality, byte-order independence of the rest."
  },
  {
   "property": "C38",
   "status": "proved",
   "theorems": [
    "C38_same_buffer",
    "C38_same_buffer_refuted",
    "C38_same_affine_refuted"
   ],
   "note": "In-place call characterised (drawn matrix or identity) and refuted as inverse pair for every width; also genaffinepair."
  },
  {
   "property": "C39",
   "status": "proved",
   "theorems": [
    "C39_overlap"
   ],
   "note": ""
  },
  {
   "property": "C40",
   "status": "proved",
   "theorems": [
    "C40_difference",
    "C40_bijective"
   ],
   "note": ""
  },
  {
   "property": "C41",
   "status": "proved",
   "theorems": [
    "C41_wbsm4"
   ],
   "note": "Little-endian platform (affinecomM8to32 has another layout on big-endian ones, see C37). Covers table generation (wbsm4_gen.c), the key schedule and encryption (test/main.c), with the older library copy of the example."
  },
  {
   "property": "C42",
   "status": "proved",
   "theorems": [
    "C42_round_keys",
    "C42_wbaes"
   ],
   "note": "Both byte orders. Signed left shifts are taken to wrap (see C55). Covers genTables.c (computeTables, the encryption by tables) and expandKey of aes.c; the unused parts of the tables are covered too."
  },
  {
   "property": "C43",
   "status": "proved",
   "theorems": [
    "C43_buffer",
    "C43_tables",
    "C43_second_call_refuted"
   ],
   "note": "Full description: after n calls each of the first ten round keys is rotated n times by ShiftRows, call n+1 makes tables for AES with those round keys; witness of a wrong ciphertext in C43_second_call_refuted."
  },
  {
   "property": "C44",
   "status": "proved",
   "theorems": [
    "C44_reverse_gauss",
    "C44_reverse_gauss_overflow_refuted",
    "C44_rejection",
    "C44_rejection_pair",
    "C44_rejection_ends_refuted"
   ],
   "note": "Reverse Gauss: invertible unless the int counter randseed overflows (undefined). Rejection: first invertible draw; a clock on which it never ends exists for every width."
  },
  {
   "property": "C45",
   "status": "proved",
   "theorems": [
    "C45_small",
    "C45_flat",
    "C45_uninitialised_refuted",
    "C45_memory_dependence",
    "C45_out_of_row_refuted"
   ],
   "note": "Proved for one word to a row with unwritten locals undefined; for 128/256 bits refuted (uninitialised reads; M[i][4] of a four-word row), and proved invertible under the flat reading with arbitrary memory content."
  },
  {
   "property": "C46",
   "status": "proved",
   "theorems": [
    "C46_same_second"
   ],
   "note": ""
  },
  {
   "property": "C47",
   "status": "proved",
   "theorems": [
    "C47_sm4_block"
   ],
   "note": "Specification SpecSM4.v written from the standard, S-box computed by field inversion; the standard's example is checked in C47_ex."
  },
  {
   "property": "C48",
   "status": "proved",
   "theorems": [
    "C48_sm4_inverse"
   ],
   "note": ""
  },
  {
   "property": "C49",
   "status": "proved",
   "theorems": [
    "C49_ecb",
    "C49_cbc_enc",
    "C49_cbc_dec",
    "C49_cbc_roundtrip",
    "C49_cbc_pieces"
   ],
   "note": ""
  },
  {
   "property": "C50",
   "status": "proved",
   "theorems": [
    "C50_in_place"
   ],
   "note": ""
  },
  {
   "property": "C51",
   "status": "proved",
   "theorems": [
    "C51_length"
   ],
   "note": ""
  },
  {
   "property": "C52",
   "status": "proved",
   "theorems": [
    "C52_expandKey"
   ],
   "note": ""
  },
  {
   "property": "C53",
   "status": "proved",
   "theorems": [
    "C53_aes_encrypt"
   ],
   "note": "The key is a local array of zeros in the C function; the expected property \"encrypts under the caller's key\" cannot be stated since there is no key argument."
  },
  {
   "property": "C54",
   "status": "proved",
   "theorems": [
    "C54_sbox"
   ],
   "note": ""
  },
  {
   "property": "C55",
   "status": "proved",
   "theorems": [
    "C55_strict"
   ],
   "note": "Negative result about the ISO C reading of the signed shifts."
  },
  {
   "property": "C56",
   "status": "proved",
   "theorems": [
    "C56_key_in_tables",
    "C56_last_round"
   ],
   "note": "Negative security result: one extraction function that works for all keys and all random choices."
  },
  {
   "property": "C57",
   "status": "proved",
   "theorems": [
    "C57_mixColumns"
   ],
   "note": ""
  },
  {
   "property": "C58",
   "status": "proved",
   "theorems": [
    "C58_tables",
    "C58_InvTMat",
    "C58_InvSMat",
    "C58_Matrixpair",
    "C58_seed"
   ],
   "note": "rand() values are an arbitrary sequence; the tables are transcribed from the file"
  },
  {
   "property": "C59",
   "status": "proved",
   "theorems": [
    "C59_InvTMat128",
    "C59_InvSMat128",
    "C59_Matrixpair128",
    "C59_tables",
    "C59_invertible_refuted"
   ],
   "note": "finding: the 128-bit tables hold singular matrices; characterisation for all draws, and a refutation of the comment's claim"
  },
  {
   "property": "C60",
   "status": "proved",
   "theorems": [
    "C60_terminates",
    "C60_stream"
   ],
   "note": "the static state variable is a parameter (0 at program start); bitset<80> is an 80-bit number"
  },
  {
   "property": "C61",
   "status": "proved",
   "theorems": [
    "C61_matrix",
    "C61_reject"
   ],
   "note": "the uninitialised local is an arbitrary fixed memory content"
  },
  {
   "property": "C62",
   "status": "proved",
   "theorems": [
    "C62_isinvert",
    "C62_stuck",
    "C62_result"
   ],
   "note": "finding: the program hangs for some contents of the stack; the uninitialised local is an arbitrary fixed memory content"
  },
  {
   "property": "C63",
   "status": "proved",
   "theorems": [
    "C63_all_pass",
    "C63_big_endian"
   ],
   "note": "the macro TEST is a parameter; uninitialised locals are arbitrary memory of the right type; finding: fails on big-endian machines"
  },
  {
   "property": "C64",
   "status": "proved",
   "theorems": [
    "C64_randM_count",
    "C64_genMatpair_count",
    "C64_genaffinepair_count",
    "C64_missing"
   ],
   "note": "finding: 32 bits of entropy whatever the width; counts over all worlds (processes, clocks, seeds, generator states)"
  },
  {
   "property": "C65",
   "status": "proved",
   "theorems": [
    "C65_rank",
    "C65_full",
    "C65_tall",
    "C65_wide_refuted",
    "C65_computeRank_refuted"
   ],
   "note": "positive for square matrices, which is how the suite calls it; findings: rank for M > Q and computeRank refuted with witnesses"
  },
  {
   "property": "C66",
   "status": "proved",
   "theorems": [
    "C66_counts",
    "C66_chisq",
    "C66_fail",
    "C66_genMatpair"
   ],
   "note": "finding. Probabilities are exact rationals, the exponential is that of Coq's real numbers (standard library axioms of Reals listed in DESIGN.md); floating point is not modelled. The result agrees with the reports WBMatrix_32bits.txt and WBMatrix_32bits_inv.txt in the repository. C66_chisq is without axioms."
  },
  {
   "property": "C67",
   "status": "proved",
   "theorems": [
    "C67_berlekamp_massey",
    "C67_polynomial_refuted",
    "C67_empty",
    "C67_blocks"
   ],
   "note": "finding: the returned polynomial lacks its last coefficient; the suite only uses the length"
  },
  {
   "property": "C68",
   "status": "proved",
   "theorems": [
    "C68_count",
    "C68_class",
    "C68_pi"
   ],
   "note": "mean and classes with rational numbers instead of floating point; the p-value is not modelled"
  },
  {
   "property": "C69",
   "status": "proved",
   "theorems": [
    "C69_probability",
    "C69_invertible"
   ],
   "note": "rational numbers instead of floating point"
  },
  {
   "property": "C70",
   "status": "proved",
   "theorems": [
    "C70_runs",
    "C70_constant_refuted"
   ],
   "note": "the comparison with 2/sqrt(n) is squared; p-value not modelled; finding: constant sequences of at most 16 bits raise ZeroDivisionError"
  },
  {
   "property": "C71",
   "status": "proved",
   "theorems": [
    "C71_table",
    "C71_params",
    "C71_probs",
    "C71_probs_refuted"
   ],
   "note": "finding: the table for blocks of 10000 bits is off in the third digit; p-value not modelled"
  },
  {
   "property": "C72",
   "status": "proved",
   "theorems": [
    "C72_cusum",
    "C72_empty"
   ],
   "note": "p_value is modelled only as far as the division by z"
  },
  {
   "property": "C73",
   "status": "proved",
   "theorems": [
    "C73_cycles",
    "C73_table",
    "C73_variant",
    "C73_probabilities"
   ],
   "note": "chi-square and p-values not modelled; a walk that ends at 0 gets an extra cycle 0, 0 (as the text of the standard says)"
  },
  {
   "property": "C74",
   "status": "proved",
   "theorems": [
    "C74_table",
    "C74_count",
    "C74_last_refuted",
    "C74_mean",
    "C74_overlapping"
   ],
   "note": "finding: the last position of each block is not searched"
  },
  {
   "property": "C75",
   "status": "proved",
   "theorems": [
    "C75_chisq",
    "C75_pass",
    "C75_zeros_refuted"
   ],
   "note": "finding: sigma is the variance and is squared again; rounding is not modelled"
  },
  {
   "property": "C76",
   "status": "proved",
   "theorems": [
    "C76_serial"
   ],
   "note": "exact rational arithmetic; p-values in C80"
  },
  {
   "property": "C77",
   "status": "proved",
   "theorems": [
    "C77_distance",
    "C77_length"
   ],
   "note": "logarithms, mean and p-value not modelled"
  },
  {
   "property": "C78",
   "status": "proved",
   "theorems": [
    "C78_frequency",
    "C78_balanced_refuted"
   ],
   "note": "finding: balanced sequences fail or raise ZeroDivisionError"
  },
  {
   "property": "C79",
   "status": "proved",
   "theorems": [
    "C79_apen",
    "C79_m"
   ],
   "note": "over the real numbers; rounding not modelled"
  },
  {
   "property": "C80",
   "status": "proved",
   "theorems": [
    "C80_gammaincc",
    "C80_unique",
    "C80_zero_refuted",
    "C80_half_refuted",
    "C80_serial_refuted"
   ],
   "note": "over the real numbers; rounding not modelled; non-integer a only at x = 0"
  },
  {
   "property": "C81",
   "status": "proved",
   "theorems": [
    "C81_gray_codebook"
   ],
   "note": ""
  },
  {
   "property": "C82",
   "status": "proved",
   "theorems": [
    "C82_make_table"
   ],
   "note": "memory blocks and padding of rows are not modelled: a row is an array of its own"
  },
  {
   "property": "C83",
   "status": "proved",
   "theorems": [
    "C83_echelonize_naive",
    "C83_is_invertible",
    "C83_empty"
   ],
   "note": "as C82"
  },
  {
   "property": "C84",
   "status": "proved",
   "theorems": [
    "C84_echelonize_m4ri",
    "C84_forever"
   ],
   "note": "as C82; full = TRUE, no heuristic; k = 0 with at most 3 rows and more than 87381 columns is the non-terminating case"
  },
  {
   "property": "C85",
   "status": "proved",
   "theorems": [
    "C85_inverse",
    "C85_singular_refuted"
   ],
   "note": "as C82; a matrix that is not square stops at an assert"
  },
  {
   "property": "C86",
   "status": "proved",
   "theorems": [
    "C86_transpose",
    "C86_empty"
   ],
   "note": "rows are arrays of their own (no memory blocks, no padding); the case of matrices split into several blocks (_mzd_transpose_multiblock) is not modelled; junk is the content of the uninitialised array"
  },
  {
   "property": "C87",
   "status": "proved",
   "theorems": [
    "C87_parity64"
   ],
   "note": "the portable version of parity.h"
  },
  {
   "property": "C88",
   "status": "proved",
   "theorems": [
    "C88_mul_m4rm",
    "C88_mul_naive",
    "C88_agree"
   ],
   "note": "rows are arrays of their own (no memory blocks, no padding); the cache-dependent table size is a parameter; one table block (B small enough for one block)"
  },
  {
   "property": "C89",
   "status": "proved",
   "theorems": [
    "C89_add",
    "C89_concat",
    "C89_stack",
    "C89_submatrix",
    "C89_submatrix_undefined"
   ],
   "note": "rows are arrays of their own (no memory blocks, no padding); target NULL, i.e. a new matrix"
  },
  {
   "property": "C90",
   "status": "proved",
   "theorems": [
    "C90_cmp",
    "C90_cmp_sizes",
    "C90_equal",
    "C90_is_zero"
   ],
   "note": "rows are arrays of their own (no memory blocks, no padding)"
  },
  {
   "property": "C91",
   "status": "proved",
   "theorems": [
    "C91_invert_naive",
    "C91_singular_refuted"
   ],
   "note": "rows are arrays of their own (no memory blocks, no padding); singular_refuted is a witness against the expectation that failure is signalled"
  },
  {
   "property": "C92",
   "status": "proved",
   "theorems": [
    "C92_vector",
    "C92_vector64",
    "C92_vector128",
    "C92_digits"
   ],
   "note": "rows are arrays of their own (no memory blocks, no padding)"
  },
  {
   "property": "C93",
   "status": "proved",
   "theorems": [
    "C93_bit_array",
    "C93_values_square",
    "C93_values_refuted",
    "C93_values_outside_refuted",
    "C93_negative_refuted",
    "C93_header_example_refuted",
    "C93_identity"
   ],
   "note": "rows are arrays of their own (no memory blocks, no padding); the _refuted theorems are witnesses against the expectations for other sizes and values"
  },
  {
   "property": "C94",
   "status": "proved",
   "theorems": [
    "C94_apply",
    "C94_apply64",
    "C94_apply128",
    "C94_add",
    "C94_add64",
    "C94_add128",
    "C94_gen_add",
    "C94_affine",
    "C94_affine32",
    "C94_affine_vector"
   ],
   "note": "rows are arrays of their own (no memory blocks, no padding); uninitialised stack arrays have the same content at every call"
  },
  {
   "property": "C95",
   "status": "proved",
   "theorems": [
    "C95_diag",
    "C95_wide_refuted"
   ],
   "note": "rows are arrays of their own (no memory blocks, no padding); the destination is not an operand (see C98)"
  },
  {
   "property": "C96",
   "status": "proved",
   "theorems": [
    "C96_export",
    "C96_import",
    "C96_affine"
   ],
   "note": "rows are arrays of their own (no memory blocks, no padding); uint32_t is stored in little-endian order"
  },
  {
   "property": "C97",
   "status": "proved",
   "theorems": [
    "C97_invertible",
    "C97_not_square",
    "C97_affine",
    "C97_numbers",
    "C97_ends"
   ],
   "note": "rows are arrays of their own (no memory blocks, no padding); the loop has a bound on its rounds as parameter, random() is an arbitrary sequence"
  },
  {
   "property": "C98",
   "status": "proved",
   "theorems": [
    "C98_mul",
    "C98_add",
    "C98_inv",
    "C98_other",
    "C98_diag",
    "C98_copy"
   ],
   "note": "a memory of matrices in which addresses are not used again"
  },
  {
   "property": "C99",
   "status": "proved",
   "theorems": [
    "C99_wbsm4_m4ri"
   ],
   "note": "matrices are values (no freeing); loops of the random generation have a bound on their rounds as parameter, random() is an arbitrary sequence"
  },
  {
   "property": "C100",
   "status": "proved",
   "theorems": [
    "C100_round_keys",
    "C100_wbaes_m4ri",
    "C100_second_call_refuted",
    "C100_strict"
   ],
   "note": "matrices are values (no freeing); signed left shifts are taken to wrap except in the theorem on ISO C; the loops of the random generation have a bound on their rounds as parameter, random() is an arbitrary sequence; a bug (second call) is shown by a refutation"
  },
  {
   "property": "C101",
   "status": "proved",
   "theorems": [
    "C101_key_in_tables"
   ],
   "note": "the extraction function is the one of C56 for the first round"
  },
  {
   "property": "C102",
   "status": "proved",
   "theorems": [
    "C102_wbsm4_ntl",
    "C102_ends"
   ],
   "note": "NTL is not in the repository: determinant and inverse are arbitrary functions with hypothesis ntl_ok (determinant 1 iff invertible, inv gives a two-sided inverse), satisfied by an example; random bits are an arbitrary sequence; a bound on the rounds of the rejection loops is a parameter"
  },
  {
   "property": "C103",
   "status": "proved",
   "theorems": [
    "C103_round_keys",
    "C103_wbaes_ntl",
    "C103_ends",
    "C103_second_call_refuted"
   ],
   "note": "NTL is not in the repository: determinant and inverse are arbitrary functions with hypothesis ntl_ok (determinant 1 iff invertible, inv gives a two-sided inverse), satisfied by an example; random bits are an arbitrary sequence; signed left shifts wrap (C++14 and later); a bug (second call) is shown by a refutation"
  },
  {
   "property": "C104",
   "status": "proved",
   "theorems": [
    "C104_key_in_tables"
   ],
   "note": "NTL is not in the repository: determinant and inverse are arbitrary functions with hypothesis ntl_ok (determinant 1 iff invertible, inv gives a two-sided inverse), satisfied by an example; random bits are an arbitrary sequence; the extraction function is the one of C56 for the first round"
  },
  {
   "property": "C105",
   "status": "proved",
   "theorems": [
    "C105_init",
    "C105_ends",
    "C105_any",
    "C105_InvTMat",
    "C105_genInv",
    "C105_small_refuted",
    "C105_dimensions"
   ],
   "note": "NTL is not in the repository: determinant and inverse are arbitrary functions with hypothesis ntl_ok (determinant 1 iff invertible, inv gives a two-sided inverse), satisfied by an example; random bits are an arbitrary sequence; the non-termination in dimensions 1 and 2 is shown as: no bound on the rounds is enough"
  },
  {
   "property": "C106",
   "status": "proved",
   "theorems": [
    "C106_affine",
    "C106_augmented"
   ],
   "note": "NTL is not in the repository: determinant and inverse are arbitrary functions with hypothesis ntl_ok (determinant 1 iff invertible, inv gives a two-sided inverse), satisfied by an example; random bits are an arbitrary sequence"
  },
  {
   "property": "C107",
   "status": "proved",
   "theorems": [
    "C107_vectors",
    "C107_numbers",
    "C107_apply",
    "C107_diagonal",
    "C107_constants"
   ],
   "note": "NTL is not in the repository: determinant and inverse are arbitrary functions with hypothesis ntl_ok (determinant 1 iff invertible, inv gives a two-sided inverse), satisfied by an example; random bits are an arbitrary sequence; an NTL error (index out of range, wrong dimensions) counts as undefined"
  },
  {
   "property": "C108",
   "status": "proved",
   "theorems": [
    "C108_inverse",
    "C108_singular",
    "C108_again",
    "C108_pivot_refuted",
    "C108_bits_refuted"
   ],
   "note": "floats are exact rationals, a division by zero stops the computation; that every invertible matrix is inverted is refuted"
  },
  {
   "property": "C109",
   "status": "proved",
   "theorems": [
    "C109_inverse",
    "C109_singular",
    "C109_repeat",
    "C109_columns_refuted",
    "C109_truncation_refuted",
    "C109_benchmark_refuted"
   ],
   "note": "floats are exact rationals, a division by zero stops the computation; that every invertible matrix is inverted is refuted, for the benchmark's own matrix too"
  },
  {
   "property": "C110",
   "status": "proved",
   "theorems": [
    "C110_inverse",
    "C110_det",
    "C110_one",
    "C110_one_refuted"
   ],
   "note": "floats are exact rationals, a division by zero stops the computation; order 1 is refuted"
  },
  {
   "property": "C111",
   "status": "proved",
   "theorems": [
    "C111_inverse",
    "C111_product",
    "C111_mismatch",
    "C111_one_refuted"
   ],
   "note": "floats are exact rationals, a division by zero stops the computation; order 1 is refuted"
  },
  {
   "property": "C112",
   "status": "proved",
   "theorems": [
    "C112_inverse",
    "C112_total",
    "C112_singular",
    "C112_benchmark",
    "C112_one_refuted"
   ],
   "note": "floats are exact rationals, a division by zero stops the computation; int overflow is undefined; order 1 is refuted"
  },
  {
   "property": "C113",
   "status": "proved",
   "theorems": [
    "C113_range",
    "C113_two",
    "C113_invertible_refuted",
    "C113_uninitialised",
    "C113_one"
   ],
   "note": "rand() is an arbitrary sequence of non-negative numbers; invertibility for n = 3 is refuted by a concrete sequence"
  },
  {
   "property": "C114",
   "status": "proved",
   "theorems": [
    "C114_cache",
    "C114_zero_refuted"
   ],
   "note": "addresses are integers; the system's allocator is any function that returns separate regions and does not fail; one thread; size 0 is refuted"
  },
  {
   "property": "C115",
   "status": "proved",
   "theorems": [
    "C115_log2",
    "C115_headers"
   ],
   "note": "addresses are integers; the system's allocator is any function that returns separate regions and does not fail; one thread"
  },
  {
   "property": "C116",
   "status": "proved",
   "theorems": [
    "C116_memory",
    "C116_layout",
    "C116_row_refuted"
   ],
   "note": "addresses are integers; the system's allocator is any function that returns separate regions and does not fail; one thread; mzd_row for matrices of 2^31 words or more is refuted"
  },
  {
   "property": "C117",
   "status": "proved",
   "theorems": [
    "C117_window",
    "C117_blocks",
    "C117_remaining_refuted",
    "C117_empty_refuted"
   ],
   "note": "addresses are integers; the system's allocator is any function that returns separate regions and does not fail; one thread; mzd_remaining_rows_in_block on windows inside a block, and windows on matrices without columns, are refuted"
  },
  {
   "property": "C118",
   "status": "proved",
   "theorems": [
    "C118_mul",
    "C118_sqr",
    "C118_agree"
   ],
   "note": "windows are copies of their words that are written back; C overlaps neither A nor B; matrices of one memory block; sizes 86 to 127 with cutoffs 1 to 127 are C120"
  },
  {
   "property": "C119",
   "status": "proved",
   "theorems": [
    "C119_addmul",
    "C119_addsqr"
   ],
   "note": "windows are copies of their words that are written back; C overlaps neither A nor B; matrices of one memory block; sizes 86 to 127 with cutoffs 1 to 127 are excluded, see C120 The condition on the cutoff is exact: C120_addmul."
  },
  {
   "property": "C120",
   "status": "proved",
   "theorems": [
    "C120_inner",
    "C120_addmul",
    "C120_columns",
    "C120_square",
    "C120_all_refuted"
   ],
   "note": "windows are copies of their words that are written back; C overlaps neither A nor B; matrices of one memory block; the claim that every cutoff works is refuted"
  },
  {
   "property": "C121",
   "status": "proved",
   "theorems": [
    "C121_round_trip",
    "C121_parse",
    "C121_digit"
   ],
   "note": "chars are bit patterns; the functions are the same in the three variants"
  },
  {
   "property": "C122",
   "status": "proved",
   "theorems": [
    "C122_lower"
   ],
   "note": "windows are copies of their words that are written back; B does not overlap the triangular matrix; matrices of one memory block; the size of the tables that floating point arithmetic gives is arbitrary"
  },
  {
   "property": "C123",
   "status": "proved",
   "theorems": [
    "C123_upper"
   ],
   "note": "windows are copies of their words that are written back; B does not overlap the triangular matrix; matrices of one memory block; the size of the tables that floating point arithmetic gives is arbitrary; cutoffs 1 to 63, which reach the Strassen product without being rounded, are not covered"
  },
  {
   "property": "C124",
   "status": "proved",
   "theorems": [
    "C124_left",
    "C124_left_trans",
    "C124_inverse"
   ],
   "note": "row_swap as in C89; matrices of one memory block"
  },
  {
   "property": "C125",
   "status": "proved",
   "theorems": [
    "C125_col_swap",
    "C125_col_swap_in_rows",
    "C125_right_trans",
    "C125_right",
    "C125_right_short",
    "C125_right_short_refuted",
    "C125_tri"
   ],
   "note": "matrices of one memory block; blocks of rows are left out where rows are independent; the statement for short permutations is C125_right_short and C125_right_short_refuted"
  },
  {
   "property": "C126",
   "status": "proved",
   "theorems": [
    "C126_pluq"
   ],
   "note": "windows are copies of their words that are written back; matrices of one memory block"
  },
  {
   "property": "C127",
   "status": "proved",
   "theorems": [
    "C127_solve",
    "C127_naive",
    "C127_rows_refuted"
   ],
   "note": "windows are copies of their words that are written back; matrices of one memory block; the factorisation is any that satisfies pluq_of, and that of _mzd_pluq_naive (C127_naive); what _mzd_solve_left calls for it (mzd_pluq) is not part of this property"
  },
  {
   "property": "C128",
   "status": "proved",
   "theorems": [
    "C128_kernel",
    "C128_naive"
   ],
   "note": "windows are copies of their words that are written back; matrices of one memory block; the factorisation as in C127"
  },
  {
   "property": "C129",
   "status": "proved",
   "theorems": [
    "C129_naive"
   ],
   "note": "windows are copies of their words that are written back; matrices of one memory block"
  },
  {
   "property": "C130",
   "status": "proved",
   "theorems": [
    "C130_first_zero_row",
    "C130_compress"
   ],
   "note": "windows are copies of their words that are written back; matrices of one memory block"
  },
  {
   "property": "C131",
   "status": "proved",
   "theorems": [
    "C131_ple",
    "C131_pluq",
    "C131_base"
   ],
   "note": "windows are copies of their words that are written back; matrices of one memory block; _mzd_ple_russian is a parameter of the model with the hypothesis factorises, which C131_base shows for _mzd_ple_naive"
  },
  {
   "property": "C132",
   "status": "proved",
   "theorems": [
    "C132_solve"
   ],
   "note": "windows are copies of their words that are written back; matrices of one memory block; _mzd_ple_russian is a parameter of the model with the hypothesis factorises, which C131_base shows for _mzd_ple_naive"
  },
  {
   "property": "C133",
   "status": "proved",
   "theorems": [
    "C133_kernel"
   ],
   "note": "windows are copies of their words that are written back; matrices of one memory block; _mzd_ple_russian is a parameter of the model with the hypothesis factorises, which C131_base shows for _mzd_ple_naive"
  },
  {
   "property": "C134",
   "status": "proved",
   "theorems": [
    "C134_lower_right"
   ],
   "note": "windows are copies of their words that are written back; matrices of one memory block"
  },
  {
   "property": "C135",
   "status": "proved",
   "theorems": [
    "C135_upper_right"
   ],
   "note": "windows are copies of their words that are written back; matrices of one memory block; for more columns see C139"
  },
  {
   "property": "C136",
   "status": "proved",
   "theorems": [
    "C136_trtri_refuted"
   ],
   "note": "false: C136_trtri_refuted, a 70 x 70 matrix for which the last row of a table is read beyond the memory of the table"
  },
  {
   "property": "C137",
   "status": "proved",
   "theorems": [
    "C137_trtri_russian"
   ],
   "note": "square matrices, k = 0 as in the calls of the library; the word read behind a table (C136) is a parameter"
  },
  {
   "property": "C138",
   "status": "proved",
   "theorems": [
    "C138_trtri"
   ],
   "note": "windows are copies of their words that are written back; matrices of one memory block; the word read behind a table (C136) is a parameter"
  },
  {
   "property": "C139",
   "status": "proved",
   "theorems": [
    "C139_upper_right",
    "C139_diagonal_refuted"
   ],
   "note": "windows are copies of their words that are written back; matrices of one memory block; the word read behind a table (C136) is a parameter; C139_diagonal_refuted is a witness against the expectation that the diagonal is not read"
  }
 ]
}