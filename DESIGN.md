# Formal model of WBMatrix: design

Target: Nexus-TYF/WBMatrix, C source in /repo. The code is read as text and is not
built or run. The model is written in Coq 8.16.1 (Gallina functions), the proofs are
ordinary Coq proofs that use the standard library only.

## 1. What is modelled and how

* **Undefined behaviour** is a separate outcome. Every modelled function returns
  `res A := Ok a | UB`. Array accesses out of bounds, `% 0`, signed overflow where it can
  happen, and printf calls whose argument type does not fit the conversion give `UB`. Each
  correctness theorem says "`exists` result, function = `Ok` result, and ...", so absence
  of these kinds of undefined behaviour is part of every theorem.
* **Values.** Words are `N`. C truncation is explicit (`mod 2^cbits`) at each shift,
  sum or conversion that can leave the type. A matrix is a list of rows, a row is a
  list of words (one word for widths 4..64, two or four 64-bit words for 128/256).
  `M4` rows are 8-bit words of which four bits are significant.
* **Widths.** The library repeats each function for seven widths. The repeated text is
  modelled once, as a function of the width (word bits, C type bits, words
  per row), and instantiated. `tools/check_templates.py` regenerates the C text of
  `isinvert`, `invs` and `genMatpair` for all seven widths from one template and
  compares it with the source (white space and comments removed); all 21 agree.
  Where the copies differ (readbit/flipbit if-chains, tails of the 128/256
  transposition, `isequalV256`, `randV64`, printing) each one is modelled by itself.
* **Loops** without an evident bound (rejection loops) take a number of rounds as fuel and
  return `None` when it is used up; the theorems quantify over the fuel. `C44` and `C62`
  also prove that some executions never end.
* **Pointers.** Output parameters: old content is an argument, new content is a
  result. Matrices are passed by value in C, hence no aliasing except for
  `genMatpair` (two output pointers), `affineU128` (arrays) and the SM4 modes; these get a
  separate model with aliasing (ModelAlias.v, ModelSM4.v).
* **Globals.** `randseed`, `m_index`, `m_intermediateOffset` and the clock are a
  `world` record threaded through. The clock is an arbitrary function from the call
  number to a value: theorems hold for every sequence of clock readings. `rand()` in
  BasisMatrixMethod_test.c is an arbitrary sequence of values.
* **Type punning** (`(uint8_t*)&word`) is modelled with an explicit endianness
  parameter. The accesses break the C aliasing rule for 16/32-bit views; the model
  gives them the obvious meaning (as with -fno-strict-aliasing). This is an assumption.
* **Locals without initial value** that the code reads before writing: in the reverse-LU
  generator (ModelGen.v) cells are `option N` and reading an unwritten one is `UB`; a second,
  "flat" model gives them arbitrary fixed content. In LowMCMethod_text.cpp (ModelLowMC.v) the
  local is an arbitrary fixed content; a strict reading of C++ makes already the first xor
  undefined.
* **printf.** The output is a string. `%llx` with a `uint64_t` argument is taken as
  matching (`uint64_t` is `unsigned long long` or has its representation); `%x` with a
  64-bit argument is `UB` (C36).
* **Python** (test/randomness): integers are unbounded, an exception is the outcome `UB`, lists
  are values. Floating point numbers are replaced by exact rationals or real numbers.
* **AES example: signed shifts.** `gMul(...) << 24` leaves the range of int. C55 and C100 prove that
  this is undefined in ISO C; the model used for C42, C57 and C100 takes the shift to wrap, as
  compilers do.

### Modelled code

| source | model |
|--------|-------|
| src/WBMatrix/WBMatrix.c (all functions except printing) and random.c | Model.v, Tables.v, ModelAlias.v |
| printing functions of WBMatrix.c | ModelPrint.v |
| test/RGEMethod_test.c, WBGEMethod_test.c, RLUDMethod_test.c (generators) | ModelGen.v |
| test/WBSM4/WBMatrix: src/sm4.c, src/wbsm4_gen.c, encryption in test/main.c | ModelSM4.v |
| test/WBAES/WBMatrix: src/aes.c, src/genTables.c | ModelAES.v |
| test/BasisMatrixMethod_test.c (tables, InvT, InvS, Trail, Matrixpair) | ModelBasis.v |
| test/LowMCMethod_text.cpp (getrandbit, RandbitMat, InvT) | ModelLowMC.v |
| test/Accuracy_test.c (main, the self test) | ModelAcc.v |
| test/randomness: gf2matrix.py, sp800_22_binary_matrix_rank_test.py, read_bits_from_file | ModelRank.v |
| test/randomness/sp800_22_linear_complexity_test.py (up to the tables v and pi; chi-square and p-value are not modelled) | ModelBM.v |
| test/randomness/sp800_22_{monobit,runs,longest_run_ones_in_a_block,cumulative_sums}_test.py: the statistics, not the p-values | ModelNist.v |
| test/randomness/sp800_22_{random_excursion,random_excursion_variant,non_overlapping_template_matching,overlapping_template_matching,serial,maurers_universal,frequency_within_block}_test.py: the statistics up to and including chisq, delta1, delta2, dist (for overlapping: the count of a block) | ModelNist2.v |
| test/randomness/sp800_22_approximate_entropy_test.py up to chisq (real numbers) | ModelNist3.v |
| test/randomness/gamma_functions.py: upper_incomplete_gamma, gammaincc (real numbers) | ModelGamma.v |
| test/github1_M4RI (the same files are in WBSM4/M4RI and WBAES/M4RI): of src/m4ri the functions behind echelon forms and inverse (mzd.c, graycode.c, brilliantrussian.c), IsMatGf2Invertible of src/matrixlib | ModelM4ri.v |
| same: transposition, parities, naive and Four Russians product, sum, comparison, concatenation, submatrix, naive inverse | ModelM4ri2.v |
| same: src/m4ri/strassen.c | ModelStrassen.v |
| same: src/m4ri/triangular.c and triangular_russian.c, the systems with the triangular matrix on the left | ModelTri.v |
| same: src/m4ri/mzp.c, of ple.c the cubic _mzd_pluq_naive, solve.c after the factorisation | ModelPle.v |
| same: ple.c, solve.c, mzd_first_zero_row; _mzd_ple_russian is a parameter | ModelPle2.v |
| same: triangular systems with the matrix on the right, mzd_trtri_upper, mzd_trtri_upper_russian, mzd_extract_u | ModelTriR.v |
| same and test/WBSM4/M4RI: src/matrixlib/matrix_gf2.c (except printing), src/matrixlib/affine_transform.c, mzd_randomize, mzd_from_str | ModelGf2.v |
| test/WBSM4/M4RI: src/matrixlib/wbsm4_gen.c, encryption in test/main.c (sm4.c and sbox.h are those of WBSM4/WBMatrix) | ModelSM4M.v |
| test/WBAES/M4RI: computeTables of src/matrixlib/genTables.c (aes.c and aes_128_table_encrypt are those of WBAES/WBMatrix) | ModelAESM.v |
| test/NTL/src/RandMat.cpp, test/WBAES/NTL/src/RandMat.cpp, test/WBSM4/NTL/src/matrixlib/MatrixUtils.cpp | ModelNtl.v |
| test/WBSM4/NTL: src/matrixlib/wbsm4_gen.cpp, encryption in test/main.cpp (sm4.cpp and sbox.h are those of WBSM4/WBMatrix) | ModelSM4N.v |
| test/WBAES/NTL: computeTables of src/genTables.cpp (aes.cpp and aes_128_table_encrypt are those of WBAES/WBMatrix) | ModelAESN.v |
| test/github2 to github7: the inversions of real and int matrices and the generator of github5, with exact rationals for float and double | ModelInv.v |
| test/github1_M4RI: src/m4ri/mmc.c, of mzd.c the cache of headers, mzd_init, mzd_init_window, mzd_free, of mzd.h the addresses of rows and blocks | ModelMem.v |
| test/WBAES/*/test/main.c(pp): printstate, ascii2hex, asciiStr2hex | ModelHex.v |

The test directories WBSM4 and WBAES hold copies of the library. Their functions agree with
those of src/ up to the place of variable declarations and of the call of InitRandom (which
commutes with the initialisations around it), so the examples use Model.v.

Instances of the width-indexed functions that do not exist in C (`printbitM256`, `HWU256`,
`genaffinepair`, `affineU`, `affinemix` for 256 bits) are artefacts of the parametrisation;
statements at these instances say nothing about the C code.

### Not modelled

Compiler; stdout beyond the string printf produces; overflow of int loop counters (all
bounded by 65536); stack size (genMatpairM256 puts 192 kB on the stack); timing; statistical
quality of random numbers; threads (globals are not protected); benchmark `main` functions;
the NTL library itself (its functions are values and parameters, see ModelNtl.v); rounding of float
and double and the input and output functions of test/github2 to github7. Of M4RI: memory
with addresses and contents at once (ModelMem.v has addresses, in ModelM4ri.v and ModelM4ri2.v a row is an array
of its own without padding), contents of windows except where a modelled function uses one, SSE2 and OpenMP
variants, transposition of matrices of more than one memory block, _mzd_ple_russian (ple_russian.c), djb, PNG and
everything else the project does not call.

## 2. Specification

`Spec.v` is independent of the model: bit (i,j) of a stored matrix is `N.testbit` of the word;
matrices over GF(2) are functions `nat -> nat -> bool`; product is an xor-sum; invertible means
that a two-sided inverse exists; parity and Hamming weight are sums over bits. `typedM w m`:
the value fits the C type; `wfM w m`: in addition the unused bits are zero (differs for 4 bits
only). `SpecPrint.v`: hexadecimal reader, picture of a bit matrix. `SpecSM4.v` (GB/T
32907-2016) and `SpecAES.v` (FIPS 197) define the ciphers from the standards, S-boxes by field
inversion; the standards' test vectors are checked in examples. `SpecGen.v`, `SpecBasis.v`,
`SpecLowMC.v`: series of draws, products along a list, the Grain recursion.
`SpecAcc.v`: the text the self test must print. `SpecRank.v`: linear independence, rank, the
blocks of a bit sequence, the bytes of a matrix in memory. `SpecBM.v`: linear feedback shift registers and
linear complexity. `SpecNist.v`: runs, longest run of ones, walks.
`SpecNist2.v`: occurrences of templates, borders, cyclic occurrences, the values of NIST SP 800-22 for
the template and serial tests. `SpecGamma.v`: the incomplete gamma function, entropy sums.
`SpecM4ri.v`: the bits of an M4RI matrix, valid matrices, row equivalence, echelon forms.
`SpecM4ri2.v`: arrays of 64 words, matrices of one memory block, the order of matrices.
`SpecGf2.v`: bits of numbers, affine maps, drawn matrices, exported strings, replaced matrices.
`SpecNtl.v`: entries, what is assumed about NTL, the matrices drawn from a bit sequence.
`SpecQ.v`: matrices of rationals, inverses, the determinant by expansion along a column.
`SpecMem.v`, `SpecMemRun.v`: separate regions, the allocator, programs that use blocks, headers, matrices and windows.
`SpecStrassen.v`: sizes that can be cut, a matrix or NULL. `SpecHex.v`: hexadecimal text.
`SpecTri.v`: matrices with arbitrary bits beyond the last column, unit triangular matrices.
`SpecPle.v`: products of transpositions, PLUQ factorisations, solutions of systems, bases of kernels.
`SpecPle2.v`: PLE factorisations.

## 3. Files (rocq/theories)

| files | content |
|-------|---------|
| Base, Tables, Model, ModelAlias, ModelPrint, ModelGen, ModelSM4, ModelAES, ModelBasis, ModelLowMC, ModelAcc, ModelRank, ModelBM, ModelNist, ModelNist2, ModelNist3, ModelGamma, ModelM4ri, ModelM4ri2, ModelGf2, ModelSM4M, ModelAESM, ModelNtl, ModelSM4N, ModelAESN, ModelInv, ModelMem, ModelStrassen, ModelHex, ModelTri, ModelPle, ModelPle2, ModelTriR | model |
| Spec, SpecPrint, SpecGen, SpecSM4, SpecAES, SpecBasis, SpecLowMC, SpecAcc, SpecRank, SpecBM, SpecNist, SpecNist2, SpecGamma, SpecM4ri, SpecM4ri2, SpecGf2, SpecNtl, SpecQ, SpecMem, SpecMemRun, SpecStrassen, SpecHex, SpecTri, SpecPle, SpecPle2 | specification |
| LinAlg, Gauss | linear algebra over GF(2) |
| Mem, Cons, Check, RowProd | stored matrices, simple loops, checks by computation |
| Elim, Parity, Trans, Mul, Rand, GenPair, Com, Affine, Bits, Qpr, Rel, Repro, Print, Alias, Entropy | proofs about the library |
| Gen, GenBad, SM4, WBSM4, AES, WBAES, Basis, LowMC, LowMC2, LowMC3, Acc, Rank, RankTest, BM, LCCount, RankCount, Nist1..Nist10 | proofs about the examples |
| M4ri1..M4ri20, M4riD (bits beyond the last column), Gf2a..Gf2d, WBSM4M, WBSM4M2, WBAESM | proofs about M4RI, the layer over it and the examples over it |
| Ntl1..Ntl3, NtlEx, WBSM4N, WBAESN | proofs about the layer over NTL and the examples over it |
| Lap, Inv0, Inv4, Inv7, Inv23, Inv6, Inv5, InvGf2, InvEx | determinants over the rationals; proofs about test/github2 to github7 |
| Mem1..Mem5 | proofs about the memory management of M4RI |
| Strassen1..Strassen4 | proofs about the Strassen products of M4RI |
| Hex1 | proofs about hexadecimal text |
| Tri1..Tri3 | proofs about triangular systems of M4RI |
| Ple1..Ple10 | proofs about permutations, factorisation, systems and kernels of M4RI |
| TriR1..TriR7 | proofs about triangular systems with the matrix on the right and the inversion of triangular matrices |
| Main1..Main32 | statements with proofs from the lemmas |
| Properties1..Properties32 | final theorems only (generated from MainN by tools/gen_props.py), each closed by `exact`, with `Print Assumptions` beneath; examples |

Tools: `gen_props.py`, `gen_manifest.py` (MANIFEST.json from the Properties files and
notes.json), `check_templates.py`, `mutate.py` (applies an edit to a scratch copy of the model,
rebuilds, admits what fails and reports the property theorems that depend on it; log in
seeded/LOG.jsonl).

## 4. Properties

| id | modelled | proof |
|----|----------|-------|
| C01 | MatMulMat, Mattrans, xorU | loop invariants on bits; parity of AND = dot product |
| C02 | MatMulVec, MatMulNum | same |
| C03 | Mattrans | stage j exchanges bit j of row and column index; index set of each stage by computation |
| C04 | isinvert | row operations keep solvability; unit upper triangular form; missing pivot gives a null vector |
| C05, C06 | invs | invariant Mat = Inv * A, Inv a product of elementary operations |
| C07-C09 | genMatpair, randM | trail replayed backwards inverts the product of the recorded operations; counting argument for the trail |
| C10, C11, C40 | genaffinepair, affineU, affinemix | from C02, C01, C07 |
| C12-C14 | Matrixcom, Vectorcom, affinecom | bits of byte-wise writes; block diagonal algebra |
| C15, C16 | readbit, flipbit, setbit | case analysis over Z arguments |
| C17, C18 | isequalM, isequalV | reflection; counterexample for V256 |
| C19, C20 | xorU, HWU | table checked in full by computation, halves by bit sums; both byte orders |
| C21-C23 | compositions of the above | from the specifications plus extensionality of stored words |
| C24, C25 | all 4-bit functions | well-formedness part of the specs; witnesses by computation |
| C26, C27, C46 | permuteQPR, InitRandom, cus_random | primality by computation, -1 is not a square mod p = 3 (mod 4) |
| C28-C31 | randM, randV | from the generator facts; counterexample for randV64 |
| C32, C33 | constructors; all output parameters | invariants; result determined by inputs |
| C34-C36 | printbit, printM, printV, printU | output as list of characters; parser in the specification |
| C37 | punning with big endian | witnesses by computation; positive part for both orders |
| C38 | genMatpair with one buffer | characterisation of the result for all draws; witness |
| C39 | affineU128 on a memory | frame reasoning |
| C41, C47-C51 | WBSM4, sm4.c | algebra of affine encodings; SM4 specified separately |
| C42, C43, C52-C57 | WBAES, aes.c | table composition; extraction of the key from the tables |
| C44, C45 | test generators | invertibility as product of elementary / triangular matrices; witnesses |
| C58, C59 | BasisMatrixMethod | products of table entries; tables multiplied out, null vectors of the 128-bit entries |
| C60-C62 | LowMCMethod | the LFSR is injective and no 80 pairs in a row can start with 0 (rank computation); rejection loop; elimination with garbage bits |
| C63 | self test | every test of Accuracy_test.c in terms of C02, C07, C10, C11, C15, C17, C18; loops by an invariant |
| C64 | generators | results are functions of one (randM, genMatpair) or two (genaffinepair) 32-bit numbers; pigeonhole against 2^32 + 1 invertible matrices |
| C65, C66 | rank of the randomness tests | row operations to echelon form; Steinitz by counting combinations; exact reference probabilities |
| C67, C68 | linear complexity test | Massey's invariant: the shortest register before and after each change of length; counting by the jump rule L -> n+1-L |
| C69-C72 | rank probabilities, runs, longest run, cumulative sums | adding a row to a span of 2^r vectors, q-Pascal rule; automaton of the current run, geometric bound for 10000 bits |
| C73-C75 | random excursions, templates | occurrences of an unbordered word cannot overlap; double counting over all blocks; e <= 3 for the p-value |
| C76, C79 | serial, approximate entropy | extending a cyclic pattern to the right and to the left; sums of squares; ln x <= x - 1 |
| C77, C78 | Maurer, frequency | table invariant: last position of each pattern |
| C80 | gammaincc | recursion F(m,j+1) = x F(m,j) + m F(m+1,j) for the convergents; uniqueness by the derivative |
| C81, C82 | Gray code, tables | bits of the code word; consecutive words differ in the 2-adic valuation |
| C83 | naive elimination | invariant: pivots of the first columns, row equivalence on all columns |
| C84 | Four Russians elimination | invariants for the block of pivots, for the tables, and for all rows; the lazily reduced columns agree with the eager elimination |
| C85, C91 | inverse | [A, I] reduces to [VA, V] |
| C86 | transposition | exchange of two index bits per level of the butterfly; partial tiles: the unused words only reach unused bits |
| C87, C88 | parities, products | pairwise folding; the parity of a row times a transposed column; the tables of C82 |
| C89, C90 | sums, blocks, comparisons | word k, bit b is column 64 k + b; numbers are ordered by the highest different bit |
| C92, C93, C95 | vectors, arrays, blocks | loop invariants on entries |
| C94, C97 | apply, random affine maps | C88 with a vector; induction on the rounds; A (B x + B v) + v = x |
| C96 | export, import | position k of the string is entry (k / C, k mod C); a valid matrix is determined by its entries |
| C98 | pointers | fresh addresses |
| C99 | white-box SM4 over M4RI | as C41: every table is an affine map composed with its neighbours' inverses; the state of a round is the encoded state of SM4 |
| C100, C101 | white-box AES over M4RI | as C42, C43, C55, C56 |
| C102-C104 | white-box SM4 and AES over NTL | as C99 to C101 |
| C105 | random matrices over NTL | the draws as an inductive relation; all matrices of dimension 1 and 2; a bidiagonal matrix with last row 1110...0 for the other dimensions |
| C106, C107 | affine maps and numbers over NTL | as C94, C97; products of augmented matrices |
| C108, C109 | elimination over the rationals (github4, github7) | every row operation keeps [left half] = [right half] * A; the left half becomes triangular, then the identity; failures by computation; a32 is invertible because it is modulo 2 |
| C110-C112 | cofactor methods (github2, github3, github6) | Laplace expansion along any row, transposes, adjugate; the index of a copied minor; factorials for leaks and bounds |
| C113 | generator of github5 | bounds and the last column as invariants; a concrete sequence of 430 random digits |
| C114 | cache of blocks | invariant: cached and live regions are a permutation of the regions in use |
| C115 | cache of headers | invariant: a doubly linked list of blocks, its set bits and the separate headers are the live headers |
| C116, C117 | matrices and windows | both invariants together; the layout of rows in blocks as a relation kept by windows |
| C118, C119 | Strassen products | induction over the depth; a temporary is a combination of quarters or of products of quarters, whose coefficients are computed |
| C120 | cutoffs that fail | the failing call is reached for all contents |
| C121 | hexadecimal text | all 256 characters by computation, induction over the text |
| C122, C123 | triangular systems | invariant: which columns have been applied to which rows; tables add a combination of solved rows; the recursion adds a product |
| C124, C125 | permutations | induction over the transpositions; bits of a row that is cleared by a mask and gathered |
| C126 | _mzd_pluq_naive | invariant: after c steps the matrix is L U plus a remainder in the lower right part; the rank by independence of the rows of U |
| C127, C128 | systems and kernels | triangular systems are injective, permutations of the terms of a sum |
| C129 | _mzd_ple_naive | invariant: L below the pivots found so far in their columns, a remainder to the right; then the columns of L exchanged to the left |
| C130 | mzd_first_zero_row, _mzd_compress_l | bits of words read and written at an offset |
| C131 | mzd_ple, mzd_pluq | the factorisations of the left half and of the Schur complement combined; induction over the columns; the rank by the independence of the rows of E |
| C132, C133 | mzd_solve_left, mzd_kernel_left_pluq | C131 with C127 and C128 |
| C134, C135 | mzd_trsm_lower_right, mzd_trsm_upper_right up to 64 columns | the groups of 64 sums of words reduced by parity are dot products; induction over the columns |
| C136 | mzd_trtri_upper_russian | refuted by a 70 x 70 matrix |
| C137 | mzd_trtri_upper_russian | every row with its progress p: left of p a row of the inverse of the leading p x p matrix, right of p its product with U; eliminating with one row, one table or four advances p |
| C138 | mzd_trtri_upper | block inverse, induction over the size; the systems it solves use it for smaller sizes |
| C139 | mzd_trsm_upper_right | C135, C138 and products; induction over the columns; the condition on the diagonal shown necessary |

### Where code and expectation disagree

* C06: `invs` of a singular matrix silently returns an (invertible, wrong) matrix.
* C18: `isequalV256` compares only two of the four words.
* C25, C62: unused high nibbles of 4-bit rows change the results of transposition, product,
  equality and the invertibility test. C62 gives the exact condition for `isinvertM4`, and the
  LowMC generator can hang for ever on stack garbage.
* C28: wide random matrices never have two equal rows, hence are not uniform.
* C29, C30: `randV64` never reseeds; the first result in a process is a constant.
* C64: every call reseeds the generator with a 32-bit number, so at most 2^32 different matrix pairs
  exist for each width: a 256-bit secret matrix has at most 32 bits of entropy.
* C65: `rank` in gf2matrix.py is right for square matrices only; `computeRank` is wrong.
* C66: the rank test of the randomness suite rejects every sequence of invertible 32-bit matrices.
* C67: `berelekamp_massey` returns the register's polynomial without its last coefficient.
* C70: `runs_test` divides by zero for constant sequences of at most 16 bits.
* C71: the reference probabilities for blocks of 10000 bits are off in the third digit.
* C74: both template tests miss the last position of each block.
* C75: `sigma` in the non-overlapping template test is the variance and is squared again: for
  blocks of realistic size the test passes for every sequence with rare matches, e.g. all zeros.
* C78, C80: `gammaincc(a, 0)` divides by zero (integer a) or gives 0 (half-integer a); the value is 1.
  So perfectly balanced sequences fail or stop the frequency and serial tests.
* The option `--be` of sp800_22_tests.py is `store_false`: it selects little-endian bit order, and
  the default is big-endian, the opposite of its help text (read_bits takes the order as parameter).
* C36: `printU64`, `printU128` pass 64-bit values to `%x`.
* C37: concatenation depends on the byte order of the machine.
* C63: consequence of C37: the self test fails on a big-endian machine. It passes on a
  little-endian one in spite of the findings listed here; e.g. its 256-bit vector tests compare
  half of the words (C18), `flag_bomN_3` is never changed, and it prints PASS for TEST = 0.
* C38: `genMatpair(&a, &a)` yields the drawn matrix or the identity.
* C43, C100: `computeTables` rotates the caller's round keys: a second call makes wrong tables.
* C44: the rejection generator does not end for some clocks; int overflow of `randseed`.
* C45: reverse LU generator reads unwritten words (128, 256 bits) and indexes `M[i][4]` of a
  four-word row (256 bits).
* C51: the SM4 modes overrun buffers whose length is no multiple of 16.
* C53: `aes_128_encrypt` ignores any key (a local array of zeros is used) and overwrites its input.
* C55, C100: signed left shift out of range on every call of `computeTables`.
* C56, C101: the white-box AES tables reveal the key.
* C59: the 128-bit basis tables hold singular matrices; the generator for 128 bits returns an
  invertible matrix for one of 16^4096 sequences of draws.
* C83: `IsMatGf2Invertible` reads entry (-1,-1) of a matrix without rows.
* C84: `_mzd_echelonize_m4ri` does not end if it chooses k = 0 (at most 3 rows, more than 87381
  columns).
* C85: `mzd_inv_m4ri` of a singular matrix returns a wrong matrix without a sign of failure.
* C86: `mzd_transpose` of an r x 0 or 0 x c matrix ends in m4ri_die (mzd_copy with different sizes).
* C89: `mzd_submatrix` is undefined for an unaligned start and a multiple of 64 columns.
* C91: `mzd_invert_naive` of a singular matrix: as C85; its test for rank 0 can never be true.
* C93: `InitMatGf2ByValueArray` reads with the number of rows as stride; `MatGf2Set` with a negative
  odd value writes 0; the example for `InitMatrixFromBitArray` in matrix_gf2.h is wrong.
* C95: `MatGf2Diag` reads outside of matrices with fewer rows than columns.
* C97: `GenInvertibleMatGf2` with different numbers of rows and columns never ends.
* C98: `MatGf2Diag` and `MatGf2Copy` with an operand as destination read freed memory.
* C103: as C43. C104: as C56.
* C105: random matrices over NTL of dimension 1 or 2 are searched for ever; no matrix with a row of
  exactly one 1 (e.g. a permutation matrix) is ever drawn.
* C107: `get32FromVec` reads outside of vectors with fewer than 32 entries.
* C108: github4 divides by zero for some invertible matrices (signed pivot search); only the first of
  its repeated runs inverts anything.
* C109: github7 divides by zero for some invertible matrices, among them the benchmark's own; it destroys
  its argument, so later calls of the benchmark invert the identity.
* C110 to C112: the cofactor methods give 1 or 0 for 1 by 1 matrices; github3 and github6 leak.
* C113: github5's "invertible" matrices can be singular; it reads unwritten memory.
* C114: `m4ri_mmc_malloc(0)` can return the address of a block given back to the system (a slot emptied by
  `m4ri_mmc_cleanup` has size 0 but keeps its address).
* C116: `mzd_row` multiplies two ints; the product overflows for rows at 2^31 words (16 GiB) and beyond.
* C117: `mzd_remaining_rows_in_block` is wrong in windows that do not begin at the start of a block
  (its only caller is `mzd_col_swap_in_rows`, mzd.h line 471, which takes the smaller of it and the rows it has still to do);
  `mzd_init_window` on a matrix without rows or columns reads `blockrows_log`, which `mzd_init` has not set.
* Simplification to know: `mzd_t_free` subtracts pointers into different objects, which C leaves undefined;
  the model takes the difference of the addresses.
* C120: with a cutoff from 1 to 127 (rounded to 64) a dimension from 86 to 127 is not below 4/3 of the cutoff, but
  half of it rounded down to words is 0. `_mzd_mul_even` then copies a matrix with rows and without columns
  (`mzd_copy` reads word -1 of a row that is a null pointer) or multiplies by a matrix without columns
  (`mzd_transpose` stops the program). The default cutoff and cutoffs from 128 on are not affected.
* C121: `ascii2hex` returns an uninitialised variable for characters that are no digits.
* C123: `_mzd_trsm_upper_left` passes its cutoff to `_mzd_addmul` as it is, `_mzd_trsm_lower_left` to `mzd_addmul`,
  which rounds it. Cutoffs from 1 to 63 are therefore not covered by C123.
* C125: `mzd_apply_p_right(_trans)` take the smaller of the length of P and the number of columns as
  `mzd_apply_p_left` does, but with a short P that moves columns beyond its length these become zero.
* C127: `mzd_pluq_solve_left` checks ncols(A) <= nrows(B), but not nrows(A) <= nrows(B), which it needs.
* mzd_make_table_trtri (triangular_russian.c lines 331-380) reads 64 bits from the start column on in the
  last row of the table, which is one word beyond the memory of the table when the number of words of
  a row is even and the start column is in the last of them (C136). The bits are not used.
* _mzd_trsm_upper_right ignores the stored diagonal up to 64 columns, but from 65 to 512 columns, where
  it multiplies by an inverse, mzd_extract_u keeps the diagonal as stored, so that ones have to be there
  (C139_diagonal_refuted).
* Read but not modelled, not called by the project: `mzd_row_clear_offset` (mzd.c lines 288-305)
  keeps the wrong columns. The choice of k in `_mzd_mul_m4rm` takes the logarithm of 0 for more than
  524288 columns (the value is a parameter here).

## 5. Trusted base

* The Coq kernel (coqc and coqchk 8.16.1, including vm_compute for coqc).
* The reading of the C code: definitions and comments of Tables.v and Model*.v. Each comment cites
  file and lines. The transcription of tables (S-boxes, basis matrices, masks) is by script from the
  C text.
* For C102 to C107: NTL's types behave like values, its sums and products are those of GF(2), and
  determinant and inverse satisfy `ntl_ok` (a hypothesis of the theorems, not an axiom).
* The assumptions on the platform named in section 1: two's complement wrap for the AES shifts,
  no strict-aliasing optimisation, LE or BE byte order as parameter, 8-bit bytes, int of 32 bits.

## 6. Print Assumptions

All property theorems print "Closed under the global context", except those which speak about real
numbers: `C66_fail`, `C66_genMatpair`, `C75_pass`, `C75_zeros_refuted`, `C78_balanced_refuted`, `C79_apen` and
all of C80 depend on the axioms of the standard library's Reals
(`ClassicalDedekindReals.sig_not_dec`, `ClassicalDedekindReals.sig_forall_dec`,
`FunctionalExtensionality.functional_extensionality_dep`, `Classical_Prop.classic`). Seven parameters that
`coqchk -o` lists (`Coq.ssr.ssrunder.Under_rel.*`) belong to the standard library's ssreflect
support, which Coq's own files load (module-type parameters of Coq.ssr.ssrunder); no theorem
here depends on them. It also lists the parameters of the standard library's Reals modules
(`Coq.Reals.Rdefinitions.RbaseSymbolsImpl.*`, `RinvImpl.*`).
