{"id": "C01", "title": "Matrix product", "statement": "MatMulMat writes the GF(2) matrix product: bit (i,j) of the result is the XOR over k of A(i,k) AND B(k,j). It never reads or writes out of bounds.", "quantifier": "every pair of well-formed matrices and every previous content of the output buffer, all seven widths 4, 8, 16, 32, 64, 128, 256", "why_tests_cant": "there are 2^(2*n*n) input pairs; a wrong mask or wrong block swap in the built-in transposition shows up only at particular bit positions", "anchors": ["src/WBMatrix/WBMatrix.c:MatMulMatM4..M256", "src/WBMatrix/WBMatrix.c:MattransM4..M256", "src/WBMatrix/WBMatrix.c:xorU4..xorU256"]}
{"id": "C02", "title": "Matrix-vector product", "statement": "MatMulVec and MatMulNum compute the GF(2) product of a matrix with a column vector (most significant bit is component 0), and the two functions agree where both exist.", "quantifier": "every well-formed matrix and vector and every previous output content, all seven widths 4, 8, 16, 32, 64, 128, 256 (MatMulNum: 4..64)", "why_tests_cant": "the domain is astronomically large and each output bit depends on every input bit", "anchors": ["src/WBMatrix/WBMatrix.c:MatMulVecM4..M256", "src/WBMatrix/WBMatrix.c:MatMulNumM4..M64"]}
{"id": "C03", "title": "Transposition", "statement": "Mattrans writes the transposed matrix (bit (i,j) of the output is bit (j,i) of the input), and applying it twice gives back the input.", "quantifier": "every well-formed matrix and previous output content, all seven widths 4, 8, 16, 32, 64, 128, 256", "why_tests_cant": "the masked butterfly moves each of the n*n bits through log2(n) stages; a test sees a few matrices only", "anchors": ["src/WBMatrix/WBMatrix.c:MattransM4..M256"]}
{"id": "C04", "title": "Invertibility test is exact", "statement": "isinvert returns 1 exactly when some matrix B satisfies A*B = B*A = I, and returns 0 otherwise; it never gives any other value and never goes out of bounds.", "quantifier": "every well-formed matrix, all seven widths 4, 8, 16, 32, 64, 128, 256", "why_tests_cant": "completeness (0 implies that NO inverse exists) is a universally quantified negative statement that no finite test can establish", "anchors": ["src/WBMatrix/WBMatrix.c:isinvertM4..M256"]}
{"id": "C05", "title": "Inverse is a two-sided inverse", "statement": "For every invertible A, invs writes a matrix B with A*B = I and B*A = I.", "quantifier": "every well-formed invertible matrix and every previous output content, all seven widths 4, 8, 16, 32, 64, 128, 256", "why_tests_cant": "number of invertible matrices is about 0.29*2^(n*n); pivoting paths through the multi-word code depend on the data", "anchors": ["src/WBMatrix/WBMatrix.c:invsM4..M256"]}
{"id": "C06", "title": "Inverse of a singular matrix is silently wrong", "statement": "invs has no error path: on a singular A it still terminates without undefined behaviour and writes a matrix B; that B is itself always invertible, and is never an inverse of A on either side.", "quantifier": "every well-formed singular matrix, all seven widths 4, 8, 16, 32, 64, 128, 256", "why_tests_cant": "the negative part (never an inverse) quantifies over all singular inputs", "anchors": ["src/WBMatrix/WBMatrix.c:invsM4..M256"]}
{"id": "C07", "title": "Generated matrix pair is an inverse pair", "statement": "genMatpair writes two matrices that are inverses of each other (both products are the identity).", "quantifier": "every value of the seed, of the generator state and of every clock reading, every previous buffer content, all seven widths 4, 8, 16, 32, 64, 128, 256", "why_tests_cant": "the result is random; the repair path for singular draws is taken with data-dependent swaps and additions, so only a proof covers every seed and time", "anchors": ["src/WBMatrix/WBMatrix.c:genMatpairM4..M256", "src/WBMatrix/random.c:cus_random"]}
{"id": "C08", "title": "Generator stays inside its trail buffer", "statement": "genMatpair never executes undefined behaviour: it records at most n*n-1 elementary operations in the n*n-entry trail, never takes a random number modulo 0, and every recorded row index fits the 8-bit trail cell.", "quantifier": "every seed, generator state and clock reading, all seven widths 4, 8, 16, 32, 64, 128, 256", "why_tests_cant": "the worst case operation count needs a specific, extremely improbable random matrix and coin sequence", "anchors": ["src/WBMatrix/WBMatrix.c:genMatpairM4..M256"]}
{"id": "C09", "title": "Generator keeps an invertible draw unchanged", "statement": "If the matrix that randM draws is invertible, genMatpair returns exactly that matrix (no post-processing), paired with its unique inverse.", "quantifier": "every seed, generator state and clock reading, all seven widths 4, 8, 16, 32, 64, 128, 256", "why_tests_cant": "relates the output to an intermediate value over all random states", "anchors": ["src/WBMatrix/WBMatrix.c:genMatpairM4..M256", "src/WBMatrix/WBMatrix.c:randM4..M256"]}
{"id": "C10", "title": "Generated affine pair are mutually inverse functions", "statement": "After genaffinepair, applying affineU with the first and then with the second transformation (and in the other order) gives back the input.", "quantifier": "every input value, every seed, generator state and clock reading, widths 4..128", "why_tests_cant": "quantifies over every key (random state) and every plaintext value", "anchors": ["src/WBMatrix/WBMatrix.c:genaffinepairM4..M128", "src/WBMatrix/WBMatrix.c:affineU4..U128"]}
{"id": "C11", "title": "affinemix is function composition", "statement": "affinemix(f,g) yields an affine transformation h with affineU(h,x) = affineU(f, affineU(g,x)) for every x.", "quantifier": "every pair of well-formed affine transformations and every x, widths 4..128", "why_tests_cant": "equality of functions on up to 2^128 points for all coefficient choices", "anchors": ["src/WBMatrix/WBMatrix.c:affinemixM4..M128", "src/WBMatrix/WBMatrix.c:affineU4..U128"]}
{"id": "C12", "title": "Diagonal matrix concatenation", "statement": "Matrixcom writes the block-diagonal matrix whose diagonal blocks are the arguments in order from top left; all other bits are 0 (little-endian machine).", "quantifier": "every tuple of blocks and previous output content, the six variants 8to32, 16to64, 8to64, 32to128, 8to128, 16to128", "why_tests_cant": "block contents are arbitrary; a misplaced byte pointer affects only some blocks", "anchors": ["src/WBMatrix/WBMatrix.c:MatrixcomM8to32", "src/WBMatrix/WBMatrix.c:MatrixcomM16to64", "src/WBMatrix/WBMatrix.c:MatrixcomM8to64", "src/WBMatrix/WBMatrix.c:MatrixcomM32to128", "src/WBMatrix/WBMatrix.c:MatrixcomM8to128", "src/WBMatrix/WBMatrix.c:MatrixcomM16to128"]}
{"id": "C13", "title": "Concatenated affine transformation acts blockwise", "statement": "Applying affinecom(f1..fk) to the concatenation of x1..xk gives the concatenation of affineU(fi,xi) (little-endian machine).", "quantifier": "every tuple of affine transformations and of inputs, the six variants", "why_tests_cant": "equality of functions for all block functions and all inputs", "anchors": ["src/WBMatrix/WBMatrix.c:affinecomM8to32", "src/WBMatrix/WBMatrix.c:VectorcomV8to32", "src/WBMatrix/WBMatrix.c:affinecomM16to64", "src/WBMatrix/WBMatrix.c:affinecomM8to64", "src/WBMatrix/WBMatrix.c:affinecomM32to128", "src/WBMatrix/WBMatrix.c:affinecomM8to128", "src/WBMatrix/WBMatrix.c:affinecomM16to128"]}
{"id": "C14", "title": "Concatenation preserves inverse pairs", "statement": "Concatenating inverses of the blocks gives the inverse of the concatenation; the concatenation is invertible exactly when every block is.", "quantifier": "every tuple of block matrices, the six variants", "why_tests_cant": "universally quantified over blocks, including the converse direction", "anchors": ["src/WBMatrix/WBMatrix.c:Matrixcom*", "src/WBMatrix/WBMatrix.c:isinvert*", "src/WBMatrix/WBMatrix.c:invs*"]}
{"id": "C15", "title": "Bit access laws", "statement": "readbit returns bit (i,j); flipbit inverts exactly bit (i,j) and no other bit; setbit with bit 0/1 makes bit (i,j) equal to it and changes no other bit.", "quantifier": "every well-formed matrix and every in-range (i,j), all seven widths 4, 8, 16, 32, 64, 128, 256", "why_tests_cant": "the frame condition ranges over all other positions and all matrices", "anchors": ["src/WBMatrix/WBMatrix.c:readbitM4..M256", "src/WBMatrix/WBMatrix.c:flipbitM4..M256", "src/WBMatrix/WBMatrix.c:setbitM4..M256"]}
{"id": "C16", "title": "Bit access is undefined exactly out of range", "statement": "readbit, flipbit and setbit have undefined behaviour precisely when i or j lies outside 0..n-1 (negative or too large); inside the range they are always defined.", "quantifier": "every int i and j, every matrix, all seven widths 4, 8, 16, 32, 64, 128, 256", "why_tests_cant": "undefined behaviour cannot be observed reliably by tests; range is all of int", "anchors": ["src/WBMatrix/WBMatrix.c:readbitM4..M256", "src/WBMatrix/WBMatrix.c:flipbitM4..M256", "src/WBMatrix/WBMatrix.c:setbitM4..M256"]}
{"id": "C17", "title": "Matrix equality is exact", "statement": "isequalM returns 1 if the two matrices agree in every bit, else 0.", "quantifier": "every pair of matrices, all seven widths 4, 8, 16, 32, 64, 128, 256", "why_tests_cant": "pairs differing in just one of n*n bits must be told apart for every position and content", "anchors": ["src/WBMatrix/WBMatrix.c:isequalM4..M256"]}
{"id": "C18", "title": "Vector equality is exact", "statement": "isequalV returns 1 exactly when the two vectors agree in every bit.", "quantifier": "every pair of vectors, all seven widths 4, 8, 16, 32, 64, 128, 256", "why_tests_cant": "needs every pair; false for the 256-bit version, which ignores half of the vector", "anchors": ["src/WBMatrix/WBMatrix.c:isequalV4..V256"]}
{"id": "C19", "title": "xorU is parity", "statement": "xorU returns the XOR of all bits of its argument (0 or 1), independently of byte order of the machine.", "quantifier": "every argument of widths 4..256", "why_tests_cant": "up to 2^256 arguments; the table must be right in every entry and halves must be combined correctly", "anchors": ["src/WBMatrix/WBMatrix.c:xorU4..xorU256", "src/WBMatrix/WBMatrix.c:xor"]}
{"id": "C20", "title": "HWU is the Hamming weight", "statement": "HWU returns the number of 1 bits of its argument, independently of byte order; its parity equals xorU of the same argument.", "quantifier": "every argument of widths 4..128", "why_tests_cant": "up to 2^128 arguments", "anchors": ["src/WBMatrix/WBMatrix.c:HWU4..HWU128", "src/WBMatrix/WBMatrix.c:HW"]}
{"id": "C21", "title": "Ring laws through the API", "statement": "Matrix multiplication is associative, distributes over MatAddMat, has identityM as neutral element and the initM matrix as absorbing element; (A*B)*x = A*(B*x); MatMulVec is additive in the vector. All stated as equalities of the buffers the functions write.", "quantifier": "all triples of well-formed matrices and vectors, all seven widths 4, 8, 16, 32, 64, 128, 256", "why_tests_cant": "algebraic laws over all triples", "anchors": ["src/WBMatrix/WBMatrix.c:MatMulMat*", "src/WBMatrix/WBMatrix.c:MatAddMat*", "src/WBMatrix/WBMatrix.c:MatMulVec*", "src/WBMatrix/WBMatrix.c:VecAddVec*", "src/WBMatrix/WBMatrix.c:identityM*", "src/WBMatrix/WBMatrix.c:initM*"]}
{"id": "C22", "title": "Transposition reverses products", "statement": "Mattrans(A*B) equals Mattrans(B)*Mattrans(A), as written buffers.", "quantifier": "all pairs of well-formed matrices, all seven widths 4, 8, 16, 32, 64, 128, 256", "why_tests_cant": "all pairs", "anchors": ["src/WBMatrix/WBMatrix.c:MatMulMat*", "src/WBMatrix/WBMatrix.c:Mattrans*"]}
{"id": "C23", "title": "Invertibility and inverses respect products and transposes", "statement": "isinvert(A*B) = isinvert(A) AND isinvert(B); isinvert(A^T) = isinvert(A); for invertible matrices invs(A*B) = invs(B)*invs(A), invs(invs(A)) = A, invs(A^T) = invs(A)^T.", "quantifier": "all well-formed matrices, all seven widths 4, 8, 16, 32, 64, 128, 256", "why_tests_cant": "relates three independent pieces of code on all inputs", "anchors": ["src/WBMatrix/WBMatrix.c:isinvert*", "src/WBMatrix/WBMatrix.c:invs*", "src/WBMatrix/WBMatrix.c:MatMulMat*", "src/WBMatrix/WBMatrix.c:Mattrans*"]}
{"id": "C24", "title": "4-bit values stay nibbles", "statement": "Every function that writes a 4x4 matrix or 4-bit vector writes entries below 16 whenever its 4-bit inputs are below 16, so that later isequal comparisons are meaningful.", "quantifier": "every nibble input, every seed and clock", "why_tests_cant": "universal closure property over all API functions", "anchors": ["src/WBMatrix/WBMatrix.c:*M4", "src/WBMatrix/WBMatrix.c:*V4"]}
{"id": "C25", "title": "High nibble garbage does not matter (false)", "statement": "One would expect the 4x4 functions to ignore the unused high nibble of each row byte. Transposition, product (right factor), invertibility test and equality do not: their result can change when only unused bits change. Inverse, matrix-vector product and the left factor of a product do ignore it.", "quantifier": "exists a pair of matrices equal on all 16 significant bits", "why_tests_cant": "needs to find the witness; shows which functions rely on the caller keeping nibbles clean", "anchors": ["src/WBMatrix/WBMatrix.c:MattransM4", "src/WBMatrix/WBMatrix.c:MatMulMatM4", "src/WBMatrix/WBMatrix.c:isinvertM4", "src/WBMatrix/WBMatrix.c:invsM4"]}
{"id": "C26", "title": "permuteQPR is a permutation", "statement": "permuteQPR is a bijection on the 32-bit words.", "quantifier": "all 2^32 words", "why_tests_cant": "relies on 4294967291 being a prime congruent to 3 mod 4; quantifies over all pairs", "anchors": ["src/WBMatrix/random.c:permuteQPR"]}
{"id": "C27", "title": "No repetition in the random stream", "statement": "After any InitRandom, any 2^32 consecutive cus_random results are pairwise different (the stream has full period 2^32).", "quantifier": "every generator state and every pair of call numbers closer than 2^32", "why_tests_cant": "needs 2^32 calls for each of 2^64 states", "anchors": ["src/WBMatrix/random.c:cus_random", "src/WBMatrix/random.c:InitRandom"]}
{"id": "C28", "title": "randM32 and wider never draw two equal rows", "statement": "As a consequence of the non-repeating stream, randM for 32, 64, 128 and 256 bits never produces a matrix with two identical rows: the draw is not uniform over all matrices.", "quantifier": "every seed and clock value", "why_tests_cant": "a statistical test cannot show an event has probability exactly 0", "anchors": ["src/WBMatrix/WBMatrix.c:randM32", "src/WBMatrix/random.c:cus_random"]}
{"id": "C29", "title": "Reproducibility from seed and clock", "statement": "The values drawn by randM, randV and genMatpair are a function of the seed set by SetRandSeed and of the clock readings only; earlier use of the generator has no influence. False for randV64, which does not reseed.", "quantifier": "every pair of generator histories with equal seed and clock", "why_tests_cant": "quantifies over all histories of the hidden global state", "anchors": ["src/WBMatrix/WBMatrix.c:randM*", "src/WBMatrix/WBMatrix.c:randV*", "src/WBMatrix/WBMatrix.c:genMatpair*", "src/WBMatrix/WBMatrix.c:SetRandSeed"]}
{"id": "C30", "title": "randV64 ignores the seed (false for others)", "statement": "SetRandSeed has no effect on randV64: in a fresh process the first randV64 returns the same constant for every seed and every time.", "quantifier": "all seeds and all clock values", "why_tests_cant": "a quantified independence statement", "anchors": ["src/WBMatrix/WBMatrix.c:randV64", "src/WBMatrix/WBMatrix.c:SetRandSeed"]}
{"id": "C31", "title": "Random values are within range", "statement": "randM and randV write only well-formed values (low nibble for 4 bits) and overwrite the entire output.", "quantifier": "every generator state and previous content, all seven widths 4, 8, 16, 32, 64, 128, 256", "why_tests_cant": "all states", "anchors": ["src/WBMatrix/WBMatrix.c:randM*", "src/WBMatrix/WBMatrix.c:randV*"]}
{"id": "C32", "title": "Elementary constructors", "statement": "initM/initV write the zero, identityM writes exactly the identity matrix, copyM copies, VecAddVec and MatAddMat write the bitwise sum.", "quantifier": "every previous buffer content and all operands, all seven widths 4, 8, 16, 32, 64, 128, 256", "why_tests_cant": "all contents", "anchors": ["src/WBMatrix/WBMatrix.c:initM*", "src/WBMatrix/WBMatrix.c:identityM*", "src/WBMatrix/WBMatrix.c:copyM*", "src/WBMatrix/WBMatrix.c:VecAddVec*", "src/WBMatrix/WBMatrix.c:MatAddMat*"]}
{"id": "C33", "title": "Outputs do not depend on old buffer content", "statement": "For every function with an output parameter the written result is the same for any two previous contents of the output buffer.", "quantifier": "all pairs of previous contents, all other arguments, all seven widths 4, 8, 16, 32, 64, 128, 256", "why_tests_cant": "a two-execution (hyper) property", "anchors": ["src/WBMatrix/WBMatrix.c:MatMulMat*", "src/WBMatrix/WBMatrix.c:MatMulVec*", "src/WBMatrix/WBMatrix.c:Mattrans*", "src/WBMatrix/WBMatrix.c:invs*", "src/WBMatrix/WBMatrix.c:Matrixcom*", "src/WBMatrix/WBMatrix.c:Vectorcom*", "src/WBMatrix/WBMatrix.c:genMatpair*"]}
{"id": "C34", "title": "printbit shows the bits", "statement": "printbitM writes n lines, line i consisting of the bits of row i from column 0 to n-1 as \"0 \" or \"1 \", then an empty line.", "quantifier": "every well-formed matrix, widths 4..128", "why_tests_cant": "all matrices", "anchors": ["src/WBMatrix/WBMatrix.c:printbitM4..M128"]}
{"id": "C35", "title": "Hex output can be read back", "statement": "The text of printM and printV determines the matrix/vector: parsing the hexadecimal numbers gives back the words.", "quantifier": "every matrix and vector, all seven widths 4, 8, 16, 32, 64, 128, 256", "why_tests_cant": "injectivity of an output format over all values", "anchors": ["src/WBMatrix/WBMatrix.c:printM*", "src/WBMatrix/WBMatrix.c:printV*"]}
{"id": "C36", "title": "printU64 prints the number (false)", "statement": "printU64 and printU128 pass a 64-bit argument to a %x conversion and spell the prefix \"0llx\": the call is undefined behaviour, so no output is guaranteed, while printU8/16/32/256 print the hexadecimal value.", "quantifier": "every argument", "why_tests_cant": "undefined behaviour is not observable by testing", "anchors": ["src/WBMatrix/WBMatrix.c:printU8..printU256"]}
{"id": "C37", "title": "Concatenation needs a little-endian machine", "statement": "On a big-endian machine Matrixcom and Vectorcom place the blocks in the opposite order inside a word, so the block-diagonal property fails; xorU, HWU and genMatpair stay right.", "quantifier": "exists blocks / all arguments", "why_tests_cant": "tests run on one machine type only", "anchors": ["src/WBMatrix/WBMatrix.c:Matrixcom*", "src/WBMatrix/WBMatrix.c:Vectorcom*", "src/WBMatrix/WBMatrix.c:xorU*", "src/WBMatrix/WBMatrix.c:HWU*", "src/WBMatrix/WBMatrix.c:randM64"]}
{"id": "C38", "title": "In-place matrix generation is not supported", "statement": "Calling genMatpair with both pointers equal does not give a matrix that is its own inverse in general; the result is not an inverse pair.", "quantifier": "exists a seed and clock value", "why_tests_cant": "API misuse which types allow; needs witness over random state", "anchors": ["src/WBMatrix/WBMatrix.c:genMatpairM4..M256"]}
{"id": "C39", "title": "affineU128 may be used in place", "statement": "affineU128 gives the same result when the input and output arrays are the same or overlap.", "quantifier": "every transformation, every memory content and all array positions", "why_tests_cant": "all overlaps and all contents", "anchors": ["src/WBMatrix/WBMatrix.c:affineU128"]}
{"id": "C40", "title": "Affine maps: differences and bijectivity", "statement": "affineU(f,x) XOR affineU(f,y) depends on x XOR y only and equals Mat*(x XOR y); if the matrix is invertible then affineU is a bijection.", "quantifier": "every affine transformation and all pairs of inputs, widths 4..128", "why_tests_cant": "all pairs of up to 2^128 inputs", "anchors": ["src/WBMatrix/WBMatrix.c:affineU4..U128", "src/WBMatrix/WBMatrix.c:isinvert*"]}
{"id": "C41", "title": "White-box SM4 equals SM4", "statement": "Encrypting with the generated white-box tables (Xiao-Lai construction built on this library) gives the SM4 ciphertext.", "quantifier": "every key, every plaintext, every seed and clock value used during table generation", "why_tests_cant": "2^128 keys times 2^128 plaintexts times all random choices", "anchors": ["test/WBSM4/WBMatrix/src/wbsm4_gen.c", "test/WBSM4/WBMatrix/src/sm4.c", "test/WBSM4/WBMatrix/test/main.c:sm4_wb_enc"]}
{"id": "C42", "title": "White-box AES equals AES", "statement": "Encrypting with the generated white-box AES tables gives the AES-128 ciphertext for the expanded key used.", "quantifier": "every expanded key, every plaintext, every seed and clock value", "why_tests_cant": "2^128 plaintexts times all keys times all random choices", "anchors": ["test/WBAES/WBMatrix/src/genTables.c", "test/WBAES/WBMatrix/src/aes.c"]}
{"id": "C43", "title": "Table generation does not damage its key (false)", "statement": "computeTables permutes the rows of the expanded key in place, so generating tables twice from the same key buffer gives tables for a different key.", "quantifier": "exists an expanded key", "why_tests_cant": "a second call is needed and the effect is silent", "anchors": ["test/WBAES/WBMatrix/src/genTables.c:computeTables"]}
{"id": "C44", "title": "Alternative generators give invertible matrices", "statement": "The generators by reverse Gaussian elimination and by rejection (WBGE) shipped with the tests return only invertible matrices (rejection: whenever they return).", "quantifier": "every seed, generator state and clock sequence, all seven widths 4, 8, 16, 32, 64, 128, 256", "why_tests_cant": "all random states; rejection has unbounded loops", "anchors": ["test/RGEMethod_test.c:InvTMatM4..M256", "test/WBGEMethod_test.c:InvTMatM4..M256"]}
{"id": "C45", "title": "Reverse LU generator", "statement": "The reverse-LU generator returns only invertible matrices (holds for widths 4..64); for 128 and 256 bits it reads uninitialised words, and for 256 bits it can also write beyond a row (false).", "quantifier": "every seed, generator state and clock sequence", "why_tests_cant": "uninitialised reads and out-of-bounds writes depend on random coins and memory content", "anchors": ["test/RLUDMethod_test.c:lowM4..M256", "test/RLUDMethod_test.c:upM4..M256", "test/RLUDMethod_test.c:InvTMatM4..M256"]}
{"id": "C46", "title": "Calls within one second continue at different places", "statement": "Successive calls of randM that read the same clock value (that is, within the same second) leave the random generator at different positions of its stream, for up to 2^32 calls: the counter randseed and the permutation in InitRandom keep them apart.", "quantifier": "every seed, every clock sequence, every pair of calls less than 2^32 apart with equal clock reading, all widths", "why_tests_cant": "2^32 calls from each of 2^32 seeds", "anchors": ["src/WBMatrix/WBMatrix.c:randM*", "src/WBMatrix/random.c:InitRandom"]}
{"id": "C47", "title": "SM4 is SM4", "statement": "sm4_setkey_enc followed by sm4_one_round computes the block cipher SM4 of the standard, whether unsigned long has 32 or 64 bits, and changes nothing but the 16 output bytes.", "quantifier": "every key, every plaintext, every position in the buffers, both sizes of unsigned long", "why_tests_cant": "2^256 pairs of key and block; the high halves of 64-bit words carry garbage through the rounds", "anchors": ["test/WBSM4/WBMatrix/src/sm4.c:sm4_setkey", "test/WBSM4/WBMatrix/src/sm4.c:sm4_one_round"]}
{"id": "C48", "title": "SM4 decryption inverts encryption", "statement": "With the key schedules of sm4_setkey_enc and sm4_setkey_dec, sm4_one_round with one inverts sm4_one_round with the other.", "quantifier": "every key, every block, both orders, both sizes of unsigned long", "why_tests_cant": "2^256 pairs of key and block", "anchors": ["test/WBSM4/WBMatrix/src/sm4.c:sm4_setkey_dec", "test/WBSM4/WBMatrix/src/sm4.c:sm4_one_round"]}
{"id": "C49", "title": "ECB and CBC modes", "statement": "sm4_crypt_ecb and sm4_crypt_cbc compute the ECB and CBC modes; CBC decryption returns the message; the iv left behind by a CBC call continues the chain, so that a message may be encrypted in pieces.", "quantifier": "every key, iv and message of any number of blocks, any surrounding bytes in the buffers", "why_tests_cant": "messages of unbounded length", "anchors": ["test/WBSM4/WBMatrix/src/sm4.c:sm4_crypt_ecb", "test/WBSM4/WBMatrix/src/sm4.c:sm4_crypt_cbc"]}
{"id": "C50", "title": "SM4 modes in place", "statement": "ECB and CBC, both directions, give the same result when input and output are the same buffer.", "quantifier": "every key, iv and message of any number of blocks", "why_tests_cant": "messages of unbounded length; aliasing", "anchors": ["test/WBSM4/WBMatrix/src/sm4.c:sm4_crypt_ecb", "test/WBSM4/WBMatrix/src/sm4.c:sm4_crypt_cbc"]}
{"id": "C51", "title": "Partial blocks overrun the buffers", "statement": "For a length that is not a multiple of 16 the modes do not stop at the given length: with an input or output buffer of exactly that length they access memory beyond its end.", "quantifier": "every positive length that is not a multiple of 16, every key schedule, iv and content, all three loops", "why_tests_cant": "reads and writes beyond a buffer are silent in a test; all lengths", "anchors": ["test/WBSM4/WBMatrix/src/sm4.c:sm4_crypt_ecb", "test/WBSM4/WBMatrix/src/sm4.c:sm4_crypt_cbc"]}
{"id": "C52", "title": "AES key expansion", "statement": "expandKey writes the eleven AES-128 round keys of FIPS 197 to the expanded key, whatever the buffer contained.", "quantifier": "every key, every previous content", "why_tests_cant": "2^128 keys", "anchors": ["test/WBAES/WBMatrix/src/aes.c:expandKey"]}
{"id": "C53", "title": "The reference AES encryption ignores its caller's key", "statement": "aes_128_encrypt computes AES-128 encryption of its input under the all-zero key; the bytes of the output buffer after the first 16 are kept, and the input buffer is destroyed (it holds the ciphertext too).", "quantifier": "every input block, every output buffer of at least 16 bytes", "why_tests_cant": "2^128 inputs", "anchors": ["test/WBAES/WBMatrix/src/aes.c:aes_128_encrypt"]}
{"id": "C54", "title": "S-box generation", "statement": "initialize_aes_sbox ends after exactly 255 iterations of its loop and leaves the AES S-box (inversion in GF(2^8) and the affine map) in the array, whatever the array contained.", "quantifier": "every initial content of the array, every bound on the number of iterations", "why_tests_cant": "termination, and independence of the initial content", "anchors": ["test/WBAES/WBMatrix/src/aes.c:initialize_aes_sbox"]}
{"id": "C55", "title": "computeTables shifts a set bit into the sign of an int", "statement": "Read as ISO C, computeTables has undefined behaviour on every call (gMul(2, 64) << 24 is not representable in int); C42 therefore needs a compiler on which that shift wraps.", "quantifier": "every expanded key, table content, random state and byte order", "why_tests_cant": "undefined behaviour is silent in a test", "anchors": ["test/WBAES/WBMatrix/src/genTables.c:computeTables"]}
{"id": "C56", "title": "The tables contain the key", "statement": "The key can be read off the generated T-boxes: already those of the first round contain it in the clear, and those of the last round, which encryption needs, determine the last round key and hence the key.", "quantifier": "every key, every table content before, every seed and clock value; one fixed extraction function", "why_tests_cant": "universal over all random choices; a test cannot show that the encodings never help", "anchors": ["test/WBAES/WBMatrix/src/genTables.c:computeTables", "test/WBAES/WBMatrix/src/genTables.c:printTables"]}
{"id": "C57", "title": "MixColumns and its table form", "statement": "mixColumns, and mixColumns_table with the tables TyiTables generated by computeTables, compute MixColumns of FIPS 197.", "quantifier": "every 16-byte state, every expanded key, seed and clock value", "why_tests_cant": "2^128 states", "anchors": ["test/WBAES/WBMatrix/src/aes.c:mixColumns", "test/WBAES/WBMatrix/src/genTables.c:mixColumns_table"]}
{"id": "C58", "title": "Basis matrix method, 8 to 64 bits", "statement": "In test/BasisMatrixMethod_test.c entry k of each inverse table is the inverse of entry k of the matrix table; InvTMat returns the product of the drawn table entries, an invertible matrix; InvSMat of a recorded trail is the inverse of the product along the trail; Matrixpair returns a matrix and its inverse. The only undefined case is randseed = INT_MAX.", "quantifier": "every sequence of values of rand(), every seed other than INT_MAX, every previous content of the matrices and of the trail array, widths 8, 16, 32, 64, both byte orders", "why_tests_cant": "16^1024 sequences of draws for 64 bits; the test program only measures time and never checks a result", "anchors": ["test/BasisMatrixMethod_test.c:InvTMatM8", "test/BasisMatrixMethod_test.c:InvSMatM8", "test/BasisMatrixMethod_test.c:MatrixpairM8", "test/BasisMatrixMethod_test.c:TrailM8"]}
{"id": "C59", "title": "Basis matrix method, 128 bits: singular results", "statement": "The 128-bit tables are wrong: no entry of MatrixM128_inv is the inverse of the entry of MatrixM128 with the same number, and all but entry 14 are singular. InvTMatM128 (\"generate 128*128 invertible matrix\") returns an invertible matrix exactly if all 4096 draws select entry 14; InvSMatM128 always returns a singular matrix; MatrixpairM128 never returns a matrix and its inverse.", "quantifier": "every sequence of values of rand(), every seed other than INT_MAX, every trail of table indices, both byte orders", "why_tests_cant": "a statement about all 16^4096 draw sequences; the test program never looks at the matrices", "anchors": ["test/BasisMatrixMethod_test.c:InvTMatM128", "test/BasisMatrixMethod_test.c:InvSMatM128", "test/BasisMatrixMethod_test.c:MatrixpairM128", "test/BasisMatrixMethod_test.c:MatrixM128"]}
{"id": "C60", "title": "The LowMC bit generator returns and yields the self-shrunk Grain sequence", "statement": "getrandbit of test/LowMCMethod_text.cpp returns from every 80-bit state after at most 80 rounds of its do-while loop and never leaves the all-zero state that would trigger a second initialisation. From program start, its n-th result is the second bit of the n-th pair whose first bit is 1, the pairs being counted from bit 240 of the Grain LFSR sequence started with 80 ones (160 warm-up steps); no pair is skipped and none used twice.", "quantifier": "every state below 2^80; every number of calls", "why_tests_cant": "2^80 states; a loop whose termination depends on 160 successive feedback bits; an infinite stream", "anchors": ["test/LowMCMethod_text.cpp:getrandbit"]}
{"id": "C61", "title": "LowMC method: random matrices and rejection", "statement": "RandbitMat xors onto bit (i, j) the result of one call of getrandbit, each bit its own call in the order of the loops, and touches no other bit. InvTMat of the widths 8 to 256 returns the first invertible one of the accumulated matrices, whatever its uninitialised local held, and invs then yields its inverse; it never returns a singular matrix.", "quantifier": "every width (matrices), widths 8 to 256 (InvTMat), every memory content, every 80-bit generator state, every number of rounds", "why_tests_cant": "all memory contents and generator states; the program only measures time", "anchors": ["test/LowMCMethod_text.cpp:RandbitMatM8", "test/LowMCMethod_text.cpp:InvTMatM8", "test/LowMCMethod_text.cpp:InvTMatM256"]}
{"id": "C62", "title": "LowMC method, 4 bits: garbage in the unused half bytes", "statement": "isinvertM4 on bytes with lower halves L and upper halves H returns 1 exactly if L is invertible and the last row of L^-1 H is zero. InvTMatM4 in test/LowMCMethod_text.cpp passes it an uninitialised local whose upper halves it never clears: if these are linearly independent the function never returns; when it returns, the lower halves are invertible and the upper halves are still the garbage.", "quantifier": "every content of the four bytes, every generator state, every number of rounds", "why_tests_cant": "depends on uninitialised stack memory; non-termination", "anchors": ["test/LowMCMethod_text.cpp:InvTMatM4", "test/LowMCMethod_text.cpp:RandbitMatM4", "src/WBMatrix.c:isinvertM4"]}
{"id": "C63", "title": "the self test always reports ALL PASS", "statement": "test/Accuracy_test.c, on a little-endian machine, never touches memory outside its variables and prints PASS for each of its 51 tests and ALL PASS! at the end. On a big-endian machine exactly its six concatenation tests print ERROR.", "quantifier": "every clock, generator state, number of rounds TEST and content of the uninitialised local variables; both byte orders", "why_tests_cant": "the test draws random matrices seeded by the clock: one run samples 100000 of 2^65536 matrices; the claim is that no run reports a spurious ERROR", "anchors": ["test/Accuracy_test.c:main"]}
{"id": "C64", "title": "generated matrices have at most 32 bits of entropy", "statement": "Over all processes, seeds, clock readings and generator states, randM and genMatpair of each width have at most 2^32 different results and genaffinepair at most 2^64. From 8 bits on there are invertible matrices that genMatpair never returns, as matrix or as inverse.", "quantifier": "every width, byte order, seed, clock, generator state and buffer content; every duplicate-free list of results", "why_tests_cant": "a statement about the set of all possible results; 2^32 runs per width against 2^65536 matrices", "anchors": ["src/WBMatrix/WBMatrix.c:randM*", "src/WBMatrix/WBMatrix.c:genMatpairM*", "src/WBMatrix/WBMatrix.c:genaffinepairM*", "src/WBMatrix/random.c:InitRandom"]}
{"id": "C65", "title": "rank of the randomness tests is the GF(2) rank", "statement": "gf2matrix.rank returns, for every square matrix of bits, the rank over GF(2): the largest number of linearly independent rows; it returns n exactly if the matrix is invertible. With fewer columns than rows it always raises IndexError; with more columns than rows it can be wrong. computeRank in the same file is wrong even for 3 by 3 matrices.", "quantifier": "every size n and every n by n matrix of bits; every shape with M < Q", "why_tests_cant": "2^1024 matrices of the size used; the wrong cases of computeRank are rare", "anchors": ["test/randomness/gf2matrix.py:row_echelon", "test/randomness/gf2matrix.py:rank", "test/randomness/gf2matrix.py:computeRank"]}
{"id": "C66", "title": "the rank test rejects every sequence of invertible 32-bit matrices", "statement": "binary_matrix_rank_test counts the blocks by their rank. On a file with at least 38 invertible 32-bit matrices in memory order (either machine byte order, either bit order within bytes) all blocks have full rank, the chi-square value is at least 91 and the p-value is below 0.01: the test fails. So it fails for all outputs of genMatpairM32, matrices and inverses alike, however good the random numbers are.", "quantifier": "every list of at least 38 invertible matrices; both byte orders, both bit orders; every execution of genMatpairM32", "why_tests_cant": "a run of the test shows one file; the claim is that no random source can make the test pass", "anchors": ["test/randomness/sp800_22_binary_matrix_rank_test.py:binary_matrix_rank_test", "test/randomness/sp800_22_tests.py:read_bits_from_file", "test/randomness/gf2matrix.py:matrix_from_bits"]}
{"id": "C67", "title": "Berlekamp-Massey returns the linear complexity", "statement": "For every non-empty list of bits berelekamp_massey terminates without an exception and returns the length L of the shortest linear feedback shift register that produces the bits; linear_complexity_test collects the linear complexity of every block of M bits. The returned coefficient list has length L and misses the last coefficient of the register: read as the whole polynomial it does not produce the bits (refuted with a witness). The empty list raises an exception.", "quantifier": "every list of bits of every length; every block length M > 0", "why_tests_cant": "minimality quantifies over all shift registers, and correctness over all sequences of all lengths; the source file has one example of 13 bits", "anchors": ["test/randomness/sp800_22_linear_complexity_test.py:berelekamp_massey", "test/randomness/sp800_22_linear_complexity_test.py:linear_complexity_test"]}
{"id": "C68", "title": "the reference probabilities of the linear complexity test are right", "statement": "Among the 2^n sequences of n bits exactly one has linear complexity 0, 2^min(2n-2L, 2L-1) have linear complexity L for 1 <= L <= n, and none has more. With the block length 512 of the suite, the classes of the test are the complexities <= 253, 254, ..., 258, >= 259, and the table pi agrees with the exact probabilities of these classes for a uniform block to within 10^-6.", "quantifier": "every n and L; every class; all 2^512 blocks", "why_tests_cant": "the distribution is over 2^512 blocks", "anchors": ["test/randomness/sp800_22_linear_complexity_test.py:linear_complexity_test"]}
{"id": "C69", "title": "the rank test's reference probabilities are exact", "statement": "The formula by which binary_matrix_rank_test computes its reference probabilities gives, for every size and every rank, exactly the fraction of bit matrices of that size which have that rank. The number of invertible n x n matrices is (2^n-1)(2^n-2)...(2^n-2^(n-1)).", "quantifier": "every number of rows, of columns and every rank", "why_tests_cant": "the fraction is over 2^1024 matrices for the sizes used", "anchors": ["test/randomness/sp800_22_binary_matrix_rank_test.py:binary_matrix_rank_test"]}
{"id": "C70", "title": "the runs test counts the runs", "statement": "For every non-empty bit sequence runs_test either returns early (exactly if the number of ones deviates from n/2 by more than 2 sqrt(n)), or uses the number of maximal constant pieces as its statistic; it divides by zero exactly if all bits are equal and n <= 16 (finding).", "quantifier": "every bit sequence of every length", "why_tests_cant": "all sequences of all lengths", "anchors": ["test/randomness/sp800_22_runs_test.py:runs_test"]}
{"id": "C71", "title": "the longest-run test: statistic and reference probabilities", "statement": "For every sequence of at least 128 bits the parameters fit the data and the table v counts the blocks by the class of their longest run of ones. For blocks of 8 and 128 bits the reference probabilities are the exact ones to within 1/10000. For blocks of 10000 bits (used from 750000 bits on) they are not: the first class has probability at most 0.0875, the table says 0.0882 (refuted).", "quantifier": "every bit sequence; all 2^M blocks", "why_tests_cant": "the probabilities are over 2^128 and 2^10000 blocks", "anchors": ["test/randomness/sp800_22_longest_run_ones_in_a_block_test.py:longest_run_ones_in_a_block_test", "test/randomness/sp800_22_longest_run_ones_in_a_block_test.py:probs"]}
{"id": "C72", "title": "cumulative sums are the extreme distances of the walk", "statement": "For every non-empty bit sequence forward_max is the largest distance of the walk from its start and backward_max the largest distance from its end; both are positive, so p_value does not divide by zero. The empty sequence divides by zero.", "quantifier": "every bit sequence of every length", "why_tests_cant": "all sequences of all lengths", "anchors": ["test/randomness/sp800_22_cumulative_sums_test.py:cumulative_sums_test"]}
{"id": "C73", "title": "random excursions: cycles, visit counts, probabilities", "statement": "For every bit sequence the random excursions test cuts the walk 0, s_1, ..., s_n, 0 at its zeros; the number J of cycles is one more than the number of returns to 0, hence positive, and the variant test computes the same J. The table of x counts the cycles by their number of visits to x and adds up to J; the counters of the variant test (also with negative index) hold the number of visits. The table of probabilities is correct to four digits.", "quantifier": "every bit sequence; every state x; every number of visits", "why_tests_cant": "all sequences of all lengths; loops whose end depends on the data", "anchors": ["test/randomness/sp800_22_random_excursion_test.py:random_excursion_test", "test/randomness/sp800_22_random_excursion_variant_test.py:random_excursion_variant_test"]}
{"id": "C74", "title": "template matching counts occurrences", "statement": "The table of templates lists exactly the bit words of length 2 to 8 without a border. For each of them and every sequence the jumping search loses no occurrence among the positions below M-m. But the last position M-m is never searched (refuted), in both template tests: the mean of W over all blocks is (M-m)/2^m, the test compares with (M-m+1)/2^m.", "quantifier": "every template, every bit sequence; all 2^M blocks for the mean", "why_tests_cant": "the mean is over 2^M blocks; completeness of the table is over all words", "anchors": ["test/randomness/sp800_22_non_overlapping_template_matching_test.py:non_overlapping_template_matching_test", "test/randomness/sp800_22_overlapping_template_matching_test.py:overlapping_template_matching_test"]}
{"id": "C75", "title": "the non-overlapping template test rejects biased sequences", "statement": "Expected: a sequence in which a template occurs far too rarely fails. Refuted: the chi-square value is that of NIST SP 800-22 divided once more by the variance, and for templates of 5 to 8 bits the test passes for all counts up to twice the mean; a sequence of zeros of any length from 32768 bits passes, while the prescribed value fails.", "quantifier": "every block length, every template of 5 to 8 bits, all counts up to twice the mean; every length of the zero sequence", "why_tests_cant": "all lengths, all counts; a test with one file only shows p near 1, as in the published reports", "anchors": ["test/randomness/sp800_22_non_overlapping_template_matching_test.py:non_overlapping_template_matching_test"]}
{"id": "C76", "title": "serial test: cyclic counts, non-negative differences", "statement": "For every non-empty bit sequence and pattern length m >= 2 (m-1 at most the length) the serial test computes the first and second difference of psi^2 over the counts of the cyclic sequence, without exception, and both differences are >= 0.", "quantifier": "every bit sequence, every pattern length", "why_tests_cant": "all sequences and lengths; the sign follows from an identity between counts of different pattern lengths", "anchors": ["test/randomness/sp800_22_serial_test.py:serial_test", "test/randomness/sp800_22_serial_test.py:psi_sq_mv1"]}
{"id": "C77", "title": "Maurer's test: distances and block length", "statement": "For every bit sequence the value dist of block i is the distance to the last earlier equal block, or i+1 if there is none; it is at least 1, so the logarithm exists. For every length from 387840 bits on the block length L is between 6 and 16, leaves at least 1000*2^L test blocks, and below 16 is the largest such length.", "quantifier": "every bit sequence, block length, number of initial blocks; every length n", "why_tests_cant": "all sequences; lengths up to and beyond 10^9", "anchors": ["test/randomness/sp800_22_maurers_universal_test.py:maurers_universal_test"]}
{"id": "C78", "title": "frequency within blocks", "statement": "For every sequence of at least 100 bits the blocks (5 to 99 of at least 20 bits) fit in the sequence and chisq is the sum of (ones-zeros)^2/M. For perfectly balanced blocks (chisq = 0, p should be 1) the test fails with p = 0 or divides by zero (refuted).", "quantifier": "every bit sequence of at least 100 bits", "why_tests_cant": "all sequences of all lengths", "anchors": ["test/randomness/sp800_22_frequency_within_block_test.py:frequency_within_block_test"]}
{"id": "C79", "title": "approximate entropy: value and range", "statement": "For every non-empty bit sequence and pattern length m up to its length, chisq is 2n(ln 2 - (phi_m - phi_(m+1))) with the cyclic pattern frequencies (the division by 10 under the logarithm cancels), and lies between 0 and 2n ln 2.", "quantifier": "every bit sequence, every pattern length", "why_tests_cant": "real-valued inequality over all sequences", "anchors": ["test/randomness/sp800_22_approximate_entropy_test.py:approximate_entropy_test"]}
{"id": "C80", "title": "gammaincc", "statement": "For integers a from 1 to 50 and every x > 0 the continued fraction of 100 levels is exact: gammaincc(a,x) = e^-x (1 + x + ... + x^(a-1)/(a-1)!), the regularised upper incomplete gamma function. At x = 0 (value 1) it divides by zero for these a, and gives 0 for a = 1/2, 3/2, ..., 99/2 (refuted); so the serial test divides by zero on a sequence whose 4-bit patterns are equally frequent.", "quantifier": "every real x > 0, every integer a from 1 to 50", "why_tests_cant": "real arguments; 100 nested levels", "anchors": ["test/randomness/gamma_functions.py:upper_incomplete_gamma", "test/randomness/gamma_functions.py:gammaincc"]}
{"id": "C81", "title": "Gray code book of M4RI", "statement": "For every length l from 1 to 16 m4ri_build_code lists all 2^l numbers once, starting at 0; consecutive ones differ exactly in the bit named by inc.", "quantifier": "every code length of the code book", "why_tests_cant": "the tables of all combinations are built on this order; the values are not visible in any interface", "anchors": ["test/github1_M4RI/src/m4ri/graycode.c:m4ri_gray_code", "test/github1_M4RI/src/m4ri/graycode.c:m4ri_build_code"]}
{"id": "C82", "title": "table of combinations", "statement": "After mzd_make_table row L[id] of T is, from column c on, the sum of the rows r + l of M with bit l set in id, for every id below 2^k.", "quantifier": "every matrix, every start row and column, every k from 1 to 16", "why_tests_cant": "all matrices of all sizes, all word alignments of c", "anchors": ["test/github1_M4RI/src/m4ri/brilliantrussian.c:mzd_make_table"]}
{"id": "C83", "title": "naive echelon form and invertibility test", "statement": "mzd_echelonize_naive computes a row equivalent (reduced) echelon form and the rank. IsMatGf2Invertible is true exactly for invertible square matrices; the matrix without rows is read out of bounds.", "quantifier": "every matrix of every size", "why_tests_cant": "all matrices; a test sees samples", "anchors": ["test/github1_M4RI/src/m4ri/mzd.c:mzd_gauss_delayed", "test/github1_M4RI/src/m4ri/mzd.c:mzd_echelonize_naive", "test/github1_M4RI/src/matrixlib/matrix_gf2.c:IsMatGf2Invertible"]}
{"id": "C84", "title": "Four Russians echelon form", "statement": "mzd_echelonize_m4ri computes the reduced row echelon form and the rank, for k = 1 to 10 and for the k it chooses itself. With at most 3 rows and more than 87381 columns it chooses k = 0 and never ends.", "quantifier": "every matrix of every size with at least one column, every k from 0 to 10", "why_tests_cant": "correctness for all matrices and table splits; non-termination", "anchors": ["test/github1_M4RI/src/m4ri/brilliantrussian.c:_mzd_echelonize_m4ri", "test/github1_M4RI/src/m4ri/brilliantrussian.c:_mzd_gauss_submatrix_full", "test/github1_M4RI/src/m4ri/brilliantrussian.c:mzd_process_rows6", "test/github1_M4RI/src/m4ri/mzd.c:mzd_find_pivot"]}
{"id": "C85", "title": "M4RI inverse", "statement": "mzd_inv_m4ri returns the inverse of every invertible matrix. For a singular matrix it returns some invertible matrix V with V A in reduced row echelon form, without any sign of failure (refuted: the result is an inverse).", "quantifier": "every square matrix of every size n >= 1", "why_tests_cant": "all matrices of all sizes", "anchors": ["test/github1_M4RI/src/m4ri/brilliantrussian.c:mzd_inv_m4ri", "test/github1_M4RI/src/m4ri/mzd.c:mzd_set_ui"]}
{"id": "C86", "title": "M4RI transposition", "statement": "mzd_transpose is the transpose for every matrix with at least one row and one column that fits into one memory block (up to 2^32 bits, rounded up), independently of the uninitialised stack words it works on. A matrix with zero rows or zero columns, but not both, stops the program.", "quantifier": "every size, every entry, every content of the uninitialised stack array", "why_tests_cant": "several hundred code paths by size (64 x 64 tiles, strips of less than 64 rows or columns, corners of up to 8, 16, 32, 64); stack content cannot be enumerated", "anchors": ["test/github1_M4RI/src/m4ri/mzd.c:mzd_transpose", "test/github1_M4RI/src/m4ri/mzd.c:_mzd_transpose", "test/github1_M4RI/src/m4ri/mzd.c:_mzd_copy_transpose_64x64", "test/github1_M4RI/src/m4ri/mzd.c:_mzd_copy_transpose_lt64x64", "test/github1_M4RI/src/m4ri/mzd.c:_mzd_copy_transpose_64xlt64", "test/github1_M4RI/src/m4ri/mzd.c:_mzd_copy_transpose_le64xle64"]}
{"id": "C87", "title": "64 parities at once", "statement": "Bit p of m4ri_parity64(buf) is the parity of buf[p].", "quantifier": "all arrays of 64 words", "why_tests_cant": "2^4096 inputs", "anchors": ["test/github1_M4RI/include/m4ri/parity.h:m4ri_parity64"]}
{"id": "C88", "title": "M4RI products", "statement": "mzd_mul_m4rm (method of the Four Russians) and mzd_mul_naive both compute the product over GF(2), for every k and every cache size, and so agree.", "quantifier": "every pair of matrices with matching sizes (inner dimension and columns at least 1, one memory block), every k, every previous content of the target", "why_tests_cant": "correctness for all sizes, all k and all entries", "anchors": ["test/github1_M4RI/src/m4ri/brilliantrussian.c:mzd_mul_m4rm", "test/github1_M4RI/src/m4ri/brilliantrussian.c:_mzd_mul_m4rm", "test/github1_M4RI/src/m4ri/mzd.c:mzd_mul_naive", "test/github1_M4RI/src/m4ri/mzd.c:_mzd_mul_naive", "test/github1_M4RI/src/m4ri/mzd.c:_mzd_mul_va"]}
{"id": "C89", "title": "M4RI sums and blocks", "statement": "mzd_add is the entrywise sum, mzd_concat is (A | B), mzd_stack is A above B, mzd_submatrix is the given rows and columns. mzd_submatrix is undefined if the first column is no multiple of 64 and the number of columns is one.", "quantifier": "every size, every entry, every window", "why_tests_cant": "all alignments of columns to words", "anchors": ["test/github1_M4RI/src/m4ri/mzd.c:mzd_add", "test/github1_M4RI/src/m4ri/mzd.c:mzd_concat", "test/github1_M4RI/src/m4ri/mzd.c:mzd_stack", "test/github1_M4RI/src/m4ri/mzd.c:mzd_submatrix"]}
{"id": "C90", "title": "M4RI comparisons", "statement": "mzd_cmp is a total order on matrices: sizes first, then the first different row, there the last different column; it is 0 exactly for equal matrices. mzd_equal decides equality, mzd_is_zero whether all entries are zero.", "quantifier": "every pair of matrices with at least one column", "why_tests_cant": "order axioms over all matrices", "anchors": ["test/github1_M4RI/src/m4ri/mzd.c:mzd_cmp", "test/github1_M4RI/src/m4ri/mzd.c:mzd_equal", "test/github1_M4RI/src/m4ri/mzd.c:mzd_is_zero"]}
{"id": "C91", "title": "M4RI naive inverse", "statement": "mzd_invert_naive(NULL, A, I) with the identity I is the inverse of every invertible A. It never returns NULL: of a singular matrix it returns an invertible matrix V with V A in reduced row echelon form (refuted: the result is an inverse).", "quantifier": "every square matrix of every size n >= 1", "why_tests_cant": "all matrices of all sizes", "anchors": ["test/github1_M4RI/src/m4ri/mzd.c:mzd_invert_naive"]}
{"id": "C92", "title": "Numbers as vectors over M4RI", "statement": "InitVecFromBit (and _64, _128) writes the bits of a number to a vector, most significant bit first; getDigitalFromVec, get32/64/128FromVec read it back. Vectors of the wrong size give 0.", "quantifier": "every number, every vector size up to the width of the number, both sizes of unsigned long", "why_tests_cant": "2^128 numbers", "anchors": ["test/github1_M4RI/src/matrixlib/matrix_gf2.c:InitVecFromBit", "test/github1_M4RI/src/matrixlib/matrix_gf2.c:getDigitalFromVec", "test/github1_M4RI/src/matrixlib/matrix_gf2.c:get32FromVec", "test/github1_M4RI/src/matrixlib/matrix_gf2.c:get128FromVec"]}
{"id": "C93", "title": "Matrices from arrays over M4RI", "statement": "InitMatrixFromBitArray writes one number per row; InitMatGf2ByValueArray writes values modulo 2, correctly for square matrices. Refuted: other sizes (wrong distance of rows, reads outside of the array), negative odd values, the example in the header. GenIndMatrix and GenZeroVec give the identity and zero.", "quantifier": "every size and array", "why_tests_cant": "all sizes and arrays; the out-of-range read may go unnoticed", "anchors": ["test/github1_M4RI/src/matrixlib/matrix_gf2.c:InitMatrixFromBitArray", "test/github1_M4RI/src/matrixlib/matrix_gf2.c:InitMatGf2ByValueArray", "test/github1_M4RI/src/matrixlib/matrix_gf2.c:MatGf2Set", "test/github1_M4RI/src/matrixlib/matrix_gf2.c:GenIndMatrix"]}
{"id": "C94", "title": "Matrices and affine maps applied to numbers over M4RI", "statement": "ApplyMatToU8..U128 return the matrix times the bits of the number, AddMatToU32..U128 the xor, ApplyAffineToU8/16/32 and ApplyAffineTransform the affine map, whatever uninitialised memory contains.", "quantifier": "every matrix, vector, number and stack content", "why_tests_cant": "2^1024 matrices, uninitialised memory", "anchors": ["test/github1_M4RI/src/matrixlib/matrix_gf2.c:ApplyMatToU32", "test/github1_M4RI/src/matrixlib/matrix_gf2.c:AddMatToU32", "test/WBSM4/M4RI/src/matrixlib/affine_transform.c:ApplyAffineToU32", "test/WBSM4/M4RI/src/matrixlib/affine_transform.c:ApplyAffineTransform"]}
{"id": "C95", "title": "Block diagonal matrices over M4RI", "statement": "MatGf2Diag returns the block diagonal matrix of two square matrices. Refuted: with fewer rows than columns rows outside of the matrix are read.", "quantifier": "all sizes and matrices", "why_tests_cant": "all sizes", "anchors": ["test/github1_M4RI/src/matrixlib/matrix_gf2.c:MatGf2Diag", "test/github1_M4RI/src/matrixlib/matrix_gf2.c:GenMatGf2Diag"]}
{"id": "C96", "title": "Export and import over M4RI", "statement": "ExportMatGf2ToStr writes the sizes and one character per entry; importing it at any place of a longer string gives the identical matrix; the same for affine maps.", "quantifier": "every matrix and affine map whose size fits an int, every content of fresh memory", "why_tests_cant": "all sizes and entries", "anchors": ["test/github1_M4RI/src/matrixlib/matrix_gf2.c:ExportMatGf2ToStr", "test/github1_M4RI/src/matrixlib/matrix_gf2.c:ImportMatGf2FromStr", "test/WBSM4/M4RI/src/matrixlib/affine_transform.c:ExportAffineToStr", "test/WBSM4/M4RI/src/matrixlib/affine_transform.c:ImportAffineFromStr"]}
{"id": "C97", "title": "Random invertible matrices and affine maps over M4RI", "statement": "GenInvertibleMatGf2(n, n) returns the first invertible matrix drawn; GenRandomAffineTransform returns an affine map with such a matrix and its inverse, which undo each other. They end as soon as an invertible matrix is drawn, and never if rows and columns differ.", "quantifier": "every sequence of random(), every dimension up to 4096", "why_tests_cant": "all random sequences; termination", "anchors": ["test/github1_M4RI/src/matrixlib/matrix_gf2.c:GenInvertibleMatGf2", "test/WBSM4/M4RI/src/matrixlib/affine_transform.c:GenRandomAffineTransform", "test/github1_M4RI/src/m4ri/mzd.c:mzd_randomize"]}
{"id": "C98", "title": "Destinations that are operands over M4RI", "statement": "The destination of MatGf2Mul, MatGf2Add, MatGf2Inv, MatGf2Transpose, MatGf2Stack and MatGf2Concat may be NULL, an operand or another matrix: the result is the same and only the old destination is freed. MatGf2Diag and MatGf2Copy free it first: with an operand as destination they read freed memory.", "quantifier": "every memory and choice of pointers", "why_tests_cant": "use after free often goes unnoticed", "anchors": ["test/github1_M4RI/src/matrixlib/matrix_gf2.c:MatGf2Mul", "test/github1_M4RI/src/matrixlib/matrix_gf2.c:MatGf2Add", "test/github1_M4RI/src/matrixlib/matrix_gf2.c:MatGf2Diag", "test/github1_M4RI/src/matrixlib/matrix_gf2.c:MatGf2Copy"]}
{"id": "C99", "title": "White-box SM4 over M4RI computes SM4", "statement": "sm4_wb_gen_tables is defined for every key, every random sequence and every previous content of the global arrays; whenever the random sequence lets it end, encrypting any block with the generated tables returns SM4 of the block under the key. It ends if enough invertible matrices are drawn.", "quantifier": "every key, block, random sequence, previous content of tables and context, content of uninitialised memory, size of unsigned long", "why_tests_cant": "2^128 keys and blocks times all encodings", "anchors": ["test/WBSM4/M4RI/src/matrixlib/wbsm4_gen.c:sm4_wb_gen_tables", "test/WBSM4/M4RI/src/matrixlib/wbsm4_gen.c:sm4_wb_gen_affine", "test/WBSM4/M4RI/src/matrixlib/wbsm4_gen.c:sm4_wb_combine_tables", "test/WBSM4/M4RI/test/main.c:sm4_wb_enc"]}
{"id": "C100", "title": "White-box AES over M4RI computes AES", "statement": "computeTables is defined (with signed shifts wrapping) for every content of the expanded key, of the global tables and every random sequence; whenever the random sequence lets it end, encrypting any block with the generated tables gives the cipher with the round keys that were in the buffer, and with expandKey before it AES-128. It ends if enough invertible matrices are drawn. The expanded key is changed in place, so a second call on the same buffer gives tables for another key; read as ISO C every call is undefined.", "quantifier": "every expanded key, key, block, random sequence, previous content of tables, content of uninitialised memory, size of unsigned long", "why_tests_cant": "2^128 keys and blocks times all random bijections; undefined shifts are silent", "anchors": ["test/WBAES/M4RI/src/matrixlib/genTables.c:computeTables", "test/WBAES/M4RI/src/matrixlib/genTables.c:aes_128_table_encrypt", "test/WBAES/M4RI/src/matrixlib/aes.c:expandKey"]}
{"id": "C101", "title": "The tables over M4RI contain the key", "statement": "One fixed function reads the AES key off the first round's T-boxes generated by the M4RI variant, whatever bijections were drawn.", "quantifier": "every key, random sequence, previous content of the tables", "why_tests_cant": "universal over all random choices; a test cannot show that the encodings never help", "anchors": ["test/WBAES/M4RI/src/matrixlib/genTables.c:computeTables"]}
{"id": "C102", "title": "White-box SM4 over NTL computes SM4", "statement": "Table generation is defined for every key, every content of the global arrays and every random sequence; encrypting any block with the generated tables gives SM4 of the block under the key. Generation ends, with tables that do not depend on the number of tries allowed, if the random bits contain invertible matrices of dimension 8 and 32 again and again.", "quantifier": "every key, block, random sequence, previous content of arrays, size of long, every correct determinant and inverse", "why_tests_cant": "2^128 keys and blocks times all random encodings", "anchors": ["test/WBSM4/NTL/src/matrixlib/wbsm4_gen.cpp:sm4_wb_gen_tables", "test/WBSM4/NTL/test/main.cpp", "test/WBSM4/NTL/src/matrixlib/MatrixUtils.cpp:genRandomAffineMatrix"]}
{"id": "C103", "title": "White-box AES over NTL computes AES", "statement": "computeTables is defined for every content of the expanded key, of the global tables and every random sequence; encrypting any block with the generated tables gives the cipher with the round keys that were in the buffer, and with expandKey before it AES-128. It ends if the random bits contain invertible matrices of dimension 8 and 32 again and again. The expanded key is changed in place, so a second call on the same buffer gives tables for another key.", "quantifier": "every expanded key, key, block, random sequence, previous content of tables, every correct determinant and inverse", "why_tests_cant": "2^128 keys and blocks times all random bijections", "anchors": ["test/WBAES/NTL/src/genTables.cpp:computeTables", "test/WBAES/NTL/src/genTables.cpp:aes_128_table_encrypt", "test/WBAES/NTL/src/aes.cpp:expandKey"]}
{"id": "C104", "title": "The tables over NTL contain the key", "statement": "One fixed function reads the AES key off the first round's T-boxes generated by the NTL variant, whatever bijections were drawn.", "quantifier": "every key, random sequence, previous content of the tables", "why_tests_cant": "universal over all random choices; a test cannot show that the encodings never help", "anchors": ["test/WBAES/NTL/src/genTables.cpp:computeTables"]}
{"id": "C105", "title": "Random matrices over NTL are the first invertible ones without unit rows", "statement": "RandMat::init with is_mb, InvTMat and genRandomInvMatrix return the first invertible matrix among those drawn row by row, where a row with exactly one 1 is drawn again, and store its two-sided inverse; without is_mb the first matrix is returned. They end whenever the random bits contain such a matrix. In dimensions 1 and 2 no random bits do, so the functions never return; in every other dimension some do.", "quantifier": "every dimension, random sequence, every correct determinant and inverse", "why_tests_cant": "non-termination and the exact set of reachable matrices are properties of all random sequences", "anchors": ["test/NTL/src/RandMat.cpp:RandMat::init", "test/NTL/src/RandMat.cpp:InvTMat", "test/WBAES/NTL/src/RandMat.cpp:RandMat::init", "test/WBSM4/NTL/src/matrixlib/MatrixUtils.cpp:genRandomInvMatrix"]}
{"id": "C106", "title": "Random affine maps over NTL come with their inverses", "statement": "genRandomAffineMatrix returns an affine map drawn from the random bits and the affine map inverse to it on all numbers. genRandomAffineAugmentedMatrix returns ((L, t), (0, 1)), which takes (v, 1) to (L v + t, 1), and its two-sided inverse.", "quantifier": "every dimension, random sequence, argument, every correct determinant and inverse", "why_tests_cant": "all matrices, vectors and arguments of every dimension", "anchors": ["test/WBSM4/NTL/src/matrixlib/MatrixUtils.cpp:genRandomAffineMatrix", "test/WBSM4/NTL/src/matrixlib/MatrixUtils.cpp:genRandomAffineAugmentedMatrix"]}
{"id": "C107", "title": "Numbers and vectors over NTL", "statement": "The conversions between numbers and vectors put the most significant bit first and are inverse to each other for 32-bit and 64-bit long; applyAffineTo, applyMatTo and addVecTo for U8 and U32 are the affine map, the linear map and the sum on the bits; combineDiagMat is the block diagonal matrix, genIndMatrix the identity, genZeroVec zero. get32FromVec of a vector with fewer than 32 entries reads outside of it.", "quantifier": "every number, vector, matrix", "why_tests_cant": "2^32 arguments times all matrices; out-of-range reads are silent", "anchors": ["test/WBSM4/NTL/src/matrixlib/MatrixUtils.cpp:getVecFrom32", "test/WBSM4/NTL/src/matrixlib/MatrixUtils.cpp:getAugmentedVecFrom32", "test/WBSM4/NTL/src/matrixlib/MatrixUtils.cpp:initVecFromBit", "test/WBSM4/NTL/src/matrixlib/MatrixUtils.cpp:get32FromVec", "test/WBSM4/NTL/src/matrixlib/MatrixUtils.cpp:applyAffineToU32", "test/WBSM4/NTL/src/matrixlib/MatrixUtils.cpp:applyMatToU8", "test/WBSM4/NTL/src/matrixlib/MatrixUtils.cpp:addVecToU32", "test/WBSM4/NTL/src/matrixlib/MatrixUtils.cpp:combineDiagMat", "test/WBSM4/NTL/src/matrixlib/MatrixUtils.cpp:genIndMatrix"]}
{"id": "C108", "title": "github4: Gauss elimination gives the inverse or divides by zero", "statement": "If augmenting and eliminating finish without a division by zero, the left half is the identity and the right half is the two-sided inverse of the matrix; a singular matrix always ends in a division by zero; running again on the result changes nothing, so of the benchmark's repeated runs only the first inverts. That every invertible matrix is inverted is false: pivots are compared with their sign, so the chosen pivot can be zero, even for a matrix of zeros and ones.", "quantifier": "every dimension, every matrix of rational numbers", "why_tests_cant": "infinitely many matrices; which ones meet a zero pivot depends on values computed on the way", "anchors": ["test/github4/src/matrixinverse.c:augmentingmatrix", "test/github4/src/matrixinverse.c:findPivo", "test/github4/src/matrixinverse.c:calcInverse", "test/github4/test/InvMatrix_test.c:InvSMatM8"]}
{"id": "C109", "title": "github7: elimination gives the inverse or divides by zero, and destroys its argument", "statement": "If reverseMatrix finishes without a division by zero its result is the two-sided inverse and the matrix passed has become the identity; hence the second and all later calls of the benchmark return the identity. A singular matrix always ends in a division by zero. That every invertible matrix is inverted is false: columns are exchanged by exchanging rows, pivots are compared after truncation to int, and the 32 by 32 matrix of the benchmark itself is invertible but divided by zero.", "quantifier": "every dimension, every matrix of rational numbers, every number of calls", "why_tests_cant": "infinitely many matrices; infinities and NaN in float arithmetic go unnoticed in a benchmark", "anchors": ["test/github7/inverseMatrix.c:reverseMatrix", "test/github7/inverseMatrix.c:qMatrixMainElementLQ", "test/github7/main.c:main"]}
{"id": "C110", "title": "github2: the cofactor method inverts", "statement": "For orders 2 to 100 the determinant is the determinant, a singular matrix leaves the result unwritten and any other matrix gives its two-sided inverse; all reads are of written elements inside the arrays. For order 1 the result is 1 whatever the entry, so the claim is false there.", "quantifier": "every order up to 100, every matrix of rational numbers", "why_tests_cant": "infinitely many matrices; reads of unwritten stack arrays cannot be observed", "anchors": ["test/github2/src/Inverse-matrix.c:det", "test/github2/src/Inverse-matrix.c:cofactor", "test/github2/src/Inverse-matrix.c:inverse"]}
{"id": "C111", "title": "github3: the adjugate method inverts and leaks", "statement": "For every order from 2 the matrix computed from an invertible one is its two-sided inverse and order^2 - 1 matrices are never freed; a singular matrix gives none. mulmat is the product, or null if the dimensions do not fit. For order 1 the result is 0, so the claim is false there.", "quantifier": "every order, every matrix of rational numbers, every pair of dimensions", "why_tests_cant": "infinitely many matrices; a leak does not change results", "anchors": ["test/github3/src/matriz_inversa.c:determmatrix", "test/github3/src/matriz_inversa.c:adjmmatrix", "test/github3/src/matriz_inversa.c:invermmatrix", "test/github3/src/matriz_inversa.c:mulmat"]}
{"id": "C112", "title": "github6: the cofactor method on int matrices inverts, without overflow for entries 0 and 1, and leaks factorially", "statement": "For every order from 2: a result is the two-sided inverse and exactly (order+1)! arrays have not been freed (362880 for one call of the benchmark); for entries -1, 0, 1 and orders up to 12 no int overflows and every invertible matrix gives a result; a singular matrix is divided by zero. For order 1 the result is 0, so the claim is false there.", "quantifier": "every order, every int matrix, every previous content of the result", "why_tests_cant": "2^64 matrices of order 8 alone; overflow and leaks do not show", "anchors": ["test/github6/Inverse_of_matrix.c:determinant", "test/github6/Inverse_of_matrix.c:transpose", "test/github6/Inverse_of_matrix.c:cofactor"]}
{"id": "C113", "title": "github5: the generator of invertible matrices", "statement": "If the memory of tempArray is thought of as holding numbers, getInvertibleMatrix is defined without int overflow for every n >= 2, its entries are within 65535 in absolute value and the last column is always that of the identity; for n = 2 the result is invertible. For n = 3 it can be singular, so the name is wrong. In C terms every call with at least one transformation reads unwritten memory, and n = 1 divides by zero.", "quantifier": "every sequence of values of rand(), every n, every content of the memory", "why_tests_cant": "all random sequences of up to a thousand transformations; the singular results are rare", "anchors": ["test/github5/src/invertiblematrix.c:getIdentityMatrix", "test/github5/src/invertiblematrix.c:getInvertibleMatrix"]}
{"id": "C114", "title": "M4RI: the cache of memory blocks never gives a block twice and loses none", "statement": "Whatever sequence of allocations of positive sizes, frees and cleanups a program makes through m4ri_mmc_malloc, m4ri_mmc_free and m4ri_mmc_cleanup: nothing is freed twice, the program's blocks are regions of the requested size that do not overlap each other or anything else in use, at most 16 more regions are kept, and a cleanup gives exactly those back. For size 0 this is false: a null-size request can return the address of a block given back before.", "quantifier": "every sequence of operations, every allocator that returns separate regions, every threshold, every state of the heap", "why_tests_cant": "unboundedly many sequences; a double free or an overlap corrupts memory without a wrong result in most runs", "anchors": ["test/github1_M4RI/src/m4ri/mmc.c:m4ri_mmc_malloc", "test/github1_M4RI/src/m4ri/mmc.c:m4ri_mmc_free", "test/github1_M4RI/src/m4ri/mmc.c:m4ri_mmc_cleanup"]}
{"id": "C115", "title": "M4RI: the cache of matrix headers", "statement": "Whatever headers a program asks for and gives back, in any order, mzd_t_malloc and mzd_t_free do nothing undefined: the headers in use never overlap each other or other memory, each is inside a cache block or an own region, the list of cache blocks has at most 16 members, and when all headers are given back all memory is. log2_floor is the binary logarithm.", "quantifier": "every sequence of operations, every allocator that returns separate regions, every 64-bit number", "why_tests_cant": "unboundedly many sequences; the paths with full, emptied and unlinked blocks need more than 64 to 1024 live matrices in particular orders", "anchors": ["test/github1_M4RI/src/m4ri/mzd.c:mzd_t_malloc", "test/github1_M4RI/src/m4ri/mzd.c:mzd_t_free", "test/github1_M4RI/src/m4ri/mzd.c:log2_floor"]}
{"id": "C116", "title": "M4RI: matrices own separate memory, rows never overlap, and all memory comes back", "statement": "A program may make matrices and windows, free them in any order and clean up: nothing undefined happens, headers, row arrays, block arrays and blocks of all its matrices are pairwise separate regions in use, and when all are freed a cleanup gives all memory back. A new matrix has the dimensions asked for, its rows lie inside its blocks and do not overlap, and mzd_row computes the address stored in rows while row times rowstride is below 2^31. Above that the claim is false: mzd_row overflows int.", "quantifier": "every sequence of operations with dimensions in range, every allocator that returns separate regions", "why_tests_cant": "unboundedly many sequences; matrices of several blocks need gigabytes", "anchors": ["test/github1_M4RI/src/m4ri/mzd.c:mzd_init", "test/github1_M4RI/src/m4ri/mzd.c:mzd_free", "test/github1_M4RI/include/m4ri/mzd.h:mzd_row"]}
{"id": "C117", "title": "M4RI: windows and the addresses computed from blocks", "statement": "In every program a window on a matrix or window with rows and columns has the rows lowr to highr - 1, as far as there are any, and the columns from lowc on; each row lies inside the row it is taken from. For every matrix and window with rows and columns mzd_first_row, mzd_row, mzd_first_row_next_block and mzd_rows_in_block agree with the row addresses; mzd_remaining_rows_in_block does if the window begins at the start of a block and is false otherwise. A window on a matrix without columns reads a field that was never set, so the claim is false there.", "quantifier": "every reachable state, every window, every block and row", "why_tests_cant": "windows over several blocks need matrices of more than a gigabyte; nested windows in all positions", "anchors": ["test/github1_M4RI/src/m4ri/mzd.c:mzd_init_window", "test/github1_M4RI/include/m4ri/mzd.h:mzd_first_row", "test/github1_M4RI/include/m4ri/mzd.h:mzd_first_row_next_block", "test/github1_M4RI/include/m4ri/mzd.h:mzd_rows_in_block", "test/github1_M4RI/include/m4ri/mzd.h:mzd_remaining_rows_in_block"]}
{"id": "C118", "title": "M4RI: the Strassen product is the product", "statement": "mzd_mul(C, A, B, cutoff) returns the product of A and B over GF(2), with C given or NULL, A and B different or the same matrix, windows or not, for every cutoff together with dimensions of which none is from 86 to 127 unless the cutoff is 0 or at least 128. The result is that of mzd_mul_naive, so it does not depend on the cutoff.", "quantifier": "all matrices of one memory block with an inner dimension of at least 1, all previous contents of C, all cutoffs below 2^29, all contents of uninitialised memory", "why_tests_cant": "seven recursive products with reused temporaries and three products for the rest; an error shows only in sizes that are cut, with particular remainders", "anchors": ["test/github1_M4RI/src/m4ri/strassen.c:mzd_mul", "test/github1_M4RI/src/m4ri/strassen.c:_mzd_mul_even", "test/github1_M4RI/src/m4ri/strassen.c:_mzd_sqr_even", "test/github1_M4RI/src/m4ri/strassen.c:closer"]}
{"id": "C119", "title": "M4RI: the Strassen product added to a matrix", "statement": "mzd_addmul(C, A, B, cutoff) adds the product of A and B to C, which is the zero matrix for NULL, also for A = B and for dimensions 0, if the inner dimension is cuttable for the cutoff, or the product has fewer than 128 rows or fewer than 128 columns.", "quantifier": "all matrices of one memory block, all cutoffs below 2^29, all contents of uninitialised memory", "why_tests_cant": "as C118; the accumulating variant has its own sequence of operations", "anchors": ["test/github1_M4RI/src/m4ri/strassen.c:mzd_addmul", "test/github1_M4RI/src/m4ri/strassen.c:_mzd_addmul_even", "test/github1_M4RI/src/m4ri/strassen.c:_mzd_addsqr_even"]}
{"id": "C120", "title": "M4RI: cutoffs with which the Strassen product stops the program", "statement": "With a cutoff from 1 to 127, mzd_mul stops the program or reads through a null pointer for all matrices with at least 128 rows and columns and an inner dimension from 86 to 127, and for all whose product has 86 to 127 columns and a number of rows that is no multiple of 128, the other dimensions at least 86; so for all square matrices of size 86 to 127 and their squaring. If the condition of C119 fails, mzd_addmul does so too, so that C119 is exact. Hence mzd_mul and mzd_addmul are not the product for every cutoff.", "quantifier": "all matrices of these dimensions, all cutoffs from 1 to 127", "why_tests_cant": "a test with the default cutoff or with powers of two as sizes never meets the case", "anchors": ["test/github1_M4RI/src/m4ri/strassen.c:_mzd_mul_even", "test/github1_M4RI/src/m4ri/strassen.c:_mzd_sqr_even", "test/github1_M4RI/src/m4ri/mzd.c:mzd_transpose"]}
{"id": "C121", "title": "White-box AES tests: hexadecimal text", "statement": "asciiStr2hex reads back what printstate prints, for every state, and reads every text of pairs of digits in upper or lower case. ascii2hex gives a value exactly for the digits 0-9, A-F, a-f; for every other character it returns a variable that was never set.", "quantifier": "all states, all texts, all characters", "why_tests_cant": "22 digits to the power of the length; the uninitialised value is often 0 by chance", "anchors": ["test/WBAES/WBMatrix/test/main.c:ascii2hex", "test/WBAES/WBMatrix/test/main.c:asciiStr2hex", "test/WBAES/WBMatrix/test/main.c:printstate"]}
{"id": "C122", "title": "M4RI: lower triangular systems", "statement": "mzd_trsm_lower_left(L, B, cutoff) replaces B by the solution X of L X = B over GF(2), for every number of rows (row by row up to 64, with tables up to 512, recursively above). L is taken as unit lower triangular: its diagonal, what is above it and bits beyond the last column of a window do not matter. B stays a valid matrix.", "quantifier": "all matrices of one memory block of which B has a column, all cutoffs below 2^29, all table sizes, all contents of uninitialised memory", "why_tests_cant": "three algorithms with the boundaries 64 and 512, tables of eight times k rows with a remainder: an error in a remainder shows only at particular sizes", "anchors": ["test/github1_M4RI/src/m4ri/triangular.c:mzd_trsm_lower_left", "test/github1_M4RI/src/m4ri/triangular.c:_mzd_trsm_lower_left", "test/github1_M4RI/src/m4ri/triangular_russian.c:_mzd_trsm_lower_left_russian", "test/github1_M4RI/src/m4ri/triangular_russian.c:_mzd_trsm_lower_left_submatrix"]}
{"id": "C123", "title": "M4RI: upper triangular systems", "statement": "mzd_trsm_upper_left(U, B, cutoff) replaces B by the solution X of U X = B over GF(2), U taken as unit upper triangular, for every number of rows and every cutoff other than 1 to 63.", "quantifier": "all matrices of one memory block of which B has a column, all cutoffs below 2^29 that are 0 or at least 64, all table sizes, all contents of uninitialised memory", "why_tests_cant": "as C122, with the rows taken from the bottom", "anchors": ["test/github1_M4RI/src/m4ri/triangular.c:mzd_trsm_upper_left", "test/github1_M4RI/src/m4ri/triangular.c:_mzd_trsm_upper_left", "test/github1_M4RI/src/m4ri/triangular_russian.c:_mzd_trsm_upper_left_russian", "test/github1_M4RI/src/m4ri/triangular_russian.c:_mzd_trsm_upper_left_submatrix"]}
{"id": "C124", "title": "M4RI: permutations of rows", "statement": "mzd_apply_p_left(A, P) takes row x of the result from row p(x) of A, p being the product of the transpositions of i and P[i], also for a permutation shorter than the number of rows; mzd_apply_p_left_trans does so with the inverse of p, and each undoes the other.", "quantifier": "all matrices with a column, all permutations of at most nrows transpositions", "why_tests_cant": "the order in which transpositions are applied matters only for permutations that are not their own inverse", "anchors": ["test/github1_M4RI/src/m4ri/mzp.c:mzd_apply_p_left", "test/github1_M4RI/src/m4ri/mzp.c:mzd_apply_p_left_trans"]}
{"id": "C125", "title": "M4RI: permutations of columns", "statement": "mzd_col_swap exchanges two columns and mzd_col_swap_in_rows does so in a range of rows, in one word or two; mzd_apply_p_right_trans(A, P) takes column j from column p(j) and mzd_apply_p_right from the inverse, if P has as many entries as A has columns; mzd_apply_p_right_trans_tri applies to row i only the transpositions with an index above i. With a shorter P the columns beyond its length that it moves become zero, so that the functions are no permutations then.", "quantifier": "all matrices, all columns, all permutations, all sizes of the blocks of rows", "why_tests_cant": "words whose columns all stay are skipped, others are gathered bit by bit: errors show only for particular permutations across words", "anchors": ["test/github1_M4RI/src/m4ri/mzd.c:mzd_col_swap", "test/github1_M4RI/include/m4ri/mzd.h:mzd_col_swap_in_rows", "test/github1_M4RI/src/m4ri/mzp.c:_mzd_apply_p_right_even", "test/github1_M4RI/src/m4ri/mzp.c:mzd_write_col_to_rows_blockd", "test/github1_M4RI/src/m4ri/mzp.c:mzd_apply_p_right", "test/github1_M4RI/src/m4ri/mzp.c:mzd_apply_p_right_trans", "test/github1_M4RI/src/m4ri/mzp.c:mzd_apply_p_right_trans_tri"]}
{"id": "C126", "title": "M4RI: cubic PLUQ factorisation", "statement": "_mzd_pluq_naive(A, P, Q) overwrites A, P and Q with a factorisation of A: after permuting rows by P and columns by Q, A is the product of the unit lower triangular m x r and the unit upper triangular r x n matrix that A then holds; r, which is returned, is the rank of A.", "quantifier": "all matrices, all previous contents of P and Q", "why_tests_cant": "the factors are stored in place with rows and columns exchanged at every step", "anchors": ["test/github1_M4RI/src/m4ri/ple.c:_mzd_pluq_naive"]}
{"id": "C127", "title": "M4RI: linear systems from a PLUQ factorisation", "statement": "mzd_pluq_solve_left(A, rank, P, Q, B, cutoff, check), given a factorisation of A0: if A0 X = B has a solution, B is replaced by one, with zeros below row ncols(A); with check, 0 is returned if and only if there is a solution. B must have as many rows as A has, which is not checked: with less rows the function leaves B.", "quantifier": "all factorisations, all right-hand sides with a column, with and without the check, all cutoffs 0 or at least 64 that the Strassen product admits", "why_tests_cant": "whether a system is solvable depends on the rank; systems of full rank show nothing about the check", "anchors": ["test/github1_M4RI/src/m4ri/solve.c:mzd_pluq_solve_left", "test/github1_M4RI/src/m4ri/solve.c:_mzd_pluq_solve_left", "test/github1_M4RI/include/m4ri/mzd.h:mzd_clear_bits"]}
{"id": "C128", "title": "M4RI: kernels from a PLUQ factorisation", "statement": "mzd_kernel_left_pluq, after the factorisation of A0, returns NULL if A0 v = 0 has only the solution zero, and otherwise a matrix of ncols - rank linearly independent columns that generate exactly the solutions.", "quantifier": "all factorisations, all cutoffs 0 or at least 64", "why_tests_cant": "a matrix of solutions is easily tested, that it generates all of them is not", "anchors": ["test/github1_M4RI/src/m4ri/solve.c:mzd_kernel_left_pluq", "test/github1_M4RI/include/m4ri/mzd.h:mzd_xor_bits"]}
{"id": "C129", "title": "M4RI: cubic PLE factorisation", "statement": "_mzd_ple_naive(A, P, Q) overwrites A, P and Q with a factorisation P L E of A: after permuting the rows by P, A is the product of the unit lower triangular m x r matrix L below the diagonal of the first r columns and the r x n matrix E in echelon form with its leading ones in the increasing columns Q[0..r-1]; r, which is returned, is the rank, and the rest of A is zero.", "quantifier": "all matrices, all previous contents of P and Q", "why_tests_cant": "columns without a pivot are left out, so that L has to be moved to the left; matrices of full rank do not show it", "anchors": ["test/github1_M4RI/src/m4ri/ple.c:_mzd_ple_naive"]}
{"id": "C130", "title": "M4RI: zero rows and the moving of L", "statement": "mzd_first_zero_row(A) is the number of rows up to the last that is not zero; _mzd_compress_l(A, r1, n1, r2) moves in row i from r1 on the first min(i - r1 + 1, r2) columns from n1 on to the column r1, leaves zeros up to where they were and everything else as it was.", "quantifier": "all matrices, all r1, all n1 that are multiples of 64, all r2 within the matrix, the part from r1 to n1 being zero", "why_tests_cant": "rows are moved by words read at an offset, the last of them a part of a word; errors depend on r1 mod 64 and r2", "anchors": ["test/github1_M4RI/src/m4ri/mzd.c:mzd_first_zero_row", "test/github1_M4RI/src/m4ri/mzp.c:_mzd_compress_l"]}
{"id": "C131", "title": "M4RI: block recursion for PLE and PLUQ", "statement": "mzd_ple(A, P, Q, cutoff) turns a factorisation of small matrices into one of all: it overwrites A, P and Q with a factorisation P L E as in C129 and returns the rank; mzd_pluq likewise with a factorisation P L U Q as in C126. The factorisation _mzd_ple_russian at the end of the recursion is a hypothesis (a factorisation of every matrix), which _mzd_ple_naive is proved to satisfy.", "quantifier": "all matrices of one memory block with a column, all cutoffs 0 or from 128, all sizes at which the recursion ends", "why_tests_cant": "the recursion splits columns at words, and ranks, windows and permutations of the halves have to be combined; it is only entered for matrices larger than a cache", "anchors": ["test/github1_M4RI/src/m4ri/ple.c:mzd_ple", "test/github1_M4RI/src/m4ri/ple.c:_mzd_ple", "test/github1_M4RI/src/m4ri/ple.c:mzd_pluq", "test/github1_M4RI/src/m4ri/ple.c:_mzd_pluq"]}
{"id": "C132", "title": "M4RI: linear systems", "statement": "mzd_solve_left(A, B, cutoff, check), nrows(B) at least nrows(A) and ncols(A): if A X = B has a solution, B is replaced by one; with check, 0 is returned if and only if there is a solution. The factorisation _mzd_ple_russian at the end of the recursion is a hypothesis (a factorisation of every matrix), which _mzd_ple_naive is proved to satisfy.", "quantifier": "all matrices of one memory block with a column, all right-hand sides, with and without the check, all cutoffs 0 or from 128", "why_tests_cant": "whether a system is solvable depends on the rank; systems of full rank show nothing about the check", "anchors": ["test/github1_M4RI/src/m4ri/solve.c:mzd_solve_left", "test/github1_M4RI/src/m4ri/solve.c:_mzd_solve_left"]}
{"id": "C133", "title": "M4RI: kernels", "statement": "mzd_kernel_left_pluq(A, cutoff) returns NULL if A v = 0 has only the solution zero, that is if the rank is ncols(A), and otherwise a matrix of ncols - rank linearly independent columns that generate exactly the solutions. The factorisation _mzd_ple_russian at the end of the recursion is a hypothesis (a factorisation of every matrix), which _mzd_ple_naive is proved to satisfy.", "quantifier": "all matrices of one memory block with a column, all cutoffs 0 or from 128", "why_tests_cant": "a matrix of solutions is easily tested, that it generates all of them is not", "anchors": ["test/github1_M4RI/src/m4ri/solve.c:mzd_kernel_left_pluq"]}
{"id": "C134", "title": "M4RI: triangular systems with the lower triangular matrix on the right", "statement": "mzd_trsm_lower_right(L, B, cutoff) replaces B by the X with X L = B, where L is taken with ones on the diagonal and zeros above it, whatever is stored there.", "quantifier": "all matrices of one memory block, all cutoffs 0 or from 128 (or fewer than 128 rows), all bits stored on and above the diagonal of L", "why_tests_cant": "the small case works on words, with sums of whole words grouped by 64 and parities, and the recursion splits at words; the diagonal and what is above it must not be read", "anchors": ["test/github1_M4RI/src/m4ri/triangular.c:mzd_trsm_lower_right", "test/github1_M4RI/src/m4ri/triangular.c:_mzd_trsm_lower_right", "test/github1_M4RI/src/m4ri/triangular.c:_mzd_trsm_lower_right_base"]}
{"id": "C135", "title": "M4RI: triangular systems with the upper triangular matrix on the right, small case", "statement": "mzd_trsm_upper_right(U, B, cutoff) with at most 64 columns replaces B by the X with X U = B, where U is taken with ones on the diagonal and zeros below it, whatever is stored there.", "quantifier": "all matrices U of at most 64 columns, all B, all bits stored on and below the diagonal of U", "why_tests_cant": "sums of whole words grouped by 64 and parities; errors depend on the column modulo 64", "anchors": ["test/github1_M4RI/src/m4ri/triangular.c:mzd_trsm_upper_right", "test/github1_M4RI/src/m4ri/triangular.c:_mzd_trsm_upper_right_base"]}
{"id": "C136", "title": "M4RI: inversion of triangular matrices with tables stays within its memory", "statement": "mzd_trtri_upper_russian(A, 0) reads and writes only the memory of the matrices and tables it works on.", "quantifier": "all upper triangular matrices with ones on the diagonal", "why_tests_cant": "the word read behind a table has no effect on the result, so that only a memory checker could show it, and only for some numbers of columns", "anchors": ["test/github1_M4RI/src/m4ri/triangular_russian.c:mzd_trtri_upper_russian", "test/github1_M4RI/src/m4ri/triangular_russian.c:mzd_make_table_trtri"]}
{"id": "C137", "title": "M4RI: inversion of triangular matrices with tables", "statement": "mzd_trtri_upper_russian(A, 0) replaces an upper triangular matrix with ones on the diagonal by its inverse, whatever is stored behind the memory of its tables; if the rows have an odd number of words, nothing is read there.", "quantifier": "all sizes, all unit upper triangular matrices, all contents of the memory behind the tables, all sizes of the cache from 2^16", "why_tests_cant": "four tables are used in turn, each with entries the previous ones have changed, and the words written twice by the correction of the own bits; errors depend on the column modulo 64 and on the remainder of the size", "anchors": ["test/github1_M4RI/src/m4ri/triangular_russian.c:mzd_trtri_upper_russian", "test/github1_M4RI/src/m4ri/triangular_russian.c:mzd_make_table_trtri", "test/github1_M4RI/src/m4ri/ple_russian.c:_mzd_ple_to_e", "test/github1_M4RI/src/m4ri/ple_russian_template.h"]}
{"id": "C138", "title": "M4RI: inversion of triangular matrices", "statement": "mzd_trtri_upper(U) replaces an upper triangular matrix with ones on the diagonal by its inverse.", "quantifier": "all sizes n with n * n below 2^31 and one memory block, all unit upper triangular matrices", "why_tests_cant": "the recursion is only entered for matrices larger than the cache, and its parts use the inversion themselves", "anchors": ["test/github1_M4RI/src/m4ri/triangular.c:mzd_trtri_upper"]}
{"id": "C139", "title": "M4RI: triangular systems with the upper triangular matrix on the right", "statement": "mzd_trsm_upper_right(U, B, cutoff) replaces B by the X with X U = B, where U is taken with ones on the diagonal and zeros below it, whatever is stored below it; with more than 64 columns the ones have to be stored on the diagonal.", "quantifier": "all matrices of one memory block, all cutoffs 0 or from 128 (or fewer than 128 rows), all bits stored below the diagonal", "why_tests_cant": "three different algorithms by the number of columns, the middle one an inversion and a product, which alone reads the diagonal", "anchors": ["test/github1_M4RI/src/m4ri/triangular.c:mzd_trsm_upper_right", "test/github1_M4RI/src/m4ri/triangular.c:_mzd_trsm_upper_right", "test/github1_M4RI/src/m4ri/triangular.c:_mzd_trsm_upper_right_trtri", "test/github1_M4RI/src/m4ri/mzd.c:mzd_extract_u"]}
