(** Generated by tools/gen_props.py from Main20.v: statements of the properties.
    Every theorem is closed by [exact]; its assumptions are printed beneath it. *)
From Coq Require Import Arith NArith ZArith List Bool Lia.
From Verif Require Import Base Spec LinAlg ModelM4ri SpecM4ri M4ri1 M4ri2 M4ri8 ModelM4ri2 SpecM4ri2 M4ri14 M4ri17 M4ri18 M4ri19 M4ri20 ModelGf2 SpecGf2 Gf2a Gf2b Gf2c Gf2d Main20.
Import ListNotations.

(** C92: a vector filled from a number holds its bits, the most significant one first, and the number
    read back from a vector of n rows is the number with these bits, modulo 2^32, 2^64 and 2^128.
    So a number of n bits written to a vector of n rows is read back. *)
Theorem C92_vector : forall e n x M, valid n 1 M -> n <= 32 ->
  exists V, InitVecFromBit e x M = Ok V /\ valid n 1 V /\ veq n (col0 V) (bits n x) /\
    getDigitalFromVec V = Ok (x mod 2 ^ N.of_nat n)%N.
Proof. exact C92_vector_main. Qed.
Print Assumptions C92_vector.

Theorem C92_vector64 : forall x, (x < 2 ^ 64)%N -> exists V, InitVecFromBit_64 x (mzd_init 64 1) = Ok V /\ veq 64 (col0 V) (bits 64 x) /\ get64FromVec V = Ok x.
Proof. exact C92_vector64_main. Qed.
Print Assumptions C92_vector64.

Theorem C92_vector128 : forall x, (x < 2 ^ 128)%N -> exists V, InitVecFromBit_128 x (mzd_init 128 1) = Ok V /\ veq 128 (col0 V) (bits 128 x) /\ get128FromVec V = Ok x.
Proof. exact C92_vector128_main. Qed.
Print Assumptions C92_vector128.

(** C92: the number of any vector with one column; matrices of the wrong size give 0. *)
Theorem C92_digits : forall n M, valid n 1 M ->
  getDigitalFromVec M = Ok (num n (col0 M) mod 2 ^ 32)%N /\ (n <> 32 -> get32FromVec M = Ok 0%N) /\ (n <> 64 -> get64FromVec M = Ok 0%N).
Proof. exact C92_digits_main. Qed.
Print Assumptions C92_digits.

(** 29 in a vector of 5 rows; the low 4 bits of 29 in a vector of 4 rows *)
Example C92_ex : valid 5 1 (mzd_init 5 1) /\
  InitVecFromBit fair_env 29 (mzd_init 5 1) = Ok (mkmzd 5 1 [[1]; [1]; [1]; [0]; [1]]%N) /\
  InitVecFromBit fair_env 29 (mzd_init 4 1) = Ok (mkmzd 4 1 [[1]; [1]; [0]; [1]]%N) /\
  getDigitalFromVec (mkmzd 4 1 [[1]; [1]; [0]; [1]]%N) = Ok 13%N.
Proof. exact C92_ex_main. Qed.

(** C93: a matrix filled from an array of numbers, one for each row, holds their bits, the most
    significant one in column 0. *)
Theorem C93_bit_array : forall R C data M, valid R C M -> R <= length data ->
  exists V, InitMatrixFromBitArray data M = Ok V /\ valid R C V /\
    forall i j, i < R -> j < C -> bitat V i j = bits C (nth i data 0%N) j.
Proof. exact C93_bit_array_main. Qed.
Print Assumptions C93_bit_array.

(** C93: a square matrix filled from an array of non-negative values, row after row, holds them
    modulo 2. *)
Theorem C93_values_square : forall n data M, valid n n M -> n * n <= length data -> (forall x, In x data -> (0 <= x)%Z) ->
  exists V, InitMatGf2ByValueArray data M = Ok V /\ valid n n V /\
    forall i j, i < n -> j < n -> bitat V i j = Z.odd (nth (i * n + j) data 0%Z).
Proof. exact C93_values_square_main. Qed.
Print Assumptions C93_values_square.

(** C93: for other sizes the array is read with the number of rows as the distance of the rows: a
    2 x 3 matrix of 6 values gets the third value twice, and for a 3 x 2 matrix an element after
    the 6 values is read. *)
Theorem C93_values_refuted : exists data M, valid 2 3 M /\ length data = 2 * 3 /\ (forall x, In x data -> (0 <= x)%Z) /\
  exists V, InitMatGf2ByValueArray data M = Ok V /\ bitat V 1 0 <> Z.odd (nth (1 * 3 + 0) data 0%Z).
Proof. exact C93_values_refuted_main. Qed.
Print Assumptions C93_values_refuted.

Theorem C93_values_outside_refuted : exists data M, valid 3 2 M /\ length data = 3 * 2 /\ (forall x, In x data -> (0 <= x)%Z) /\
  InitMatGf2ByValueArray data M = UB.
Proof. exact C93_values_outside_refuted_main. Qed.
Print Assumptions C93_values_outside_refuted.

(** C93: negative odd values: -1 modulo 2 is 1, but MatGf2Set writes a 0, except in columns that are
    multiples of 64. *)
Theorem C93_negative_refuted : exists M V, valid 1 65 M /\ MatGf2Set M 0 1 (-1) = Ok V /\ bitat V 0 1 <> Z.odd (-1).
Proof. exact C93_negative_refuted_main. Qed.
Print Assumptions C93_negative_refuted.

(** C93: the array [1; 2; 3; 4] of the comment in matrix_gf2.h does not give the matrix shown there;
    [1; 2; 5; 8] does. *)
Theorem C93_header_example_refuted :
  InitMatrixFromBitArray [1; 2; 3; 4]%N (mzd_init 4 4) <> InitMatrixFromBitArray [1; 2; 5; 8]%N (mzd_init 4 4) /\
  InitMatrixFromBitArray [1; 2; 5; 8]%N (mzd_init 4 4) = Ok (mkmzd 4 4 [[8]; [4]; [10]; [1]]%N).
Proof. exact C93_header_example_refuted_main. Qed.
Print Assumptions C93_header_example_refuted.

Example C93_ex : valid 2 2 (mzd_init 2 2) /\ InitMatGf2ByValueArray [1; 2; 3; 4]%Z (mzd_init 2 2) = Ok (mkmzd 2 2 [[1]; [1]]%N).
Proof. exact C93_ex_main. Qed.

(** C93: the identity matrix and the zero vector. *)
Theorem C93_identity : forall n, (exists M, GenIndMatrix n = Ok M /\ valid n n M /\ feq n (bitat M) fid) /\
  exists V, GenZeroVec n = Ok V /\ valid n 1 V /\ veq n (col0 V) (fun _ => false).
Proof. exact C93_identity_main. Qed.
Print Assumptions C93_identity.

(** C94: ApplyMatToU8/16/32/64/128 return the number of the product of the matrix and the vector of the
    bits of the argument, whatever the uninitialised stack arrays contain. *)
Theorem C94_apply : forall e n A x, env_ok e -> valid n n A -> n = 8 \/ n = 16 \/ n = 32 ->
  ApplyMatToU e n A x = Ok (num n (fapp n (bitat A) (bits n x))).
Proof. exact C94_apply_main. Qed.
Print Assumptions C94_apply.

Theorem C94_apply64 : forall e A x, env_ok e -> valid 64 64 A -> ApplyMatToU64 e A x = Ok (num 64 (fapp 64 (bitat A) (bits 64 x))).
Proof. exact C94_apply64_main. Qed.
Print Assumptions C94_apply64.

Theorem C94_apply128 : forall e A x, env_ok e -> valid 128 128 A -> ApplyMatToU128 e A x = Ok (num 128 (fapp 128 (bitat A) (bits 128 x))).
Proof. exact C94_apply128_main. Qed.
Print Assumptions C94_apply128.

(** C94: AddMatToU32/64/128 return the xor of the argument and the number in the vector, GenMatAddU8/16/32
    the vector of this xor. *)
Theorem C94_add : forall e V x, valid 32 1 V -> (x < 2 ^ 32)%N -> AddMatToU32 e V x = Ok (N.lxor (num 32 (col0 V)) x).
Proof. exact C94_add_main. Qed.
Print Assumptions C94_add.

Theorem C94_add64 : forall V x, valid 64 1 V -> (x < 2 ^ 64)%N -> AddMatToU64 V x = Ok (N.lxor (num 64 (col0 V)) x).
Proof. exact C94_add64_main. Qed.
Print Assumptions C94_add64.

Theorem C94_add128 : forall V x, valid 128 1 V -> (x < 2 ^ 128)%N -> AddMatToU128 V x = Ok (N.lxor (num 128 (col0 V)) x).
Proof. exact C94_add128_main. Qed.
Print Assumptions C94_add128.

Theorem C94_gen_add : forall e n V x, valid n 1 V -> n <= 32 ->
  exists W, GenMatAddU e n V x = Ok W /\ valid n 1 W /\ veq n (col0 W) (vadd (col0 V) (bits n x)).
Proof. exact C94_gen_add_main. Qed.
Print Assumptions C94_gen_add.

(** C94: affine maps on numbers and on vectors. *)
Theorem C94_affine : forall e n f x, env_ok e -> valid_aff n f -> n = 8 \/ n = 16 -> ApplyAffineToU e n f x = Ok (affine_n n f x).
Proof. exact C94_affine_main. Qed.
Print Assumptions C94_affine.

Theorem C94_affine32 : forall e f x, env_ok e -> valid_aff 32 f -> ApplyAffineToU32 e f x = Ok (affine_n 32 f x).
Proof. exact C94_affine32_main. Qed.
Print Assumptions C94_affine32.

Theorem C94_affine_vector : forall e n f V, env_ok e -> valid_aff n f -> valid n 1 V -> 1 <= n -> n <= 4096 ->
  exists W, ApplyAffineTransform e f V = Ok W /\ valid n 1 W /\
    veq n (col0 W) (affine_f n (bitat (alin f)) (col0 (atrans f)) (col0 V)).
Proof. exact C94_affine_vector_main. Qed.
Print Assumptions C94_affine_vector.

(** The matrix of 8 rows with ones in columns 0 and i; the vector 10000001 *)
Example C94_ex : env_ok fair_env /\
  let f := mkafft (mkmzd 8 8 [[1]; [3]; [5]; [9]; [17]; [33]; [65]; [129]]%N) (mkmzd 8 1 [[1]; [0]; [0]; [0]; [0]; [0]; [0]; [1]]%N) in
  valid_aff 8 f /\ ApplyMatToU fair_env 8 (alin f) 0xA1 = Ok 0xDE%N /\ ApplyAffineToU fair_env 8 f 0xA1 = Ok 0x5F%N.
Proof. exact C94_ex_main. Qed.

(** C95: MatGf2Diag and GenMatGf2Diag return the block diagonal matrix of two square matrices; also
    of matrices with more rows than columns, of which the rows after the square are left out. *)
Theorem C95_diag : forall ra n rb m a b, valid ra n a -> valid rb m b -> n <= ra -> m <= rb ->
  exists D, MatGf2Diag a b = Ok D /\ valid (n + m) (n + m) D /\ feq (n + m) (bitat D) (block_diag n (bitat a) (bitat b)).
Proof. exact C95_diag_main. Qed.
Print Assumptions C95_diag.

(** C95: with fewer rows than columns rows outside of the matrix are read. *)
Theorem C95_wide_refuted : exists a b, valid 1 2 a /\ valid 1 1 b /\ MatGf2Diag a b = UB.
Proof. exact C95_wide_refuted_main. Qed.
Print Assumptions C95_wide_refuted.

Example C95_ex : valid 2 2 (mkmzd 2 2 [[3]; [2]]%N) /\ valid 1 1 (mkmzd 1 1 [[1]]%N) /\
  MatGf2Diag (mkmzd 2 2 [[3]; [2]]%N) (mkmzd 1 1 [[1]]%N) = Ok (mkmzd 3 3 [[3]; [2]; [4]]%N).
Proof. exact C95_ex_main. Qed.

(** C96: an exported matrix is the string of its sizes and entries, and importing it, at any position
    of a longer string, gives the same matrix. *)
Theorem C96_export : forall e R C A, valid R C A -> (8 + N.of_nat R * N.of_nat C < 2 ^ 31)%N ->
  ExportMatGf2ToStr e A = Ok (str_of R C (bitat A)).
Proof. exact C96_export_main. Qed.
Print Assumptions C96_export.

Theorem C96_import : forall e R C A s pre post, valid R C A -> (N.of_nat R < 2 ^ 31)%N -> (N.of_nat C < 2 ^ 31)%N ->
  ExportMatGf2ToStr e A = Ok s -> ImportMatGf2FromStr (pre ++ s ++ post) (length pre) = Ok A.
Proof. exact C96_import_main. Qed.
Print Assumptions C96_import.

(** C96: affine maps. *)
Theorem C96_affine : forall e n f post, valid_aff n f -> (8 + N.of_nat n * N.of_nat n < 2 ^ 31)%N ->
  ExportAffineToStr e f = Ok (str_aff n f) /\ ImportAffineFromStr (str_aff n f ++ post) = Ok f.
Proof. exact C96_affine_main. Qed.
Print Assumptions C96_affine.

Example C96_ex : valid 2 3 (mkmzd 2 3 [[5]; [6]]%N) /\
  ExportMatGf2ToStr fair_env (mkmzd 2 3 [[5]; [6]]%N) = Ok [2; 0; 0; 0; 3; 0; 0; 0; 49; 48; 49; 48; 49; 49]%N.
Proof. exact C96_ex_main. Qed.

(** C97: GenInvertibleMatGf2(n, n) returns the first invertible one of the matrices drawn from
    random(); it ends as soon as there is one. *)
Theorem C97_invertible : forall e n fuel s, 1 <= n ->
  exists o, GenInvertibleMatGf2 fuel e n n s = Ok o /\ match o with
    | Some (M, s') => valid n n M /\ exists t, t <= fuel /\ first_invertible n (erand e) s t /\
        feq n (bitat M) (drawn n (erand e) (draw_pos n s t)) /\ s' = draw_pos n s (t + 1)
    | None => forall t, t <= fuel -> ~ invertible n (drawn n (erand e) (draw_pos n s t))
    end.
Proof. exact C97_invertible_main. Qed.
Print Assumptions C97_invertible.

(** C97: with different numbers of rows and columns it never ends. *)
Theorem C97_not_square : forall e r c fuel s, r <> c -> 1 <= c -> GenInvertibleMatGf2 fuel e r c s = Ok None.
Proof. exact C97_not_square_main. Qed.
Print Assumptions C97_not_square.

(** C97: GenRandomAffineTransform returns an affine map and its inverse: the matrix is the first
    invertible one drawn, the vector is drawn after it, and the two maps undo each other on every
    vector. *)
Theorem C97_affine : forall e n fuel s, env_ok e -> 1 <= n -> n <= 4096 ->
  exists o, GenRandomAffineTransform fuel e n s = Ok o /\ match o with
    | Some (f, g, s') => valid_aff n f /\ valid_aff n g /\ inverse_aff n f g /\
        exists t, t <= fuel /\ first_invertible n (erand e) s t /\
          feq n (bitat (alin f)) (drawn n (erand e) (draw_pos n s t)) /\
          (forall i, i < n -> col0 (atrans f) i = N.testbit (word_at (erand e) (draw_pos n s (t + 1) + 3 * i)) 0) /\
          s' = draw_pos n s (t + 1) + 3 * n
    | None => forall t, t <= fuel -> ~ invertible n (drawn n (erand e) (draw_pos n s t))
    end.
Proof. exact C97_affine_main. Qed.
Print Assumptions C97_affine.

(** C97: so the two maps on numbers of 8, 16 and 32 bits undo each other. *)
Theorem C97_numbers : forall n f g x, inverse_aff n f g -> (x < 2 ^ N.of_nat n)%N ->
  affine_n n g (affine_n n f x) = x /\ affine_n n f (affine_n n g x) = x.
Proof. exact C97_numbers_main. Qed.
Print Assumptions C97_numbers.

(** C97: if from every position one of the next fuel + 1 matrices is invertible, it ends. *)
Theorem C97_ends : forall e n fuel s, env_ok e -> 1 <= n -> n <= 4096 -> s mod 3 = 0 -> fair fuel n (erand e) ->
  exists f g s', GenRandomAffineTransform fuel e n s = Ok (Some (f, g, s')) /\ s' mod 3 = 0.
Proof. exact C97_ends_main. Qed.
Print Assumptions C97_ends.

(** A sequence of random numbers that is fair for dimensions 8 and 32, and the map drawn from it *)
Example C97_ex : env_ok fair_env /\ fair 0 8 (erand fair_env) /\ fair 0 32 (erand fair_env) /\
  match GenRandomAffineTransform 0 fair_env 8 3 with
  | Ok (Some (f, g, s')) => s' = 51 /\ map (fun r => hd 0%N r) (mrows (alin f)) = [2; 4; 8; 16; 32; 64; 128; 1]%N /\
      map (fun r => hd 0%N r) (mrows (alin g)) = [128; 1; 2; 4; 8; 16; 32; 64]%N
  | _ => False
  end.
Proof. exact C97_ex_main. Qed.

(** C98: the destination of MatGf2Mul, MatGf2Add, MatGf2Inv, MatGf2Transpose, MatGf2Stack and
    MatGf2Concat may be NULL, an operand or another matrix: the result is the same, only the old
    destination is freed. *)
Theorem C98_mul : forall e h a b dst R n C A B, env_ok e -> deref h a = Ok A -> deref h b = Ok B -> usable h dst ->
  valid R n A -> valid n C B -> 1 <= n -> 1 <= C -> small n C -> small C n ->
  exists h' p M, MatGf2Mul_p e h a b dst = Ok (h', p) /\ replaced h dst h' p M /\ valid R C M /\
    is_product R n C (bitat A) (bitat B) (bitat M).
Proof. exact C98_mul_main. Qed.
Print Assumptions C98_mul.

Theorem C98_add : forall h a b dst R C A B, deref h a = Ok A -> deref h b = Ok B -> usable h dst -> valid R C A -> valid R C B ->
  exists h' p M, MatGf2Add_p h a b dst = Ok (h', p) /\ replaced h dst h' p M /\ valid R C M /\
    forall i j, i < R -> j < C -> bitat M i j = xorb (bitat A i j) (bitat B i j).
Proof. exact C98_add_main. Qed.
Print Assumptions C98_add.

Theorem C98_inv : forall h a dst n A, deref h a = Ok A -> usable h dst -> valid n n A -> 1 <= n -> invertible n (bitat A) ->
  exists h' p M, MatGf2Inv_p h a dst = Ok (h', p) /\ replaced h dst h' p M /\ valid n n M /\ inverse_of n (bitat A) (bitat M).
Proof. exact C98_inv_main. Qed.
Print Assumptions C98_inv.

Theorem C98_other : forall e h a b dst A B, deref h a = Ok A -> deref h b = Ok B -> usable h dst ->
  (forall M, mzd_transpose (ejunk e) A = Ok M -> exists h' p, MatGf2Transpose_p e h a dst = Ok (h', p) /\ replaced h dst h' p M) /\
  (forall M, mzd_stack A B = Ok M -> exists h' p, MatGf2Stack_p h a b dst = Ok (h', p) /\ replaced h dst h' p M) /\
  (forall M, mzd_concat A B = Ok M -> exists h' p, MatGf2Concat_p h a b dst = Ok (h', p) /\ replaced h dst h' p M).
Proof. exact C98_other_main. Qed.
Print Assumptions C98_other.

(** C98: MatGf2Diag and MatGf2Copy free the old destination first, so it must not be an operand. *)
Theorem C98_diag : forall h a b dst n m A B, deref h a = Ok A -> deref h b = Ok B -> usable h dst -> valid n n A -> valid m m B ->
  (dst <> a -> dst <> b -> exists h' p M, MatGf2Diag_p h a b dst = Ok (h', p) /\ replaced h dst h' p M /\
     feq (n + m) (bitat M) (block_diag n (bitat A) (bitat B))) /\
  (dst = a \/ dst = b -> MatGf2Diag_p h a b dst = UB).
Proof. exact C98_diag_main. Qed.
Print Assumptions C98_diag.

Theorem C98_copy : forall h a dst R C A, deref h a = Ok A -> usable h dst -> valid R C A -> 1 <= C ->
  (dst <> a -> exists h' p M, MatGf2Copy_p h a dst = Ok (h', p) /\ replaced h dst h' p M /\ valid R C M /\
     forall i j, i < R -> j < C -> bitat M i j = bitat A i j) /\
  (dst = a -> MatGf2Copy_p h a dst = UB).
Proof. exact C98_copy_main. Qed.
Print Assumptions C98_copy.

(** A product stored in place of its left operand *)
Example C98_ex : let h := [Some (mkmzd 2 2 [[3]; [2]]%N); None; Some (mkmzd 2 2 [[1]; [3]]%N)] in
  deref h (Some 0) = Ok (mkmzd 2 2 [[3]; [2]]%N) /\ usable h (Some 0) /\ valid 2 2 (mkmzd 2 2 [[3]; [2]]%N) /\ small 2 2 /\
  MatGf2Mul_p fair_env h (Some 0) (Some 2) (Some 0) =
    Ok ([None; None; Some (mkmzd 2 2 [[1]; [3]]%N); Some (mkmzd 2 2 [[2]; [3]]%N)], Some 3) /\
  MatGf2Diag_p h (Some 0) (Some 2) (Some 0) = UB.
Proof. exact C98_ex_main. Qed.
