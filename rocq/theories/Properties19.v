(** Generated by tools/gen_props.py from Main19.v: statements of the properties.
    Every theorem is closed by [exact]; its assumptions are printed beneath it. *)
From Coq Require Import Arith NArith ZArith List Bool Lia.
From Verif Require Import Base Spec LinAlg ModelM4ri SpecM4ri M4ri1 M4ri8 ModelM4ri2 SpecM4ri2 M4ri9 M4ri14 M4ri15 M4ri16 M4ri17 M4ri18 M4ri19 M4ri20 Main19.
Import ListNotations.

(** C86: mzd_transpose(NULL, A) is the transpose of A, for every matrix with at least one row and one
    column that fits into one block of memory, whatever the 64 words of the stack array of
    _mzd_copy_transpose_lt64x64 contain before. *)
Theorem C86_transpose : forall R C A junk, valid R C A -> 1 <= R -> 1 <= C -> small R C -> small C R ->
  (forall b, words64 (junk b)) ->
  exists T, mzd_transpose junk A = Ok T /\ valid C R T /\ forall i j, i < R -> j < C -> bitat T j i = bitat A i j.
Proof. exact C86_transpose_main. Qed.
Print Assumptions C86_transpose.

(** A 2 x 66 matrix; the stack array full of ones *)
Example C86_ex : valid 2 66 (mkmzd 2 66 [[5; 2]; [4; 1]]%N) /\ small 2 66 /\ small 66 2 /\ words64 (repeat (2 ^ 64 - 1)%N 64) /\
  match mzd_transpose (fun _ => repeat (2 ^ 64 - 1)%N 64) (mkmzd 2 66 [[5; 2]; [4; 1]]%N) with
  | Ok T => firstn 4 (mrows T) = [[1]; [0]; [3]; [0]]%N /\ skipn 64 (mrows T) = [[2]; [1]]%N
  | UB => False
  end.
Proof. exact C86_ex_main. Qed.

(** C86: a matrix with rows but without columns, or with columns but without rows, stops the program:
    mzd_copy is called with matrices of different sizes. *)
Theorem C86_empty : forall R C A junk, valid R C A -> R + C >= 1 -> R = 0 \/ C = 0 -> mzd_transpose junk A = UB.
Proof. exact C86_empty_main. Qed.
Print Assumptions C86_empty.

Example C86_empty_ex : valid 2 0 (mkmzd 2 0 [[]; []]).
Proof. exact C86_empty_ex_main. Qed.

(** C87: m4ri_parity64: bit p of the result is the parity of word p. *)
Theorem C87_parity64 : forall l, words64 l ->
  (parity64 l < 2 ^ 64)%N /\
  forall p, p < 64 -> N.testbit (parity64 l) (N.of_nat p) = xsum 64 (fun b => N.testbit (nth p l 0%N) (N.of_nat b)).
Proof. exact C87_parity64_main. Qed.
Print Assumptions C87_parity64.

Example C87_ex : words64 ([7; 3; 2 ^ 63]%N ++ repeat 1%N 61) /\
  parity64 ([7; 3; 2 ^ 63]%N ++ repeat 1%N 61) = (2 ^ 64 - 3)%N.
Proof. exact C87_ex_main. Qed.

(** C88: mzd_mul_m4rm(NULL, A, B, k), the Four Russians product, is the product over GF(2) for every
    k and every value of the cache size; mzd_mul_naive, the cubic product, is it too, whatever C
    contains before. *)
Theorem C88_mul_m4rm : forall R n C A B k kcache junk, valid R n A -> valid n C B -> 1 <= n -> 1 <= C ->
  small n C -> small C n -> (forall b, words64 (junk b)) ->
  exists P, mzd_mul_m4rm kcache junk A B k = Ok P /\ valid R C P /\ is_product R n C (bitat A) (bitat B) (bitat P).
Proof. exact C88_mul_m4rm_main. Qed.
Print Assumptions C88_mul_m4rm.

Theorem C88_mul_naive : forall R n C A B C0 junk, valid R n A -> valid n C B -> valid R C C0 -> 1 <= n -> 1 <= C ->
  small n C -> small C n -> (forall b, words64 (junk b)) ->
  exists P, mzd_mul_naive junk C0 A B = Ok P /\ valid R C P /\ is_product R n C (bitat A) (bitat B) (bitat P).
Proof. exact C88_mul_naive_main. Qed.
Print Assumptions C88_mul_naive.

(** C88: hence the two products agree. *)
Theorem C88_agree : forall R n C A B C0 k kcache junk junk', valid R n A -> valid n C B -> valid R C C0 -> 1 <= n -> 1 <= C ->
  small n C -> small C n -> (forall b, words64 (junk b)) -> (forall b, words64 (junk' b)) ->
  exists P P', mzd_mul_m4rm kcache junk A B k = Ok P /\ mzd_mul_naive junk' C0 A B = Ok P' /\ same R C (bitat P) (bitat P').
Proof. exact C88_agree_main. Qed.
Print Assumptions C88_agree.

Example C88_ex : valid 2 3 (mkmzd 2 3 [[5]; [6]]%N) /\ valid 3 65 (mkmzd 3 65 [[3; 1]; [4; 0]; [2; 1]]%N) /\
  mzd_mul_m4rm 8 (fun _ => repeat 0%N 64) (mkmzd 2 3 [[5]; [6]]%N) (mkmzd 3 65 [[3; 1]; [4; 0]; [2; 1]]%N) 0
  = Ok (mkmzd 2 65 [[1; 0]; [6; 1]]%N) /\
  mzd_mul_naive (fun _ => repeat 0%N 64) (mzd_init 2 65) (mkmzd 2 3 [[5]; [6]]%N) (mkmzd 3 65 [[3; 1]; [4; 0]; [2; 1]]%N)
  = Ok (mkmzd 2 65 [[1; 0]; [6; 1]]%N).
Proof. exact C88_ex_main. Qed.

(** C89: mzd_add(NULL, A, B) is the sum, mzd_concat the matrix (A | B), mzd_stack A above B. *)
Theorem C89_add : forall R C A B, valid R C A -> valid R C B ->
  exists M, mzd_add A B = Ok M /\ valid R C M /\ same R C (bitat M) (fadd (bitat A) (bitat B)).
Proof. exact C89_add_main. Qed.
Print Assumptions C89_add.

Theorem C89_concat : forall R CA CB A B, valid R CA A -> valid R CB B ->
  exists M, mzd_concat A B = Ok M /\ valid R (CA + CB) M /\
    same R CA (bitat M) (bitat A) /\ same R CB (fun i j => bitat M i (CA + j)) (bitat B).
Proof. exact C89_concat_main. Qed.
Print Assumptions C89_concat.

Theorem C89_stack : forall RA RB C A B, valid RA C A -> valid RB C B ->
  exists M, mzd_stack A B = Ok M /\ valid (RA + RB) C M /\
    same RA C (bitat M) (bitat A) /\ same RB C (fun i j => bitat M (RA + i) j) (bitat B).
Proof. exact C89_stack_main. Qed.
Print Assumptions C89_stack.

Example C89_ex : valid 2 65 (mkmzd 2 65 [[3; 1]; [4; 0]]%N) /\ valid 2 65 (mkmzd 2 65 [[1; 1]; [2; 1]]%N) /\
  mzd_add (mkmzd 2 65 [[3; 1]; [4; 0]]%N) (mkmzd 2 65 [[1; 1]; [2; 1]]%N) = Ok (mkmzd 2 65 [[2; 0]; [6; 1]]%N) /\
  mzd_concat (mkmzd 2 65 [[3; 1]; [4; 0]]%N) (mkmzd 2 65 [[1; 1]; [2; 1]]%N)
  = Ok (mkmzd 2 130 [[3; 3; 2]; [4; 4; 2]]%N) /\
  mzd_stack (mkmzd 2 65 [[3; 1]; [4; 0]]%N) (mkmzd 2 65 [[1; 1]; [2; 1]]%N) = Ok (mkmzd 4 65 [[3; 1]; [4; 0]; [1; 1]; [2; 1]]%N).
Proof. exact C89_ex_main. Qed.

(** C89: mzd_submatrix(NULL, M, sr, sc, er, ec) is the rows sr to er - 1 and the columns sc to ec - 1
    of M, if sc is a multiple of 64 or the number of columns is not one. *)
Theorem C89_submatrix : forall R C M sr sc er ec, valid R C M -> sr <= er -> er <= R -> sc <= ec -> ec <= C ->
  sc mod 64 = 0 \/ (ec - sc) mod 64 <> 0 ->
  exists S, mzd_submatrix M sr sc er ec = Ok S /\ valid (er - sr) (ec - sc) S /\
    same (er - sr) (ec - sc) (bitat S) (fun i j => bitat M (sr + i) (sc + j)).
Proof. exact C89_submatrix_main. Qed.
Print Assumptions C89_submatrix.

(** C89: in the other case, with at least one row, 0 bits are read after the last full word: a shift
    by 64, and an access behind the row of the result. *)
Theorem C89_submatrix_undefined : forall M sr sc er ec, sr < er -> sc <= ec -> sc mod 64 <> 0 -> (ec - sc) mod 64 = 0 ->
  mzd_submatrix M sr sc er ec = UB.
Proof. exact C89_submatrix_undefined_main. Qed.
Print Assumptions C89_submatrix_undefined.

Example C89_submatrix_ex : valid 2 67 (mkmzd 2 67 [[3; 1]; [2 ^ 63; 6]]%N) /\
  mzd_submatrix (mkmzd 2 67 [[3; 1]; [2 ^ 63; 6]]%N) 1 63 2 67 = Ok (mkmzd 1 4 [[13]]%N) /\
  mzd_submatrix (mkmzd 2 67 [[3; 1]; [2 ^ 63; 6]]%N) 1 1 2 66 = Ok (mkmzd 1 65 [[2 ^ 62; 1]]%N) /\
  mzd_submatrix (mkmzd 2 67 [[3; 1]; [2 ^ 63; 6]]%N) 0 1 2 65 = UB.
Proof. exact C89_submatrix_ex_main. Qed.

(** C90: mzd_cmp of two matrices of the same size is -1, 0 or 1; it is 0 exactly for equal matrices
    and -1 exactly if A comes before B: the first different row decides, there the last different
    column. *)
Theorem C90_cmp : forall R C A B, valid R C A -> valid R C B -> 1 <= C ->
  exists z, mzd_cmp A B = Ok z /\ (z = -1 \/ z = 0 \/ z = 1)%Z /\
    (z = 0%Z <-> same R C (bitat A) (bitat B)) /\
    (z = (-1)%Z <-> mat_before R C (bitat A) (bitat B)) /\ (z = 1%Z <-> mat_before R C (bitat B) (bitat A)).
Proof. exact C90_cmp_main. Qed.
Print Assumptions C90_cmp.

(** C90: of matrices of different sizes, the one with fewer rows, with as many rows the one with
    fewer columns comes first. *)
Theorem C90_cmp_sizes : forall RA CA RB CB A B, valid RA CA A -> valid RB CB B ->
  RA < RB \/ (RA = RB /\ CA < CB) -> mzd_cmp A B = Ok (-1)%Z /\ mzd_cmp B A = Ok 1%Z /\
  mzd_equal A B = Ok false /\ mzd_equal B A = Ok false.
Proof. exact C90_cmp_sizes_main. Qed.
Print Assumptions C90_cmp_sizes.

(** C90: mzd_equal decides equality of two matrices of the same size, mzd_is_zero whether all entries
    are zero. *)
Theorem C90_equal : forall R C A B, valid R C A -> valid R C B -> 1 <= C ->
  exists b, mzd_equal A B = Ok b /\ (b = true <-> same R C (bitat A) (bitat B)).
Proof. exact C90_equal_main. Qed.
Print Assumptions C90_equal.

Theorem C90_is_zero : forall R C A, valid R C A -> 1 <= C ->
  exists b, mzd_is_zero A = Ok b /\ (b = true <-> forall i j, i < R -> j < C -> bitat A i j = false).
Proof. exact C90_is_zero_main. Qed.
Print Assumptions C90_is_zero.

Example C90_ex : valid 2 65 (mkmzd 2 65 [[3; 1]; [4; 0]]%N) /\ valid 2 65 (mkmzd 2 65 [[3; 1]; [2; 1]]%N) /\
  mzd_cmp (mkmzd 2 65 [[3; 1]; [4; 0]]%N) (mkmzd 2 65 [[3; 1]; [2; 1]]%N) = Ok (-1)%Z /\
  mzd_equal (mkmzd 2 65 [[3; 1]; [4; 0]]%N) (mkmzd 2 65 [[3; 1]; [2; 1]]%N) = Ok false /\
  mzd_equal (mkmzd 2 65 [[3; 1]; [4; 0]]%N) (mkmzd 2 65 [[3; 1]; [4; 0]]%N) = Ok true /\
  mzd_is_zero (mkmzd 2 65 [[0; 0]; [0; 1]]%N) = Ok false /\ mzd_is_zero (mkmzd 2 65 [[0; 0]; [0; 0]]%N) = Ok true.
Proof. exact C90_ex_main. Qed.

(** C91: mzd_invert_naive with the identity as third argument: for every invertible matrix the result
    is its inverse.  NULL is never returned: for a singular matrix the result is an invertible V
    such that V A is in reduced row echelon form, not an inverse. *)
Theorem C91_invert_naive : forall n A I, valid n n A -> valid n n I -> 1 <= n -> feq n (bitat I) fid ->
  exists B, mzd_invert_naive A I = Ok (Some B) /\ valid n n B /\ (invertible n (bitat A) -> inverse_of n (bitat A) (bitat B)) /\
    invertible n (bitat B) /\ exists r, rref n n (fmul n (bitat B) (bitat A)) r.
Proof. exact C91_invert_naive_main. Qed.
Print Assumptions C91_invert_naive.

Example C91_ex : valid 3 3 (mkmzd 3 3 [[6]; [3]; [2]]%N) /\ feq 3 (bitat (mkmzd 3 3 [[1]; [2]; [4]]%N)) fid /\
  mzd_invert_naive (mkmzd 3 3 [[6]; [3]; [2]]%N) (mkmzd 3 3 [[1]; [2]; [4]]%N) = Ok (Some (mkmzd 3 3 [[6]; [4]; [5]]%N)).
Proof. exact C91_ex_main. Qed.

(** C91: the return value does not tell singular matrices: the 2 x 2 matrix of ones gets a result that
    is not an inverse. *)
Theorem C91_singular_refuted : exists A I B, valid 2 2 A /\ valid 2 2 I /\ feq 2 (bitat I) fid /\
  mzd_invert_naive A I = Ok (Some B) /\ ~ inverse_of 2 (bitat A) (bitat B).
Proof. exact C91_singular_refuted_main. Qed.
Print Assumptions C91_singular_refuted.
