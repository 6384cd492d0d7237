(** Generated by tools/gen_props.py from Main18.v: statements of the properties.
    Every theorem is closed by [exact]; its assumptions are printed beneath it. *)
From Coq Require Import Arith NArith ZArith List Bool Permutation Lia ZifyNat.
From Verif Require Import Base Spec LinAlg Elim Gauss SpecRank Rank ModelM4ri SpecM4ri M4ri1 M4ri2 M4ri3 M4ri4 M4ri5 M4ri6 M4ri7 M4ri8 Main18.
Import ListNotations.

(** C81: the code book of l bits is a Gray code: the 2^l code words are all the numbers below 2^l,
    starting at 0, and two consecutive ones differ in the one bit named by inc. *)
Theorem C81_gray_codebook : forall l, 1 <= l -> l <= 16 ->
  exists ord inc, codebook l = Ok (ord, inc) /\ length inc = 2 ^ l /\ Permutation ord (seq 0 (2 ^ l)) /\ nth 0 ord 1 = 0 /\
    forall i, i + 1 < 2 ^ l -> nth i inc 0 < l /\
      N.lxor (N.of_nat (nth (i + 1) ord 0)) (N.of_nat (nth i ord 0)) = (2 ^ N.of_nat (nth i inc 0%nat))%N.
Proof. exact C81_gray_codebook_main. Qed.
Print Assumptions C81_gray_codebook.

(** The code book of 3 bits *)
Example C81_ex : codebook 3 = Ok ([0; 1; 3; 2; 6; 7; 5; 4], [0; 1; 0; 2; 0; 1; 0; 2]).
Proof. exact C81_ex_main. Qed.

(** C82: the table of 2^k combinations: with zero row 0, after mzd_make_table row L[id] of T is, from
    column c on, the sum of the rows r + l of M with bit l set in id, for every id below 2^k. *)
Theorem C82_make_table : forall R C M r c k T L, valid R C M -> c < C -> 1 <= k -> k <= 16 -> r + k <= R ->
  length T = 2 ^ k -> length L = 2 ^ k -> (forall row, In row T -> validrow C row) -> (forall j, rowbit (nth 0 T []) j = false) ->
  exists T' L', mzd_make_table M r c k (T, L) = Ok (T', L') /\ length T' = 2 ^ k /\ (forall row, In row T' -> validrow C row) /\
    forall id, id < 2 ^ k -> nth id L' 0 < 2 ^ k /\
      forall j, c <= j -> rowbit (nth (nth id L' 0) T' []) j = xsum k (fun l => N.testbit (N.of_nat id) (N.of_nat l) && bitat M (r + l) j).
Proof. exact C82_make_table_main. Qed.
Print Assumptions C82_make_table.

(** Two rows of 65 columns, from column 1 *)
Example C82_ex : valid 2 65 (mkmzd 2 65 [[7; 1]; [4; 0]]%N) /\
  mzd_make_table (mkmzd 2 65 [[7; 1]; [4; 0]]%N) 0 1 2 (repeat [0; 0]%N 4, repeat 0 4)
  = Ok ([[0; 0]; [6; 1]; [2; 1]; [4; 0]]%N, [0; 1; 3; 2]).
Proof. exact C82_ex_main. Qed.

(** C83: mzd_echelonize_naive gives, for every matrix, a row equivalent one in echelon form (reduced
    if full), and returns the rank. *)
Theorem C83_echelonize_naive : forall R C M full, valid R C M ->
  exists M' r, mzd_echelonize_naive M full = Ok (M', r) /\ valid R C M' /\ row_equiv R C (bitat M) (bitat M') /\
    rank_is R C (bitat M) r /\ echelon R C (bitat M') r /\ (full = true -> rref R C (bitat M') r).
Proof. exact C83_echelonize_naive_main. Qed.
Print Assumptions C83_echelonize_naive.

(** Three rows, columns 63 and 64 are pivots, rank 2 *)
Example C83_ex : valid 3 65 (mkmzd 3 65 [[2 ^ 63; 1]; [2 ^ 63; 0]; [0; 1]]%N) /\
  mzd_echelonize_naive (mkmzd 3 65 [[2 ^ 63; 1]; [2 ^ 63; 0]; [0; 1]]%N) true
  = Ok (mkmzd 3 65 [[2 ^ 63; 0]; [0; 1]; [0; 0]]%N, 2).
Proof. exact C83_ex_main. Qed.

(** C83: IsMatGf2Invertible decides invertibility for every square matrix with at least one row; a
    matrix that is not square is not invertible. *)
Theorem C83_is_invertible : forall R C M, valid R C M -> 1 <= R ->
  exists b, IsMatGf2Invertible M = Ok b /\ (b = true <-> R = C /\ invertible R (bitat M)).
Proof. exact C83_is_invertible_main. Qed.
Print Assumptions C83_is_invertible.

(** C83: a matrix without rows and columns is read out of bounds (entry (-1, -1)). *)
Theorem C83_empty : forall M, valid 0 0 M -> IsMatGf2Invertible M = UB.
Proof. exact C83_empty_main. Qed.
Print Assumptions C83_empty.

(** C84: mzd_echelonize_m4ri, the Four Russians method, computes for every matrix the reduced row
    echelon form and the rank, with table size k from 1 to 10, or chosen by the function (k = 0)
    unless the matrix has at most 3 rows and more than 87381 columns. *)
Theorem C84_echelonize_m4ri : forall R C M k, valid R C M -> 1 <= C ->
  (k = 0 /\ (4 <= R \/ (6 * N.of_nat C <= 524288)%N)) \/ (1 <= k /\ k <= 10) ->
  exists M' r, mzd_echelonize_m4ri M k = Ok (M', r) /\ valid R C M' /\ row_equiv R C (bitat M) (bitat M') /\
    rank_is R C (bitat M) r /\ rref R C (bitat M') r.
Proof. exact C84_echelonize_m4ri_main. Qed.
Print Assumptions C84_echelonize_m4ri.

(** Five rows of 66 columns with k = 1 and k = 0; the pivots are columns 1, 2, 64, 65 *)
Example C84_ex :
  let M := mkmzd 5 66 [[6; 3]; [6; 2]; [2; 1]; [0; 1]; [4; 1]]%N in valid 5 66 M /\
  mzd_echelonize_m4ri M 1 = Ok (mkmzd 5 66 [[2; 0]; [4; 0]; [0; 1]; [0; 2]; [0; 0]]%N, 4) /\
  mzd_echelonize_m4ri M 0 = Ok (mkmzd 5 66 [[2; 0]; [4; 0]; [0; 1]; [0; 2]; [0; 0]]%N, 4).
Proof. exact C84_ex_main. Qed.

(** C84: with at most 3 rows and more than 87381 columns the function chooses k = 0, and the loop
    makes no progress: no number of iterations is enough. *)
Theorem C84_forever : forall R C M TLs, valid R C M -> R <= 3 -> (524288 < 6 * N.of_nat C)%N ->
  echelon_k M 0 = 0 /\ forall fuel, echelon_loop fuel (echelon_k M 0) M TLs (6 * echelon_k M 0) 0 0 = UB.
Proof. exact C84_forever_main. Qed.
Print Assumptions C84_forever.

(** A matrix with no rows and 87382 columns *)
Example C84_forever_ex : valid 0 (N.to_nat 87382) (mkmzd 0 (N.to_nat 87382) []) /\ (524288 < 6 * N.of_nat (N.to_nat 87382))%N.
Proof. exact C84_forever_ex_main. Qed.

(** C85: mzd_inv_m4ri: for every invertible matrix the result is its inverse.  For every other
    square matrix it is some invertible V such that V A is in reduced row echelon form; nothing
    tells the caller that it is not an inverse. *)
Theorem C85_inverse : forall n A, valid n n A -> 1 <= n ->
  exists B, mzd_inv_m4ri A = Ok B /\ valid n n B /\ (invertible n (bitat A) -> inverse_of n (bitat A) (bitat B)) /\
    invertible n (bitat B) /\ exists r, rref n n (fmul n (bitat B) (bitat A)) r.
Proof. exact C85_inverse_main. Qed.
Print Assumptions C85_inverse.

(** A 3 x 3 matrix and its inverse; the zero matrix of size 2 "inverts" to the identity *)
Example C85_ex : valid 3 3 (mkmzd 3 3 [[6]; [3]; [2]]%N) /\
  mzd_inv_m4ri (mkmzd 3 3 [[6]; [3]; [2]]%N) = Ok (mkmzd 3 3 [[6]; [4]; [5]]%N) /\
  mzd_inv_m4ri (mkmzd 2 2 [[0]; [0]]%N) = Ok (mkmzd 2 2 [[1]; [2]]%N).
Proof. exact C85_ex_main. Qed.

(** C85: a singular matrix for which mzd_inv_m4ri returns a matrix that is not an inverse. *)
Theorem C85_singular_refuted : exists A B, valid 2 2 A /\ mzd_inv_m4ri A = Ok B /\ ~ inverse_of 2 (bitat A) (bitat B).
Proof. exact C85_singular_refuted_main. Qed.
Print Assumptions C85_singular_refuted.
