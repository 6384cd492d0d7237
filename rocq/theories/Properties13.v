(** Generated by tools/gen_props.py from Main13.v: statements of the properties.
    Every theorem is closed by [exact]; its assumptions are printed beneath it. *)
From Coq Require Import Arith NArith ZArith QArith Reals Qreals Lra List Bool Lia.
From Verif Require Import Base Model Spec LinAlg Gauss ModelSM4 ModelRank SpecRank Rank RankTest GenPair Mem Main13.
Import ListNotations.
Local Open Scope nat_scope.

(** C65: for a square matrix rank returns the rank: the largest number of linearly independent
    rows. *)
Theorem C65_rank : forall n m, bitmat n n m -> exists r, rank n n m = Ok r /\ rank_is n n (pbits m) r.
Proof. exact C65_rank_main. Qed.
Print Assumptions C65_rank.

(** C65: in particular it returns n exactly for the invertible matrices. *)
Theorem C65_full : forall n m, bitmat n n m -> (rank n n m = Ok n <-> invertible n (pbits m)).
Proof. exact C65_full_main. Qed.
Print Assumptions C65_full.

(** C65: with more rows than columns (M < Q) rank raises an exception, whatever the matrix. *)
Theorem C65_tall : forall M Q m, M < Q -> bitmat Q M m -> rank M Q m = UB.
Proof. exact C65_tall_main. Qed.
Print Assumptions C65_tall.

(** C65: with more columns than rows the result can be wrong: the elimination stops after Q columns.
    Two equal rows 0 0 1 are counted as rank 2. *)
Theorem C65_wide_refuted : exists M Q m r, bitmat Q M m /\ rank M Q m = Ok r /\ ~ rank_is Q M (pbits m) r.
Proof. exact C65_wide_refuted_main. Qed.
Print Assumptions C65_wide_refuted.

(** C65: computeRank, the other rank function of the file, is wrong: it gives 3 for a 3 by 3 matrix
    with two equal rows. *)
Theorem C65_computeRank_refuted : exists n m r,
  bitmat n n m /\ computeRank n n m = Ok (Z.of_nat r) /\ ~ rank_is n n (pbits m) r.
Proof. exact C65_computeRank_refuted_main. Qed.
Print Assumptions C65_computeRank_refuted.

(** C65: two matrices, of rank 2 and 3. *)
Example C65_ex :
  bitmat 3 3 [[0; 1; 0]; [1; 0; 0]; [1; 0; 0]]%N /\ rank 3 3 [[0; 1; 0]; [1; 0; 0]; [1; 0; 0]]%N = Ok 2 /\
  bitmat 3 3 [[0; 1; 1]; [1; 0; 0]; [1; 0; 1]]%N /\ rank 3 3 [[0; 1; 1]; [1; 0; 0]; [1; 0; 1]]%N = Ok 3.
Proof. exact C65_ex_main. Qed.

(** C66: the rank test counts the blocks of n by n bits by their rank. *)
Theorem C66_counts : forall n bits, 0 < n -> (forall x, In x bits -> x = 0%N \/ x = 1%N) ->
  exists FM FMM rem rs, rank_counts n n bits = Ok (FM, FMM, rem) /\
    length rs = length bits / (n * n) /\
    (forall k, k < length bits / (n * n) -> rank_is n n (blk n bits k) (nth k rs 0)) /\
    FM = count_occ Nat.eq_dec rs n /\ FMM = count_occ Nat.eq_dec rs (n - 1) /\
    FM + FMM + rem = length bits / (n * n).
Proof. exact C66_counts_main. Qed.
Print Assumptions C66_counts.

(** C66: on a file of at least 38 invertible 32-bit matrices, in the memory order of either machine
    and with either order of the bits in a byte, all blocks have full rank and the chi-square value
    is at least 91. *)
Theorem C66_chisq : forall be e ms, 38 <= length ms ->
  Forall (fun m => shapeM W32 m /\ invertible 32 (mbit W32 m)) ms ->
  rank_counts 32 32 (read_bits be (file_bytes e ms)) = Ok (length ms, 0, 0) /\
  exists chisq, binary_matrix_rank_test 32 32 (read_bits be (file_bytes e ms)) = Ok (Some chisq) /\ (91 <= chisq)%Q.
Proof. exact C66_chisq_main. Qed.
Print Assumptions C66_chisq.

(** C66: so the p-value e^(-chisq/2) is below 0.01 and the test fails. *)
Theorem C66_fail : forall be e ms, 38 <= length ms ->
  Forall (fun m => shapeM W32 m /\ invertible 32 (mbit W32 m)) ms ->
  exists chisq, binary_matrix_rank_test 32 32 (read_bits be (file_bytes e ms)) = Ok (Some chisq) /\
    (exp (- Q2R chisq / 2) < 1 / 100)%R.
Proof. exact C66_fail_main. Qed.
Print Assumptions C66_fail.

(** C66: so do the sequences made by genMatpair, both the matrices and the inverses. *)
Theorem C66_genMatpair : forall be e e' (ps : list (mat * mat)), 38 <= length ps ->
  (forall p, In p ps -> exists m v s s', shapeM W32 m /\ shapeM W32 v /\ genMatpair e' W32 m v s = Ok (p, s')) ->
  (exists chisq, binary_matrix_rank_test 32 32 (read_bits be (file_bytes e (map fst ps))) = Ok (Some chisq) /\
    (exp (- Q2R chisq / 2) < 1 / 100)%R) /\
  (exists chisq, binary_matrix_rank_test 32 32 (read_bits be (file_bytes e (map snd ps))) = Ok (Some chisq) /\
    (exp (- Q2R chisq / 2) < 1 / 100)%R).
Proof. exact C66_genMatpair_main. Qed.
Print Assumptions C66_genMatpair.

(** C66: 38 copies of the identity matrix meet the hypotheses; with matrices of rank 1 in their
    place the counts are others. *)
Example C66_ex :
  let idm := map (fun i => [2 ^ N.of_nat (31 - i)]%N) (seq 0 32) in
  Forall (fun m => shapeM W32 m /\ invertible 32 (mbit W32 m)) (repeat idm 38) /\ length (repeat idm 38) = 38 /\
  rank_counts 32 32 (read_bits true (file_bytes LE (repeat (map (fun _ => [1]%N) (seq 0 32)) 38))) = Ok (0, 0, 38).
Proof. exact C66_ex_main. Qed.
