(** Generated by tools/gen_props.py from Main30.v: statements of the properties.
    Every theorem is closed by [exact]; its assumptions are printed beneath it. *)
From Coq Require Import Arith NArith ZArith List Bool Lia.
From Verif Require Import Base Spec LinAlg ModelM4ri SpecM4ri M4ri1 M4riD M4ri8 M4ri14 ModelM4ri2 SpecM4ri2 ModelStrassen SpecStrassen Strassen1 Strassen4 Main19 ModelTri SpecTri SpecRank ModelPle SpecPle ModelPle2 SpecPle2 Ple1 Ple2 Ple3 Ple4 Ple5 Main27 Main29 Ple6 Ple7 Ple8 Ple9 Ple10 Main30.
Import ListNotations.

(** C129: _mzd_ple_naive(A, P, Q) writes into A, P and Q a factorisation P L E of A, and returns the rank. *)
Theorem C129_naive : forall m n A P Q, valid m n A -> length P = m -> length Q = n ->
  exists A' P' Q' r, ple_naive A P Q = Ok (A', P', Q', r) /\ valid m n A' /\ ple_of m n r (bitat A) (bitat A') P' Q' /\ rank_is m n (bitat A) r.
Proof. exact C129_naive_main. Qed.
Print Assumptions C129_naive.

Example C129_ex : valid 4 5 mat5 /\ length (repeat 9 4) = 4 /\ length (repeat 9 5) = 5 /\
  ple_naive mat5 (repeat 9 4) (repeat 9 5) = Ok (mkmzd 4 5 [[21]; [3]; [0]; [2]]%N, [1; 2; 2; 3], [1; 3; 2; 3; 4], 2).
Proof. exact C129_ex_main. Qed.

(** C130: mzd_first_zero_row(A) is the number of rows up to the last that is not zero. *)
Theorem C130_first_zero_row : forall R C A, valid R C A -> 1 <= C ->
  exists n, mzd_first_zero_row A = Ok n /\ n <= R /\ (forall i j, n <= i -> i < R -> j < C -> bitat A i j = false) /\
    (n <> 0 -> exists j, j < C /\ bitat A (n - 1) j = true).
Proof. exact C130_first_zero_row_main. Qed.
Print Assumptions C130_first_zero_row.

(** C130: _mzd_compress_l(A, r1, n1, r2), whose rows from r1 on have zeros in the columns from r1 to n1
    and whose rows from r1 + r2 on have them from n1 + r2 on: in row x the first min(x - r1 + 1, r2)
    columns from n1 on are moved to r1; what is behind them up to where they were becomes zero. *)
Theorem C130_compress : forall R C A r1 n1 r2, valid R C A -> r1 <= n1 -> n1 mod 64 = 0 -> n1 < C -> n1 + r2 <= C -> r1 + r2 <= R ->
  (forall i j, r1 <= i -> i < R -> r1 <= j -> j < n1 -> bitat A i j = false) ->
  (forall i j, r1 + r2 <= i -> i < R -> n1 + r2 <= j -> j < C -> bitat A i j = false) ->
  exists A', compress_l A r1 n1 r2 = Ok A' /\ valid R C A' /\
    (forall i j, i < R -> j < C -> i < r1 \/ j < r1 -> bitat A' i j = bitat A i j) /\
    (forall i t, r1 <= i -> i < R -> t < r2 -> t <= i - r1 -> bitat A' i (r1 + t) = bitat A i (n1 + t)) /\
    (forall i j, r1 <= i -> i < R -> j < C -> r1 + Nat.min (i - r1 + 1) r2 <= j -> j < n1 + Nat.min (i - r1 + 1) r2 -> bitat A' i j = false) /\
    (forall i j, r1 <= i -> i < R -> j < C -> n1 + Nat.min (i - r1 + 1) r2 <= j -> bitat A' i j = bitat A i j).
Proof. exact C130_compress_main. Qed.
Print Assumptions C130_compress.

Example C130_ex : valid 5 70 lmat /\ zero_in 1 5 1 64 lmat = true /\ zero_in 3 5 66 70 lmat = true /\
  mzd_first_zero_row lmat = Ok 4 /\
  compress_l lmat 1 64 2 = Ok (mkmzd 5 70 [[7; 3]; [3; 36]; [4; 0]; [7; 0]; [0; 0]]%N).
Proof. exact C130_ex_main. Qed.

(** C131: mzd_ple(A, P, Q, cutoff), if _mzd_ple_russian factorises the matrices at the end of the
    recursion: A, P and Q are a factorisation P L E of A, and the rank is returned. *)
Theorem C131_ple : forall russian kcache junk ple_cutoff m n A P Q cutoff, factorises russian ->
  valid m n A -> 1 <= n -> length P = m -> length Q = n -> small m n -> small n m ->
  (N.of_nat cutoff < 2 ^ 29)%N -> cutoff = 0 \/ 128 <= cutoff -> (forall b, words64 (junk b)) ->
  exists A' P' Q' r, mzd_ple kcache junk ple_cutoff russian A P Q cutoff = Ok (A', P', Q', r) /\
    valid m n A' /\ ple_of m n r (bitat A) (bitat A') P' Q' /\ rank_is m n (bitat A) r.
Proof. exact C131_ple_main. Qed.
Print Assumptions C131_ple.

(** C131: mzd_pluq(A, P, Q, cutoff) likewise a factorisation P L U Q. *)
Theorem C131_pluq : forall russian kcache junk ple_cutoff step m n A P Q cutoff, factorises russian -> 1 <= step ->
  valid m n A -> 1 <= n -> length P = m -> length Q = n -> small m n -> small n m ->
  (N.of_nat cutoff < 2 ^ 29)%N -> cutoff = 0 \/ 128 <= cutoff -> (forall b, words64 (junk b)) ->
  exists A' P' Q' r, mzd_pluq kcache junk ple_cutoff russian step A P Q cutoff = Ok (A', P', Q', r) /\
    valid m n A' /\ pluq_of m n r (bitat A) (bitat A') P' Q' /\ rank_is m n (bitat A) r.
Proof. exact C131_pluq_main. Qed.
Print Assumptions C131_pluq.

(** C131: _mzd_ple_naive factorises, so that the recursion with it in the place of _mzd_ple_russian is
    correct without a condition. *)
Theorem C131_base : factorises ple_naive.
Proof. exact C131_base_main. Qed.
Print Assumptions C131_base.

Example C131_ex : valid 5 70 mat70 /\ small 5 70 /\ small 70 5 /\ words64 (repeat 5%N 64) /\
  mzd_ple 3 (fun _ => repeat 5%N 64) 0 ple_naive mat70 (repeat 9 5) (repeat 9 70) 0 =
    Ok (mkmzd 5 70 [[1; 1]; [3; 4]; [5; 0]; [8; 0]; [0; 0]]%N, [0; 2; 2; 3; 4], [1; 2; 64; 66] ++ seq 4 60 ++ [64; 66; 66; 67; 68; 69], 4) /\
  mzd_pluq 3 (fun _ => repeat 5%N 64) 0 ple_naive 2 mat70 (repeat 9 5) (repeat 9 70) 0 =
    Ok (mkmzd 5 70 [[5; 0]; [11; 0]; [5; 0]; [8; 0]; [0; 0]]%N, [0; 2; 2; 3; 4], [1; 2; 64; 66] ++ seq 4 60 ++ [64; 66; 66; 67; 68; 69], 4).
Proof. exact C131_ex_main. Qed.

(** C132: mzd_solve_left(A, B, cutoff, inconsistency_check) with as many rows in B as A has rows and
    columns: with the check 0 is returned exactly if A X = B has a solution; if it has one, B becomes one;
    and if 0 is returned the rows of B behind the columns of A become zero. *)
Theorem C132_solve : forall russian kcache junk ple_cutoff step m n b c A B cutoff check, factorises russian -> 1 <= step ->
  valid m n A -> 1 <= n -> valid b c B -> 1 <= c -> n <= b -> m <= b -> small b b -> small b c -> small c b ->
  (N.of_nat cutoff < 2 ^ 29)%N -> cutoff = 0 \/ 128 <= cutoff -> (forall b, words64 (junk b)) ->
  exists A' X ok, mzd_solve_left kcache junk ple_cutoff russian step A B cutoff check = Ok (A', X, ok) /\ valid b c X /\
    (check = true -> (ok = true <-> exists Xs, solves m n c (bitat A) Xs (bitat B))) /\ (check = false -> ok = true) /\
    ((exists Xs, solves m n c (bitat A) Xs (bitat B)) -> solves m n c (bitat A) (bitat X) (bitat B)) /\
    (ok = true -> forall x t, n <= x -> x < b -> t < c -> bitat X x t = false).
Proof. exact C132_solve_main. Qed.
Print Assumptions C132_solve.

Example C132_ex : factorises ple_naive /\ valid 4 5 mat5 /\ valid 5 2 (mkmzd 5 2 [[0]; [3]; [1]; [2]; [0]]%N) /\ small 5 5 /\ small 5 2 /\ small 2 5 /\ words64 (repeat 5%N 64) /\
  mzd_solve_left 3 (fun _ => repeat 5%N 64) 0 ple_naive 2 mat5 (mkmzd 5 2 [[0]; [3]; [1]; [2]; [0]]%N) 0 true =
    Ok (mkmzd 4 5 [[21]; [3]; [0]; [2]]%N, mkmzd 5 2 [[0]; [3]; [0]; [2]; [0]]%N, true) /\
  ok_of (mzd_solve_left 3 (fun _ => repeat 5%N 64) 0 ple_naive 2 mat5 (mkmzd 5 2 [[0]; [3]; [1]; [3]; [0]]%N) 0 true) = Some false.
Proof. exact C132_ex_main. Qed.

(** C133: mzd_kernel_left_pluq(A, cutoff): NULL if A v = 0 has only the solution zero, otherwise a matrix
    whose columns are a basis of the solutions. *)
Theorem C133_kernel : forall russian kcache junk ple_cutoff step m n A cutoff, factorises russian -> 1 <= step ->
  valid m n A -> 1 <= n -> small m n -> small n m -> small n n ->
  (N.of_nat cutoff < 2 ^ 29)%N -> cutoff = 0 \/ 128 <= cutoff -> (forall b, words64 (junk b)) ->
  exists A' K r, mzd_kernel_left_pluq kcache junk ple_cutoff russian step A cutoff = Ok (A', K) /\ rank_is m n (bitat A) r /\
    match K with
    | None => r = n /\ forall v, (forall i, i < m -> xsum n (fun j => bitat A i j && v j) = false) -> forall j, j < n -> v j = false
    | Some K => r < n /\ valid n (n - r) K /\ kernel_basis m n (n - r) (bitat A) (bitat K)
    end.
Proof. exact C133_kernel_main. Qed.
Print Assumptions C133_kernel.

Example C133_ex : factorises ple_naive /\ valid 4 5 mat5 /\ small 4 5 /\ small 5 4 /\ small 5 5 /\ words64 (repeat 5%N 64) /\
  mzd_kernel_left_pluq 3 (fun _ => repeat 5%N 64) 0 ple_naive 2 mat5 0 =
    Ok (mkmzd 4 5 [[21]; [3]; [0]; [2]]%N, Some (mkmzd 5 3 [[2]; [5]; [1]; [0]; [4]]%N)).
Proof. exact C133_ex_main. Qed.
