(** Generated by tools/gen_props.py from Main29.v: statements of the properties.
    Every theorem is closed by [exact]; its assumptions are printed beneath it. *)
From Coq Require Import Arith NArith ZArith List Bool Lia.
From Verif Require Import Base Spec LinAlg ModelM4ri SpecM4ri M4ri1 M4riD M4ri8 ModelM4ri2 SpecM4ri2 ModelStrassen SpecStrassen Strassen1 Strassen4 Main19 ModelTri SpecTri SpecRank ModelPle SpecPle Ple1 Ple2 Ple3 Ple4 Ple5 Main27 Main29.
Import ListNotations.

(** C124: mzd_apply_p_left(A, P) takes row x of the result from row perm(x) of A, where perm is the
    product of the transpositions of i and P[i]; P may be shorter than the number of rows. *)
Theorem C124_left : forall R C A P, valid R C A -> 1 <= C -> length P <= R ->
  (forall i, i < length P -> i <= at_ P i /\ at_ P i < R) ->
  exists A', mzd_apply_p_left A P = Ok A' /\ valid R C A' /\ same R C (bitat A') (fun x j => bitat A (perm (at_ P) (length P) x) j).
Proof. exact C124_left_main. Qed.
Print Assumptions C124_left.

(** C124: mzd_apply_p_left_trans the same with the inverse permutation. *)
Theorem C124_left_trans : forall R C A P, valid R C A -> 1 <= C -> length P <= R ->
  (forall i, i < length P -> i <= at_ P i /\ at_ P i < R) ->
  exists A', mzd_apply_p_left_trans A P = Ok A' /\ valid R C A' /\ same R C (bitat A') (fun x j => bitat A (iperm (at_ P) (length P) x) j).
Proof. exact C124_left_trans_main. Qed.
Print Assumptions C124_left_trans.

(** C124: each undoes the other. *)
Theorem C124_inverse : forall R C A P, valid R C A -> 1 <= C -> length P <= R ->
  (forall i, i < length P -> i <= at_ P i /\ at_ P i < R) ->
  (exists A1 A2, mzd_apply_p_left A P = Ok A1 /\ mzd_apply_p_left_trans A1 P = Ok A2 /\ same R C (bitat A2) (bitat A)) /\
  (exists A1 A2, mzd_apply_p_left_trans A P = Ok A1 /\ mzd_apply_p_left A1 P = Ok A2 /\ same R C (bitat A2) (bitat A)).
Proof. exact C124_inverse_main. Qed.
Print Assumptions C124_inverse.

Example C124_ex : valid 5 70 col5 /\ (forall i, i < length [2; 4; 3] -> i <= at_ [2; 4; 3] i /\ at_ [2; 4; 3] i < 5) /\
  mzd_apply_p_left col5 [2; 4; 3] = Ok (mkmzd 5 70 [[4; 5]; [16; 1]; [8; 63]; [1; 3]; [2; 0]]%N) /\
  mzd_apply_p_left_trans col5 [2; 4; 3] = Ok (mkmzd 5 70 [[8; 63]; [16; 1]; [1; 3]; [4; 5]; [2; 0]]%N).
Proof. exact C124_ex_main. Qed.

(** C125: mzd_col_swap(A, a, b) exchanges two columns. *)
Theorem C125_col_swap : forall R C A a b, valid R C A -> 1 <= R -> a < C -> b < C ->
  exists A', mzd_col_swap A a b = Ok A' /\ valid R C A' /\ same R C (bitat A') (fun i j => bitat A i (tr a b j)).
Proof. exact C125_col_swap_main. Qed.
Print Assumptions C125_col_swap.

(** C125: mzd_col_swap_in_rows(A, a, b, start, stop) exchanges them in the rows from start to stop only. *)
Theorem C125_col_swap_in_rows : forall R C A a b start stop, valid R C A -> a < C -> b < C -> stop <= R ->
  exists A', mzd_col_swap_in_rows A a b start stop = Ok A' /\ valid R C A' /\
    same R C (bitat A') (fun i j => if Nat.leb start i && Nat.ltb i stop then bitat A i (tr a b j) else bitat A i j).
Proof. exact C125_col_swap_in_rows_main. Qed.
Print Assumptions C125_col_swap_in_rows.

(** C125: mzd_apply_p_right_trans(A, P) takes column j of the result from column perm(j) of A ... *)
Theorem C125_right_trans : forall R C A P, valid R C A -> 1 <= C -> length P = C -> (forall i, i < C -> at_ P i < C) ->
  exists A', mzd_apply_p_right_trans A P = Ok A' /\ valid R C A' /\ same R C (bitat A') (fun i j => bitat A i (perm (at_ P) C j)).
Proof. exact C125_right_trans_main. Qed.
Print Assumptions C125_right_trans.

(** C125: ... and mzd_apply_p_right with the inverse permutation. *)
Theorem C125_right : forall R C A P, valid R C A -> 1 <= C -> length P = C -> (forall i, i < C -> at_ P i < C) ->
  exists A', mzd_apply_p_right A P = Ok A' /\ valid R C A' /\ same R C (bitat A') (fun i j => bitat A i (iperm (at_ P) C j)).
Proof. exact C125_right_main. Qed.
Print Assumptions C125_right.

(** C125: a permutation shorter than the number of columns: the columns it does not move stay, those it
    moves that are beyond its length become zero. *)
Theorem C125_right_short : forall R C A P, valid R C A -> 1 <= C -> length P <= C -> (forall i, i < length P -> at_ P i < C) ->
  exists A', mzd_apply_p_right_trans A P = Ok A' /\ valid R C A' /\
    same R C (bitat A') (fun i j => if Nat.ltb j (length P) then bitat A i (perm (at_ P) (length P) j)
                                    else Nat.eqb (perm (at_ P) (length P) j) j && bitat A i j).
Proof. exact C125_right_short_main. Qed.
Print Assumptions C125_right_short.

(** C125: it is therefore not a permutation of the columns: a matrix other than zero becomes zero. *)
Theorem C125_right_short_refuted : exists A P A', valid 1 2 A /\ length P <= 2 /\ (forall i, i < length P -> i <= at_ P i /\ at_ P i < 2) /\
  bitat A 0 0 = true /\ mzd_apply_p_right_trans A P = Ok A' /\ bitat A' 0 0 = false /\ bitat A' 0 1 = false.
Proof. exact C125_right_short_refuted_main. Qed.
Print Assumptions C125_right_short_refuted.

(** C125: mzd_apply_p_right_trans_tri(A, P) applies to row i only the transpositions with an index above
    i, in the order of the list, whatever the size of the blocks of rows. *)
Theorem C125_tri : forall R C A P step, valid R C A -> 1 <= C -> 1 <= step -> swaps C P ->
  exists A', mzd_apply_p_right_trans_tri step A P = Ok A' /\ valid R C A' /\
    same R C (bitat A') (fun i j => bitat A i (perm (fun k => if Nat.ltb i k then at_ P k else k) C j)).
Proof. exact C125_tri_main. Qed.
Print Assumptions C125_tri.

Example C125_ex : valid 5 70 col5 /\ swaps 70 swap70 /\
  mzd_col_swap col5 2 69 = Ok (mkmzd 5 70 [[1; 3]; [2; 0]; [0; 37]; [12; 31]; [16; 1]]%N) /\
  mzd_apply_p_right_trans col5 swap70 = Ok (mkmzd 5 70 [[2; 3]; [0; 32]; [4; 5]; [9; 31]; [16; 1]]%N) /\
  mzd_apply_p_right col5 swap70 = Ok (mkmzd 5 70 [[0; 35]; [1; 0]; [4; 5]; [10; 31]; [16; 1]]%N) /\
  swaps 70 (0 :: 69 :: 64 :: seq 3 67) /\
  mzd_apply_p_right_trans_tri 2 col5 (0 :: 69 :: 64 :: seq 3 67) = Ok (mkmzd 5 70 [[5; 2]; [2; 0]; [4; 5]; [8; 63]; [16; 1]]%N).
Proof. exact C125_ex_main. Qed.

(** C126: _mzd_pluq_naive(A, P, Q) writes into A, P and Q a factorisation of A, and returns the rank. *)
Theorem C126_pluq : forall m n A P Q, valid m n A -> length P = m -> length Q = n ->
  exists A' P' Q' r, pluq_naive A P Q = Ok (A', P', Q', r) /\ valid m n A' /\ pluq_of m n r (bitat A) (bitat A') P' Q' /\
    rank_is m n (bitat A) r.
Proof. exact C126_pluq_main. Qed.
Print Assumptions C126_pluq.

Example C126_ex : valid 4 5 mat4 /\ length (repeat 9 4) = 4 /\ length (repeat 9 5) = 5 /\
  pluq_naive mat4 (repeat 9 4) (repeat 9 5) = Ok (mkmzd 4 5 [[19]; [10]; [0]; [3]]%N, [1; 2; 2; 3], [1; 2; 2; 3; 4], 2).
Proof. exact C126_ex_main. Qed.

(** C127: mzd_pluq_solve_left(A, rank, P, Q, B, cutoff, check), given a factorisation of A0: if A0 X = B
    has a solution, B is replaced by one (with rows of zeros below); with the check, 0 is returned just
    in this case. *)
Theorem C127_solve : forall m n r b c A0 A P Q B cutoff check kcache junk, valid m n A -> valid b c B -> 1 <= c -> n <= b -> m <= b ->
  pluq_of m n r A0 (bitat A) P Q -> small m n -> small b c -> small c b -> small b b ->
  (N.of_nat cutoff < 2 ^ 29)%N -> cutoff = 0 \/ 64 <= cutoff ->
  (check = true -> cuttable cutoff r \/ m - r < 128 \/ c < 128) -> (forall b, words64 (junk b)) ->
  exists X ok, mzd_pluq_solve_left kcache junk A r P Q B cutoff check = Ok (X, ok) /\ valid b c X /\
    (check = true -> (ok = true <-> exists Xs, solves m n c A0 Xs (bitat B))) /\ (check = false -> ok = true) /\
    ((exists Xs, solves m n c A0 Xs (bitat B)) -> solves m n c A0 (bitat X) (bitat B)) /\
    (ok = true -> forall x t, n <= x -> x < b -> t < c -> bitat X x t = false).
Proof. exact C127_solve_main. Qed.
Print Assumptions C127_solve.

(** C127: with the factorisation by _mzd_pluq_naive. *)
Theorem C127_naive : forall m n b c A P Q B cutoff kcache junk, valid m n A -> length P = m -> length Q = n -> valid b c B -> 1 <= c -> n <= b -> m <= b ->
  small m n -> small b c -> small c b -> small b b -> (N.of_nat cutoff < 2 ^ 29)%N -> cutoff = 0 \/ 128 <= cutoff -> (forall b, words64 (junk b)) ->
  exists A' P' Q' r X ok, pluq_naive A P Q = Ok (A', P', Q', r) /\ mzd_pluq_solve_left kcache junk A' r P' Q' B cutoff true = Ok (X, ok) /\ valid b c X /\
    (ok = true <-> exists Xs, solves m n c (bitat A) Xs (bitat B)) /\ (ok = true -> solves m n c (bitat A) (bitat X) (bitat B)).
Proof. exact C127_naive_main. Qed.
Print Assumptions C127_naive.

(** C127: of the dimensions only ncols(A) <= nrows(B) is checked: with less rows in B than in A the
    function leaves B. *)
Theorem C127_rows_refuted : exists A P Q B, valid 3 1 A /\ valid 2 1 B /\ pluq_of 3 1 0 (bitat A) (bitat A) P Q /\
  forall kcache junk, mzd_pluq_solve_left kcache junk A 0 P Q B 0 true = UB.
Proof. exact C127_rows_refuted_main. Qed.
Print Assumptions C127_rows_refuted.

Example C127_ex : valid 4 5 lu4 /\ valid 6 2 rhs6 /\ pluq_of 4 5 2 (bitat mat4) (bitat lu4) [1; 2; 2; 3] [1; 2; 2; 3; 4] /\
  small 4 5 /\ small 6 2 /\ small 2 6 /\ small 6 6 /\ cuttable 0 2 /\ words64 (repeat 5%N 64) /\
  mzd_pluq_solve_left 3 (fun _ => repeat 5%N 64) lu4 2 [1; 2; 2; 3] [1; 2; 2; 3; 4] rhs6 0 true = Ok (mkmzd 6 2 [[0]; [2]; [1]; [0]; [0]; [0]]%N, true) /\
  snd_of (mzd_pluq_solve_left 3 (fun _ => repeat 5%N 64) lu4 2 [1; 2; 2; 3] [1; 2; 2; 3; 4] bad6 0 true) = Some false.
Proof. exact C127_ex_main. Qed.

(** C128: mzd_kernel_left_pluq after the factorisation of A0: NULL if A0 v = 0 has only the solution
    zero, otherwise a matrix whose columns are a basis of the solutions. *)
Theorem C128_kernel : forall m n r A0 A P Q cutoff kcache junk, valid m n A -> pluq_of m n r A0 (bitat A) P Q -> small n n ->
  (N.of_nat cutoff < 2 ^ 29)%N -> cutoff = 0 \/ 64 <= cutoff -> (forall b, words64 (junk b)) ->
  exists K, kernel_of_pluq kcache junk A r Q cutoff = Ok K /\
    match K with
    | None => forall v, (forall i, i < m -> xsum n (fun j => A0 i j && v j) = false) -> forall j, j < n -> v j = false
    | Some K => r < n /\ valid n (n - r) K /\ kernel_basis m n (n - r) A0 (bitat K)
    end.
Proof. exact C128_kernel_main. Qed.
Print Assumptions C128_kernel.

(** C128: with the factorisation by _mzd_pluq_naive. *)
Theorem C128_naive : forall m n A P Q cutoff kcache junk, valid m n A -> length P = m -> length Q = n -> small n n ->
  (N.of_nat cutoff < 2 ^ 29)%N -> cutoff = 0 \/ 64 <= cutoff -> (forall b, words64 (junk b)) ->
  exists A' P' Q' r K, pluq_naive A P Q = Ok (A', P', Q', r) /\ kernel_of_pluq kcache junk A' r Q' cutoff = Ok K /\ rank_is m n (bitat A) r /\
    match K with
    | None => r = n
    | Some K => valid n (n - r) K /\ kernel_basis m n (n - r) (bitat A) (bitat K)
    end.
Proof. exact C128_naive_main. Qed.
Print Assumptions C128_naive.

Example C128_ex : valid 4 5 lu4 /\ pluq_of 4 5 2 (bitat mat4) (bitat lu4) [1; 2; 2; 3] [1; 2; 2; 3; 4] /\ small 5 5 /\ words64 (repeat 5%N 64) /\
  kernel_of_pluq 3 (fun _ => repeat 5%N 64) lu4 2 [1; 2; 2; 3; 4] 0 = Ok (Some (mkmzd 5 3 [[1]; [6]; [2]; [2]; [4]]%N)).
Proof. exact C128_ex_main. Qed.
