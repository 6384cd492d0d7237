(** Generated by tools/gen_props.py from Main15.v: statements of the properties.
    Every theorem is closed by [exact]; its assumptions are printed beneath it. *)
From Coq Require Import Arith NArith ZArith QArith List Bool Lia.
From Verif Require Import Base Spec LinAlg ModelRank SpecRank Rank ModelNist SpecNist LCCount RankCount Nist1 Nist2 Nist3 Main15.
Import ListNotations.
Local Open Scope nat_scope.

(** C69: rank_prob M Q r, the formula of the rank test, is the exact fraction of the Q x M bit
    matrices which have rank r, for all sizes and ranks. *)
Theorem C69_probability : forall M Q r, exists ms, NoDup ms /\
  (forall m, In m ms <-> bitmat Q M m /\ rank_is Q M (pbits m) r) /\
  (rank_prob M Q r == inject_Z (Z.of_nat (length ms)) / inject_Z (2 ^ Z.of_nat (M * Q)))%Q.
Proof. exact C69_probability_main. Qed.
Print Assumptions C69_probability.

(** C69: the number of invertible n x n matrices is (2^n - 1)(2^n - 2)...(2^n - 2^(n-1)). *)
Theorem C69_invertible : forall n, exists ms, NoDup ms /\
  (forall m, In m ms <-> bitmat n n m /\ invertible n (pbits m)) /\
  Z.of_nat (length ms) = fold_right Z.mul 1%Z (map (fun i => 2 ^ Z.of_nat n - 2 ^ Z.of_nat i)%Z (seq 0 n)).
Proof. exact C69_invertible_main. Qed.
Print Assumptions C69_invertible.

(** C69: 6 of the 16 2x2 matrices are invertible, 9 have rank 1; the value for 32 bits. *)
Example C69_ex : (rank_prob 2 2 2 == 6 # 16)%Q /\ (rank_prob 2 2 1 == 9 # 16)%Q /\ (rank_prob 3 2 2 == 42 # 64)%Q /\
  length (filter (fun m => rk 3 m =? 2) (mats 2 3)) = 42 /\
  fold_right Z.mul 1%Z (map (fun i => 2 ^ Z.of_nat 4 - 2 ^ Z.of_nat i)%Z (seq 0 4)) = 20160%Z.
Proof. exact C69_ex_main. Qed.

(** C70: the runs test.  For a sequence of n > 0 bits it returns early exactly if (2 ones - n)^2 > 16 n,
    divides by zero exactly if it does not and all bits are equal, and otherwise its statistic is
    the number of runs. *)
Theorem C70_runs : forall bits, bits <> [] -> isbits bits ->
  let n := length bits in let k := ones bits in
  ((2 * Z.of_nat k - Z.of_nat n) ^ 2 > 16 * Z.of_nat n -> runs_test bits = Ok None)%Z /\
  ((2 * Z.of_nat k - Z.of_nat n) ^ 2 <= 16 * Z.of_nat n -> (k = 0 \/ k = n)%nat -> runs_test bits = UB)%Z /\
  ((2 * Z.of_nat k - Z.of_nat n) ^ 2 <= 16 * Z.of_nat n -> (0 < k < n)%nat ->
     exists r, runs_test bits = Ok (Some r) /\ runs bits r /\ forall r', runs bits r' -> r' = r)%Z.
Proof. exact C70_runs_main. Qed.
Print Assumptions C70_runs.

(** C70: a constant sequence of at most 16 bits makes the runs test divide by zero instead of failing. *)
Theorem C70_constant_refuted : exists bits, isbits bits /\ length bits = 16 /\ runs_test bits = UB.
Proof. exact C70_constant_refuted_main. Qed.
Print Assumptions C70_constant_refuted.

(** C70: the example of NIST SP 800-22, section 2.3.8 (first 20 bits); a biased sequence. *)
Example C70_ex : runs_test [1;1;0;0;1;0;0;1;0;0;0;0;1;1;1;1;1;1;0;1]%N = Ok (Some 9) /\ runs_test (repeat 1%N 17) = Ok None.
Proof. exact C70_ex_main. Qed.

(** C71: the table of the longest-run test, for at least N M bits: entry k is the number of blocks
    whose longest run of ones falls in class k; no exception. *)
Theorem C71_table : forall M N bits, N * M <= length bits ->
  exists ls, length ls = N /\ (forall i, i < N -> longest_is (firstn M (skipn (i * M) bits)) (nth i ls 0)) /\
    longest_table M N bits = Ok (map (fun k => count_occ Nat.eq_dec (map (longest_class M) ls) k) (seq 0 7)).
Proof. exact C71_table_main. Qed.
Print Assumptions C71_table.

(** C71: the parameters chosen for n bits always fit the data, so the table exists for every n >= 128. *)
Theorem C71_params : forall n, (128 <= n)%N -> exists M K N, longest_params n = Some (M, K, N) /\
  (N.of_nat N * N.of_nat M <= n)%N /\ (M = 8 /\ K = 3 \/ M = 128 /\ K = 5 \/ N.of_nat M = 10000%N /\ K = 6) /\ length (longest_probs M) = S K.
Proof. exact C71_params_main. Qed.
Print Assumptions C71_params.

(** C71: for blocks of 8 and of 128 bits the reference probabilities are those of the classes for
    uniform blocks, within 1/10000. *)
Theorem C71_probs : forall M k, M = 8 /\ k < 4 \/ M = 128 /\ k < 6 -> exists ws, NoDup ws /\
  (forall w, In w ws <-> length w = M /\ isbits w /\ exists r, longest_is w r /\ longest_class M r = k) /\
  (let f := inject_Z (Z.of_nat (length ws)) / inject_Z (2 ^ Z.of_nat M) in
   f - nth k (longest_probs M) 0 <= 1 # 10000 /\ nth k (longest_probs M) 0 - f <= 1 # 10000)%Q.
Proof. exact C71_probs_main. Qed.
Print Assumptions C71_probs.

(** C71: for blocks of 10000 bits they are not: the first class has probability at most 0.0875, the
    table says 0.0882. *)
Theorem C71_probs_refuted : exists M k, N.of_nat M = 10000%N /\ exists ws, NoDup ws /\
  (forall w, In w ws <-> length w = M /\ isbits w /\ exists r, longest_is w r /\ longest_class M r = k) /\
  (7 # 10000 <= nth k (longest_probs M) 0 - inject_Z (Z.of_nat (length ws)) / inject_Z (2 ^ Z.of_nat M))%Q.
Proof. exact C71_probs_refuted_main. Qed.
Print Assumptions C71_probs_refuted.

(** C71: a block of 8 bits and its longest run. *)
Example C71_ex : longest_run 8 [1;1;0;1;1;1;0;1]%N = Ok 3 /\ longest_is [1;1;0;1;1;1;0;1]%N 3 /\
  longest_table 8 2 [1;1;0;1;1;1;0;1; 0;0;0;0;1;0;1;0]%N = Ok [1; 0; 1; 0; 0; 0; 0] /\
  map (numV 8) (seq 0 4) = [55; 94; 59; 48]%N.
Proof. exact C71_ex_main. Qed.

(** C72: cumulative sums: forward_max is the largest distance of the walk from its start,
    backward_max the largest distance from its end; neither is zero (p_value divides by them). *)
Theorem C72_cusum : forall bits, bits <> [] -> isbits bits ->
  exists f b, cumulative_sums bits = Ok (f, b) /\
    (exists k, k <= length bits /\ f = Z.abs (walk bits k)) /\ (forall k, k <= length bits -> (Z.abs (walk bits k) <= f)%Z) /\
    (exists k, k <= length bits /\ b = Z.abs (walk bits (length bits) - walk bits k)%Z) /\
    (forall k, k <= length bits -> (Z.abs (walk bits (length bits) - walk bits k) <= b)%Z) /\ (0 < f /\ 0 < b)%Z.
Proof. exact C72_cusum_main. Qed.
Print Assumptions C72_cusum.

(** C72: the empty sequence makes p_value divide by zero. *)
Theorem C72_empty : cumulative_sums [] = UB.
Proof. exact C72_empty_main. Qed.
Print Assumptions C72_empty.

(** C72: NIST SP 800-22, section 2.13.4: the forward maximum of 1011010111 is 4. *)
Example C72_ex : cumulative_sums [1;0;1;1;0;1;0;1;1;1]%N = Ok (4, 4)%Z /\ walk [1;0;1;1;0;1;0;1;1;1]%N 10 = 4%Z.
Proof. exact C72_ex_main. Qed.
