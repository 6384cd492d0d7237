(** Model of the statistics computed by the tests in test/randomness/sp800_22_*_test.py.
    Conventions as in ModelRank.v: Python integers are unbounded, [UB] is an exception.  Rational
    numbers stand in place of floating point; p-values (erfc, gammaincc) and printing are not
    modelled. *)
From Coq Require Import Arith NArith ZArith QArith List Bool.
From Verif Require Import Base ModelRank.
Import ListNotations.
Local Open Scope nat_scope.

(** count_ones_zeroes, sp800_22_monobit_test.py lines 27-35 (the same text in
    sp800_22_frequency_within_block_test.py lines 31-39, sp800_22_runs_test.py lines 34-42) *)
Definition count_ones_zeroes (bits : list N) : nat * nat :=
  fold_left (fun zo bit => let '(zeroes, ones) := zo in
    if N.eqb bit 1 then (zeroes, ones + 1) else (zeroes + 1, ones)) bits (0, 0).

(** ** sp800_22_runs_test.py *)

(** runs_test, lines 44-64: None is the early return for a biased sequence, Some vobs reaches
    the computation of the p-value.  abs(prop-0.5) > 2.0/sqrt(n) is the comparison
    (2*ones - n)^2 > 16 n of exact numbers.  Division by zero: by n on line 48, and by prop*(1-prop)
    on line 64. *)
Definition runs_test (bits : list N) : res (option nat) :=
  let n := length bits in
  let '(_, ones) := count_ones_zeroes bits in
  if Nat.eqb n 0 then UB
  else if (16 * Z.of_nat n <? (2 * Z.of_nat ones - Z.of_nat n) ^ 2)%Z then Ok None
  else
    vobs <- for_up 0 (n - 1) (fun i vobs =>
              x <- aget bits i ;; y <- aget bits (i + 1) ;;
              Ok (if N.eqb x y then vobs else vobs + 1)) 1 ;;
    if Nat.eqb ones 0 || Nat.eqb ones n then UB else Ok (Some vobs).

(** ** sp800_22_longest_run_ones_in_a_block_test.py *)

(** lines 73-81: the longest run of ones of a block of M bits *)
Definition longest_run (M : nat) (block : list N) : res nat :=
  ' (_, longest) <- for_up 0 M (fun j st =>
      let '(run, longest) := st in
      x <- aget block j ;;
      if N.eqb x 1
      then Ok (run + 1, if Nat.ltb longest (run + 1) then run + 1 else longest)
      else Ok (0, longest)) (0, 0) ;;
  Ok longest.
(** lines 83-102: the index of the counter *)
Definition longest_class (M longest : nat) : nat :=
  if Nat.eqb M 8 then if Nat.leb longest 1 then 0 else if Nat.eqb longest 2 then 1 else if Nat.eqb longest 3 then 2 else 3
  else if Nat.eqb M 128 then
    if Nat.leb longest 4 then 0 else if Nat.eqb longest 5 then 1 else if Nat.eqb longest 6 then 2
    else if Nat.eqb longest 7 then 3 else if Nat.eqb longest 8 then 4 else 5
  else
    if Nat.leb longest 10 then 0 else if Nat.eqb longest 11 then 1 else if Nat.eqb longest 12 then 2
    else if Nat.eqb longest 13 then 3 else if Nat.eqb longest 14 then 4 else if Nat.eqb longest 15 then 5 else 6.
(** lines 44-64: M, K, N from the number of bits; None is the early return on line 47.  The
    numbers are in N since they are large. *)
Definition longest_params (n : N) : option (nat * nat * nat) :=
  if (n <? 128)%N then None
  else if (n <? 6272)%N then Some (8, 3, 16)
  else if (n <? 750000)%N then Some (128, 5, 49)
  else Some (N.to_nat 10000, 6, 75).
(** lines 66-102: the table v *)
Definition longest_table (M N : nat) (bits : list BinNums.N) : res (list nat) :=
  for_up 0 N (fun i v =>
    longest <- longest_run M (pyslice bits (i * M) ((i + 1) * M)) ;;
    let k := longest_class M longest in
    x <- aget v k ;; aset v k (x + 1)) (repeat 0 7).
(** probs, lines 31-41, for the block lengths the test uses (the tables M512 and M1000 are not used) *)
Definition longest_probs (M : nat) : list Q :=
  if Nat.eqb M 8 then [2148 # 10000; 3672 # 10000; 2305 # 10000; 1875 # 10000]
  else if Nat.eqb M 128 then [1174 # 10000; 2430 # 10000; 2493 # 10000; 1752 # 10000; 1027 # 10000; 1124 # 10000]
  else [882 # 10000; 2092 # 10000; 2483 # 10000; 1933 # 10000; 1208 # 10000; 675 # 10000; 727 # 10000].

(** ** sp800_22_cumulative_sums_test.py *)

(** lines 64-67 (also random_excursion_test lines 33-36, random_excursion_variant_test lines 31-33) *)
Definition plusminus (bits : list N) : list Z := map (fun bit => (Z.of_N bit * 2 - 1)%Z) bits.
(** lines 71-76 and 77-82 *)
Definition excursion_max (x : list Z) : Z :=
  snd (fold_left (fun st e => let '(pos, mx) := st in
    let pos := (pos + e)%Z in (pos, if (mx <? Z.abs pos)%Z then Z.abs pos else mx)) x (0, 0)%Z).
(** lines 61-86: forward_max and backward_max; p_value divides by them (lines 35, 36) *)
Definition cumulative_sums (bits : list N) : res (Z * Z) :=
  let x := plusminus bits in
  let forward_max := excursion_max x in
  let backward_max := excursion_max (rev x) in
  if (forward_max =? 0)%Z || (backward_max =? 0)%Z then UB else Ok (forward_max, backward_max).
