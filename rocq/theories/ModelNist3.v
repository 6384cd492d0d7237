(** Model of test/randomness/sp800_22_approximate_entropy_test.py; the logarithms over the real
    numbers (rounding is not modelled). *)
From Coq Require Import Arith NArith Reals List Bool.
From Verif Require Import Base ModelRank.
Import ListNotations.
Local Open Scope nat_scope.

(** bits_to_int, lines 29-33 *)
Definition bits_to_int (bits : list N) : N := fold_left (fun theint b => (N.shiftl theint 1 + b)%N) bits 0%N.
(** lines 51-63: the list counts for the pattern length iterm *)
Definition apen_counts (bits : list N) (iterm : nat) : list nat :=
  let padded_bits := bits ++ pyslice bits 0 (iterm - 1) in
  map (fun i => fold_left (fun count j =>
      if N.eqb (bits_to_int (pyslice padded_bits j (j + iterm))) (N.of_nat i) then count + 1 else count)
    (seq 0 (length bits)) 0) (seq 0 (2 ^ iterm)).
(** lines 66-77: Ci = counts/n, and the sum over the positive ones *)
Definition apen_phi (bits : list N) (iterm : nat) : R :=
  fold_left (fun sum count =>
    let Ci := (INR count / INR (length bits))%R in
    if Nat.ltb 0 count then (sum + Ci * ln (Ci / 10))%R else sum) (apen_counts bits iterm) 0%R.
(** lines 38-42: the choice of m from floor(log2 n) *)
Definition apen_m (n : nat) : nat :=
  let m := (Z.of_nat (Nat.log2 n) - 6)%Z in
  Z.to_nat (let m := if (m <? 2)%Z then 2%Z else m in if (3 <? m)%Z then 3%Z else m).
(** lines 49, 82-84, for a pattern length m *)
Definition apen_chisq (bits : list N) (m : nat) : R :=
  let appen_m := (apen_phi bits m - apen_phi bits (m + 1))%R in
  (2 * INR (length bits) * (ln 2 - appen_m))%R.
