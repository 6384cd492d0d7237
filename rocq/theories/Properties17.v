(** Generated by tools/gen_props.py from Main17.v: statements of the properties.
    Every theorem is closed by [exact]; its assumptions are printed beneath it. *)
From Coq Require Import Arith NArith ZArith QArith Reals Lra Qreals List Bool Permutation Lia.
From Verif Require Import Base ModelRank ModelBM ModelNist ModelNist2 ModelNist3 ModelGamma SpecNist SpecNist2 SpecGamma LCCount Nist1 Nist5 Nist7 Nist8 Nist9 Nist10 Main17.
Import ListNotations.
Local Open Scope nat_scope.

(** C76: the serial test, for all sequences and pattern lengths m >= 2: the wrapped sequence gives the
    counts of the cyclic sequence, delta1 and delta2 are the first and second differences of psi^2, and
    both are >= 0 (so the arguments of gammaincc are in its domain). *)
Theorem C76_serial : forall bits m, isbits bits -> bits <> [] -> 2 <= m -> m - 1 <= length bits ->
  exists d1 d2, serial_deltas bits m = Ok (d1, d2) /\ (0 <= d1)%Q /\ (0 <= d2)%Q /\
  forall c ws0 ws1 ws2, (forall u, number_below (length bits) (cyclic_at bits u) (c u)) ->
    allwords m ws0 -> allwords (m - 1) ws1 -> allwords (m - 2) ws2 ->
    (d1 == psi2 (length bits) m c ws0 - psi2 (length bits) (m - 1) c ws1 /\
     d2 == psi2 (length bits) m c ws0 - 2 * psi2 (length bits) (m - 1) c ws1 + psi2 (length bits) (m - 2) c ws2)%Q.
Proof. exact C76_serial_main. Qed.
Print Assumptions C76_serial.

(** C76: the example of NIST SP 800-22, section 2.11.4: 0011011101 with m = 3 has delta1 = 1.6 and delta2 = 0.8. *)
Example C76_ex : exists d1 d2, serial_deltas [0;0;1;1;0;1;1;1;0;1]%N 3 = Ok (d1, d2) /\ (d1 == 16 # 10)%Q /\ (d2 == 8 # 10)%Q /\
  allwords 3 (words 3) /\ number_below 10 (cyclic_at [0;0;1;1;0;1;1;1;0;1]%N [1;0;0]%N) 1.
Proof. exact C76_ex_main. Qed.

(** C77: Maurer's test.  With n blocks of L bits, the value dist of each block i from Q on is the distance
    to the last earlier block with the same content, or i + 1 if there is none; it is at least 1 (the
    logarithm exists), and no access is out of range. *)
Theorem C77_distance : forall L Q n bits, isbits bits -> n * L <= length bits -> Q <= n ->
  let block i := firstn L (skipn (i * L) bits) in
  exists ds, maurer_dists L Q n bits = Ok ds /\ length ds = n - Q /\
  forall t, t < n - Q -> let i := Q + t in let d := nth t ds 0 in
    1 <= d <= i + 1 /\ (d <= i -> block (i - d) = block i) /\ (forall e, 1 <= e < d -> e <= i -> block (i - e) <> block i).
Proof. exact C77_distance_main. Qed.
Print Assumptions C77_distance.

(** C77: for every length from 387840 bits on, the block length chosen is between 6 and 16 (so the tables
    have an entry), it leaves at least 1000 * 2^L blocks for the test after the 10 * 2^L initial
    ones, and below 16 it is the largest such length. *)
Theorem C77_length : forall n, (387840 <= n)%N -> exists L, maurer_L n = Some L /\ 6 <= L <= 16 /\
  (10 * 2 ^ N.of_nat L + 1000 * 2 ^ N.of_nat L <= n / N.of_nat L)%N /\
  (L < 16 -> (n / N.of_nat (S L) < 10 * 2 ^ N.of_nat (S L) + 1000 * 2 ^ N.of_nat (S L))%N).
Proof. exact C77_length_main. Qed.
Print Assumptions C77_length.

(** C77: the example of NIST SP 800-22, section 2.9.4: L = 2, Q = 4, distances 3, 6, 2, 1, 1, 4 (the first block
    11 has none before it, which counts as 6). *)
Example C77_ex : maurer_dists 2 4 10 [0;1;0;1;1;0;1;0;0;1;1;1;0;1;0;1;0;1;1;1]%N = Ok [3; 6; 2; 1; 1; 4] /\
  maurer_L 1000000 = Some 7 /\ maurer_L 387839 = None.
Proof. exact C77_ex_main. Qed.

(** C78: frequency within blocks, from 100 bits on: 5 to 99 blocks of at least 20 bits which fit in the
    sequence; chisq is the sum of (ones - zeros)^2 / M over the blocks. *)
Theorem C78_frequency : forall bits, 100 <= length bits -> exists M N, freq_params (length bits) = (M, N) /\
  20 <= M /\ 5 <= N < 100 /\ N * M <= length bits /\
  (freq_chisq bits == fold_right Qplus 0 (map (fun i =>
     let d := (2 * Z.of_nat (ones (firstn M (skipn (i * M) bits))) - Z.of_nat M)%Z in inject_Z (d * d) / inject_Z (Z.of_nat M)) (seq 0 N)))%Q.
Proof. exact C78_frequency_main. Qed.
Print Assumptions C78_frequency.

(** C78: sequences all of whose blocks are balanced (p should be 1): 50 times 01 gets the value 0 and
    fails, 60 times 01 makes gammaincc divide by zero. *)
Theorem C78_balanced_refuted :
  let bits k := concat (repeat [0;1]%N k) in
  (freq_params (length (bits 50)) = (20, 5) /\ (freq_chisq (bits 50%nat) == 0)%Q /\ upper_incomplete_gamma (5 / 2) 0 = Ok 0%R) /\
  (freq_params (length (bits 60)) = (20, 6) /\ (freq_chisq (bits 60%nat) == 0)%Q /\ gammaincc 3 0 = UB).
Proof. exact C78_balanced_refuted_main. Qed.
Print Assumptions C78_balanced_refuted.

(** C78: the parameters for 1000 and 3000 bits; a sequence with unbalanced blocks. *)
Example C78_ex : freq_params 1000 = (20, 50) /\ freq_params 3000 = (30, 99) /\ (freq_chisq (repeat 1%N 100) == 100)%Q.
Proof. exact C78_ex_main. Qed.

(** C79: approximate entropy, for all sequences and pattern lengths m: chisq is 2n (ln 2 - (phi_m - phi_(m+1)))
    with phi_m = sum p ln p over the cyclic pattern frequencies p (the factor 1/10 in the code cancels), and lies
    between 0 and 2n ln 2. *)
Theorem C79_apen : forall bits m c ws0 ws1, isbits bits -> bits <> [] -> m <= length bits ->
  (forall u, number_below (length bits) (cyclic_at bits u) (c u)) -> allwords m ws0 -> allwords (m + 1) ws1 ->
  (apen_chisq bits m = 2 * INR (length bits) * (ln 2 - (entropy_sum (length bits) c ws0 - entropy_sum (length bits) c ws1)) /\
   0 <= apen_chisq bits m <= 2 * INR (length bits) * ln 2)%R.
Proof. exact C79_apen_main. Qed.
Print Assumptions C79_apen.

(** C79: the pattern length is 2 or 3. *)
Theorem C79_m : forall n, apen_m n = 2 \/ apen_m n = 3.
Proof. exact C79_m_main. Qed.
Print Assumptions C79_m.

(** C79: the counts of the example of NIST SP 800-22, section 2.12.4 (0100110101, m = 3). *)
Example C79_ex : apen_counts [0;1;0;0;1;1;0;1;0;1]%N 3 = [0; 1; 3; 1; 1; 3; 1; 0] /\ apen_m 100 = 2 /\ apen_m 1000 = 3 /\
  allwords 4 (words 4) /\ number_below 10 (cyclic_at [0;1;0;0;1;1;0;1;0;1]%N [0;1;0]%N) 3.
Proof. exact C79_ex_main. Qed.

(** C80: the continued fraction for the upper incomplete gamma function, cut after 100 levels, is exact
    for integers a from 1 to 50 and every x > 0: gammaincc(a, x) = e^-x (1 + x + ... + x^(a-1)/(a-1)!). *)
Theorem C80_gammaincc : forall a x, 1 <= a <= 50 -> (0 < x)%R -> gammaincc a x = Ok (gamma_q a x).
Proof. exact C80_gammaincc_main. Qed.
Print Assumptions C80_gammaincc.

(** C80: that value is the regularised upper incomplete gamma function: the one function which is 1 at 0
    and has the derivative - x^(a-1) e^-x / (a-1)!. *)
Theorem C80_unique : forall a, 1 <= a ->
  (gamma_q a 0 = 1 /\ (forall x, derivable_pt_lim (gamma_q a) x (- (x ^ (a - 1) * exp (- x) / INR (fact (a - 1))))) /\
   forall f, f 0 = 1 -> (forall x, derivable_pt_lim f x (- (x ^ (a - 1) * exp (- x) / INR (fact (a - 1))))) -> forall x, f x = gamma_q a x)%R.
Proof. exact C80_unique_main. Qed.
Print Assumptions C80_unique.

(** C80: at x = 0, where the value is 1, gammaincc divides by zero for every integer a from 1 to 50. *)
Theorem C80_zero_refuted : forall a, 1 <= a <= 50 -> gammaincc a 0 = UB /\ gamma_q a 0 = 1%R.
Proof. exact C80_zero_refuted_main. Qed.
Print Assumptions C80_zero_refuted.

(** C80: and for the half-integers 1/2, 3/2, ..., 99/2 it gives 0 instead of gamma(a). *)
Theorem C80_half_refuted : forall k, k < 50 -> upper_incomplete_gamma (INR (2 * k + 1) / 2) 0 = Ok 0%R.
Proof. exact C80_half_refuted_main. Qed.
Print Assumptions C80_half_refuted.

(** C80: so the serial test, on 64 bits in which each 4-bit pattern is equally frequent, divides by zero. *)
Theorem C80_serial_refuted : exists bits d1 d2, isbits bits /\ length bits = 64 /\ serial_deltas bits 4 = Ok (d1, d2) /\
  (d1 == 0)%Q /\ gammaincc 4 (Q2R d1 / 2) = UB.
Proof. exact C80_serial_refuted_main. Qed.
Print Assumptions C80_serial_refuted.

(** C80: e^-x for a = 1; e^-x (1 + x + x^2/2) for a = 3. *)
Example C80_ex : (gammaincc 1 2 = Ok (exp (- (2))) /\ gammaincc 3 1 = Ok (exp (- (1)) * (5 / 2)))%R.
Proof. exact C80_ex_main. Qed.
