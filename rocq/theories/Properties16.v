(** Generated by tools/gen_props.py from Main16.v: statements of the properties.
    Every theorem is closed by [exact]; its assumptions are printed beneath it. *)
From Coq Require Import Arith NArith ZArith QArith Qabs Reals Lra Qreals List Bool Permutation Lia.
From Verif Require Import Base ModelRank ModelBM ModelNist ModelNist2 SpecNist SpecNist2 SpecGamma ModelGamma LCCount RankCount Nist1 Nist4 Nist5 Nist6 Nist7 Nist8 Main16.
Import ListNotations.
Local Open Scope nat_scope.

(** C73: the random excursions test cuts the walk 0, s_1, ..., s_n, 0 at its zeros: every cycle is a 0,
    values other than 0, and a 0; the number J of cycles is one more than the number of returns to
    0 (so the division by J is safe), and the variant test computes the same J. *)
Theorem C73_cycles : forall bits, isbits bits -> exists cs, cycles bits = Ok cs /\
  0%Z :: concat (map (@tl Z) cs) = map (walk bits) (seq 0 (S (length bits))) ++ [0%Z] /\
  (forall c, In c cs -> exists mid, c = 0%Z :: mid ++ [0%Z] /\ ~ In 0%Z mid) /\
  length cs = 1 + length (filter (fun k => (walk bits k =? 0)%Z) (seq 1 (length bits))) /\ variant_J bits = length cs.
Proof. exact C73_cycles_main. Qed.
Print Assumptions C73_cycles.

(** C73: entry k of the table of x is the number of cycles with exactly k values x (k < 5) or at
    least 5 values x (k = 5); the six entries add up to the number of cycles. *)
Theorem C73_table : forall cs x,
  (forall k, k < 5 -> vxk cs x k = length (filter (fun c => Nat.eqb (count_occ Z.eq_dec c x) k) cs)) /\
  vxk cs x 5 = length (filter (fun c => Nat.leb 5 (count_occ Z.eq_dec c x)) cs) /\
  fold_right plus 0 (map (vxk cs x) (seq 0 6)) = length cs.
Proof. exact C73_table_main. Qed.
Print Assumptions C73_table.

(** C73: the counters of the variant test, also those with a negative index, hold the number of
    visits of the walk. *)
Theorem C73_variant : forall bits, isbits bits -> exists count, variant_count bits = Ok count /\
  forall x, (- 10 < x < 10)%Z -> x <> 0%Z ->
    pget count x = Ok (length (filter (fun k => (walk bits k =? x)%Z) (seq 1 (length bits)))).
Proof. exact C73_variant_main. Qed.
Print Assumptions C73_variant.

(** C73: the table of probabilities: pi_0 = 1 - 1/2x, pi_k = (1/4x^2) (1 - 1/2x)^(k-1), pi_5 = (1/2x) (1 - 1/2x)^4,
    to within the four digits given. *)
Theorem C73_probabilities : forall i, i < 4 ->
  let x := inject_Z (Z.of_nat (i + 1)) in
  let exact k := (if Nat.eqb k 0 then 1 - 1 / (2 * x)
                  else if Nat.eqb k 5 then 1 / (2 * x) * (1 - 1 / (2 * x)) ^ 4
                  else 1 / (4 * x * x) * (1 - 1 / (2 * x)) ^ Z.of_nat (k - 1))%Q in
  length (nth i pixk []) = 6 /\ forall k, k < 6 -> (Qabs (nth k (nth i pixk []) 0 - exact k) <= 1 # 10000)%Q.
Proof. exact C73_probabilities_main. Qed.
Print Assumptions C73_probabilities.

(** C73: the example of NIST SP 800-22, section 2.14.4: 0110110101 has the walk -1,0,1,0,1,2,1,2,1,2
    and three cycles; a walk that ends at 0 gets an extra cycle 0, 0. *)
Example C73_ex :
  cycles [0;1;1;0;1;1;0;1;0;1]%N = Ok [[0; -1; 0]; [0; 1; 0]; [0; 1; 2; 1; 2; 1; 2; 0]]%Z /\
  cycles [0;1]%N = Ok [[0; -1; 0]; [0; 0]]%Z /\
  (exists count, variant_count [0;1;1;0;1;1;0;1;0;1]%N = Ok count /\ pget count (-1) = Ok 1 /\ pget count 1 = Ok 4 /\ pget count 2 = Ok 3).
Proof. exact C73_ex_main. Qed.

(** C74: the table of templates is complete: it lists, for each length 2 to 8 and without repetition,
    exactly the bit words no proper prefix of which is a suffix. *)
Theorem C74_table : length templates = 7 /\ forall k, k < 7 -> NoDup (nth k templates []) /\
  forall B, In B (nth k templates []) <-> length B = k + 2 /\ isbits B /\ unbordered B.
Proof. exact C74_table_main. Qed.
Print Assumptions C74_table.

(** C74: for each template of the table the test ends and the jumps of the search lose no occurrence:
    W_i is the number of all positions below M - m at which the template occurs in block i. *)
Theorem C74_count : forall B bits, In B (concat templates) -> let M := length bits / 8 in
  exists W, template_W B bits = Ok W /\ length W = 8 /\
  forall i, i < 8 -> number_below (M - length B) (occurs B (firstn M (skipn (i * M) bits))) (nth i W 0).
Proof. exact C74_count_main. Qed.
Print Assumptions C74_count.

(** C74: but the last position is not searched: here the template occurs at the end of each of the 8
    blocks and no occurrence is counted. *)
Theorem C74_last_refuted : exists B bits, In B (concat templates) /\ isbits bits /\
  (forall i, i < 8 -> occurs B (firstn 3 (skipn (i * 3) bits)) 1) /\ length bits / 8 = 3 /\ template_W B bits = Ok (repeat 0 8).
Proof. exact C74_last_refuted_main. Qed.
Print Assumptions C74_last_refuted.

(** C74: the mean of the number of occurrences below K, over all blocks of M bits, is K / 2^m.  So the
    mean of W is (M - m) / 2^m, while the test compares W with (M - m + 1) / 2^m, the mean for
    all M - m + 1 positions. *)
Theorem C74_mean : forall B M K ws g, isbits B -> K + length B <= M + 1 ->
  NoDup ws -> (forall w, In w ws <-> length w = M /\ isbits w) ->
  (forall w, In w ws -> number_below K (occurs B w) (g w)) ->
  N.of_nat (fold_right plus 0 (map g ws)) = (N.of_nat K * 2 ^ N.of_nat (M - length B))%N.
Proof. exact C74_mean_main. Qed.
Print Assumptions C74_mean.

(** C74: the overlapping test has the same gap: the count is that of the positions below M - m. *)
Theorem C74_overlapping : forall m M block, length block = M -> 0 < m ->
  number_below (M - m) (occurs (repeat 1%N m) block) (overlap_count m M block).
Proof. exact C74_overlapping_main. Qed.
Print Assumptions C74_overlapping.

(** C74: an instance of each hypothesis: a template, its occurrences in a block, all blocks of 3 bits. *)
Example C74_ex : In [0;0;0;1;1]%N (concat templates) /\ ~ unbordered [0;1;0]%N /\
  (exists W, template_W [0;1]%N (concat (repeat [0;1;1;0;1;0]%N 8)) = Ok W /\ W = repeat 2 8) /\
  overlap_count 2 6 [1;1;1;0;1;1]%N = 2 /\
  fold_right plus 0 (map (fun w => length (filter (occb [0;1]%N w) (seq 0 1))) (words 3)) = 2 /\
  fold_right plus 0 (map (fun w => length (filter (occb [0;1]%N w) (seq 0 2))) (words 3)) = 4.
Proof. exact C74_ex_main. Qed.

(** C75: the chi-square value of the non-overlapping test is that of NIST SP 800-22 divided once more
    by the variance (sigma is the variance, and is squared). *)
Theorem C75_chisq : forall M m W, 0 < M -> 0 < m ->
  (template_chisq M m W == nist_chisq M m W / nist_variance M m)%Q.
Proof. exact C75_chisq_main. Qed.
Print Assumptions C75_chisq.

(** C75: so for templates of 5 to 8 bits the test passes (p at least 0.01) whatever the counts, as long as
    none is above twice the mean; gammaincc as in gamma_functions.py (which divides by zero for chisq = 0). *)
Theorem C75_pass : forall M m W, 5 <= m <= 8 -> m <= M -> length W = 8 ->
  (forall w, In w W -> inject_Z (Z.of_nat w) <= 2 * nist_mean M m)%Q -> ~ (template_chisq M m W == 0)%Q ->
  exists p, gammaincc 4 (Q2R (template_chisq M m W) / 2) = Ok p /\ (1 / 100 <= p)%R.
Proof. exact C75_pass_main. Qed.
Print Assumptions C75_pass.

(** C75: a sequence of zeros, of any length from 32768 bits: for every template of 5 to 8 bits of the table the
    value computed passes, the value prescribed fails. *)
Theorem C75_zeros_refuted : forall n B, 4096 <= n / 8 -> In B (concat templates) -> 5 <= length B ->
  exists W p, template_W B (repeat 0%N n) = Ok W /\
    gammaincc 4 (Q2R (template_chisq (n / 8) (length B) W) / 2) = Ok p /\ (1 / 100 <= p)%R /\
    (gamma_q 4 (Q2R (nist_chisq (n / 8) (length B) W) / 2) < 1 / 100)%R.
Proof. exact C75_zeros_refuted_main. Qed.
Print Assumptions C75_zeros_refuted.

(** C75: both values for a block of 20 bits and the template length 3 (NIST SP 800-22, section 2.7.4: N = 2 blocks of 10 bits
    there have mean 1, variance 0.46875, counts 2 and 1, chi-square 2.133333); values for 32768 bits. *)
Example C75_ex : (nist_mean 10 3 == 1)%Q /\ (nist_variance 10 3 == 46875 # 100000)%Q /\ (nist_chisq 10 3 [2; 1]%nat == 32 # 15)%Q /\
  (template_chisq 10 3 [2; 1]%nat == 1024 # 225)%Q /\
  Qle_bool 100 (nist_chisq (2 ^ 12) 8 (repeat 0 8)) = true /\ Qle_bool (template_chisq (2 ^ 12) 8 (repeat 0 8)) 10 = true.
Proof. exact C75_ex_main. Qed.
