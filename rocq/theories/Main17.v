(** C76 to C80: serial test, Maurer's test, frequency within blocks, approximate entropy, incomplete
    gamma function. *)
From Coq Require Import Arith NArith ZArith QArith Reals Lra Qreals List Bool Permutation Lia.
From Verif Require Import Base ModelRank ModelBM ModelNist ModelNist2 ModelNist3 ModelGamma SpecNist SpecNist2 SpecGamma LCCount Nist1 Nist5 Nist7 Nist8 Nist9 Nist10.
Import ListNotations.
Local Open Scope nat_scope.

Lemma allwords_perm : forall m ws, allwords m ws -> Permutation ws (words m).
Proof. intros m ws [H1 H2]. apply NoDup_Permutation; [exact H1|apply words_nodup|]. intros w. rewrite H2, words_in. reflexivity. Qed.
Lemma psi2_eq : forall bits m c ws, bits <> [] -> (forall u, number_below (length bits) (cyclic_at bits u) (c u)) -> allwords m ws ->
  (psi2 (length bits) m c ws == inject_Z (2 ^ Z.of_nat m * S2 bits m) / inject_Z (Z.of_nat (length bits)) - inject_Z (Z.of_nat (length bits)))%Q.
Proof.
  intros bits m c ws Hn Hc Hw. unfold psi2.
  assert (E : Z.of_nat (fold_right plus 0 (map (fun u => c u * c u) ws)) = S2 bits m).
  { unfold S2. rewrite <- (sumw_perm _ _ _ (allwords_perm _ _ Hw)). unfold sumw. clear Hw. induction ws as [|u ws IH]; [reflexivity|]. cbn [map fold_right].
    rewrite Nat2Z.inj_add, IH, (number_unique _ _ _ _ (Hc u) (cc_number bits u)). lia. }
  rewrite E, inject_Z_mult. assert (H : ~ (inject_Z (Z.of_nat (length bits)) == 0)%Q).
  { intros K. change 0%Q with (inject_Z 0) in K. apply (proj1 (inject_Z_injective _ _)) in K. destruct bits; [congruence|simpl in K; lia]. }
  field. exact H.
Qed.
(** C76: the serial test, for all sequences and pattern lengths m >= 2: the wrapped sequence gives the
    counts of the cyclic sequence, delta1 and delta2 are the first and second differences of psi^2, and
    both are >= 0 (so the arguments of gammaincc are in its domain). *)
Lemma C76_serial_main : forall bits m, isbits bits -> bits <> [] -> 2 <= m -> m - 1 <= length bits ->
  exists d1 d2, serial_deltas bits m = Ok (d1, d2) /\ (0 <= d1)%Q /\ (0 <= d2)%Q /\
  forall c ws0 ws1 ws2, (forall u, number_below (length bits) (cyclic_at bits u) (c u)) ->
    allwords m ws0 -> allwords (m - 1) ws1 -> allwords (m - 2) ws2 ->
    (d1 == psi2 (length bits) m c ws0 - psi2 (length bits) (m - 1) c ws1 /\
     d2 == psi2 (length bits) m c ws0 - 2 * psi2 (length bits) (m - 1) c ws1 + psi2 (length bits) (m - 2) c ws2)%Q.
Proof.
  intros bits m Hb Hn Hm HL. unfold serial_deltas.
  destruct (psi_ok bits m m Hn HL ltac:(lia)) as (a & -> & Ea). destruct (psi_ok bits m (m - 1) Hn HL ltac:(lia)) as (b & -> & Eb). destruct (psi_ok bits m (m - 2) Hn HL ltac:(lia)) as (c & -> & Ec).
  cbn [bind]. exists (a - b)%Q, (a - 2 * b + c)%Q. split; [reflexivity|].
  assert (Hp : (0 < inject_Z (Z.of_nat (length bits)))%Q) by (change 0%Q with (inject_Z 0); rewrite <- Zlt_Qlt; destruct bits; [congruence|simpl; lia]).
  assert (Hz : ~ (inject_Z (Z.of_nat (length bits)) == 0)%Q) by (intros K; rewrite K in Hp; discriminate).
  refine (conj _ (conj _ _)).
  - destruct m as [|m]; [lia|]. replace (S m - 1) with m in * by lia.
    setoid_replace (a - b)%Q with (inject_Z (2 ^ Z.of_nat m * (2 * S2 bits (S m) - S2 bits m)) / inject_Z (Z.of_nat (length bits)))%Q.
    + apply Qle_shift_div_l; [exact Hp|]. rewrite Qmult_0_l. change 0%Q with (inject_Z 0). rewrite <- Zle_Qle. apply Z.mul_nonneg_nonneg; [apply Z.pow_nonneg; lia|].
      rewrite delta1_sq by exact Hb. apply sumw_nonneg. intros. apply Z.pow_even_nonneg. exists 1%Z. lia.
    + rewrite Ea, Eb, Nat2Z.inj_succ, Z.pow_succ_r by lia. set (p := (2 ^ Z.of_nat m)%Z). unfold Z.sub. rewrite !inject_Z_mult, inject_Z_plus, inject_Z_opp, !inject_Z_mult. change (inject_Z 2) with 2%Q. field. exact Hz.
  - destruct m as [|[|m]]; [lia|lia|]. replace (S (S m) - 1) with (S m) in * by lia. replace (S (S m) - 2) with m in * by lia.
    setoid_replace (a - 2 * b + c)%Q with (inject_Z (2 ^ Z.of_nat m * (4 * S2 bits (S (S m)) - 4 * S2 bits (S m) + S2 bits m)) / inject_Z (Z.of_nat (length bits)))%Q.
    + apply Qle_shift_div_l; [exact Hp|]. rewrite Qmult_0_l. change 0%Q with (inject_Z 0). rewrite <- Zle_Qle. apply Z.mul_nonneg_nonneg; [apply Z.pow_nonneg; lia|].
      rewrite delta2_sq by exact Hb. apply sumw_nonneg. intros. apply Z.pow_even_nonneg. exists 1%Z. lia.
    + rewrite Ea, Eb, Ec, !Nat2Z.inj_succ, !Z.pow_succ_r by lia. set (p := (2 ^ Z.of_nat m)%Z). unfold Z.sub. repeat rewrite ?inject_Z_mult, ?inject_Z_plus, ?inject_Z_opp. change (inject_Z 2) with 2%Q. change (inject_Z 4) with 4%Q. field. exact Hz.
  - intros g ws0 ws1 ws2 Hc H0 H1 H2. rewrite !(psi2_eq bits) by auto. rewrite Ea, Eb, Ec. split; reflexivity.
Qed.
(** C76: the example of NIST SP 800-22, section 2.11.4: 0011011101 with m = 3 has delta1 = 1.6 and delta2 = 0.8. *)
Example C76_ex_main : exists d1 d2, serial_deltas [0;0;1;1;0;1;1;1;0;1]%N 3 = Ok (d1, d2) /\ (d1 == 16 # 10)%Q /\ (d2 == 8 # 10)%Q /\
  allwords 3 (words 3) /\ number_below 10 (cyclic_at [0;0;1;1;0;1;1;1;0;1]%N [1;0;0]%N) 1.
Proof.
  eexists; eexists. split; [vm_compute; reflexivity|]. split; [reflexivity|]. split; [reflexivity|]. split.
  - split; [apply words_nodup|]. intros w. apply words_in.
  - apply (cc_number [0;0;1;1;0;1;1;1;0;1]%N [1;0;0]%N).
Qed.

(** C77: Maurer's test.  With n blocks of L bits, the value dist of each block i from Q on is the distance
    to the last earlier block with the same content, or i + 1 if there is none; it is at least 1 (the
    logarithm exists), and no access is out of range. *)
Lemma C77_distance_main : forall L Q n bits, isbits bits -> n * L <= length bits -> Q <= n ->
  let block i := firstn L (skipn (i * L) bits) in
  exists ds, maurer_dists L Q n bits = Ok ds /\ length ds = n - Q /\
  forall t, t < n - Q -> let i := Q + t in let d := nth t ds 0 in
    1 <= d <= i + 1 /\ (d <= i -> block (i - d) = block i) /\ (forall e, 1 <= e < d -> e <= i -> block (i - e) <> block i).
Proof.
  intros L Q n bits Hb Hn HQ. cbv zeta. eexists. split; [apply maurer_ok; auto|]. split; [rewrite map_length, seq_length; reflexivity|].
  intros t Ht. set (f := fun i => i + 1 - lastpos L bits (blk L bits i) i).
  assert (E : nth t (map f (seq Q (n - Q))) 0 = f (Q + t)).
  { rewrite (nth_indep _ 0 (f 0)) by (rewrite map_length, seq_length; exact Ht). rewrite map_nth, seq_nth by exact Ht. reflexivity. }
  rewrite E. unfold f. set (i := Q + t). destruct (lastpos_spec L bits (blk L bits i) i) as (H1 & H2 & H3). fold (blk L bits i). set (l := lastpos _ _ _ _) in *. clearbody l.
  refine (conj _ (conj _ _)); [lia| |].
  - intros Hd. replace (i - (i + 1 - l)) with (l - 1) by lia. apply H2. lia.
  - intros e He Hei. apply H3. lia.
Qed.
(** C77: for every length from 387840 bits on, the block length chosen is between 6 and 16 (so the tables
    have an entry), it leaves at least 1000 * 2^L blocks for the test after the 10 * 2^L initial
    ones, and below 16 it is the largest such length. *)
Lemma C77_length_main : forall n, (387840 <= n)%N -> exists L, maurer_L n = Some L /\ 6 <= L <= 16 /\
  (10 * 2 ^ N.of_nat L + 1000 * 2 ^ N.of_nat L <= n / N.of_nat L)%N /\
  (L < 16 -> (n / N.of_nat (S L) < 10 * 2 ^ N.of_nat (S L) + 1000 * 2 ^ N.of_nat (S L))%N).
Proof.
  intros n Hn. destruct (maurer_L_ok n Hn) as (L & E & H1 & H2 & H3). exists L. refine (conj E (conj H1 (conj _ _))).
  - apply N.div_le_lower_bound; lia.
  - intros HL. apply N.div_lt_upper_bound; [lia|]. specialize (H3 HL). lia.
Qed.
(** C77: the example of NIST SP 800-22, section 2.9.4: L = 2, Q = 4, distances 3, 6, 2, 1, 1, 4 (the first block
    11 has none before it, which counts as 6). *)
Example C77_ex_main : maurer_dists 2 4 10 [0;1;0;1;1;0;1;0;0;1;1;1;0;1;0;1;0;1;1;1]%N = Ok [3; 6; 2; 1; 1; 4] /\
  maurer_L 1000000 = Some 7 /\ maurer_L 387839 = None.
Proof. repeat split; vm_compute; reflexivity. Qed.

(** C78: frequency within blocks, from 100 bits on: 5 to 99 blocks of at least 20 bits which fit in the
    sequence; chisq is the sum of (ones - zeros)^2 / M over the blocks. *)
Lemma C78_frequency_main : forall bits, 100 <= length bits -> exists M N, freq_params (length bits) = (M, N) /\
  20 <= M /\ 5 <= N < 100 /\ N * M <= length bits /\
  (freq_chisq bits == fold_right Qplus 0 (map (fun i =>
     let d := (2 * Z.of_nat (ones (firstn M (skipn (i * M) bits))) - Z.of_nat M)%Z in inject_Z (d * d) / inject_Z (Z.of_nat M)) (seq 0 N)))%Q.
Proof.
  intros bits HL. assert (A := freq_params_ok _ HL). assert (B := freq_ok _ HL). destruct (freq_params (length bits)) as [M N]. exists M, N. destruct A as (A1 & A2 & A3). auto.
Qed.
(** C78: sequences all of whose blocks are balanced (p should be 1): 50 times 01 gets the value 0 and
    fails, 60 times 01 makes gammaincc divide by zero. *)
Lemma C78_balanced_refuted_main :
  let bits k := concat (repeat [0;1]%N k) in
  (freq_params (length (bits 50)) = (20, 5) /\ (freq_chisq (bits 50%nat) == 0)%Q /\ upper_incomplete_gamma (5 / 2) 0 = Ok 0%R) /\
  (freq_params (length (bits 60)) = (20, 6) /\ (freq_chisq (bits 60%nat) == 0)%Q /\ gammaincc 3 0 = UB).
Proof.
  cbv zeta. split; (split; [reflexivity|split; [vm_compute; reflexivity|]]).
  - assert (H := half_0 2 ltac:(lia)). replace (INR (2 * 2 + 1)) with 5%R in H by (simpl; lra). exact H.
  - apply gammaincc_0. lia.
Qed.
(** C78: the parameters for 1000 and 3000 bits; a sequence with unbalanced blocks. *)
Example C78_ex_main : freq_params 1000 = (20, 50) /\ freq_params 3000 = (30, 99) /\ (freq_chisq (repeat 1%N 100) == 100)%Q.
Proof. repeat split; vm_compute; reflexivity. Qed.

(** C79: approximate entropy, for all sequences and pattern lengths m: chisq is 2n (ln 2 - (phi_m - phi_(m+1)))
    with phi_m = sum p ln p over the cyclic pattern frequencies p (the factor 1/10 in the code cancels), and lies
    between 0 and 2n ln 2. *)
Lemma C79_apen_main : forall bits m c ws0 ws1, isbits bits -> bits <> [] -> m <= length bits ->
  (forall u, number_below (length bits) (cyclic_at bits u) (c u)) -> allwords m ws0 -> allwords (m + 1) ws1 ->
  (apen_chisq bits m = 2 * INR (length bits) * (ln 2 - (entropy_sum (length bits) c ws0 - entropy_sum (length bits) c ws1)) /\
   0 <= apen_chisq bits m <= 2 * INR (length bits) * ln 2)%R.
Proof.
  intros bits m c ws0 ws1 Hb Hn Hm Hc H0 H1. destruct (apen_ok bits m Hb Hn Hm) as [E B]. split; [|exact B]. rewrite E.
  assert (G : forall k ws, allwords k ws -> entropy_sum (length bits) c ws = sumR (fun u => hn (length bits) (cc bits u)) (words k)).
  { intros k ws Hw. rewrite <- (sumR_perm _ _ _ _ (allwords_perm _ _ Hw)). unfold entropy_sum, sumR. clear Hw. induction ws as [|u ws IH]; [reflexivity|]. cbn [fold_right].
    rewrite IH. rewrite (number_unique _ _ _ _ (Hc u) (cc_number bits u)). reflexivity. }
  rewrite (G _ _ H0), (G _ _ H1). reflexivity.
Qed.
(** C79: the pattern length is 2 or 3. *)
Lemma C79_m_main : forall n, apen_m n = 2 \/ apen_m n = 3.
Proof.
  intros n. unfold apen_m. cbv zeta. set (m := (Z.of_nat (Nat.log2 n) - 6)%Z). clearbody m.
  destruct (Z.ltb_spec m 2); [left; reflexivity|]. destruct (Z.ltb_spec 3 m); [right; reflexivity|]. assert (K : m = 2%Z \/ m = 3%Z) by lia. destruct K as [-> | ->]; auto.
Qed.
(** C79: the counts of the example of NIST SP 800-22, section 2.12.4 (0100110101, m = 3). *)
Example C79_ex_main : apen_counts [0;1;0;0;1;1;0;1;0;1]%N 3 = [0; 1; 3; 1; 1; 3; 1; 0] /\ apen_m 100 = 2 /\ apen_m 1000 = 3 /\
  allwords 4 (words 4) /\ number_below 10 (cyclic_at [0;1;0;0;1;1;0;1;0;1]%N [0;1;0]%N) 3.
Proof.
  split; [vm_compute; reflexivity|]. split; [vm_compute; reflexivity|]. split; [vm_compute; reflexivity|]. split.
  - split; [apply words_nodup|]. intros w. apply words_in.
  - apply (cc_number [0;1;0;0;1;1;0;1;0;1]%N [0;1;0]%N).
Qed.

(** C80: the continued fraction for the upper incomplete gamma function, cut after 100 levels, is exact
    for integers a from 1 to 50 and every x > 0: gammaincc(a, x) = e^-x (1 + x + ... + x^(a-1)/(a-1)!). *)
Lemma C80_gammaincc_main : forall a x, 1 <= a <= 50 -> (0 < x)%R -> gammaincc a x = Ok (gamma_q a x).
Proof. exact gammaincc_ok. Qed.
(** C80: that value is the regularised upper incomplete gamma function: the one function which is 1 at 0
    and has the derivative - x^(a-1) e^-x / (a-1)!. *)
Lemma C80_unique_main : forall a, 1 <= a ->
  (gamma_q a 0 = 1 /\ (forall x, derivable_pt_lim (gamma_q a) x (- (x ^ (a - 1) * exp (- x) / INR (fact (a - 1))))) /\
   forall f, f 0 = 1 -> (forall x, derivable_pt_lim f x (- (x ^ (a - 1) * exp (- x) / INR (fact (a - 1))))) -> forall x, f x = gamma_q a x)%R.
Proof.
  intros a Ha. refine (conj (gamma_q_0 a) (conj (fun x => gamma_q_deriv a x Ha) _)).
  intros f H0 Hf x. set (g := fun x => (f x - gamma_q a x)%R).
  assert (D : forall y, derivable_pt_lim g y 0%R).
  { intros y. replace 0%R with (- (y ^ (a - 1) * exp (- y) / INR (fact (a - 1))) - - (y ^ (a - 1) * exp (- y) / INR (fact (a - 1))))%R by lra.
    apply (derivable_pt_lim_minus f (gamma_q a)); [apply Hf|apply gamma_q_deriv, Ha]. }
  assert (pr : derivable g) by (intros y; exists 0%R; apply D).
  assert (C : constant g) by (apply (null_derivative_1 g pr); intros y; apply derive_pt_eq_0, D).
  assert (E := C x 0%R). unfold g in E. rewrite H0, gamma_q_0 in E. lra.
Qed.
(** C80: at x = 0, where the value is 1, gammaincc divides by zero for every integer a from 1 to 50. *)
Lemma C80_zero_refuted_main : forall a, 1 <= a <= 50 -> gammaincc a 0 = UB /\ gamma_q a 0 = 1%R.
Proof. intros a Ha. split; [apply gammaincc_0, Ha|apply gamma_q_0]. Qed.
(** C80: and for the half-integers 1/2, 3/2, ..., 99/2 it gives 0 instead of gamma(a). *)
Lemma C80_half_refuted_main : forall k, k < 50 -> upper_incomplete_gamma (INR (2 * k + 1) / 2) 0 = Ok 0%R.
Proof. exact half_0. Qed.
(** C80: so the serial test, on 64 bits in which each 4-bit pattern is equally frequent, divides by zero. *)
Lemma C80_serial_refuted_main : exists bits d1 d2, isbits bits /\ length bits = 64 /\ serial_deltas bits 4 = Ok (d1, d2) /\
  (d1 == 0)%Q /\ gammaincc 4 (Q2R d1 / 2) = UB.
Proof.
  exists (concat (repeat [0;0;0;0;1;0;0;1;1;0;1;0;1;1;1;1]%N 4)). eexists; eexists. refine (conj _ (conj _ (conj _ _))).
  - intros x Hx. apply in_concat in Hx as (l & Hl & Hx). apply repeat_spec in Hl. subst l. simpl in Hx. intuition.
  - reflexivity.
  - vm_compute. reflexivity.
  - split; [reflexivity|]. match goal with |- gammaincc 4 (Q2R ?q / 2) = _ => replace (Q2R q / 2)%R with 0%R by (unfold Q2R; simpl; lra) end. apply gammaincc_0. lia.
Qed.
(** C80: e^-x for a = 1; e^-x (1 + x + x^2/2) for a = 3. *)
Example C80_ex_main : (gammaincc 1 2 = Ok (exp (- (2))) /\ gammaincc 3 1 = Ok (exp (- (1)) * (5 / 2)))%R.
Proof. split; rewrite gammaincc_ok by (try lia; lra); unfold gamma_q; simpl; f_equal; lra. Qed.
