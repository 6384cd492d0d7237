(** C73 to C75: random excursions; template matching. *)
From Coq Require Import Arith NArith ZArith QArith Qabs Reals Lra Qreals List Bool Permutation Lia.
From Verif Require Import Base ModelRank ModelBM ModelNist ModelNist2 SpecNist SpecNist2 SpecGamma ModelGamma LCCount RankCount Nist1 Nist4 Nist5 Nist6 Nist7 Nist8.
Import ListNotations.
Local Open Scope nat_scope.

(** C73: the random excursions test cuts the walk 0, s_1, ..., s_n, 0 at its zeros: every cycle is a 0,
    values other than 0, and a 0; the number J of cycles is one more than the number of returns to
    0 (so the division by J is safe), and the variant test computes the same J. *)
Lemma C73_cycles_main : forall bits, isbits bits -> exists cs, cycles bits = Ok cs /\
  0%Z :: concat (map (@tl Z) cs) = map (walk bits) (seq 0 (S (length bits))) ++ [0%Z] /\
  (forall c, In c cs -> exists mid, c = 0%Z :: mid ++ [0%Z] /\ ~ In 0%Z mid) /\
  length cs = 1 + length (filter (fun k => (walk bits k =? 0)%Z) (seq 1 (length bits))) /\ variant_J bits = length cs.
Proof.
  intros bits Hb. destruct (cycles_ok bits) as (cs & E1 & E2 & E3). exists cs. rewrite <- sprime_walk by exact Hb.
  assert (L : length cs = occ 0 (tl (sprime bits))) by (rewrite <- E2; cbn [tl]; symmetry; apply cycles_zeros, E3).
  refine (conj E1 (conj E2 (conj _ (conj _ _)))).
  - intros c Hc. destruct (E3 c Hc) as (mid & -> & Hm). exists mid. split; [reflexivity|]. intros K. apply (Hm _ K). reflexivity.
  - rewrite L, sprime_walk by exact Hb. cbn [seq map tl app]. unfold occ. rewrite count_occ_app. cbn [count_occ].
    destruct (Z.eq_dec 0 0) as [_|]; [|congruence]. rewrite Nat.add_comm. f_equal.
    induction (seq 1 (length bits)) as [|k s IH]; [reflexivity|]. cbn [map count_occ filter].
    destruct (Z.eqb_spec (walk bits k) 0), (Z.eq_dec (walk bits k) 0); try congruence; cbn [length]; rewrite IH; reflexivity.
  - rewrite L. apply variant_J_ok.
Qed.
(** C73: entry k of the table of x is the number of cycles with exactly k values x (k < 5) or at
    least 5 values x (k = 5); the six entries add up to the number of cycles. *)
Lemma C73_table_main : forall cs x,
  (forall k, k < 5 -> vxk cs x k = length (filter (fun c => Nat.eqb (count_occ Z.eq_dec c x) k) cs)) /\
  vxk cs x 5 = length (filter (fun c => Nat.leb 5 (count_occ Z.eq_dec c x)) cs) /\
  fold_right plus 0 (map (vxk cs x) (seq 0 6)) = length cs.
Proof.
  intros cs x. refine (conj _ (conj _ _)).
  - intros k Hk. rewrite vxk_ok. destruct (Nat.ltb_spec k 5); [reflexivity|lia].
  - rewrite vxk_ok. reflexivity.
  - rewrite <- (vxk_sum cs x). cbn [seq map fold_right]. lia.
Qed.
(** C73: the counters of the variant test, also those with a negative index, hold the number of
    visits of the walk. *)
Lemma C73_variant_main : forall bits, isbits bits -> exists count, variant_count bits = Ok count /\
  forall x, (- 10 < x < 10)%Z -> x <> 0%Z ->
    pget count x = Ok (length (filter (fun k => (walk bits k =? x)%Z) (seq 1 (length bits)))).
Proof.
  intros bits Hb. destruct (variant_count_ok bits) as (count & E & _ & H). exists count. split; [exact E|].
  intros x Hx H0. rewrite H by lia. f_equal. rewrite sprime_walk by exact Hb. unfold occ. rewrite count_occ_app. cbn [seq map count_occ].
  assert (W0 : walk bits 0 = 0%Z) by reflexivity. rewrite W0. destruct (Z.eq_dec 0 x); [congruence|]. rewrite Nat.add_0_r.
  induction (seq 1 (length bits)) as [|k s IH]; [reflexivity|]. cbn [map count_occ filter].
  destruct (Z.eqb_spec (walk bits k) x), (Z.eq_dec (walk bits k) x); try congruence; cbn [length]; rewrite IH; reflexivity.
Qed.
(** C73: the table of probabilities: pi_0 = 1 - 1/2x, pi_k = (1/4x^2) (1 - 1/2x)^(k-1), pi_5 = (1/2x) (1 - 1/2x)^4,
    to within the four digits given. *)
Lemma C73_probabilities_main : forall i, i < 4 ->
  let x := inject_Z (Z.of_nat (i + 1)) in
  let exact k := (if Nat.eqb k 0 then 1 - 1 / (2 * x)
                  else if Nat.eqb k 5 then 1 / (2 * x) * (1 - 1 / (2 * x)) ^ 4
                  else 1 / (4 * x * x) * (1 - 1 / (2 * x)) ^ Z.of_nat (k - 1))%Q in
  length (nth i pixk []) = 6 /\ forall k, k < 6 -> (Qabs (nth k (nth i pixk []) 0 - exact k) <= 1 # 10000)%Q.
Proof.
  assert (G : forallb (fun i => forallb (fun k =>
    let x := inject_Z (Z.of_nat (i + 1)) in
    Qle_bool (Qabs (nth k (nth i pixk []) 0 - (if Nat.eqb k 0 then 1 - 1 / (2 * x)
                  else if Nat.eqb k 5 then 1 / (2 * x) * (1 - 1 / (2 * x)) ^ 4
                  else 1 / (4 * x * x) * (1 - 1 / (2 * x)) ^ Z.of_nat (k - 1))))%Q (1 # 10000)) (seq 0 6) && Nat.eqb (length (nth i pixk [])) 6) (seq 0 4) = true)
    by (vm_compute; reflexivity).
  intros i Hi. cbv zeta. rewrite forallb_forall in G. specialize (G i ltac:(apply in_seq; lia)). apply andb_true_iff in G as [G L].
  split; [apply Nat.eqb_eq, L|]. intros k Hk. rewrite forallb_forall in G. specialize (G k ltac:(apply in_seq; lia)). apply Qle_bool_iff, G.
Qed.
(** C73: the example of NIST SP 800-22, section 2.14.4: 0110110101 has the walk -1,0,1,0,1,2,1,2,1,2
    and three cycles; a walk that ends at 0 gets an extra cycle 0, 0. *)
Example C73_ex_main :
  cycles [0;1;1;0;1;1;0;1;0;1]%N = Ok [[0; -1; 0]; [0; 1; 0]; [0; 1; 2; 1; 2; 1; 2; 0]]%Z /\
  cycles [0;1]%N = Ok [[0; -1; 0]; [0; 0]]%Z /\
  (exists count, variant_count [0;1;1;0;1;1;0;1;0;1]%N = Ok count /\ pget count (-1) = Ok 1 /\ pget count 1 = Ok 4 /\ pget count 2 = Ok 3).
Proof. split; [|split]; [vm_compute; reflexivity|vm_compute; reflexivity|]. eexists. split; [vm_compute; reflexivity|]. repeat split. Qed.

Lemma occ_number : forall B w K, K + length B <= length w + 1 -> number_below K (occurs B w) (length (filter (occb B w) (seq 0 K))).
Proof.
  intros B w K HK. eexists. split; [apply NoDup_filter, (seq_NoDup K 0)|]. split; [reflexivity|]. intros p. rewrite filter_In, in_seq.
  split; intros [H1 H2]; (split; [lia|]); apply occb_iff; auto; lia.
Qed.
(** C74: the table of templates is complete: it lists, for each length 2 to 8 and without repetition,
    exactly the bit words no proper prefix of which is a suffix. *)
Lemma C74_table_main : length templates = 7 /\ forall k, k < 7 -> NoDup (nth k templates []) /\
  forall B, In B (nth k templates []) <-> length B = k + 2 /\ isbits B /\ unbordered B.
Proof. split; [apply templ_all|exact templ_iff]. Qed.
(** C74: for each template of the table the test ends and the jumps of the search lose no occurrence:
    W_i is the number of all positions below M - m at which the template occurs in block i. *)
Lemma C74_count_main : forall B bits, In B (concat templates) -> let M := length bits / 8 in
  exists W, template_W B bits = Ok W /\ length W = 8 /\
  forall i, i < 8 -> number_below (M - length B) (occurs B (firstn M (skipn (i * M) bits))) (nth i W 0).
Proof.
  intros B bits HB. cbv zeta. set (M := length bits / 8).
  assert (HU : unbordered B /\ 2 <= length B).
  { apply in_concat in HB as (l & Hl & HB). apply (In_nth _ _ []) in Hl as (k & Hk & <-). rewrite (proj1 templ_all) in Hk.
    apply (templ_iff k Hk) in HB as (HL & _ & HU). split; [exact HU|lia]. }
  destruct HU as [HU HL]. assert (Hne : B <> []) by (intros ->; simpl in HL; lia).
  assert (HM : 8 * M <= length bits) by (apply Nat.mul_div_le; lia).
  assert (Hb : forall i, i < 8 -> pyslice bits (i * M) ((i + 1) * M) = firstn M (skipn (i * M) bits)).
  { intros i _. unfold pyslice. f_equal. lia. }
  assert (Hl : forall i, i < 8 -> length (firstn M (skipn (i * M) bits)) = M) by (intros i Hi; rewrite firstn_length, skipn_length; nia).
  exists (map (fun i => length (filter (occb B (firstn M (skipn (i * M) bits))) (seq 0 (M - length B)))) (seq 0 8)).
  refine (conj _ (conj _ _)).
  - assert (W : wp (template_W B bits) (fun W => W = map (fun i => length (filter (occb B (firstn M (skipn (i * M) bits))) (seq 0 (M - length B)))) (seq 0 8))).
    { unfold template_W. fold M. apply (wp_for_up _ (fun t W => W = map (fun i => length (filter (occb B (firstn M (skipn (i * M) bits))) (seq 0 (M - length B)))) (seq 0 t))); [lia|reflexivity| |auto].
      intros i W _ Hi ->. rewrite Hb by exact Hi. rewrite scan_ok by (auto; lia). cbn [bind]. apply wp_ok. rewrite Nat.sub_0_r, seq_S, map_app. reflexivity. }
    apply wp_exists in W as (W & -> & ->). reflexivity.
  - rewrite map_length. reflexivity.
  - intros i Hi. set (f := fun i => _). rewrite (nth_indep _ 0 (f 0)) by (rewrite map_length; exact Hi). rewrite map_nth, seq_nth by exact Hi.
    unfold f. cbn [plus]. destruct (Nat.le_gt_cases (length B) M) as [HBM|HBM].
    + apply occ_number. rewrite Hl by exact Hi. lia.
    + replace (M - length B) with 0 by lia. exists []. split; [constructor|]. split; [reflexivity|]. intros p. simpl. lia.
Qed.
(** C74: but the last position is not searched: here the template occurs at the end of each of the 8
    blocks and no occurrence is counted. *)
Lemma C74_last_refuted_main : exists B bits, In B (concat templates) /\ isbits bits /\
  (forall i, i < 8 -> occurs B (firstn 3 (skipn (i * 3) bits)) 1) /\ length bits / 8 = 3 /\ template_W B bits = Ok (repeat 0 8).
Proof.
  exists [0;1]%N, (concat (repeat [0;0;1]%N 8)). refine (conj _ (conj _ (conj _ (conj _ _)))).
  - simpl; auto.
  - intros x Hx. apply in_concat in Hx as (l & Hl & Hx). apply repeat_spec in Hl. subst l. simpl in Hx. intuition.
  - intros i Hi. do 8 (destruct i as [|i]; [split; [vm_compute; lia|reflexivity]|]). lia.
  - reflexivity.
  - vm_compute. reflexivity.
Qed.
(** C74: the mean of the number of occurrences below K, over all blocks of M bits, is K / 2^m.  So the
    mean of W is (M - m) / 2^m, while the test compares W with (M - m + 1) / 2^m, the mean for
    all M - m + 1 positions. *)
Lemma C74_mean_main : forall B M K ws g, isbits B -> K + length B <= M + 1 ->
  NoDup ws -> (forall w, In w ws <-> length w = M /\ isbits w) ->
  (forall w, In w ws -> number_below K (occurs B w) (g w)) ->
  N.of_nat (fold_right plus 0 (map g ws)) = (N.of_nat K * 2 ^ N.of_nat (M - length B))%N.
Proof.
  intros B M K ws g HB HK HN Hw Hg. rewrite <- (total_occ B M K HB HK). f_equal.
  assert (P : Permutation ws (words M)).
  { apply NoDup_Permutation; [exact HN|apply words_nodup|]. intros w. rewrite Hw, words_in. reflexivity. }
  assert (E : map g ws = map (fun w => length (filter (occb B w) (seq 0 K))) ws).
  { apply map_ext_in. intros w Hin. apply (number_unique K (occurs B w)); [apply Hg, Hin|].
    apply occ_number. apply Hw in Hin as [-> _]. exact HK. }
  rewrite E. unfold total.
  assert (S : forall (f : list N -> nat) l l', Permutation l l' -> fold_right plus 0 (map f l) = fold_right (fun w a => f w + a) 0 l').
  { intros f l l' HP. assert (S0 : forall l0, fold_right plus 0 (map f l0) = fold_right (fun w a => f w + a) 0 l0).
    { intros l0. induction l0 as [|a l0 IH]; [reflexivity|]. cbn [map fold_right]. lia. }
    rewrite <- S0. induction HP; cbn [map fold_right]; lia. }
  apply S, P.
Qed.
(** C74: the overlapping test has the same gap: the count is that of the positions below M - m. *)
Lemma C74_overlapping_main : forall m M block, length block = M -> 0 < m ->
  number_below (M - m) (occurs (repeat 1%N m) block) (overlap_count m M block).
Proof.
  intros m M block HL Hm. unfold overlap_count. rewrite (fold_filter _ (fun position => eqlist (pyslice block position (position + m)) (repeat 1%N m))).
  destruct (Nat.le_gt_cases m M) as [HBM|HBM].
  - assert (X := occ_number (repeat 1%N m) block (M - m)). unfold occb in X. rewrite repeat_length in X. apply X. lia.
  - replace (M - m) with 0 by lia. exists []. split; [constructor|]. split; [reflexivity|]. intros p. simpl. lia.
Qed.
(** C74: an instance of each hypothesis: a template, its occurrences in a block, all blocks of 3 bits. *)
Example C74_ex_main : In [0;0;0;1;1]%N (concat templates) /\ ~ unbordered [0;1;0]%N /\
  (exists W, template_W [0;1]%N (concat (repeat [0;1;1;0;1;0]%N 8)) = Ok W /\ W = repeat 2 8) /\
  overlap_count 2 6 [1;1;1;0;1;1]%N = 2 /\
  fold_right plus 0 (map (fun w => length (filter (occb [0;1]%N w) (seq 0 1))) (words 3)) = 2 /\
  fold_right plus 0 (map (fun w => length (filter (occb [0;1]%N w) (seq 0 2))) (words 3)) = 4.
Proof.
  refine (conj _ (conj _ (conj _ _))).
  - vm_compute. tauto.
  - intros H. apply (H 2); [simpl; lia|reflexivity].
  - eexists. split; vm_compute; reflexivity.
  - repeat split; vm_compute; reflexivity.
Qed.

(** C75: the chi-square value of the non-overlapping test is that of NIST SP 800-22 divided once more
    by the variance (sigma is the variance, and is squared). *)
Lemma C75_chisq_main : forall M m W, 0 < M -> 0 < m ->
  (template_chisq M m W == nist_chisq M m W / nist_variance M m)%Q.
Proof. exact template_chisq_eq. Qed.
(** C75: so for templates of 5 to 8 bits the test passes (p at least 0.01) whatever the counts, as long as
    none is above twice the mean; gammaincc as in gamma_functions.py (which divides by zero for chisq = 0). *)
Lemma C75_pass_main : forall M m W, 5 <= m <= 8 -> m <= M -> length W = 8 ->
  (forall w, In w W -> inject_Z (Z.of_nat w) <= 2 * nist_mean M m)%Q -> ~ (template_chisq M m W == 0)%Q ->
  exists p, gammaincc 4 (Q2R (template_chisq M m W) / 2) = Ok p /\ (1 / 100 <= p)%R.
Proof.
  intros M m W Hm HM HL HW H0. eexists. split; [|exact (template_pass M m W Hm HM HL HW)]. rewrite <- gamma_q_4. apply gammaincc_ok; [lia|].
  destruct (chisq_16 M m W Hm HM HL HW) as [H _]. apply Qle_lt_or_eq in H as [H|H]; [|symmetry in H; contradiction].
  apply Qlt_Rlt in H. replace (Q2R 0) with 0%R in H by (unfold Q2R; simpl; lra). lra.
Qed.
(** C75: a sequence of zeros, of any length from 32768 bits: for every template of 5 to 8 bits of the table the
    value computed passes, the value prescribed fails. *)
Lemma C75_zeros_refuted_main : forall n B, 4096 <= n / 8 -> In B (concat templates) -> 5 <= length B ->
  exists W p, template_W B (repeat 0%N n) = Ok W /\
    gammaincc 4 (Q2R (template_chisq (n / 8) (length B) W) / 2) = Ok p /\ (1 / 100 <= p)%R /\
    (gamma_q 4 (Q2R (nist_chisq (n / 8) (length B) W) / 2) < 1 / 100)%R.
Proof.
  intros n B Hn HB H5. exists (repeat 0 8).
  assert (HB' : isbits B /\ unbordered B /\ length B <= 8).
  { apply in_concat in HB as (l & Hl & HB). apply (In_nth _ _ []) in Hl as (k & Hk & <-). rewrite (proj1 templ_all) in Hk.
    apply (templ_iff k Hk) in HB as (HL & HBb & HU). split; [exact HBb|]. split; [exact HU|lia]. }
  destruct HB' as (Hb & HU & H8).
  destruct (C75_pass_main (n / 8) (length B) (repeat 0 8)) as (p & Hp1 & Hp2); [lia|lia|reflexivity| | |].
  - intros w Hw. apply repeat_spec in Hw. subst w. unfold nist_mean.
    change (inject_Z (Z.of_nat 0)) with 0%Q. apply Qmult_le_0_compat; [discriminate|]. apply Qle_shift_div_l.
    + change 0%Q with (inject_Z 0). rewrite <- Zlt_Qlt. apply Z.pow_pos_nonneg; lia.
    + rewrite Qmult_0_l. change 0%Q with (inject_Z 0). rewrite <- Zle_Qle. lia.
  - assert (P := zeros_pos (n / 8) (length B) ltac:(lia) Hn). intros E. rewrite E in P. discriminate.
  - exists p. refine (conj _ (conj Hp1 (conj Hp2 _))); [apply zeros_W; auto; lia|]. rewrite gamma_q_4. apply nist_zeros_fail; lia.
Qed.
(** C75: both values for a block of 20 bits and the template length 3 (NIST SP 800-22, section 2.7.4: N = 2 blocks of 10 bits
    there have mean 1, variance 0.46875, counts 2 and 1, chi-square 2.133333); values for 32768 bits. *)
Example C75_ex_main : (nist_mean 10 3 == 1)%Q /\ (nist_variance 10 3 == 46875 # 100000)%Q /\ (nist_chisq 10 3 [2; 1]%nat == 32 # 15)%Q /\
  (template_chisq 10 3 [2; 1]%nat == 1024 # 225)%Q /\
  Qle_bool 100 (nist_chisq (2 ^ 12) 8 (repeat 0 8)) = true /\ Qle_bool (template_chisq (2 ^ 12) 8 (repeat 0 8)) 10 = true.
Proof. repeat split; vm_compute; reflexivity. Qed.
