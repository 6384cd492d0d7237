(** C69 to C72: the reference probabilities of the rank test; the runs, longest-run and cumulative
    sums statistics. *)
From Coq Require Import Arith NArith ZArith QArith List Bool Lia.
From Verif Require Import Base Spec LinAlg ModelRank SpecRank Rank ModelNist SpecNist LCCount RankCount Nist1 Nist2 Nist3.
Import ListNotations.
Local Open Scope nat_scope.

(** C69: rank_prob M Q r, the formula of the rank test, is the exact fraction of the Q x M bit
    matrices which have rank r, for all sizes and ranks. *)
Lemma C69_probability_main : forall M Q r, exists ms, NoDup ms /\
  (forall m, In m ms <-> bitmat Q M m /\ rank_is Q M (pbits m) r) /\
  (rank_prob M Q r == inject_Z (Z.of_nat (length ms)) / inject_Z (2 ^ Z.of_nat (M * Q)))%Q.
Proof.
  intros M Q r. exists (filter (fun m => rk M m =? r) (mats Q M)). refine (conj _ (conj _ _)).
  - apply NoDup_filter, mats_nodup.
  - intros m. rewrite filter_In, mats_in, Nat.eqb_eq. split; intros [H1 H2]; (split; [exact H1|]).
    + rewrite <- H2. apply rk_rank, H1.
    + apply (rank_is_unique Q M (pbits m)); auto. apply rk_rank, H1.
  - assert (E := mcount_form Q M r). assert (F := rank_prob_form M Q r). rewrite <- E in F. unfold mcount in F.
    rewrite nat_N_Z in F. fold (p2 (M * Q)). rewrite <- F. assert (H := p2_nz (M * Q)). field. exact H.
Qed.
(** C69: the number of invertible n x n matrices is (2^n - 1)(2^n - 2)...(2^n - 2^(n-1)). *)
Lemma C69_invertible_main : forall n, exists ms, NoDup ms /\
  (forall m, In m ms <-> bitmat n n m /\ invertible n (pbits m)) /\
  Z.of_nat (length ms) = fold_right Z.mul 1%Z (map (fun i => 2 ^ Z.of_nat n - 2 ^ Z.of_nat i)%Z (seq 0 n)).
Proof.
  intros n. exists (filter (fun m => rk n m =? n) (mats n n)). refine (conj _ (conj _ _)).
  - apply NoDup_filter, mats_nodup.
  - intros m. rewrite filter_In, mats_in, Nat.eqb_eq. split; intros [H1 H2]; (split; [exact H1|]).
    + apply full_rank. rewrite <- H2 at 3. apply rk_rank, H1.
    + apply (rank_is_unique n n (pbits m)); [apply rk_rank, H1|]. apply full_rank, H2.
  - assert (E := mcount_form n n n). unfold mform, mcount in E. rewrite nat_N_Z in E.
    assert (X : forall k, (fall n k == inject_Z (fold_right Z.mul 1%Z (map (fun i => 2 ^ Z.of_nat n - 2 ^ Z.of_nat i)%Z (seq 0 k))))%Q).
    { induction k as [|k IH]; [reflexivity|]. rewrite seq_S, map_app, fold_right_app. cbn [fall map fold_right plus]. rewrite IH.
      unfold p2. rewrite Z.mul_1_r. unfold Qminus. rewrite <- inject_Z_opp, <- inject_Z_plus.
      generalize (map (fun i => 2 ^ Z.of_nat n - 2 ^ Z.of_nat i)%Z (seq 0 k)). intros l.
      assert (Y : forall z, fold_right Z.mul z l = (fold_right Z.mul 1 l * z)%Z).
      { intros z. clear. induction l as [|a l IHl]; cbn [fold_right]; [lia|]. rewrite IHl. ring. }
      rewrite (Y (2 ^ Z.of_nat n - 2 ^ Z.of_nat k)%Z), inject_Z_mult. reflexivity. }
    assert (H := fall_nz n n (le_n n)). apply inject_Z_injective. rewrite E, <- X. field. exact H.
Qed.
(** C69: 6 of the 16 2x2 matrices are invertible, 9 have rank 1; the value for 32 bits. *)
Example C69_ex_main : (rank_prob 2 2 2 == 6 # 16)%Q /\ (rank_prob 2 2 1 == 9 # 16)%Q /\ (rank_prob 3 2 2 == 42 # 64)%Q /\
  length (filter (fun m => rk 3 m =? 2) (mats 2 3)) = 42 /\
  fold_right Z.mul 1%Z (map (fun i => 2 ^ Z.of_nat 4 - 2 ^ Z.of_nat i)%Z (seq 0 4)) = 20160%Z.
Proof. repeat split; vm_compute; reflexivity. Qed.

(** C70: the runs test.  For a sequence of n > 0 bits it returns early exactly if (2 ones - n)^2 > 16 n,
    divides by zero exactly if it does not and all bits are equal, and otherwise its statistic is
    the number of runs. *)
Lemma C70_runs_main : forall bits, bits <> [] -> isbits bits ->
  let n := length bits in let k := ones bits in
  ((2 * Z.of_nat k - Z.of_nat n) ^ 2 > 16 * Z.of_nat n -> runs_test bits = Ok None)%Z /\
  ((2 * Z.of_nat k - Z.of_nat n) ^ 2 <= 16 * Z.of_nat n -> (k = 0 \/ k = n)%nat -> runs_test bits = UB)%Z /\
  ((2 * Z.of_nat k - Z.of_nat n) ^ 2 <= 16 * Z.of_nat n -> (0 < k < n)%nat ->
     exists r, runs_test bits = Ok (Some r) /\ runs bits r /\ forall r', runs bits r' -> r' = r)%Z.
Proof.
  intros bits Hne _. cbv zeta. unfold runs_test. destruct (coz bits) as [-> _]. rewrite (vobs_wp bits Hne). cbn [bind].
  assert (Hn : length bits =? 0 = false) by (destruct bits; [congruence|reflexivity]). rewrite Hn.
  destruct (Z.ltb_spec (16 * Z.of_nat (length bits)) ((2 * Z.of_nat (ones bits) - Z.of_nat (length bits)) ^ 2));
    (split; [|split]); try (intros; exfalso; lia); try reflexivity.
  - intros _ [->| ->]; [reflexivity|]. rewrite Nat.eqb_refl, orb_true_r. reflexivity.
  - intros _ Hk. exists (1 + changes bits). refine (conj _ (conj (changes_runs bits Hne) (fun r' => runs_changes bits r' Hne))).
    destruct (Nat.eqb_spec (ones bits) 0), (Nat.eqb_spec (ones bits) (length bits)); try lia. reflexivity.
Qed.
(** C70: a constant sequence of at most 16 bits makes the runs test divide by zero instead of failing. *)
Lemma C70_constant_refuted_main : exists bits, isbits bits /\ length bits = 16 /\ runs_test bits = UB.
Proof. exists (repeat 1%N 16). repeat split. intros x Hx. apply repeat_spec in Hx. auto. Qed.
(** C70: the example of NIST SP 800-22, section 2.3.8 (first 20 bits); a biased sequence. *)
Example C70_ex_main : runs_test [1;1;0;0;1;0;0;1;0;0;0;0;1;1;1;1;1;1;0;1]%N = Ok (Some 9) /\ runs_test (repeat 1%N 17) = Ok None.
Proof. split; vm_compute; reflexivity. Qed.

(** C71: the table of the longest-run test, for at least N M bits: entry k is the number of blocks
    whose longest run of ones falls in class k; no exception. *)
Lemma C71_table_main : forall M N bits, N * M <= length bits ->
  exists ls, length ls = N /\ (forall i, i < N -> longest_is (firstn M (skipn (i * M) bits)) (nth i ls 0)) /\
    longest_table M N bits = Ok (map (fun k => count_occ Nat.eq_dec (map (longest_class M) ls) k) (seq 0 7)).
Proof.
  intros M N bits HL. exists (map (fun i => snd (lr (block M i bits))) (seq 0 N)). refine (conj _ (conj _ _)).
  - rewrite map_length, seq_length. reflexivity.
  - intros i Hi. rewrite (nth_indep _ 0 (snd (lr (block M 0 bits)))) by (rewrite map_length, seq_length; exact Hi).
    rewrite (map_nth (fun i => snd (lr (block M i bits)))), seq_nth by exact Hi. apply lr_longest.
  - rewrite longest_table_ok by exact HL. unfold histo. rewrite map_map. reflexivity.
Qed.
(** C71: the parameters chosen for n bits always fit the data, so the table exists for every n >= 128. *)
Lemma C71_params_main : forall n, (128 <= n)%N -> exists M K N, longest_params n = Some (M, K, N) /\
  (N.of_nat N * N.of_nat M <= n)%N /\ (M = 8 /\ K = 3 \/ M = 128 /\ K = 5 \/ N.of_nat M = 10000%N /\ K = 6) /\ length (longest_probs M) = S K.
Proof.
  intros n Hn. unfold longest_params. destruct (N.ltb_spec n 128); [lia|]. destruct (N.ltb_spec n 6272).
  - exists 8, 3, 16. repeat split; auto; lia.
  - destruct (N.ltb_spec n 750000).
    + exists 128, 5, 49. repeat split; auto; lia.
    + exists (N.to_nat 10000), 6, 75. rewrite N2Nat.id. repeat split; auto; lia.
Qed.
(** C71: for blocks of 8 and of 128 bits the reference probabilities are those of the classes for
    uniform blocks, within 1/10000. *)
Lemma C71_probs_main : forall M k, M = 8 /\ k < 4 \/ M = 128 /\ k < 6 -> exists ws, NoDup ws /\
  (forall w, In w ws <-> length w = M /\ isbits w /\ exists r, longest_is w r /\ longest_class M r = k) /\
  (let f := inject_Z (Z.of_nat (length ws)) / inject_Z (2 ^ Z.of_nat M) in
   f - nth k (longest_probs M) 0 <= 1 # 10000 /\ nth k (longest_probs M) 0 - f <= 1 # 10000)%Q.
Proof.
  intros M k H. destruct (class_words M k M) as (ws & H1 & H2 & H3). exists ws. refine (conj H1 (conj H2 _)). cbv zeta.
  assert (Hc : k <= length (cut M)) by (destruct H as [[-> H]|[-> H]]; simpl; lia).
  rewrite ccount_V in H3 by exact Hc. rewrite <- nat_N_Z, H3.
  assert (Hn : near M k = true).
  { assert (X := near_ok). apply andb_true_iff in X as [X1 X2].
    destruct H as [[-> H]|[-> H]]; [apply (proj1 (forallb_forall _ _) X1)|apply (proj1 (forallb_forall _ _) X2)]; apply in_seq; lia. }
  apply andb_true_iff in Hn as [A B]. split; apply Qle_bool_iff; assumption.
Qed.
(** C71: for blocks of 10000 bits they are not: the first class has probability at most 0.0875, the
    table says 0.0882. *)
Lemma C71_probs_refuted_main : exists M k, N.of_nat M = 10000%N /\ exists ws, NoDup ws /\
  (forall w, In w ws <-> length w = M /\ isbits w /\ exists r, longest_is w r /\ longest_class M r = k) /\
  (7 # 10000 <= nth k (longest_probs M) 0 - inject_Z (Z.of_nat (length ws)) / inject_Z (2 ^ Z.of_nat M))%Q.
Proof.
  exists (N.to_nat 10000), 0. split; [apply N2Nat.id|].
  assert (E : exists M d, M = N.to_nat 10000 /\ M = 11 + d /\ N.of_nat d = 9989%N /\ M =? 8 = false /\ M =? 128 = false).
  { exists (N.to_nat 10000), (N.to_nat 9989). refine (conj eq_refl (conj _ (conj (N2Nat.id _) (conj _ _)))).
    - change 11 with (N.to_nat 11). rewrite <- N2Nat.inj_add. reflexivity.
    - apply Nat.eqb_neq. lia.
    - apply Nat.eqb_neq. lia. }
  destruct E as (M & d & <- & E1 & E2 & E3 & E4).
  destruct (class_words M 0 M) as (ws & H1 & H2 & H3). exists ws. refine (conj H1 (conj H2 _)).
  assert (C := ccount_ok M 0 M (Nat.le_0_l _)). unfold below, upto in C. rewrite Nat.eqb_refl, N.add_0_r in C.
  assert (Ec : cut M = [10; 11; 12; 13; 14; 15]) by (unfold cut; rewrite E3, E4; reflexivity).
  rewrite Ec in C. cbn [length nth Nat.ltb Nat.leb] in C. rewrite C in H3.
  assert (G := geo_10000 M d E1 E2). rewrite <- H3 in G.
  unfold longest_probs. rewrite E3, E4. cbn [nth]. fold (p2 M).
  assert (P := p2_pos M).
  assert (B : (inject_Z (Z.of_nat (length ws)) / p2 M <= 875 # 10000)%Q).
  { apply Qle_shift_div_r; [exact P|]. unfold p2. clear - G.
    assert (G' : (Z.of_nat (length ws) * 10000 <= 875 * 2 ^ Z.of_nat M)%Z).
    { assert (X := proj1 (N2Z.inj_le _ _) G). rewrite !N2Z.inj_mul, N2Z.inj_pow, !nat_N_Z in X. exact X. }
    unfold Qle, Qmult, inject_Z. cbn [Qnum Qden]. rewrite Pos.mul_1_r, Z.mul_1_r. exact G'. }
  apply Qle_trans with ((882 # 10000) - (875 # 10000))%Q; [discriminate|].
  apply Qplus_le_compat; [apply Qle_refl|]. apply Qopp_le_compat. exact B.
Qed.
(** C71: a block of 8 bits and its longest run. *)
Example C71_ex_main : longest_run 8 [1;1;0;1;1;1;0;1]%N = Ok 3 /\ longest_is [1;1;0;1;1;1;0;1]%N 3 /\
  longest_table 8 2 [1;1;0;1;1;1;0;1; 0;0;0;0;1;0;1;0]%N = Ok [1; 0; 1; 0; 0; 0; 0] /\
  map (numV 8) (seq 0 4) = [55; 94; 59; 48]%N.
Proof. refine (conj eq_refl (conj (lr_longest [1;1;0;1;1;1;0;1]%N) (conj eq_refl _))). vm_compute. reflexivity. Qed.

(** C72: cumulative sums: forward_max is the largest distance of the walk from its start,
    backward_max the largest distance from its end; neither is zero (p_value divides by them). *)
Lemma C72_cusum_main : forall bits, bits <> [] -> isbits bits ->
  exists f b, cumulative_sums bits = Ok (f, b) /\
    (exists k, k <= length bits /\ f = Z.abs (walk bits k)) /\ (forall k, k <= length bits -> (Z.abs (walk bits k) <= f)%Z) /\
    (exists k, k <= length bits /\ b = Z.abs (walk bits (length bits) - walk bits k)%Z) /\
    (forall k, k <= length bits -> (Z.abs (walk bits (length bits) - walk bits k) <= b)%Z) /\ (0 < f /\ 0 < b)%Z.
Proof.
  intros bits Hne Hb. unfold cumulative_sums, excursion_max. fold (emax (plusminus bits)). fold (emax (rev (plusminus bits))).
  destruct (emax_ok (plusminus bits)) as (_ & (k1 & A1 & A2) & A3).
  destruct (emax_ok (rev (plusminus bits))) as (_ & (k2 & B1 & B2) & B3).
  assert (Lp : length (plusminus bits) = length bits) by apply map_length.
  rewrite rev_length, Lp in *. rewrite walk_sum in A2 by exact Hb. rewrite back_sum in B2 by assumption.
  set (f := snd (emax (plusminus bits))) in *. set (b := snd (emax (rev (plusminus bits)))) in *.
  assert (A4 : forall k, k <= length bits -> (Z.abs (walk bits k) <= f)%Z) by (intros k Hk; rewrite <- walk_sum by exact Hb; auto).
  assert (B4 : forall k, k <= length bits -> (Z.abs (walk bits (length bits) - walk bits k) <= b)%Z).
  { intros k Hk. specialize (B3 (length bits - k) ltac:(lia)). rewrite back_sum in B3 by (auto; lia).
    replace (length bits - (length bits - k)) with k in B3 by lia. exact B3. }
  clearbody f b.
  assert (Hodd : forall k, k < length bits -> (Z.abs (walk bits (S k) - walk bits k) = 1)%Z).
  { intros k Hk. unfold walk. rewrite (firstn_S bits k 0%N Hk), ones_app, app_length. cbn [length].
    assert (Hx := Hb (nth k bits 0%N) ltac:(apply nth_In; exact Hk)). destruct Hx as [-> | ->].
    - change (ones [0%N]) with 0. lia.
    - change (ones [1%N]) with 1. lia. }
  assert (HL : 0 < length bits) by (destruct bits; [congruence|simpl; lia]).
  assert (Pf : (0 < f)%Z).
  { assert (X := Hodd 0 HL). assert (Y := A4 1 ltac:(lia)). change (walk bits 0) with 0%Z in X. lia. }
  assert (Pb : (0 < b)%Z).
  { assert (X := Hodd (length bits - 1) ltac:(lia)). assert (Y := B4 (length bits - 1) ltac:(lia)).
    replace (S (length bits - 1)) with (length bits) in X by lia. lia. }
  exists f, b. refine (conj _ (conj _ (conj A4 (conj _ (conj B4 (conj Pf Pb)))))).
  - destruct (Z.eqb_spec f 0); [lia|]. destruct (Z.eqb_spec b 0); [lia|]. reflexivity.
  - exists k1. auto.
  - exists (length bits - k2). split; [lia|exact B2].
Qed.
(** C72: the empty sequence makes p_value divide by zero. *)
Lemma C72_empty_main : cumulative_sums [] = UB.
Proof. reflexivity. Qed.
(** C72: NIST SP 800-22, section 2.13.4: the forward maximum of 1011010111 is 4. *)
Example C72_ex_main : cumulative_sums [1;0;1;1;0;1;0;1;1;1]%N = Ok (4, 4)%Z /\ walk [1;0;1;1;0;1;0;1;1;1]%N 10 = 4%Z.
Proof. split; reflexivity. Qed.
