(** Approximate entropy. *)
From Coq Require Import Arith NArith ZArith Reals Lra List Bool Permutation Lia.
From Verif Require Import Base ModelRank ModelNist ModelNist2 ModelNist3 SpecNist SpecNist2 SpecGamma LCCount RankCount Nist1 Nist4 Nist5 Nist7 Nist9.
Import ListNotations.
Local Open Scope nat_scope.

Lemma apen_counts_perm : forall bits it, isbits bits -> it - 1 <= length bits -> Permutation (apen_counts bits it) (map (cc bits) (words it)).
Proof.
  intros bits it Hb Hn. unfold apen_counts. set (pb := bits ++ _).
  assert (P : Permutation (seq 0 (2 ^ it)) (map (fun u => N.to_nat (pattern2int u)) (words it))).
  { symmetry. apply NoDup_Permutation_bis.
    - apply (nodup_map_in _ _ (fun u => N.to_nat (pattern2int u))); [|apply words_nodup].
      intros u v Hu Hv E. apply words_in in Hu as [L1 B1]. apply words_in in Hv as [L2 B2]. apply p2i_inj; auto; lia.
    - rewrite seq_length, map_length. assert (W := words_len it). assert (P2 : N.of_nat (2 ^ it) = (2 ^ N.of_nat it)%N) by (generalize it; intros m; induction m as [|m IH]; [reflexivity|]; rewrite Nat2N.inj_succ, N.pow_succ_r', <- IH, Nat.pow_succ_r'; lia). lia.
    - intros i Hi. apply in_map_iff in Hi as (u & <- & Hu). apply words_in in Hu as [L B]. apply in_seq. assert (X := p2i_ix u B). rewrite L in X. lia. }
  rewrite P, map_map. erewrite map_ext_in; [reflexivity|]. intros u Hu. apply words_in in Hu as [L B]. cbv beta. rewrite N2Nat.id.
  rewrite (fold_filter _ (fun j => N.eqb (bits_to_int (pyslice pb j (j + it))) (pattern2int u))). unfold cc. f_equal. apply filter_ext_in.
  intros j Hj. apply in_seq in Hj.
  assert (SL : length (pyslice pb j (j + it)) = it).
  { unfold pyslice, pb. rewrite firstn_length, skipn_length, app_length. unfold pyslice. rewrite firstn_length. simpl skipn. lia. }
  assert (SB : isbits (pyslice pb j (j + it))).
  { intros x Hx. apply Hb. assert (X : In x pb). { unfold pyslice in Hx. rewrite <- (firstn_skipn j pb). apply in_app_iff. right. rewrite <- (firstn_skipn (j + it - j) (skipn j pb)). apply in_app_iff. auto. }
    unfold pb in X. apply in_app_iff in X as [X|X]; [exact X|]. unfold pyslice in X. simpl skipn in X. rewrite <- (firstn_skipn (it - 1 - 0) bits). apply in_app_iff. auto. }
  assert (NT : forall t, t < it -> nth t (pyslice pb j (j + it)) 0%N = nth ((j + t) mod length bits) bits 0%N).
  { intros t Ht. destruct (padded_at bits it j t Hn ltac:(lia) Ht) as [P1 P2]. fold pb in P1, P2. rewrite <- P2.
    unfold pyslice. replace (j + it - j) with it by lia. rewrite <- (firstn_skipn j pb) at 2.
    rewrite app_nth2; rewrite firstn_length; [|lia]. replace (j + t - Nat.min j (length pb)) with t by lia.
    transitivity (nth t (firstn it (skipn j pb) ++ skipn it (skipn j pb)) 0%N); [|rewrite firstn_skipn; reflexivity].
    rewrite app_nth1; [reflexivity|]. rewrite firstn_length, skipn_length. lia. }
  apply eq_true_iff_eq. rewrite N.eqb_eq, cb_iff. unfold cyclic_at. rewrite L. change bits_to_int with pattern2int. split.
  - intros E. apply p2i_inj in E; auto; [|lia]. subst u. intros t Ht. apply NT, Ht.
  - intros E. f_equal. apply (nth_ext _ _ 0%N 0%N); [lia|]. intros t Ht. rewrite SL in Ht. rewrite NT by exact Ht. symmetry. apply E, Ht.
Qed.

Local Open Scope R_scope.
Definition sumR {A} (f : A -> R) (l : list A) : R := fold_right (fun u s => f u + s) 0 l.
Lemma sumR_app : forall A (f : A -> R) a b, sumR f (a ++ b) = sumR f a + sumR f b.
Proof. intros A f a b. unfold sumR. induction a as [|x a IH]; cbn [app fold_right]; lra. Qed.
Lemma sumR_map : forall A B (f : B -> R) (g : A -> B) l, sumR f (map g l) = sumR (fun u => f (g u)) l.
Proof. intros A B f g l. unfold sumR. induction l as [|x a IH]; cbn [map fold_right]; lra. Qed.
Lemma sumR_add : forall A (f g : A -> R) l, sumR f l + sumR g l = sumR (fun u => f u + g u) l.
Proof. intros A f g l. unfold sumR. induction l as [|x a IH]; cbn [fold_right]; lra. Qed.
Lemma sumR_mul : forall A k (f : A -> R) l, k * sumR f l = sumR (fun u => k * f u) l.
Proof. intros A k f l. unfold sumR. induction l as [|x a IH]; cbn [fold_right]; lra. Qed.
Lemma sumR_perm : forall A (f : A -> R) l l', Permutation l l' -> sumR f l = sumR f l'.
Proof. intros A f l l' H. unfold sumR. induction H; cbn [fold_right]; lra. Qed.
Lemma sumR_le : forall A (f g : A -> R) l, (forall u, f u <= g u) -> sumR f l <= sumR g l.
Proof. intros A f g l H. unfold sumR. induction l as [|x a IH]; cbn [fold_right]; [lra|]. specialize (H x). lra. Qed.
Lemma sumR_ext : forall A (f g : A -> R) l, (forall u, f u = g u) -> sumR f l = sumR g l.
Proof. intros A f g l H. unfold sumR. induction l as [|x a IH]; cbn [fold_right]; [lra|]. specialize (H x). lra. Qed.
(** the function x ln x *)
Definition hn (n : nat) (c : nat) : R := if Nat.eqb c 0 then 0 else INR c / INR n * ln (INR c / INR n).
Lemma ln_div10 : forall x, 0 < x -> ln (x / 10) = ln x - ln 10.
Proof. intros x Hx. unfold Rdiv. rewrite ln_mult by (try apply Rinv_0_lt_compat; lra). rewrite ln_Rinv by lra. lra. Qed.
Lemma phi_ok : forall bits it, isbits bits -> bits <> [] -> (it - 1 <= length bits)%nat ->
  apen_phi bits it = sumR (fun u => hn (length bits) (cc bits u)) (words it) - ln 10 * sumR (fun u => INR (cc bits u) / INR (length bits)) (words it).
Proof.
  intros bits it Hb Hne Hn. unfold apen_phi.
  assert (G : forall l a, fold_left (fun sum count => let Ci := INR count / INR (length bits) in if Nat.ltb 0 count then sum + Ci * ln (Ci / 10) else sum) l a =
    a + sumR (fun c => hn (length bits) c - ln 10 * (INR c / INR (length bits))) l).
  { induction l as [|c l IH]; intros a; cbn [fold_left]; [unfold sumR; simpl; lra|]. rewrite IH. clear IH. unfold sumR at 2. cbn [fold_right]. fold (sumR (fun c => hn (length bits) c - ln 10 * (INR c / INR (length bits))) l).
    cbv zeta. unfold hn at 2. destruct (Nat.eqb_spec c 0) as [->|Hc].
    - change (Nat.ltb 0 0) with false. cbv iota. simpl INR. unfold Rdiv. lra.
    - rewrite (proj2 (Nat.ltb_lt 0 c)) by lia. assert (P1 : 0 < INR c) by (apply lt_0_INR; lia). assert (P2 : 0 < INR (length bits)) by (apply lt_0_INR; destruct bits; [congruence|simpl; lia]).
      assert (P3 : 0 < INR c / INR (length bits)) by (apply Rmult_lt_0_compat; [exact P1|apply Rinv_0_lt_compat; exact P2]).
      rewrite ln_div10 by exact P3. lra. }
  rewrite G, Rplus_0_l, (sumR_perm _ _ _ _ (apen_counts_perm bits it Hb Hn)), sumR_map.
  assert (Y : forall a b, a - ln 10 * b = a + (- ln 10) * b) by (intros; lra). rewrite Y, sumR_mul, sumR_add. apply sumR_ext. intros u. lra.
Qed.
Lemma cc_sum : forall bits m, isbits bits -> sumR (fun u => INR (cc bits u)) (words m) = INR (length bits).
Proof.
  intros bits m Hb. induction m as [|m IH].
  - cbn [words]. unfold sumR. cbn [fold_right]. rewrite Rplus_0_r. f_equal. unfold cc.
    assert (E : forall l, length (filter (cb bits []) l) = length l) by (intros l; induction l as [|a l IHl]; [reflexivity|]; simpl; rewrite IHl; reflexivity). rewrite E, seq_length. reflexivity.
  - cbn [words]. rewrite sumR_app, !sumR_map, sumR_add, <- IH. apply sumR_ext. intros u. rewrite (cc_right bits u Hb), plus_INR. reflexivity.
Qed.
Lemma prob_sum : forall bits m, isbits bits -> bits <> [] -> sumR (fun u => INR (cc bits u) / INR (length bits)) (words m) = 1.
Proof.
  intros bits m Hb Hne. assert (P2 : 0 < INR (length bits)) by (apply lt_0_INR; destruct bits; [congruence|simpl; lia]).
  rewrite (sumR_ext _ _ (fun u => / INR (length bits) * INR (cc bits u))) by (intros; unfold Rdiv; lra). rewrite <- sumR_mul, cc_sum by exact Hb. field. lra.
Qed.
Lemma ln_le_minus : forall x, 0 < x -> ln x <= x - 1.
Proof.
  intros x Hx. destruct (Req_dec x 1) as [->|H]; [rewrite ln_1; lra|].
  assert (E : exp (ln x) = x) by (apply exp_ln, Hx). destruct (Req_dec (ln x) 0) as [Z|Z]; [rewrite Z, exp_0 in E; lra|].
  assert (K := exp_ineq1 (ln x) Z). lra.
Qed.
Lemma ln_mono : forall x y, 0 < x -> x <= y -> ln x <= ln y.
Proof. intros x y Hx [H| ->]; [left; apply ln_increasing; auto|lra]. Qed.
Lemma hn_bounds : forall n a b, (0 < n)%nat -> hn n (a + b) - ln 2 * (INR (a + b) / INR n) <= hn n a + hn n b <= hn n (a + b).
Proof.
  intros n a b Hn. assert (N0 : 0 < INR n) by (apply lt_0_INR, Hn). assert (L2 : 0 < ln 2) by (rewrite <- ln_1; apply ln_increasing; lra).
  assert (D : forall k, (0 < k)%nat -> 0 < INR k / INR n) by (intros k Hk; apply Rmult_lt_0_compat; [apply lt_0_INR, Hk|apply Rinv_0_lt_compat, N0]).
  unfold hn. destruct (Nat.eqb_spec a 0) as [->|Ha]; destruct (Nat.eqb_spec b 0) as [->|Hb]; rewrite ?Nat.add_0_l, ?Nat.add_0_r.
  - simpl. unfold Rdiv. lra.
  - destruct (Nat.eqb_spec b 0); [lia|]. specialize (D b ltac:(lia)). assert (0 < ln 2 * (INR b / INR n)) by (apply Rmult_lt_0_compat; auto). lra.
  - destruct (Nat.eqb_spec a 0); [lia|]. specialize (D a ltac:(lia)). assert (0 < ln 2 * (INR a / INR n)) by (apply Rmult_lt_0_compat; auto). lra.
  - destruct (Nat.eqb_spec (a + b) 0); [lia|]. rewrite plus_INR. assert (Da := D a ltac:(lia)). assert (Db := D b ltac:(lia)).
    replace ((INR a + INR b) / INR n) with (INR a / INR n + INR b / INR n) by (unfold Rdiv; lra).
    set (p := INR a / INR n) in *. set (q := INR b / INR n) in *. clearbody p q. clear - Da Db L2. split.
    + assert (Hp : ln ((p + q) / 2) - ln p <= (q - p) / (2 * p)).
      { unfold Rminus at 1. rewrite <- ln_Rinv, <- ln_mult by (try apply Rinv_0_lt_compat; lra).
        eapply Rle_trans; [apply ln_le_minus; apply Rmult_lt_0_compat; [lra|apply Rinv_0_lt_compat; lra]|]. right. field. lra. }
      assert (Hq : ln ((p + q) / 2) - ln q <= (p - q) / (2 * q)).
      { unfold Rminus at 1. rewrite <- ln_Rinv, <- ln_mult by (try apply Rinv_0_lt_compat; lra).
        eapply Rle_trans; [apply ln_le_minus; apply Rmult_lt_0_compat; [lra|apply Rinv_0_lt_compat; lra]|]. right. field. lra. }
      apply (Rmult_le_compat_l p) in Hp; [|lra]. apply (Rmult_le_compat_l q) in Hq; [|lra].
      replace (p * ((q - p) / (2 * p))) with ((q - p) / 2) in Hp by (field; lra). replace (q * ((p - q) / (2 * q))) with ((p - q) / 2) in Hq by (field; lra).
      assert (E : ln ((p + q) / 2) = ln (p + q) - ln 2) by (unfold Rdiv; rewrite ln_mult, ln_Rinv by lra; lra). rewrite E in *. lra.
    + assert (H1 := ln_mono p (p + q) Da ltac:(lra)). assert (H2 := ln_mono q (p + q) Db ltac:(lra)).
      apply (Rmult_le_compat_l p) in H1; [|lra]. apply (Rmult_le_compat_l q) in H2; [|lra]. lra.
Qed.
Lemma apen_ok : forall bits m, isbits bits -> bits <> [] -> (m <= length bits)%nat ->
  let H k := sumR (fun u => hn (length bits) (cc bits u)) (words k) in
  apen_chisq bits m = 2 * INR (length bits) * (ln 2 - (H m - H (m + 1)%nat)) /\ 0 <= apen_chisq bits m <= 2 * INR (length bits) * ln 2.
Proof.
  intros bits m Hb Hne Hm. cbv zeta. unfold apen_chisq. rewrite !phi_ok, !prob_sum by (auto; lia).
  assert (P2 : 0 < INR (length bits)) by (apply lt_0_INR; destruct bits; [congruence|simpl; lia]).
  assert (P1 : (0 < length bits)%nat) by (destruct bits; [congruence|simpl; lia]).
  split; [f_equal; lra|]. rewrite Nat.add_1_r.
  assert (E : sumR (fun u => hn (length bits) (cc bits u)) (words (S m)) = sumR (fun u => hn (length bits) (cc bits (u ++ [0%N])) + hn (length bits) (cc bits (u ++ [1%N]))) (words m))
    by (cbn [words]; rewrite sumR_app, !sumR_map, sumR_add; reflexivity).
  rewrite E.
  assert (B1 : sumR (fun u => hn (length bits) (cc bits (u ++ [0%N])) + hn (length bits) (cc bits (u ++ [1%N]))) (words m) <= sumR (fun u => hn (length bits) (cc bits u)) (words m)).
  { apply sumR_le. intros u. rewrite (cc_right bits u Hb). apply hn_bounds, P1. }
  assert (B2 : sumR (fun u => hn (length bits) (cc bits u)) (words m) + (- ln 2) * sumR (fun u => INR (cc bits u) / INR (length bits)) (words m) <=
    sumR (fun u => hn (length bits) (cc bits (u ++ [0%N])) + hn (length bits) (cc bits (u ++ [1%N]))) (words m)).
  { rewrite sumR_mul, sumR_add. apply sumR_le. intros u. rewrite (cc_right bits u Hb). assert (X := hn_bounds (length bits) (cc bits (u ++ [0%N])) (cc bits (u ++ [1%N])) P1). lra. }
  rewrite prob_sum in B2 by auto. set (h1 := sumR _ _) in *. set (h2 := sumR _ _) in *. clearbody h1 h2. split.
  - apply Rmult_le_pos; lra.
  - apply Rmult_le_compat_l; lra.
Qed.
