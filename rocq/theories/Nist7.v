(** Cyclic pattern counts: serial and approximate entropy tests. *)
From Coq Require Import Arith NArith ZArith QArith List Bool Permutation Lia.
From Verif Require Import Base Spec LinAlg Mem ModelRank ModelBM ModelNist ModelNist2 SpecNist SpecNist2 LCCount RankCount Nist1 Nist2 Nist3 Nist5.
Import ListNotations.
Local Open Scope nat_scope.

(** ** Counts in a cyclic sequence *)
Definition cb (bits u : list N) (i : nat) : bool := forallb (fun j => N.eqb (nth j u 0%N) (nth ((i + j) mod (length bits)) bits 0%N)) (seq 0 (length u)).
Lemma cb_iff : forall bits u i, cb bits u i = true <-> cyclic_at bits u i.
Proof.
  intros bits u i. unfold cb, cyclic_at. rewrite forallb_forall. split.
  - intros H j Hj. apply N.eqb_eq, H, in_seq. lia.
  - intros H j Hj. apply N.eqb_eq, H. apply in_seq in Hj. lia.
Qed.
Definition cc (bits u : list N) : nat := length (filter (cb bits u) (seq 0 (length bits))).
Lemma cc_number : forall bits u, number_below (length bits) (cyclic_at bits u) (cc bits u).
Proof.
  intros bits u. eexists. split; [apply NoDup_filter, (seq_NoDup (length bits) 0)|]. split; [reflexivity|].
  intros p. rewrite filter_In, in_seq, cb_iff. intuition lia.
Qed.
Lemma number_unique : forall k S a b, number_below k S a -> number_below k S b -> a = b.
Proof.
  intros k S a b (l & N1 & <- & H1) (l' & N2 & <- & H2). apply Permutation_length, NoDup_Permutation; auto. intros p. rewrite H1, H2. reflexivity.
Qed.
Lemma filter_split : forall A (p q r : A -> bool) l, (forall x, In x l -> p x = xorb (q x) (r x) /\ q x && r x = false) ->
  length (filter p l) = length (filter q l) + length (filter r l).
Proof.
  intros A p q r l. induction l as [|a l IH]; intros H; [reflexivity|]. cbn [filter]. specialize (IH ltac:(intros; apply H; simpl; auto)).
  destruct (H a ltac:(simpl; auto)) as [E1 E2]. rewrite E1. destruct (q a), (r a); simpl in *; try discriminate; lia.
Qed.
Lemma bit_at : forall bits i, isbits bits -> bits <> [] -> let x := nth (i mod length bits) bits 0%N in x = 0%N \/ x = 1%N.
Proof. intros bits i Hb Hn. apply Hb, nth_In, Nat.mod_upper_bound. destruct bits; [congruence|discriminate]. Qed.
Lemma cb_snoc : forall bits u x i, cb bits (u ++ [x]) i = cb bits u i && N.eqb x (nth ((i + length u) mod length bits) bits 0%N).
Proof.
  intros bits u x i. unfold cb. rewrite app_length. cbn [length]. rewrite Nat.add_comm. cbn [plus]. rewrite seq_S, forallb_app. cbn [forallb plus].
  rewrite andb_true_r. f_equal.
  - apply eq_true_iff_eq. rewrite !forallb_forall. split; intros H j Hj; specialize (H j Hj); apply in_seq in Hj; rewrite app_nth1 in *; auto; lia.
  - rewrite app_nth2, Nat.sub_diag by lia. reflexivity.
Qed.
Lemma cc_right : forall bits u, isbits bits -> cc bits u = cc bits (u ++ [0%N]) + cc bits (u ++ [1%N]).
Proof.
  intros bits u Hb. unfold cc. apply filter_split. intros i Hi. apply in_seq in Hi. rewrite !cb_snoc.
  assert (Hn : bits <> []) by (intros ->; simpl in Hi; lia).
  destruct (bit_at bits (i + length u) Hb Hn) as [-> | ->]; destruct (cb bits u i); split; reflexivity.
Qed.
Lemma cb_cons : forall bits u x i, bits <> [] -> cb bits (x :: u) i = N.eqb x (nth (i mod length bits) bits 0%N) && cb bits u ((i + 1) mod length bits).
Proof.
  intros bits u x i Hn. unfold cb. cbn [length seq forallb]. rewrite <- seq_shift, Nat.add_0_r. cbn [nth]. f_equal.
  assert (L : length bits <> 0) by (destruct bits; [congruence|discriminate]).
  apply eq_true_iff_eq. rewrite !forallb_forall. split; intros H j Hj.
  - specialize (H (S j) ltac:(apply in_map; exact Hj)). cbn [nth] in H. rewrite Nat.add_mod_idemp_l by exact L. replace (i + 1 + j) with (i + S j) by lia. exact H.
  - apply in_map_iff in Hj as (k & <- & Hk). cbn [nth]. specialize (H k Hk). rewrite Nat.add_mod_idemp_l in H by exact L. replace (i + S k) with (i + 1 + k) by lia. exact H.
Qed.
Lemma rotate_count : forall (p : nat -> bool) n, length (filter (fun i => p ((i + 1) mod n)) (seq 0 n)) = length (filter p (seq 0 n)).
Proof.
  intros p [|n]; [reflexivity|].
  assert (E : length (filter (fun i => p ((i + 1) mod S n)) (seq 0 (S n))) = length (filter p (map (fun i => (i + 1) mod S n) (seq 0 (S n))))).
  { generalize (seq 0 (S n)). intros s. induction s as [|a s IH]; [reflexivity|]. cbn [map filter]. destruct (p ((a + 1) mod S n)); cbn [length]; rewrite IH; reflexivity. }
  rewrite E. clear E. rewrite (seq_S n 0) at 1. rewrite map_app. cbn [map plus]. replace ((n + 1) mod S n) with 0 by (replace (n + 1) with (S n) by lia; rewrite Nat.mod_same; lia).
  replace (map (fun i => (i + 1) mod S n) (seq 0 n)) with (seq 1 n).
  - rewrite filter_app, app_length. cbn [seq filter]. destruct (p 0); cbn [length]; lia.
  - rewrite <- seq_shift. apply map_ext_in. intros i Hi. apply in_seq in Hi. rewrite Nat.mod_small; lia.
Qed.
Lemma cc_left : forall bits u, isbits bits -> cc bits u = cc bits (0%N :: u) + cc bits (1%N :: u).
Proof.
  intros bits u Hb. unfold cc. rewrite <- (rotate_count (cb bits u)). apply filter_split. intros i Hi. apply in_seq in Hi.
  assert (Hn : bits <> []) by (intros ->; simpl in Hi; lia). rewrite !cb_cons by exact Hn.
  destruct (bit_at bits i Hb Hn) as [-> | ->]; destruct (cb bits u ((i + 1) mod length bits)); split; reflexivity.
Qed.

(** ** Sums over all words *)
Definition sumw (f : list N -> Z) (l : list (list N)) : Z := fold_right (fun u s => (f u + s)%Z) 0%Z l.
Lemma sumw_app : forall f a b, sumw f (a ++ b) = (sumw f a + sumw f b)%Z.
Proof. intros f a b. unfold sumw. induction a as [|x a IH]; cbn [app fold_right]; lia. Qed.
Lemma sumw_map : forall f g l, sumw f (map g l) = sumw (fun u => f (g u)) l.
Proof. intros f g l. unfold sumw. induction l as [|x a IH]; cbn [map fold_right]; lia. Qed.
Lemma sumw_add : forall f g l, (sumw f l + sumw g l)%Z = sumw (fun u => f u + g u)%Z l.
Proof. intros f g l. unfold sumw. induction l as [|x a IH]; cbn [fold_right]; lia. Qed.
Lemma sumw_mul : forall k f l, (k * sumw f l)%Z = sumw (fun u => k * f u)%Z l.
Proof. intros k f l. unfold sumw. induction l as [|x a IH]; cbn [fold_right]; lia. Qed.
Lemma sumw_ext : forall f g l, (forall u, In u l -> f u = g u) -> sumw f l = sumw g l.
Proof. intros f g l H. unfold sumw. induction l as [|x a IH]; cbn [fold_right]; [reflexivity|]. rewrite H, IH; simpl; auto. intros. apply H. simpl; auto. Qed.
Lemma sumw_perm : forall f l l', Permutation l l' -> sumw f l = sumw f l'.
Proof. intros f l l' H. unfold sumw. induction H; cbn [fold_right]; lia. Qed.
Lemma sumw_nonneg : forall f l, (forall u, In u l -> 0 <= f u)%Z -> (0 <= sumw f l)%Z.
Proof. intros f l H. unfold sumw. induction l as [|x a IH]; cbn [fold_right]; [lia|]. specialize (IH ltac:(intros; apply H; simpl; auto)). specialize (H x ltac:(simpl; auto)). lia. Qed.
Lemma words_cons : forall m, Permutation (words (S m)) (map (cons 0%N) (words m) ++ map (cons 1%N) (words m)).
Proof.
  intros m. apply NoDup_Permutation.
  - apply words_nodup.
  - apply nodup_app; try (apply FinFun.Injective_map_NoDup; [intros a b; congruence|apply words_nodup]).
    intros w H1 H2. apply in_map_iff in H1 as (a & <- & _). apply in_map_iff in H2 as (b & E & _). discriminate.
  - intros w. rewrite words_in, in_app_iff, !in_map_iff. setoid_rewrite words_in. split.
    + intros [HL HB]. destruct w as [|x w]; [discriminate|]. assert (L' : length w = m) by (simpl in HL; lia).
      assert (B' : forall y, In y w -> y = 0%N \/ y = 1%N) by (intros y Hy; apply HB; simpl; auto).
      destruct (HB x ltac:(simpl; auto)) as [-> | ->]; [left|right]; exists w; auto.
    + intros [(a & <- & HL & HB)|(a & <- & HL & HB)]; simpl; (split; [lia|]); intros x [<-|Hx]; auto.
Qed.
(** the sum of the squares of the counts *)
Definition S2 (bits : list N) (m : nat) : Z := sumw (fun u => Z.of_nat (cc bits u) ^ 2)%Z (words m).
Lemma S2_right : forall bits m, S2 bits (S m) = sumw (fun u => Z.of_nat (cc bits (u ++ [0%N])) ^ 2 + Z.of_nat (cc bits (u ++ [1%N])) ^ 2)%Z (words m).
Proof. intros. unfold S2. cbn [words]. rewrite sumw_app, !sumw_map, sumw_add. reflexivity. Qed.
Lemma S2_left : forall bits m, S2 bits (S m) = sumw (fun u => Z.of_nat (cc bits (0%N :: u)) ^ 2 + Z.of_nat (cc bits (1%N :: u)) ^ 2)%Z (words m).
Proof. intros. unfold S2. rewrite (sumw_perm _ _ _ (words_cons m)), sumw_app, !sumw_map, sumw_add. reflexivity. Qed.
Lemma delta1_sq : forall bits m, isbits bits ->
  (2 * S2 bits (S m) - S2 bits m)%Z = sumw (fun u => (Z.of_nat (cc bits (u ++ [0%N])) - Z.of_nat (cc bits (u ++ [1%N]))) ^ 2)%Z (words m).
Proof.
  intros bits m Hb. rewrite S2_right, sumw_mul. unfold S2. replace (_ - _)%Z with (sumw (fun u => 2 * (Z.of_nat (cc bits (u ++ [0%N])) ^ 2 + Z.of_nat (cc bits (u ++ [1%N])) ^ 2))%Z (words m) + (-1) * sumw (fun u => Z.of_nat (cc bits u) ^ 2)%Z (words m))%Z by lia.
  rewrite sumw_mul, sumw_add. apply sumw_ext. intros u _. rewrite (cc_right bits u Hb), Nat2Z.inj_add. ring.
Qed.
Lemma delta2_sq : forall bits m, isbits bits ->
  (4 * S2 bits (S (S m)) - 4 * S2 bits (S m) + S2 bits m)%Z =
  sumw (fun u => (Z.of_nat (cc bits (0%N :: u ++ [0%N])) - Z.of_nat (cc bits (0%N :: u ++ [1%N])) - Z.of_nat (cc bits (1%N :: u ++ [0%N])) + Z.of_nat (cc bits (1%N :: u ++ [1%N]))) ^ 2)%Z (words m).
Proof.
  intros bits m Hb.
  assert (E2 : S2 bits (S (S m)) = sumw (fun u => Z.of_nat (cc bits (0%N :: u ++ [0%N])) ^ 2 + Z.of_nat (cc bits (1%N :: u ++ [0%N])) ^ 2 +
     (Z.of_nat (cc bits (0%N :: u ++ [1%N])) ^ 2 + Z.of_nat (cc bits (1%N :: u ++ [1%N])) ^ 2))%Z (words m)).
  { rewrite S2_left. cbn [words]. rewrite sumw_app, !sumw_map, sumw_add. reflexivity. }
  replace (4 * S2 bits (S m))%Z with (2 * S2 bits (S m) + 2 * S2 bits (S m))%Z by lia.
  rewrite E2. rewrite S2_right at 1. rewrite S2_left. unfold S2.
  match goal with |- (4 * ?a - (2 * ?b + 2 * ?c) + ?d)%Z = _ => replace (4 * a - (2 * b + 2 * c) + d)%Z with (4 * a + ((-2) * b + ((-2) * c + d)))%Z by lia end.
  rewrite !sumw_mul, !sumw_add. apply sumw_ext. intros u _. cbv beta.
  rewrite (cc_right bits u Hb), (cc_left bits (u ++ [0%N]) Hb), (cc_left bits (u ++ [1%N]) Hb).
  rewrite (cc_right bits (0%N :: u) Hb), (cc_right bits (1%N :: u) Hb). cbn [app]. rewrite !Nat2Z.inj_add. ring.
Qed.

(** ** The model *)
Lemma padded_at : forall bits m i j, m - 1 <= length bits -> i < length bits -> j < m ->
  i + j < length (bits ++ pyslice bits 0 (m - 1)) /\ nth (i + j) (bits ++ pyslice bits 0 (m - 1)) 0%N = nth ((i + j) mod length bits) bits 0%N.
Proof.
  intros bits m i j Hm Hi Hj. unfold pyslice. rewrite Nat.sub_0_r. cbn [skipn]. rewrite app_length, firstn_length. split; [lia|].
  destruct (Nat.lt_ge_cases (i + j) (length bits)) as [H|H].
  - rewrite app_nth1 by exact H. rewrite Nat.mod_small by exact H. reflexivity.
  - rewrite app_nth2 by exact H. replace ((i + j) mod length bits) with (i + j - length bits).
    + transitivity (nth (i + j - length bits) (firstn (m - 1) bits ++ skipn (m - 1) bits) 0%N); [|rewrite firstn_skipn; reflexivity].
      rewrite app_nth1; [reflexivity|]. rewrite firstn_length. lia.
    + symmetry. replace (i + j) with (i + j - length bits + 1 * length bits) at 1 by lia. rewrite Nat.mod_add by lia. apply Nat.mod_small. lia.
Qed.
Lemma countpattern_ok : forall bits m u, m - 1 <= length bits -> length u <= m ->
  countpattern u (bits ++ pyslice bits 0 (m - 1)) (length bits) = Ok (cc bits u).
Proof.
  intros bits m u Hm Hu. unfold countpattern, cc. set (pb := bits ++ _).
  assert (W : wp (for_up 0 (length bits) (fun i thecount => mt <- for_up 0 (length u) (fun j mt => x <- aget u j ;; y <- aget pb (i + j) ;; Ok (if N.eqb x y then mt else false)) true ;; Ok (if (mt : bool) then thecount + 1 else thecount)) 0)
    (fun r => r = length (filter (cb bits u) (seq 0 (length bits))))).
  { apply (wp_for_up _ (fun t r => r = length (filter (cb bits u) (seq 0 t)))); [lia|reflexivity| |auto].
    intros i r _ Hi ->. apply wp_bind.
    apply (wp_for_up _ (fun t b => b = forallb (fun j => N.eqb (nth j u 0%N) (nth ((i + j) mod (length bits)) bits 0%N)) (seq 0 t))); [lia|reflexivity| |].
    - intros j b _ Hj ->. rewrite (aget_ok _ _ _ 0%N) by exact Hj. cbn [bind].
      destruct (padded_at bits m i j Hm Hi ltac:(lia)) as [P1 P2]. fold pb in P1, P2. rewrite (aget_ok _ _ _ 0%N) by exact P1. cbn [bind]. rewrite P2.
      apply wp_ok. rewrite seq_S, forallb_app. cbn [forallb plus]. rewrite andb_true_r. destruct (N.eqb _ _); [rewrite andb_true_r|rewrite andb_false_r]; reflexivity.
    - intros b ->. apply wp_ok. rewrite seq_S, filter_app, app_length. cbn [filter plus]. fold (cb bits u i). destruct (cb bits u i); simpl; lia. }
  apply wp_exists in W as (r & -> & ->). reflexivity.
Qed.
Lemma int2patt_len : forall n m, length (int2patt n m) = m.
Proof. intros. unfold int2patt. rewrite map_length, seq_length. reflexivity. Qed.
Lemma patt_words : forall m, map (fun i => int2patt i m) (seq 0 (2 ^ m)) = words m.
Proof.
  induction m as [|m IH]; [reflexivity|]. cbn [words]. rewrite <- IH, !map_map. replace (2 ^ S m) with (2 ^ m + 2 ^ m) by (simpl; lia).
  rewrite seq_app, map_app. cbn [plus].
  assert (P2 : N.of_nat (2 ^ m) = (2 ^ N.of_nat m)%N) by (clear; induction m as [|m IH]; [reflexivity|]; rewrite Nat2N.inj_succ, N.pow_succ_r', <- IH, Nat.pow_succ_r'; lia).
  f_equal.
  - apply map_ext_in. intros i Hi. apply in_seq in Hi. unfold int2patt. rewrite seq_S, map_app. cbn [map plus]. do 2 f_equal.
    rewrite N.shiftr_div_pow2, N.div_small; [reflexivity|]. lia.
  - replace (seq (2 ^ m) (2 ^ m)) with (map (fun i => i + 2 ^ m) (seq 0 (2 ^ m))).
    + rewrite map_map. apply map_ext_in. intros i Hi. apply in_seq in Hi. unfold int2patt. rewrite seq_S, map_app. cbn [map plus]. f_equal.
      * apply map_ext_in. intros j Hj. apply in_seq in Hj. apply N.bits_inj. intros b. rewrite !N.land_spec, !N.shiftr_spec by apply N.le_0_l.
        destruct (N.eqb_spec b 0) as [->|Hb]; [|rewrite (N.bits_above_log2 1 b) by (simpl; lia); rewrite !andb_false_r; reflexivity].
        f_equal. rewrite Nat2N.inj_add, P2, N.add_0_l. rewrite <- (N.mod_pow2_bits_low _ (N.of_nat m)) by lia.
        rewrite <- (N.mod_pow2_bits_low (N.of_nat i) (N.of_nat m)) by lia. f_equal. rewrite <- (N.mul_1_l (2 ^ N.of_nat m)) at 1. apply N.mod_add. apply N.pow_nonzero. discriminate.
      * f_equal. rewrite N.shiftr_div_pow2, Nat2N.inj_add, P2. rewrite <- (N.mul_1_l (2 ^ N.of_nat m)) at 1. rewrite N.div_add by (apply N.pow_nonzero; discriminate).
        rewrite N.div_small by lia. reflexivity.
    + clear. generalize (2 ^ m) at 1 3. intros k. generalize (2 ^ m). intros n. revert k. induction n as [|n IH]; intros k; [reflexivity|].
      rewrite seq_S, map_app, IH, seq_S. cbn [map plus]. rewrite (Nat.add_comm n k). reflexivity.
Qed.
Lemma psi_ok : forall bits m k, bits <> [] -> m - 1 <= length bits -> k <= m ->
  exists q, psi_sq_mv1 k (length bits) (bits ++ pyslice bits 0 (m - 1)) = Ok q /\
  (q == inject_Z (2 ^ Z.of_nat k * S2 bits k) / inject_Z (Z.of_nat (length bits)) - inject_Z (Z.of_nat (length bits)))%Q.
Proof.
  intros bits m k Hn Hm Hk. unfold psi_sq_mv1.
  assert (W : wp (for_up 0 (2 ^ k) (fun i counts => count <- countpattern (int2patt i k) (bits ++ pyslice bits 0 (m - 1)) (length bits) ;; Ok (counts ++ [count])) (repeat 0 (2 ^ k)))
     (fun c => c = repeat 0 (2 ^ k) ++ map (fun i => cc bits (int2patt i k)) (seq 0 (2 ^ k)))).
  { apply (wp_for_up _ (fun t c => c = repeat 0 (2 ^ k) ++ map (fun i => cc bits (int2patt i k)) (seq 0 t))); [lia|rewrite app_nil_r; reflexivity| |auto].
    intros i c _ Hi ->. rewrite countpattern_ok by (rewrite ?int2patt_len; auto). cbn [bind]. apply wp_ok. rewrite seq_S, map_app, app_assoc. reflexivity. }
  apply wp_exists in W as (c & -> & ->). cbn [bind]. assert (L : length bits =? 0 = false) by (destruct bits; [congruence|reflexivity]). rewrite L.
  eexists. split; [reflexivity|].
  assert (E : Z.of_nat (fold_left (fun s c => s + c * c) (repeat 0 (2 ^ k) ++ map (fun i => cc bits (int2patt i k)) (seq 0 (2 ^ k))) 0) = S2 bits k).
  { rewrite fold_left_app. replace (fold_left (fun s c => s + c * c) (repeat 0 (2 ^ k)) 0) with 0.
    - rewrite <- (map_map (fun i => int2patt i k) (cc bits)), patt_words. unfold S2.
      assert (G : forall l a, Z.of_nat (fold_left (fun s c => s + c * c) (map (cc bits) l) a) = (Z.of_nat a + sumw (fun u => Z.of_nat (cc bits u) ^ 2)%Z l)%Z).
      { unfold sumw. induction l as [|u l IH]; intros a; cbn [map fold_left fold_right]; [lia|]. rewrite IH, Nat2Z.inj_add, Nat2Z.inj_mul. ring. }
      rewrite G. reflexivity.
    - clear. generalize (2 ^ k). intros n. induction n as [|n IH]; [reflexivity|]. exact IH. }
  rewrite E. assert (P : Z.of_nat (2 ^ k) = (2 ^ Z.of_nat k)%Z) by apply (Nat2Z.inj_pow 2 k). rewrite P, inject_Z_mult. rewrite (Qmult_comm (inject_Z (S2 bits k))). reflexivity.
Qed.
