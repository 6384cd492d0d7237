(** Counting words by their longest run of ones; the table of the longest-run test; cumulative sums. *)
From Coq Require Import Arith NArith ZArith QArith List Bool Lia.
From Verif Require Import Base Spec LinAlg Mem ModelRank ModelNist SpecNist RankTest LCCount Nist1.
Import ListNotations.
Local Open Scope nat_scope.

(** ** The table *)
Definition histo (cs : list nat) : list nat := map (fun k => count_occ Nat.eq_dec cs k) (seq 0 7).
Lemma longest_class_lt : forall M l, longest_class M l < 7.
Proof. intros M l. unfold longest_class. repeat match goal with |- context [if ?b then _ else _] => destruct b end; lia. Qed.
Lemma nth_histo : forall cs k, k < 7 -> nth k (histo cs) 0 = count_occ Nat.eq_dec cs k.
Proof.
  intros cs k Hk. unfold histo. rewrite (nth_indep _ 0 (count_occ Nat.eq_dec cs 0)) by (rewrite map_length, seq_length; lia).
  rewrite (map_nth (fun k => count_occ Nat.eq_dec cs k)), seq_nth by lia. reflexivity.
Qed.
Lemma histo_snoc : forall cs c, c < 7 -> upd (histo cs) c (nth c (histo cs) 0 + 1) = histo (cs ++ [c]).
Proof.
  intros cs c Hc. apply (list_ext _ 0).
  - rewrite length_upd. reflexivity.
  - rewrite length_upd. intros k Hk. change (length (histo cs)) with 7 in Hk. rewrite nth_upd by exact Hc. rewrite !nth_histo by auto.
    rewrite count_occ_app. cbn [count_occ]. destruct (Nat.eqb_spec k c), (Nat.eq_dec c k); subst; try congruence; lia.
Qed.
Definition block (M i : nat) (bits : list N) : list N := firstn M (skipn (i * M) bits).
Lemma longest_table_ok : forall M N bits, N * M <= length bits ->
  longest_table M N bits = Ok (histo (map (fun i => longest_class M (snd (lr (block M i bits)))) (seq 0 N))).
Proof.
  intros M N bits HL.
  assert (W : wp (longest_table M N bits) (fun v => v = histo (map (fun i => longest_class M (snd (lr (block M i bits)))) (seq 0 N)))).
  { unfold longest_table. apply (wp_for_up _ (fun t v => v = histo (map (fun i => longest_class M (snd (lr (block M i bits)))) (seq 0 t)))); [lia|reflexivity| |auto].
    intros i v _ Hi ->.
    assert (E : pyslice bits (i * M) ((i + 1) * M) = block M i bits).
    { unfold pyslice, block. f_equal. nia. }
    rewrite E, longest_run_ok by (unfold block; rewrite firstn_length, skipn_length; nia). cbn [bind].
    set (c := longest_class M _) in *. assert (Hc : c < 7) by apply longest_class_lt.
    apply wp_bind, (wp_aget _ _ _ 0); [exact Hc|]. apply wp_aset; [exact Hc|].
    rewrite seq_S, map_app. cbn [map plus]. fold c. apply histo_snoc, Hc. }
  apply wp_exists in W as (v & -> & ->). reflexivity.
Qed.

(** ** Counting *)
Definition lcount (k n t : nat) : N :=
  N.of_nat (length (filter (fun w => (snd (lr w) <=? k) && (fst (lr w) =? t)) (words n))).
Definition lall (k n : nat) : N := N.of_nat (length (filter (fun w => snd (lr w) <=? k) (words n))).
Lemma filter_len_add : forall A (p q : A -> bool) l, (forall a, In a l -> p a = true -> q a = false) ->
  length (filter (fun a => p a || q a) l) = length (filter p l) + length (filter q l).
Proof.
  intros A p q l H. induction l as [|a l IH]; auto. assert (Ha := H a (or_introl eq_refl)).
  assert (IH' := IH ltac:(intros; apply H; simpl; auto)). cbn [filter].
  destruct (p a), (q a); cbn [orb length]; try (specialize (Ha eq_refl)); try discriminate; lia.
Qed.
Lemma sumN_app : forall g a b, sumN g (a ++ b) = (sumN g a + sumN g b)%N.
Proof. intros g a b. unfold sumN. induction a as [|x a IH]; simpl; auto. rewrite IH. lia. Qed.
Lemma lall_sum : forall k n, lall k n = sumN (lcount k n) (seq 0 (S k)).
Proof.
  intros k n. unfold lall.
  assert (G : forall d, d <= S k -> N.of_nat (length (filter (fun w => (snd (lr w) <=? k) && (fst (lr w) <? d)) (words n))) = sumN (lcount k n) (seq 0 d)).
  { induction d as [|d IH]; intros Hd.
    - simpl. rewrite (filter_ext _ (fun _ => false)) by (intros w; rewrite andb_false_r; reflexivity).
      generalize (words n). intros l. induction l; simpl; auto.
    - rewrite seq_S, sumN_app, <- IH by lia. unfold sumN. cbn [fold_right plus]. unfold lcount. rewrite N.add_0_r, <- Nat2N.inj_add, <- filter_len_add.
      + f_equal. f_equal. apply filter_ext. intros w. rewrite <- andb_orb_distrib_r. f_equal.
        destruct (Nat.ltb_spec (fst (lr w)) (S d)), (Nat.ltb_spec (fst (lr w)) d), (Nat.eqb_spec (fst (lr w)) d); try reflexivity; lia.
      + intros w _ H. apply andb_true_iff in H as [-> H]. apply Nat.ltb_lt in H. cbn [andb]. apply Nat.eqb_neq. lia. }
  rewrite <- G by lia. f_equal. f_equal. apply filter_ext. intros w. assert (H := lr_inv w). destruct (lr w) as [t l]. cbn [fst snd].
  destruct H as [H _]. destruct (Nat.leb_spec l k); auto. symmetry. apply Nat.ltb_lt. lia.
Qed.

Lemma len_filter_map : forall A B (f : A -> B) p l, length (filter p (map f l)) = length (filter (fun a => p (f a)) l).
Proof. intros A B f p l. induction l as [|a l IH]; simpl; auto. destruct (p (f a)); simpl; auto. Qed.
Lemma filter_none : forall A (l : list A), filter (fun _ => false) l = [].
Proof. intros A l. induction l; simpl; auto. Qed.
Lemma lcount_0 : forall k t, lcount k 0 t = if t =? 0 then 1%N else 0%N.
Proof. intros k [|t]; reflexivity. Qed.
Lemma lcount_S0 : forall k n, lcount k (S n) 0 = lall k n.
Proof.
  intros k n. unfold lcount, lall. cbn [words]. rewrite filter_app, app_length, !len_filter_map. rewrite Nat2N.inj_add.
  rewrite (filter_ext (fun w => (snd (lr (w ++ [1%N])) <=? k) && (fst (lr (w ++ [1%N])) =? 0)) (fun _ => false)).
  - rewrite filter_none. cbn [length]. rewrite N.add_0_r. f_equal. f_equal. apply filter_ext. intros w. rewrite lr_snoc. destruct (lr w) as [t l]. cbn.
    apply andb_true_r.
  - intros w. rewrite lr_snoc. destruct (lr w) as [t l]. unfold lr_step. cbn [N.eqb Pos.eqb fst snd]. replace (t + 1) with (S t) by lia.
    apply andb_false_r.
Qed.
Lemma lcount_SS : forall k n t, lcount k (S n) (S t) = if S t <=? k then lcount k n t else 0%N.
Proof.
  intros k n t. unfold lcount. cbn [words]. rewrite filter_app, app_length, !len_filter_map. rewrite Nat2N.inj_add.
  rewrite (filter_ext (fun w => (snd (lr (w ++ [0%N])) <=? k) && (fst (lr (w ++ [0%N])) =? S t)) (fun _ => false)).
  - rewrite filter_none. cbn [length]. rewrite N.add_0_l.
    destruct (Nat.leb_spec (S t) k) as [Hk|Hk].
    + f_equal. f_equal. apply filter_ext. intros w. rewrite lr_snoc. destruct (lr w) as [u l]. unfold lr_step. cbn [N.eqb Pos.eqb fst snd].
      destruct (Nat.eqb_spec (u + 1) (S t)), (Nat.eqb_spec u t); try (exfalso; lia).
      * rewrite !andb_true_r. subst u. destruct (Nat.ltb_spec l (t + 1)), (Nat.leb_spec l k); try reflexivity; first [apply Nat.leb_le; lia | apply Nat.leb_gt; lia].
      * rewrite !andb_false_r. reflexivity.
    + rewrite (filter_ext _ (fun _ => false)); [rewrite filter_none; reflexivity|].
      intros w. rewrite lr_snoc. destruct (lr w) as [u l]. unfold lr_step. cbn [N.eqb Pos.eqb fst snd].
      destruct (Nat.eqb_spec (u + 1) (S t)); [|apply andb_false_r]. rewrite andb_true_r. apply Nat.leb_gt.
      destruct (Nat.ltb_spec l (u + 1)); lia.
  - intros w. rewrite lr_snoc. destruct (lr w) as [u l]. apply andb_false_r.
Qed.

(** ** The numbers by a recursion on vectors *)
Definition sumV (v : list N) : N := fold_right N.add 0%N v.
Definition vstep (v : list N) : list N := sumV v :: removelast v.
Fixpoint vec (k n : nat) : list N := match n with O => 1%N :: repeat 0%N k | S n' => vstep (vec k n') end.
Lemma sumV_map : forall g s, sumV (map g s) = sumN g s.
Proof. intros g s. unfold sumV, sumN. induction s as [|a s IH]; simpl; auto. rewrite IH. reflexivity. Qed.
Lemma vec_ok : forall k n, vec k n = map (lcount k n) (seq 0 (S k)).
Proof.
  intros k n. induction n as [|n IH].
  - cbn [vec seq map]. rewrite lcount_0. cbn [Nat.eqb]. f_equal.
    assert (X : forall s, ~ In 0 s -> repeat 0%N (length s) = map (lcount k 0) s).
    { intros s Hs. induction s as [|a s IHs]; simpl; auto. rewrite lcount_0. destruct (Nat.eqb_spec a 0) as [->|]; [exfalso; apply Hs; simpl; auto|].
      f_equal. apply IHs. intros H. apply Hs. simpl; auto. }
    rewrite <- X by (intros H; apply in_seq in H; lia). rewrite seq_length. reflexivity.
  - cbn [vec]. rewrite IH. unfold vstep. rewrite sumV_map, <- lall_sum, <- (lcount_S0 k n). cbn [seq map]. f_equal.
    change (lcount k n 0 :: map (lcount k n) (seq 1 k)) with (map (lcount k n) (seq 0 (S k))).
    rewrite seq_S, map_app. cbn [map]. rewrite removelast_last. cbn [plus]. rewrite <- seq_shift, map_map.
    apply map_ext_in. intros t Ht. apply in_seq in Ht. rewrite lcount_SS. destruct (Nat.leb_spec (S t) k); [reflexivity|lia].
Qed.
Lemma lall_vec : forall k n, lall k n = sumV (vec k n).
Proof. intros k n. rewrite vec_ok, sumV_map, lall_sum. reflexivity. Qed.

(** ** Geometric bound *)
Lemma lcount_shift : forall k d n t, t + d <= k -> lcount k (n + d) (t + d) = lcount k n t.
Proof.
  induction d as [|d IH]; intros n t H; [rewrite !Nat.add_0_r; reflexivity|].
  rewrite !Nat.add_succ_r, lcount_SS. destruct (Nat.leb_spec (S (t + d)) k); [apply IH|]; lia.
Qed.
Lemma lall_S : forall k n, (lall k (S n) + lcount k n k = 2 * lall k n)%N.
Proof.
  intros k n. rewrite (lall_sum k (S n)). cbn [seq]. unfold sumN at 1. cbn [fold_right]. fold (sumN (lcount k (S n)) (seq 1 k)).
  rewrite lcount_S0.
  assert (E : sumN (lcount k (S n)) (seq 1 k) = sumN (lcount k n) (seq 0 k)).
  { rewrite <- !sumV_map, <- seq_shift, map_map. f_equal. apply map_ext_in. intros t Ht. apply in_seq in Ht. rewrite lcount_SS.
    destruct (Nat.leb_spec (S t) k); [reflexivity|lia]. }
  rewrite E. assert (F := lall_sum k n). rewrite seq_S, sumN_app in F. unfold sumN at 2 in F. cbn [fold_right plus] in F. lia.
Qed.
Lemma lall_le : forall k d n, (lall k (n + d) <= 2 ^ N.of_nat d * lall k n)%N.
Proof.
  induction d as [|d IH]; intros n; [rewrite Nat.add_0_r; change (2 ^ N.of_nat 0)%N with 1%N; lia|].
  rewrite Nat.add_succ_r, Nat2N.inj_succ, N.pow_succ_r'. assert (E := lall_S k (n + d)). specialize (IH n). nia.
Qed.
Lemma lall_geo : forall k d, ((2 ^ N.of_nat (S k)) ^ N.of_nat d * lall k (S k + d) <= (2 ^ N.of_nat (S (S k)) - 1) ^ N.of_nat d * 2 ^ N.of_nat (S k))%N.
Proof.
  induction d as [|d IH].
  - rewrite Nat.add_0_r. change (N.of_nat 0) with 0%N. rewrite !N.pow_0_r. assert (H := lall_le k (S k) 0). cbn [plus] in H.
    change (lall k 0) with 1%N in H. lia.
  - rewrite Nat.add_succ_r, !Nat2N.inj_succ, !(N.pow_succ_r' _ (N.of_nat d)), <- !Nat2N.inj_succ.
    assert (E := lall_S k (S k + d)). assert (F := lall_le k (S k) d). rewrite (Nat.add_comm d) in F.
    assert (G : lcount k (S k + d) k = lall k d).
    { rewrite <- lcount_S0. replace (S k + d) with (S d + k) by lia. replace k with (0 + k) at 3 by lia. apply lcount_shift. lia. }
    rewrite G in E. rewrite (Nat2N.inj_succ (S k)), (N.pow_succ_r' 2 (N.of_nat (S k))) in *.
    set (P := (2 ^ N.of_nat (S k))%N) in *. set (X := (P ^ N.of_nat d)%N) in *. set (Y := ((2 * P - 1) ^ N.of_nat d)%N) in *.
    assert (HP : (0 < P)%N) by (apply N.neq_0_lt_0, N.pow_nonzero; discriminate).
    clearbody P X Y. assert (H : (P * lall k (S (S k + d)) <= (2 * P - 1) * lall k (S k + d))%N) by nia.
    apply N.le_trans with (X * ((2 * P - 1) * lall k (S k + d)))%N; [nia|].
    apply N.le_trans with ((2 * P - 1) * (X * lall k (S k + d)))%N; [nia|]. rewrite <- N.mul_assoc. apply N.mul_le_mono_l. exact IH.
Qed.
