(** The reference probabilities of the longest-run test; cumulative sums. *)
From Coq Require Import Arith NArith ZArith QArith List Bool Lia.
From Verif Require Import Base Spec LinAlg Mem ModelRank ModelNist SpecNist RankTest LCCount RankCount Nist1 Nist2.
Import ListNotations.
Local Open Scope nat_scope.

Definition cut (M : nat) : list nat := if M =? 8 then [1; 2; 3] else if M =? 128 then [4; 5; 6; 7; 8] else [10; 11; 12; 13; 14; 15].
Definition ccount (M k n : nat) : N := N.of_nat (length (filter (fun w => longest_class M (snd (lr w)) =? k) (words n))).
Definition below (M k n : nat) : N := if k =? 0 then 0%N else lall (nth (k - 1) (cut M) 0) n.
Definition upto (M k n : nat) : N := if k <? length (cut M) then lall (nth k (cut M) 0) n else (2 ^ N.of_nat n)%N.

Ltac cases_k l := cbn [nth Nat.sub orb andb length];
    repeat match goal with |- context [l <=? ?b] => destruct (Nat.leb_spec l b) | |- context [l =? ?b] => destruct (Nat.eqb_spec l b)
      | |- context [?a <? l] => destruct (Nat.ltb_spec a l) end; try reflexivity; exfalso; lia.
Lemma class_range : forall M k l, k <= length (cut M) ->
  (longest_class M l =? k) = ((k =? 0) || (nth (k - 1) (cut M) 0 <? l)) && ((length (cut M) <=? k) || (l <=? nth k (cut M) 0)).
Proof.
  intros M k l. unfold cut, longest_class. destruct (M =? 8); [|destruct (M =? 128)]; cbn [length]; intros Hk.
  - assert (K : k = 0 \/ k = 1 \/ k = 2 \/ k = 3) by lia. destruct K as [->|[->|[->| ->]]]; cases_k l.
  - assert (K : k = 0 \/ k = 1 \/ k = 2 \/ k = 3 \/ k = 4 \/ k = 5) by lia. destruct K as [->|[->|[->|[->|[->| ->]]]]]; cases_k l.
  - assert (K : k = 0 \/ k = 1 \/ k = 2 \/ k = 3 \/ k = 4 \/ k = 5 \/ k = 6) by lia. destruct K as [->|[->|[->|[->|[->|[->| ->]]]]]]; cases_k l.
Qed.
Lemma cut_mono : forall M k, S k < length (cut M) -> nth k (cut M) 0 <= nth (S k) (cut M) 0.
Proof.
  intros M k. unfold cut. destruct (M =? 8); [|destruct (M =? 128)]; cbn [length]; intros Hk.
  - do 3 (destruct k as [|k]; [simpl; lia|]); lia.
  - do 5 (destruct k as [|k]; [simpl; lia|]); lia.
  - do 6 (destruct k as [|k]; [simpl; lia|]); lia.
Qed.
Lemma ccount_ok : forall M k n, k <= length (cut M) -> (ccount M k n + below M k n = upto M k n)%N.
Proof.
  intros M k n Hk. unfold ccount. rewrite (filter_ext _ _ (fun w => class_range M k (snd (lr w)) Hk)).
  unfold below, upto. rewrite <- (words_len n).
  destruct (Nat.eqb_spec k 0) as [->|Hk0]; cbn [orb andb].
  - rewrite N.add_0_r. destruct (Nat.ltb_spec 0 (length (cut M))) as [H|H].
    + rewrite (proj2 (Nat.leb_gt _ _) H). reflexivity.
    + rewrite (proj2 (Nat.leb_le _ _) H). cbn [orb]. f_equal. f_equal. generalize (words n). intros l. induction l; simpl; congruence.
  - unfold lall. rewrite <- Nat2N.inj_add, <- filter_len_add.
    + destruct (Nat.ltb_spec k (length (cut M))) as [H|H].
      * rewrite (proj2 (Nat.leb_gt _ _) H). cbn [orb]. f_equal. f_equal. apply filter_ext. intros w.
        assert (X := cut_mono M (k - 1)). replace (S (k - 1)) with k in X by lia. specialize (X H).
        destruct (Nat.ltb_spec (nth (k - 1) (cut M) 0) (snd (lr w))), (Nat.leb_spec (snd (lr w)) (nth k (cut M) 0)),
          (Nat.leb_spec (snd (lr w)) (nth (k - 1) (cut M) 0)); cbn; try reflexivity; exfalso; lia.
      * rewrite (proj2 (Nat.leb_le _ _) H). cbn [orb]. f_equal.
        rewrite (filter_ext _ (fun _ => true)); [generalize (words n); intros l; induction l; simpl; congruence|].
        intros w. rewrite andb_true_r.
        destruct (Nat.ltb_spec (nth (k - 1) (cut M) 0) (snd (lr w))), (Nat.leb_spec (snd (lr w)) (nth (k - 1) (cut M) 0)); cbn; try reflexivity; exfalso; lia.
    + intros w _ H. apply andb_true_iff in H as [H _]. apply Nat.ltb_lt in H. apply Nat.leb_gt. exact H.
Qed.

(** the words of a class *)
Lemma class_words : forall M k n, exists ws, NoDup ws /\
  (forall w, In w ws <-> length w = n /\ isbits w /\ exists r, longest_is w r /\ longest_class M r = k) /\
  N.of_nat (length ws) = ccount M k n.
Proof.
  intros M k n. exists (filter (fun w => longest_class M (snd (lr w)) =? k) (words n)). refine (conj _ (conj _ eq_refl)).
  - apply NoDup_filter, words_nodup.
  - intros w. rewrite filter_In, words_in, Nat.eqb_eq. split.
    + intros [[H1 H2] H3]. refine (conj H1 (conj H2 _)). exists (snd (lr w)). split; [apply lr_longest|exact H3].
    + intros (H1 & H2 & r & H3 & H4). split; [auto|]. rewrite (longest_unique w _ r (lr_longest w) H3). exact H4.
Qed.

(** ** The tables for 8 and 128 bits *)
Definition lallV (k n : nat) : N := sumV (vec k n).
Definition upV (M k : nat) : N := if k <? length (cut M) then lallV (nth k (cut M) 0) M else (2 ^ N.of_nat M)%N.
Definition belowV (M k : nat) : N := if k =? 0 then 0%N else lallV (nth (k - 1) (cut M) 0) M.
Definition numV (M k : nat) : N := (upV M k - belowV M k)%N.
Lemma ccount_V : forall M k, k <= length (cut M) -> ccount M k M = numV M k.
Proof.
  intros M k Hk. assert (E := ccount_ok M k M Hk). unfold numV.
  assert (E1 : upV M k = upto M k M). { unfold upV, upto, lallV. destruct (k <? length (cut M)); [rewrite lall_vec|]; reflexivity. }
  assert (E2 : belowV M k = below M k M). { unfold belowV, below, lallV. destruct (k =? 0); [|rewrite lall_vec]; reflexivity. }
  rewrite E1, E2. lia.
Qed.
(** |num / 2^M - p| <= 1/10000 in integers, for p = a / 10000 *)
Definition near (M k : nat) : bool :=
  let p := nth k (longest_probs M) 0%Q in
  let f := (inject_Z (Z.of_N (numV M k)) / inject_Z (2 ^ Z.of_nat M))%Q in
  Qle_bool (f - p) (1 # 10000) && Qle_bool (p - f) (1 # 10000).
Lemma near_ok : forallb (near 8) (seq 0 4) && forallb (near 128) (seq 0 6) = true.
Proof. vm_compute. reflexivity. Qed.

(** ** The table for 10000 bits *)
Definition mulup (a b : N) : N := (N.div (a * b) (2 ^ 32) + 1)%N.
Fixpoint upow (a : N) (p : positive) : N :=
  match p with xH => a | xO q => let x := upow a q in mulup x x | xI q => let x := upow a q in mulup (mulup x x) a end.
Lemma mulup_ge : forall a b, (a * b <= mulup a b * 2 ^ 32)%N.
Proof. intros a b. unfold mulup. assert (H := N.div_mod (a * b) (2 ^ 32) ltac:(discriminate)). assert (K := N.mod_lt (a * b) (2 ^ 32) ltac:(discriminate)). nia. Qed.
Lemma mulup_ok : forall a b x y u v, (x * 2 ^ 32 <= a * y)%N -> (u * 2 ^ 32 <= b * v)%N -> ((x * u) * 2 ^ 32 <= mulup a b * (y * v))%N.
Proof.
  intros a b x y u v H1 H2. assert (H := mulup_ge a b). change (2 ^ 32)%N with 4294967296%N in *.
  assert (H3 : ((x * 4294967296) * (u * 4294967296) <= (a * y) * (b * v))%N) by (apply N.mul_le_mono; auto).
  assert (H4 : ((a * b) * (y * v) <= (mulup a b * 4294967296) * (y * v))%N) by (apply N.mul_le_mono_r; auto).
  replace ((a * y) * (b * v))%N with ((a * b) * (y * v))%N in H3 by lia.
  assert (H5 : (4294967296 * (x * u * 4294967296) <= 4294967296 * (mulup a b * (y * v)))%N) by lia.
  apply N.mul_le_mono_pos_l in H5; [exact H5|reflexivity].
Qed.
Lemma upow_ok : forall a x y p, (x * 2 ^ 32 <= a * y)%N -> (x ^ Npos p * 2 ^ 32 <= upow a p * y ^ Npos p)%N.
Proof.
  intros a x y p H. induction p as [p IH|p IH|].
  - change (Npos p~1) with (N.succ_double (Npos p)). rewrite N.succ_double_spec, !N.pow_add_r, !N.pow_1_r.
    rewrite !(N.mul_comm 2), !N.pow_mul_r, !N.pow_2_r. cbn [upow]. apply mulup_ok; [apply mulup_ok; exact IH|exact H].
  - change (Npos p~0) with (N.double (Npos p)). rewrite N.double_spec, !(N.mul_comm 2), !N.pow_mul_r, !N.pow_2_r.
    cbn [upow]. apply mulup_ok; exact IH.
  - rewrite !N.pow_1_r. exact H.
Qed.
Lemma upow_val : (upow 4293918720 9989 * 10000 <=? 875 * 2 ^ 32)%N = true.
Proof. vm_compute. reflexivity. Qed.

Lemma geo_10000 : forall n d, n = 11 + d -> N.of_nat d = 9989%N -> (lall 10 n * 10000 <= 875 * 2 ^ N.of_nat n)%N.
Proof.
  intros n d -> Hd. assert (H := lall_geo 10 d). rewrite Hd in H. change (S 10 + d) with (11 + d) in H.
  change (2 ^ N.of_nat (S (S 10)) - 1)%N with 4095%N in H. change (N.of_nat (S 10)) with 11%N in H.
  assert (U := upow_ok 4293918720 4095 4096 9989 ltac:(discriminate)). assert (V := proj1 (N.leb_le _ _) upow_val).
  rewrite Nat2N.inj_add, Hd. change (N.of_nat 11) with 11%N. rewrite N.pow_add_r.
  assert (E : (4096 ^ 9989 = (2 ^ 11) ^ 9989 * 2 ^ 9989)%N) by (rewrite <- N.pow_mul_l; reflexivity).
  rewrite E in U. clear E.
  set (X := (4095 ^ 9989)%N) in *. set (Y := ((2 ^ 11) ^ 9989)%N) in *. set (Z := (2 ^ 9989)%N) in *. set (A := upow 4293918720 9989) in *.
  set (L := lall 10 (11 + d)) in *.
  assert (HY : (0 < Y)%N) by (apply N.neq_0_lt_0, N.pow_nonzero; discriminate).
  clearbody X Y Z A L. change (2 ^ 32)%N with 4294967296%N in *. change (2 ^ 11)%N with 2048%N in *.
  assert (H1 : (Y * L * (4294967296 * 10000) <= X * 2048 * (4294967296 * 10000))%N) by (apply N.mul_le_mono_r; exact H).
  assert (H2 : (X * 4294967296 * (2048 * 10000) <= A * (Y * Z) * (2048 * 10000))%N) by (apply N.mul_le_mono_r; exact U).
  assert (H3 : (A * 10000 * (Y * Z * 2048) <= 875 * 4294967296 * (Y * Z * 2048))%N) by (apply N.mul_le_mono_r; exact V).
  assert (H4 : ((4294967296 * Y) * (L * 10000) <= (4294967296 * Y) * (875 * (2048 * Z)))%N) by nia.
  apply N.mul_le_mono_pos_l in H4; [exact H4|lia].
Qed.

(** ** Cumulative sums *)
Definition emax (x : list Z) : Z * Z := fold_left (fun st e => let '(pos, mx) := st in
    let pos := (pos + e)%Z in (pos, if (mx <? Z.abs pos)%Z then Z.abs pos else mx)) x (0, 0)%Z.
Definition sumZ (x : list Z) : Z := fold_right Z.add 0%Z x.
Lemma sumZ_app : forall a b, sumZ (a ++ b) = (sumZ a + sumZ b)%Z.
Proof. intros a b. unfold sumZ. induction a as [|x a IH]; simpl; auto. rewrite IH. lia. Qed.
Lemma emax_ok : forall x, fst (emax x) = sumZ x /\ (exists k, k <= length x /\ snd (emax x) = Z.abs (sumZ (firstn k x))) /\
  forall k, k <= length x -> (Z.abs (sumZ (firstn k x)) <= snd (emax x))%Z.
Proof.
  intros x. induction x as [|e x IH] using rev_ind.
  - split; [reflexivity|split]; [exists 0; auto|]. intros k Hk. simpl in Hk. replace k with 0 by lia. reflexivity.
  - destruct IH as (E & (k0 & K1 & K2) & M). unfold emax in *. rewrite fold_left_app. cbn [fold_left].
    destruct (fold_left _ x (0, 0)%Z) as [pos mx]. cbn [fst snd] in *. subst pos. rewrite sumZ_app, app_length. cbn [length].
    replace (sumZ [e]) with e by (unfold sumZ; simpl; lia).
    assert (Hf : forall k, k <= length x -> firstn k (x ++ [e]) = firstn k x).
    { intros k Hk. rewrite firstn_app. replace (k - length x) with 0 by lia. apply app_nil_r. }
    assert (Hl : sumZ (firstn (length x + 1) (x ++ [e])) = (sumZ x + e)%Z).
    { rewrite firstn_all2 by (rewrite app_length; simpl; lia). rewrite sumZ_app. unfold sumZ at 2. simpl. lia. }
    split; [reflexivity|split].
    + destruct (Z.ltb_spec mx (Z.abs (sumZ x + e))).
      * exists (length x + 1). split; [lia|]. rewrite Hl. reflexivity.
      * exists k0. split; [lia|]. rewrite Hf by auto. exact K2.
    + intros k Hk. destruct (Nat.eq_dec k (length x + 1)) as [->|].
      * rewrite Hl. destruct (Z.ltb_spec mx (Z.abs (sumZ x + e))); lia.
      * assert (Hk' : k <= length x) by lia. rewrite Hf by exact Hk'. specialize (M k Hk'). destruct (Z.ltb_spec mx (Z.abs (sumZ x + e))); lia.
Qed.
Lemma sum_plusminus : forall bits, isbits bits -> sumZ (plusminus bits) = (2 * Z.of_nat (ones bits) - Z.of_nat (length bits))%Z.
Proof.
  intros bits H. induction bits as [|x l IH]; [reflexivity|]. unfold plusminus, sumZ in *. cbn [map fold_right length].
  rewrite IH by (intros y Hy; apply H; simpl; auto). unfold ones. cbn [count_occ].
  destruct (H x ltac:(simpl; auto)) as [->| ->]; destruct (N.eq_dec _ _); try discriminate; try congruence; lia.
Qed.
Lemma walk_sum : forall bits k, isbits bits -> sumZ (firstn k (plusminus bits)) = walk bits k.
Proof.
  intros bits k H. unfold plusminus. rewrite firstn_map. fold (plusminus (firstn k bits)). rewrite sum_plusminus; [reflexivity|].
  intros x Hx. apply H. rewrite <- (firstn_skipn k bits). apply in_app_iff. auto.
Qed.
Lemma sumZ_rev : forall x, sumZ (rev x) = sumZ x.
Proof. intros x. induction x as [|a x IH]; [reflexivity|]. cbn [rev]. rewrite sumZ_app, IH. unfold sumZ. simpl. lia. Qed.
Lemma back_sum : forall bits k, isbits bits -> k <= length bits ->
  sumZ (firstn k (rev (plusminus bits))) = (walk bits (length bits) - walk bits (length bits - k))%Z.
Proof.
  intros bits k H Hk. rewrite firstn_rev, sumZ_rev. unfold plusminus at 1. rewrite map_length.
  rewrite <- !walk_sum by exact H. assert (E := firstn_skipn (length bits - k) (plusminus bits)).
  assert (F := f_equal sumZ E). rewrite sumZ_app in F. rewrite (firstn_all2 (n := length bits)) by (unfold plusminus; rewrite map_length; lia).
  unfold plusminus in *. rewrite ?map_length. lia.
Qed.
