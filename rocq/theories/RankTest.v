(** The binary matrix rank test: what it counts, and its value on sequences of invertible
    matrices. *)
From Coq Require Import Arith NArith ZArith QArith List Bool Lia.
From Verif Require Import Base Model Spec LinAlg Gauss ModelSM4 ModelRank SpecRank Rank.
Import ListNotations.
Local Open Scope nat_scope.

Lemma nth_skipn' : forall A (l : list A) p i d, nth i (skipn p l) d = nth (p + i) l d.
Proof.
  intros A l p. revert l. induction p; intros [|x l] i d; simpl; auto. destruct i; auto.
Qed.
Lemma nth_firstn' : forall A (l : list A) n i d, i < n -> nth i (firstn n l) d = nth i l d.
Proof. induction l; intros [|n] [|i] d H; simpl; auto; try lia. apply IHl. lia. Qed.
Lemma nth_pyslice : forall A (l : list A) a b i d, i < b - a -> nth i (pyslice l a b) d = nth (a + i) l d.
Proof. intros. unfold pyslice. rewrite nth_firstn' by auto. apply nth_skipn'. Qed.
Lemma length_pyslice : forall A (l : list A) a b, a <= b -> b <= length l -> length (pyslice l a b) = b - a.
Proof. intros. unfold pyslice. rewrite firstn_length, skipn_length. lia. Qed.
Lemma in_pyslice : forall A (l : list A) a b x, In x (pyslice l a b) -> In x l.
Proof.
  intros A l a b x H. unfold pyslice in H. rewrite <- (firstn_skipn a l).
  apply in_or_app. right. rewrite <- (firstn_skipn (b - a) (skipn a l)). apply in_or_app. auto.
Qed.

(** ** The blocks *)

Definition bits01 (bits : list N) : Prop := forall x, In x bits -> x = 0%N \/ x = 1%N.

Lemma block_in : forall n L k, k < L / (n * n) -> (k + 1) * (n * n) <= L.
Proof.
  intros n L k H. assert (n * n <> 0) by (intros E; rewrite E in H; simpl in H; lia).
  assert (X := Nat.mul_div_le L (n * n) H0). nia.
Qed.
Lemma block_matrix : forall n bits k, bits01 bits -> k < length bits / (n * n) ->
  let m := matrix_from_bits n n (pyslice bits (k * (n * n)) ((k + 1) * (n * n))) in
  bitmat n n m /\ forall i j, i < n -> j < n -> pbits m i j = blk n bits k i j.
Proof.
  intros n bits k Hb Hk. apply block_in in Hk. unfold matrix_from_bits.
  set (B := pyslice bits _ _).
  assert (HB : length B = n * n) by (unfold B; rewrite length_pyslice; lia).
  cbv zeta. split; [split|].
  - rewrite map_length, seq_length. reflexivity.
  - intros row Hr. apply in_map_iff in Hr as (i & <- & Hi). apply in_seq in Hi. split.
    + rewrite length_pyslice; nia.
    + intros x Hx. apply Hb. apply in_pyslice in Hx. apply in_pyslice in Hx. exact Hx.
  - intros i j Hi Hj. unfold pbits, blk. f_equal.
    rewrite (nth_indep _ [] ((fun r => pyslice B (r * n) ((r + 1) * n)) 0)) by (rewrite map_length, seq_length; lia).
    rewrite (map_nth (fun r => pyslice B (r * n) ((r + 1) * n))).
    rewrite seq_nth by auto. rewrite nth_pyslice by nia. unfold B. rewrite nth_pyslice by nia.
    f_equal. lia.
Qed.

(** ** The counts *)

Lemma rank_counts_wp : forall n bits, bits01 bits ->
  wp (rank_counts n n bits) (fun c => let '(FM, FMM, rem) := c in
    exists rs, length rs = length bits / (n * n) /\
      (forall k, k < length bits / (n * n) -> rank_is n n (blk n bits k) (nth k rs 0)) /\
      FM = count_occ Nat.eq_dec rs n /\
      (0 < n -> FMM = count_occ Nat.eq_dec rs (n - 1)) /\
      FM + FMM + rem = length bits / (n * n)).
Proof.
  intros n bits Hb. unfold rank_counts.
  apply (wp_for_up _ (fun t c => let '(FM, FMM, rem) := c in
    exists rs, length rs = t /\
      (forall k, k < t -> rank_is n n (blk n bits k) (nth k rs 0)) /\
      FM = count_occ Nat.eq_dec rs n /\
      (0 < n -> FMM = count_occ Nat.eq_dec rs (n - 1)) /\ FM + FMM + rem = t)); [lia| | |].
  - exists []. refine (conj eq_refl (conj _ (conj eq_refl (conj (fun _ => eq_refl) eq_refl)))). intros; lia.
  - intros k [[FM FMM] rem] _ Hk (rs & HL & Hr & H1 & H2 & H3).
    destruct (block_matrix n bits k Hb Hk) as [Hm Hbits].
    set (m := matrix_from_bits _ _ _) in *. destruct (rank_ok n n m Hm) as (r & Er & Hrk). rewrite Er. cbn [bind].
    assert (Hrk' : rank_is n n (blk n bits k) r).
    { apply (rank_is_ext n (pbits m)); auto. }
    assert (Hn : forall k', k' < S k -> rank_is n n (blk n bits k') (nth k' (rs ++ [r]) 0)).
    { intros k' Hk'. destruct (Nat.eq_dec k' k) as [->|].
      - rewrite <- HL at 2. rewrite nth_middle. exact Hrk'.
      - rewrite app_nth1 by lia. apply Hr. lia. }
    assert (Hlen : length (rs ++ [r]) = S k) by (rewrite app_length; simpl; lia).
    destruct (Nat.eqb_spec r n) as [->|Hne]; [|destruct (Nat.eqb_spec r (n - 1)) as [->|Hne2]]; apply wp_ok;
      (eexists; refine (conj Hlen (conj Hn _)); rewrite !count_occ_app; simpl).
    + destruct (Nat.eq_dec n n); [|congruence].
      refine (conj _ (conj _ _)); try lia. intros H0. destruct (Nat.eq_dec n (n - 1)); [lia|]. rewrite H2; lia.
    + destruct (Nat.eq_dec (n - 1) n); [lia|].
      refine (conj _ (conj _ _)); try lia. intros H0. destruct (Nat.eq_dec (n - 1) (n - 1)); [|congruence]. rewrite H2; lia.
    + destruct (Nat.eq_dec r n); [lia|].
      refine (conj _ (conj _ _)); try lia. intros H0. destruct (Nat.eq_dec r (n - 1)); [congruence|]. rewrite H2; lia.
  - intros [[FM FMM] rem] H. exact H.
Qed.

Lemma rank_counts_invertible : forall n bits, bits01 bits -> 0 < n ->
  (forall k, k < length bits / (n * n) -> invertible n (blk n bits k)) ->
  rank_counts n n bits = Ok (length bits / (n * n), 0, 0).
Proof.
  intros n bits Hb Hn Hi. destruct (wp_exists _ _ _ (rank_counts_wp n bits Hb)) as ([[FM FMM] rem] & E & (rs & HL & Hr & H1 & H2 & H3)).
  assert (Hall : forall x, In x rs -> x = n).
  { intros x Hx. apply (In_nth _ _ 0) in Hx as (k & Hk & <-).
    apply (rank_is_unique n n (blk n bits k)); [apply Hr; lia|]. apply full_rank. apply Hi. lia. }
  assert (HF : FM = length rs).
  { rewrite H1. clear -Hall. induction rs as [|x rs IH]; auto. simpl.
    rewrite (Hall x) by (simpl; auto). destruct (Nat.eq_dec n n); [|congruence]. rewrite IH; auto.
    intros; apply Hall; simpl; auto. }
  rewrite E. repeat f_equal; lia.
Qed.

(** ** The chi-square value *)

Lemma FR_lt : (rank_prob 32 32 32 < 29 # 100)%Q.
Proof. vm_compute. reflexivity. Qed.
Lemma FR_pos : (0 < rank_prob 32 32 32)%Q.
Proof. vm_compute. reflexivity. Qed.
Lemma FR1_pos : (0 < rank_prob 32 32 31)%Q.
Proof. vm_compute. reflexivity. Qed.
Lemma LR_pos : (0 < 1 - (rank_prob 32 32 32 + rank_prob 32 32 31))%Q.
Proof. vm_compute. reflexivity. Qed.
Lemma chisq_full : forall N, (0 < N) ->
  (rank_chisq 32 32 N (N, 0, 0)%nat == inject_Z (Z.of_nat N) * ((1 - rank_prob 32 32 32) / rank_prob 32 32 32))%Q.
Proof.
  intros N HN. unfold rank_chisq. change (32 - 1) with 31.
  assert (H1 := FR_pos). assert (H2 := FR1_pos). assert (H3 := LR_pos).
  set (F := rank_prob 32 32 32) in *. set (G := rank_prob 32 32 31) in *. clearbody F G.
  set (L := (1 - (F + G))%Q) in *.
  assert (HL : (G == 1 - F - L)%Q) by (unfold L; ring).
  change (inject_Z (Z.of_nat 0)) with 0%Q. set (q := inject_Z (Z.of_nat N)).
  assert (Hq : ~ (q == 0)%Q).
  { intros E. unfold q, Qeq in E. simpl in E. lia. }
  assert (F0 : ~ (F == 0)%Q) by (intros E; rewrite E in H1; discriminate).
  assert (G0 : ~ (G == 0)%Q) by (intros E; rewrite E in H2; discriminate).
  assert (L0 : ~ (L == 0)%Q) by (intros E; rewrite E in H3; discriminate).
  assert (X : ((0 - G * q) * (0 - G * q) / (G * q) == G * q)%Q) by (field; auto).
  assert (Y : ((0 - L * q) * (0 - L * q) / (L * q) == L * q)%Q) by (field; auto).
  rewrite X, Y, HL. field. auto.
Qed.
Lemma ratio_ge : ((24 # 10) <= (1 - rank_prob 32 32 32) / rank_prob 32 32 32)%Q.
Proof. vm_compute. discriminate. Qed.
Lemma chisq_ge : forall N, 38 <= N -> (91 <= rank_chisq 32 32 N (N, 0, 0)%nat)%Q.
Proof.
  intros N HN. rewrite chisq_full by lia.
  apply Qle_trans with (inject_Z (Z.of_nat N) * (24 # 10))%Q.
  - unfold Qle. simpl. lia.
  - rewrite !(Qmult_comm (inject_Z (Z.of_nat N))). apply Qmult_le_compat_r; [exact ratio_ge|].
    unfold Qle; simpl; lia.
Qed.

(** ** Files of 32-bit matrices *)

Lemma concat_len : forall A k (L : list (list A)), (forall l, In l L -> length l = k) -> length (concat L) = length L * k.
Proof.
  intros A k L. induction L as [|l L IH]; intros H; simpl; auto.
  rewrite app_length, IH by (intros; apply H; simpl; auto). rewrite (H l) by (simpl; auto). lia.
Qed.
Lemma nth_concat : forall A k (L : list (list A)) a b d, (forall l, In l L -> length l = k) -> b < k ->
  nth (a * k + b) (concat L) d = nth b (nth a L []) d.
Proof.
  intros A k L. induction L as [|l L IH]; intros a b d H Hb; simpl.
  - destruct (a * k + b), a, b; reflexivity.
  - assert (Hl := H l (or_introl eq_refl)). destruct a as [|a]; simpl.
    + apply app_nth1. lia.
    + rewrite app_nth2 by lia. replace (k + a * k + b - length l) with (a * k + b) by lia.
      apply IH; auto. intros; apply H; simpl; auto.
Qed.

Lemma byte_bits_len : forall be b, length (byte_bits be b) = 8.
Proof. intros [|] b; reflexivity. Qed.
Lemma word_bytes_len : forall e x, length (word_bytes e x) = 4.
Proof. intros [|] x; reflexivity. Qed.
Lemma land1_bit : forall y, N.eqb (N.land y 1) 1 = N.testbit y 0.
Proof.
  intros [|[p|p|]]; reflexivity.
Qed.
Lemma land128_bit : forall y, N.eqb (N.shiftr (N.land y 0x80) 7) 1 = N.testbit y 7.
Proof.
  intros y. rewrite N.shiftr_land. change (N.shiftr 0x80 7) with 1%N. rewrite land1_bit, N.shiftr_spec'. reflexivity.
Qed.
Lemma byte_bits_nth : forall be b j, j < 8 -> N.eqb (nth j (byte_bits be b) 0%N) 1 =
  N.testbit b (N.of_nat (if be : bool then 7 - j else j)).
Proof.
  intros [|] b j Hj.
  - do 8 (destruct j as [|j]; [cbn [byte_bits fold_left seq snd app nth]; rewrite land128_bit;
      repeat (rewrite N.shiftl_spec_high' by (vm_compute; discriminate)); reflexivity|]). lia.
  - do 8 (destruct j as [|j]; [cbn [byte_bits fold_left seq snd app nth]; rewrite land1_bit, N.shiftr_spec'; reflexivity|]). lia.
Qed.
Lemma byte_bits_01 : forall be b, bits01 (byte_bits be b).
Proof.
  intros be b x Hx. apply (In_nth _ _ 0%N) in Hx as (j & Hj & <-). rewrite byte_bits_len in Hj.
  assert (X : forall y, N.land y 1 = 0%N \/ N.land y 1 = 1%N).
  { intros [|[p|p|]]; simpl; auto. }
  assert (Y : forall y, N.shiftr (N.land y 0x80) 7 = 0%N \/ N.shiftr (N.land y 0x80) 7 = 1%N).
  { intros y. rewrite N.shiftr_land. apply X. }
  destruct be; do 8 (destruct j as [|j]; [cbn [byte_bits fold_left seq snd app nth]; auto|]); lia.
Qed.
(** the bit number of the word that is bit number j of its four bytes *)
Definition wpos (be : bool) (e : endian) (j : nat) : nat :=
  8 * (match e with LE => j / 8 | BE => 3 - j / 8 end) + (if be then 7 - j mod 8 else j mod 8).
Lemma word_bytes_nth : forall e x q, q < 4 -> forall i, i < 8 ->
  N.testbit (nth q (word_bytes e x) 0%N) (N.of_nat i) =
  N.testbit x (N.of_nat (8 * (match e with LE => q | BE => 3 - q end) + i)).
Proof.
  intros e x q Hq i Hi.
  assert (X : forall k, N.testbit (N.land (N.shiftr x (8 * N.of_nat k)) 255) (N.of_nat i) = N.testbit x (N.of_nat (8 * k + i))).
  { intros k. rewrite N.land_spec. change 255%N with (N.ones 8). rewrite N.ones_spec_low by lia.
    rewrite andb_true_r, N.shiftr_spec'. f_equal. lia. }
  destruct e.
  - destruct q as [|[|[|[|q]]]]; [apply (X 0)|apply (X 1)|apply (X 2)|apply (X 3)|lia].
  - destruct q as [|[|[|[|q]]]]; [apply (X 3)|apply (X 2)|apply (X 1)|apply (X 0)|lia].
Qed.
Lemma read_bits_nth : forall be bs a j, j < 8 -> N.eqb (nth (a * 8 + j) (read_bits be bs) 0%N) 1 =
  N.testbit (nth a bs 0%N) (N.of_nat (if be : bool then 7 - j else j)).
Proof.
  intros be bs a j Hj. unfold read_bits.
  rewrite (nth_concat _ 8); [|intros l Hl; apply in_map_iff in Hl as (b & <- & _); apply byte_bits_len|auto].
  destruct (Nat.lt_ge_cases a (length bs)) as [H|H].
  - rewrite (nth_indep _ [] (byte_bits be 0)) by (rewrite map_length; auto). rewrite map_nth. apply byte_bits_nth; auto.
  - rewrite nth_overflow with (l := map _ _) by (rewrite map_length; auto). rewrite nth_overflow with (l := bs) by auto.
    rewrite N.bits_0. destruct j; reflexivity.
Qed.
Lemma read_bits_01 : forall be bs, bits01 (read_bits be bs).
Proof.
  intros be bs x Hx. unfold read_bits in Hx. apply in_concat in Hx as (l & Hl & Hx).
  apply in_map_iff in Hl as (b & <- & _). eapply byte_bits_01; eauto.
Qed.
Lemma read_bits_len : forall be bs, length (read_bits be bs) = length bs * 8.
Proof.
  intros be bs. unfold read_bits. rewrite (concat_len _ 8), map_length; auto.
  intros l Hl. apply in_map_iff in Hl as (b & <- & _). apply byte_bits_len.
Qed.

Lemma shape32 : forall m, shapeM W32 m -> length (concat m) = 32 /\ forall i, nth i (concat m) 0%N = word m i 0.
Proof.
  intros m [HL HF]. assert (X : forall l, In l m -> length l = 1) by (apply Forall_forall; exact HF).
  split; [rewrite (concat_len _ 1); auto; change (dim W32) with 32 in HL; lia|].
  intros i. rewrite <- (Nat.mul_1_r i) at 1. rewrite <- (Nat.add_0_r (i * 1)), (nth_concat _ 1); auto.
Qed.
Lemma file_len : forall e ms, Forall (shapeM W32) ms -> length (file_bytes e ms) = length ms * 128.
Proof.
  intros e ms H. unfold file_bytes. rewrite (concat_len _ 128), map_length; auto.
  intros l Hl. apply in_map_iff in Hl as (m & <- & Hm). unfold matrix_bytes.
  rewrite (concat_len _ 4), map_length; [|intros b Hb; apply in_map_iff in Hb as (x & <- & _); apply word_bytes_len].
  rewrite Forall_forall in H. destruct (shape32 m (H m Hm)) as [-> _]. reflexivity.
Qed.
Lemma file_blk : forall be e ms k i j, Forall (shapeM W32) ms -> k < length ms -> i < 32 -> j < 32 ->
  blk 32 (read_bits be (file_bytes e ms)) k i j = N.testbit (word (nth k ms []) i 0) (N.of_nat (wpos be e j)).
Proof.
  intros be e ms k i j H Hk Hi Hj. unfold blk.
  assert (Hj8 : j mod 8 < 8) by (apply Nat.mod_upper_bound; lia).
  assert (Hd : j / 8 < 4) by (apply Nat.div_lt_upper_bound; lia).
  replace (k * (32 * 32) + i * 32 + j) with ((k * 128 + (i * 4 + j / 8)) * 8 + j mod 8)
    by (pose proof (Nat.div_mod j 8); lia).
  rewrite read_bits_nth by auto. unfold file_bytes.
  rewrite (nth_concat _ 128); [| |lia].
  2:{ intros l Hl. apply in_map_iff in Hl as (m & <- & Hm). unfold matrix_bytes.
      rewrite (concat_len _ 4), map_length; [|intros b Hb; apply in_map_iff in Hb as (x & <- & _); apply word_bytes_len].
      rewrite Forall_forall in H. destruct (shape32 m (H m Hm)) as [-> _]. reflexivity. }
  rewrite (nth_indep _ [] (matrix_bytes e [])) by (rewrite map_length; auto). rewrite map_nth.
  assert (Hs : shapeM W32 (nth k ms [])) by (rewrite Forall_forall in H; apply H, nth_In, Hk).
  destruct (shape32 _ Hs) as [HL Hw]. set (m := nth k ms []) in *. unfold matrix_bytes.
  rewrite (nth_concat _ 4); [|intros b Hb; apply in_map_iff in Hb as (x & <- & _); apply word_bytes_len|auto].
  rewrite (nth_indep _ [] (word_bytes e 0)) by (rewrite map_length; lia). rewrite map_nth, Hw.
  unfold wpos. destruct be; rewrite word_bytes_nth by lia; reflexivity.
Qed.

(** the columns are permuted *)
Definition col (be : bool) (e : endian) (j : nat) : nat := 31 - wpos be e j.
Lemma col_inv : forall be e j, j < 32 -> col be e j < 32 /\ col be e (col be e j) = j /\ wpos be e j = 31 - col be e j.
Proof.
  assert (X : forallb (fun be => forallb (fun e => forallb (fun j =>
    (col be e j <? 32) && (col be e (col be e j) =? j) && (wpos be e j =? 31 - col be e j)) (seq 0 32)) [LE; BE]) [true; false] = true)
    by (vm_compute; reflexivity).
  intros be e j Hj. rewrite forallb_forall in X. specialize (X be ltac:(destruct be; simpl; auto)).
  rewrite forallb_forall in X. specialize (X e ltac:(destruct e; simpl; auto)).
  rewrite forallb_forall in X. specialize (X j ltac:(apply in_seq; lia)).
  apply andb_true_iff in X as [X X3]. apply andb_true_iff in X as [X1 X2].
  apply Nat.ltb_lt in X1. apply Nat.eqb_eq in X2, X3. auto.
Qed.
Lemma invertible_cols : forall n A s, (forall j, j < n -> s j < n /\ s (s j) = j) ->
  invertible n A -> invertible n (fun i j => A i (s j)).
Proof.
  intros n A s Hs HA.
  assert (HP : invertible n (fun k j => fid k (s j))).
  { assert (E : feq n (fmul n (fun k j => fid k (s j)) (fun k j => fid k (s j))) fid).
    { intros i j Hi Hj. unfold fmul. destruct (Hs j Hj) as [H1 H2]. rewrite (xsum_fid_r n (s j) (fun k => fid i (s k))) by auto.
      rewrite H2. reflexivity. }
    exists (fun k j => fid k (s j)). split; exact E. }
  destruct (invertible_mul _ _ _ HA HP) as [C HC]. exists C.
  assert (E : feq n (fun i j => A i (s j)) (fmul n A (fun k j => fid k (s j)))).
  { intros i j Hi Hj. unfold fmul. rewrite xsum_fid_r by (apply Hs; auto). reflexivity. }
  rewrite E. exact HC.
Qed.
Lemma file_invertible : forall be e ms k, Forall (shapeM W32) ms -> k < length ms ->
  invertible 32 (mbit W32 (nth k ms [])) -> invertible 32 (blk 32 (read_bits be (file_bytes e ms)) k).
Proof.
  intros be e ms k H Hk HI.
  assert (E : feq 32 (blk 32 (read_bits be (file_bytes e ms)) k) (fun i j => mbit W32 (nth k ms []) i (col be e j))).
  { intros i j Hi Hj. rewrite file_blk by auto. destruct (col_inv be e j Hj) as (H1 & H2 & H3). unfold mbit.
    change (wb W32) with 32. rewrite (Nat.div_small (col be e j)), (Nat.mod_small (col be e j)) by auto.
    rewrite H3. reflexivity. }
  destruct (invertible_cols 32 _ (col be e) (fun j Hj => conj (proj1 (col_inv be e j Hj)) (proj1 (proj2 (col_inv be e j Hj)))) HI) as [C HC].
  exists C. rewrite E. exact HC.
Qed.

Lemma rank_test_invertible : forall be e ms, 38 <= length ms ->
  Forall (fun m => shapeM W32 m /\ invertible 32 (mbit W32 m)) ms ->
  rank_counts 32 32 (read_bits be (file_bytes e ms)) = Ok (length ms, 0, 0) /\
  exists chisq, binary_matrix_rank_test 32 32 (read_bits be (file_bytes e ms)) = Ok (Some chisq) /\ (91 <= chisq)%Q.
Proof.
  intros be e ms HN H.
  assert (HS : Forall (shapeM W32) ms) by (eapply Forall_impl; [|exact H]; intros a [Ha _]; exact Ha).
  assert (HL : length (read_bits be (file_bytes e ms)) / (32 * 32) = length ms).
  { rewrite read_bits_len, file_len by auto. rewrite <- Nat.mul_assoc. apply Nat.div_mul. discriminate. }
  assert (E : rank_counts 32 32 (read_bits be (file_bytes e ms)) = Ok (length ms, 0, 0)).
  { rewrite rank_counts_invertible; auto; [rewrite HL; reflexivity|apply read_bits_01|lia|].
    rewrite HL. intros k Hk. apply file_invertible; auto. rewrite Forall_forall in H. apply H, nth_In, Hk. }
  split; auto. unfold binary_matrix_rank_test. rewrite HL. cbv zeta.
  destruct (Nat.ltb_spec (length ms) 38); [lia|]. rewrite E. cbn [bind]. eexists. split; [reflexivity|].
  apply chisq_ge. auto.
Qed.
