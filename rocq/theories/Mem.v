(** Stored matrices: element access, bits, extensionality. *)
From Coq Require Import Arith NArith ZArith List Bool Lia.
From Verif Require Import Base Tables Model Spec LinAlg.
Import ListNotations.

(** ** Geometry of the widths *)

Lemma dim_eq : forall w, dim w = wb w * nw w.
Proof. destruct w; reflexivity. Qed.
Lemma wb_pos : forall w, 0 < wb w.
Proof. destruct w; simpl; lia. Qed.
Lemma nw_pos : forall w, 0 < nw w.
Proof. destruct w; simpl; lia. Qed.
Lemma dim_pos : forall w, 1 < dim w.
Proof. destruct w; simpl; lia. Qed.
Lemma dim_le : forall w, dim w <= 256.
Proof. destruct w; simpl; lia. Qed.
Lemma wb_le_cb : forall w, wb w <= cb w.
Proof. destruct w; simpl; lia. Qed.

Lemma div_lt_nw : forall w c, c < dim w -> c / wb w < nw w.
Proof.
  intros w c H. rewrite dim_eq in H. apply Nat.div_lt_upper_bound; auto.
  pose proof (wb_pos w); lia.
Qed.
Lemma mod_lt_wb : forall w c, c mod wb w < wb w.
Proof. intros w c. apply Nat.mod_upper_bound. pose proof (wb_pos w); lia. Qed.
Lemma div_block : forall w b c, c < wb w -> (wb w * b + c) / wb w = b.
Proof.
  intros w b c H. rewrite Nat.mul_comm, Nat.div_add_l by lia.
  rewrite Nat.div_small by auto. lia.
Qed.
Lemma mod_block : forall w b c, c < wb w -> (wb w * b + c) mod wb w = c.
Proof.
  intros w b c H. rewrite Nat.mul_comm, Nat.add_comm, Nat.mod_add by lia.
  apply Nat.mod_small; auto.
Qed.
Lemma block_lt_dim : forall w b c, b < nw w -> c < wb w -> wb w * b + c < dim w.
Proof. intros w b c Hb Hc. rewrite dim_eq. nia. Qed.

Lemma length_idt : forall w, length (idt w) = wb w.
Proof. destruct w; reflexivity. Qed.

Lemma idt_check : forall w,
  forallb (fun c => N.eqb (nth c (idt w) 0%N) (2 ^ N.of_nat (wb w - 1 - c))%N)
          (seq 0 (wb w)) = true.
Proof. destruct w; vm_compute; reflexivity. Qed.
Lemma nth_idt : forall w c, c < wb w -> nth c (idt w) 0%N = (2 ^ N.of_nat (wb w - 1 - c))%N.
Proof.
  intros w c Hc. pose proof (idt_check w) as H. rewrite forallb_forall in H.
  specialize (H c). rewrite in_seq in H. apply N.eqb_eq. apply H. lia.
Qed.

Lemma wp_idt : forall w c (Q : N -> Prop), c < wb w ->
  Q (2 ^ N.of_nat (wb w - 1 - c))%N -> wp (aget (idt w) c) Q.
Proof.
  intros w c Q Hc HQ. apply wp_aget with (d := 0%N).
  - rewrite length_idt; auto.
  - rewrite nth_idt; auto.
Qed.

(** (x & 2^q) == 2^q tests bit q *)
Lemma land_pow2_eqb : forall x q, N.eqb (N.land x (2 ^ q)) (2 ^ q) = N.testbit x q.
Proof.
  intros x q. destruct (N.testbit x q) eqn:E.
  - apply N.eqb_eq. apply N.bits_inj. intros k. rewrite N.land_spec.
    rewrite N.pow2_bits_eqb. destruct (N.eqb_spec q k) as [<-|]; [rewrite E|]; auto.
    apply andb_false_r.
  - apply N.eqb_neq. intros H. apply (f_equal (fun y => N.testbit y q)) in H.
    rewrite N.land_spec, N.pow2_bits_true, E in H. discriminate.
Qed.

(** ** Shape and elements *)

Lemma shapeM_row : forall w m i, shapeM w m -> i < dim w -> length (nth i m []) = nw w.
Proof.
  intros w m i [HL HF] Hi. rewrite Forall_forall in HF. apply HF. apply nth_In. lia.
Qed.

Lemma shapeM_mk : forall w m, length m = dim w ->
  (forall i, i < dim w -> length (nth i m []) = nw w) -> shapeM w m.
Proof.
  intros w m HL H. split; auto. apply Forall_forall. intros r Hr.
  destruct (In_nth m r [] Hr) as [i [Hi <-]]. apply H. lia.
Qed.

Lemma mat_of_iff : forall w bits m,
  mat_of w bits m <->
  shapeM w m /\ forall i k, (word m i k < 2 ^ N.of_nat bits)%N.
Proof.
  intros w bits m. split.
  - intros [HL HF]. rewrite Forall_forall in HF. split.
    + split; auto. apply Forall_forall. intros r Hr. apply HF. auto.
    + intros i k. unfold word.
      destruct (Nat.lt_ge_cases i (length m)) as [Hi|Hi].
      * destruct (HF (nth i m []) (nth_In m [] Hi)) as [HL2 HE].
        destruct (Nat.lt_ge_cases k (length (nth i m []))) as [Hk|Hk].
        -- unfold elems_below in HE. rewrite Forall_forall in HE. apply HE. apply nth_In; auto.
        -- rewrite (nth_overflow (nth i m [])) by auto. apply N.neq_0_lt_0, N.pow_nonzero; lia.
      * rewrite (nth_overflow m) by auto. rewrite nth_overflow by (simpl; lia).
        apply N.neq_0_lt_0, N.pow_nonzero; lia.
  - intros [[HL HF] HW]. split; auto. rewrite Forall_forall in *. intros r Hr. split; auto.
    unfold elems_below. apply Forall_forall. intros x Hx.
    destruct (In_nth m r [] Hr) as [i [Hi <-]].
    destruct (In_nth _ x 0%N Hx) as [k [Hk <-]]. apply (HW i k).
Qed.

Lemma vec_of_iff : forall w bits v,
  vec_of w bits v <->
  shapeV w v /\ forall k, (nth k v 0 < 2 ^ N.of_nat bits)%N.
Proof.
  intros w bits v. split.
  - intros [HL HF]. split; auto. intros k.
    destruct (Nat.lt_ge_cases k (length v)) as [Hk|Hk].
    + unfold elems_below in HF. rewrite Forall_forall in HF. apply HF. apply nth_In; auto.
    + rewrite nth_overflow by auto. apply N.neq_0_lt_0, N.pow_nonzero; lia.
  - intros [HL HW]. split; auto. apply Forall_forall. intros x Hx.
    destruct (In_nth _ x 0%N Hx) as [k [Hk <-]]. apply HW.
Qed.

Lemma wfM_shape : forall w m, wfM w m -> shapeM w m.
Proof. intros w m H. apply mat_of_iff in H. apply H. Qed.
Lemma wfV_shape : forall w v, wfV w v -> shapeV w v.
Proof. intros w v H. apply vec_of_iff in H. apply H. Qed.
Lemma typedM_shape : forall w m, typedM w m -> shapeM w m.
Proof. intros w m H. apply mat_of_iff in H. apply H. Qed.
Lemma typedV_shape : forall w v, typedV w v -> shapeV w v.
Proof. intros w v H. apply vec_of_iff in H. apply H. Qed.

Lemma pow2_le : forall a b, a <= b -> (2 ^ N.of_nat a <= 2 ^ N.of_nat b)%N.
Proof. intros a b H. apply N.pow_le_mono_r; lia. Qed.
Lemma wfM_typed : forall w m, wfM w m -> typedM w m.
Proof.
  intros w m H. apply mat_of_iff in H. apply mat_of_iff. destruct H as [H1 H2].
  split; auto. intros i k. eapply N.lt_le_trans; [apply H2|]. apply pow2_le, wb_le_cb.
Qed.
Lemma wfV_typed : forall w v, wfV w v -> typedV w v.
Proof.
  intros w m H. apply vec_of_iff in H. apply vec_of_iff. destruct H as [H1 H2].
  split; auto. intros k. eapply N.lt_le_trans; [apply H2|]. apply pow2_le, wb_le_cb.
Qed.

Lemma wp_mget : forall w m i k (Q : N -> Prop),
  shapeM w m -> i < dim w -> k < nw w -> Q (word m i k) -> wp (mget m i k) Q.
Proof.
  intros w m i k Q Hm Hi Hk HQ. unfold mget. apply wp_bind.
  apply wp_aget with (d := []). { destruct Hm; lia. }
  apply wp_aget with (d := 0%N); auto. rewrite (shapeM_row w); auto.
Qed.

Lemma wp_mset : forall w m i k x (Q : mat -> Prop),
  shapeM w m -> i < dim w -> k < nw w ->
  (forall m', shapeM w m' ->
     (forall i' k', word m' i' k' =
        if (Nat.eqb i' i && Nat.eqb k' k)%bool then x else word m i' k') -> Q m') ->
  wp (mset m i k x) Q.
Proof.
  intros w m i k x Q Hm Hi Hk HQ. unfold mset.
  assert (HL : i < length m) by (destruct Hm; lia).
  assert (HR : k < length (nth i m [])) by (rewrite (shapeM_row w); auto).
  apply wp_bind. apply wp_aget with (d := []); auto.
  apply wp_bind. apply wp_aset; auto. apply wp_aset; auto.
  apply HQ.
  - apply shapeM_mk.
    + rewrite length_upd. apply Hm.
    + intros r Hr. rewrite nth_upd by auto.
      destruct (Nat.eqb_spec r i) as [->|]; [rewrite length_upd|]; apply shapeM_row with (w := w); auto.
  - intros i' k'. unfold word. rewrite nth_upd by auto.
    destruct (Nat.eqb_spec i' i) as [->|]; simpl; auto. rewrite nth_upd by auto. reflexivity.
Qed.

Lemma wp_bit_test : forall w m i b c (Q : bool -> Prop),
  shapeM w m -> i < dim w -> b < nw w -> c < wb w ->
  Q (mbit w m i (wb w * b + c)) -> wp (bit_test w m i b c) Q.
Proof.
  intros w m i b c Q Hm Hi Hb Hc HQ. unfold bit_test.
  apply wp_bind. apply wp_mget with (w := w); auto.
  apply wp_bind. apply wp_idt; auto. simpl.
  rewrite land_pow2_eqb. unfold mbit in HQ. rewrite div_block, mod_block in HQ by auto.
  exact HQ.
Qed.

(** bit test at column i in block b, as used by the elimination loops *)
Lemma wp_bit_test_col : forall w m r b i (Q : bool -> Prop),
  shapeM w m -> r < dim w -> b < nw w -> wb w * b <= i -> i < wb w * (b + 1) ->
  Q (mbit w m r i) -> wp (bit_test w m r b (i - wb w * b)) Q.
Proof.
  intros w m r b i Q Hm Hr Hb Hi1 Hi2 HQ. apply wp_bit_test; auto; try lia.
  replace (wb w * b + (i - wb w * b)) with i by lia. exact HQ.
Qed.

(** ** Extensionality *)

Lemma word_ext : forall w m1 m2, shapeM w m1 -> shapeM w m2 ->
  (forall i k, i < dim w -> k < nw w -> word m1 i k = word m2 i k) -> m1 = m2.
Proof.
  intros w m1 m2 H1 H2 H. apply list_ext with (d := []).
  - destruct H1, H2; congruence.
  - intros i Hi. assert (i < dim w) by (destruct H1; lia).
    apply list_ext with (d := 0%N).
    + rewrite !(shapeM_row w); auto.
    + intros k Hk. rewrite (shapeM_row w) in Hk by auto. apply (H i k); auto.
Qed.

Lemma testbit_high : forall x n k, (x < 2 ^ n)%N -> (n <= k)%N -> N.testbit x k = false.
Proof.
  intros x n k Hx Hk. destruct (N.eq_dec x 0) as [->|Hne]; [apply N.bits_0|].
  apply N.bits_above_log2. apply N.lt_le_trans with n; auto.
  apply N.log2_lt_pow2; lia.
Qed.

Lemma bits_bound : forall x n, (forall k, (n <= k)%N -> N.testbit x k = false) -> (x < 2 ^ n)%N.
Proof.
  intros x n H. destruct (N.eq_dec x 0) as [->|Hne].
  - apply N.neq_0_lt_0, N.pow_nonzero; lia.
  - apply N.log2_lt_pow2; [lia|]. apply N.nle_gt. intros Hle.
    specialize (H _ Hle). rewrite N.bit_log2 in H by auto. discriminate.
Qed.

Lemma wbits_ext : forall w x y,
  (x < 2 ^ N.of_nat (wb w))%N -> (y < 2 ^ N.of_nat (wb w))%N ->
  (forall c, c < wb w ->
     N.testbit x (N.of_nat (wb w - 1 - c)) = N.testbit y (N.of_nat (wb w - 1 - c))) ->
  x = y.
Proof.
  intros w x y Hx Hy H. apply N.bits_inj. intros q.
  destruct (N.lt_ge_cases q (N.of_nat (wb w))) as [Hq|Hq].
  - specialize (H (wb w - 1 - N.to_nat q)).
    replace (N.of_nat (wb w - 1 - (wb w - 1 - N.to_nat q))) with q in H by lia.
    apply H. lia.
  - rewrite (testbit_high x (N.of_nat (wb w))), (testbit_high y (N.of_nat (wb w))); auto.
Qed.

Lemma mbit_ext : forall w m1 m2, wfM w m1 -> wfM w m2 ->
  feq (dim w) (mbit w m1) (mbit w m2) -> m1 = m2.
Proof.
  intros w m1 m2 H1 H2 H. apply mat_of_iff in H1, H2.
  destruct H1 as [S1 B1], H2 as [S2 B2].
  apply word_ext with (w := w); auto. intros i k Hi Hk.
  apply wbits_ext with (w := w); auto. intros c Hc.
  specialize (H i (wb w * k + c) Hi (block_lt_dim w k c Hk Hc)).
  unfold mbit in H. rewrite div_block, mod_block in H by auto. exact H.
Qed.

Lemma vbit_ext : forall w v1 v2, wfV w v1 -> wfV w v2 ->
  veq (dim w) (vbit w v1) (vbit w v2) -> v1 = v2.
Proof.
  intros w v1 v2 H1 H2 H. apply vec_of_iff in H1, H2.
  destruct H1 as [S1 B1], H2 as [S2 B2].
  apply list_ext with (d := 0%N). { unfold shapeV in *; congruence. }
  intros k Hk. unfold shapeV in S1. rewrite S1 in Hk.
  apply wbits_ext with (w := w); auto. intros c Hc.
  specialize (H (wb w * k + c) (block_lt_dim w k c Hk Hc)).
  unfold vbit in H. rewrite div_block, mod_block in H by auto. exact H.
Qed.

(** Words of wf matrices from bits: an element is determined by the bits *)
Lemma word_testbit : forall w m i k q, q < wb w ->
  N.testbit (word m i k) (N.of_nat q) = mbit w m i (wb w * k + (wb w - 1 - q)).
Proof.
  intros w m i k q Hq. unfold mbit. rewrite div_block, mod_block by lia.
  f_equal. lia.
Qed.
Lemma vec_testbit : forall w v k q, q < wb w ->
  N.testbit (nth k v 0%N) (N.of_nat q) = vbit w v (wb w * k + (wb w - 1 - q)).
Proof.
  intros w m k q Hq. unfold vbit. rewrite div_block, mod_block by lia.
  f_equal. lia.
Qed.

(** ** lxor keeps words in range *)
Lemma lxor_bound : forall x y n, (x < 2 ^ n -> y < 2 ^ n -> N.lxor x y < 2 ^ n)%N.
Proof.
  intros x y n Hx Hy. apply bits_bound. intros k Hk.
  rewrite N.lxor_spec, (testbit_high x n), (testbit_high y n); auto.
Qed.
Lemma land_bound_l : forall x y n, (x < 2 ^ n -> N.land x y < 2 ^ n)%N.
Proof.
  intros x y n Hx. apply bits_bound. intros k Hk.
  rewrite N.land_spec, (testbit_high x n); auto.
Qed.
Lemma pow2_bound : forall q n, (q < n -> 2 ^ q < 2 ^ n)%N.
Proof. intros. apply N.pow_lt_mono_r; lia. Qed.

(** ** Row operations on stored matrices *)

Lemma wp_xor_row : forall w m j i lo hi (Q : mat -> Prop),
  shapeM w m -> j < dim w -> i < dim w -> lo <= hi -> hi <= nw w ->
  (forall m', shapeM w m' ->
     (forall r k, word m' r k =
        if (Nat.eqb r j && (Nat.leb lo k && Nat.ltb k hi))%bool
        then N.lxor (word m j k) (word m i k) else word m r k) -> Q m') ->
  wp (xor_row m j i lo hi) Q.
Proof.
  intros w m j i lo hi Q Hm Hj Hi Hlh Hh HQ. unfold xor_row.
  apply wp_for_up with
    (I := fun h m' => shapeM w m' /\
       forall r k, word m' r k =
        if (Nat.eqb r j && (Nat.leb lo k && Nat.ltb k h))%bool
        then N.lxor (word m j k) (word m i k) else word m r k); auto.
  - split; auto. intros r k.
    destruct (Nat.leb_spec lo k), (Nat.ltb_spec k lo); try lia;
      rewrite ?andb_false_r; auto.
  - intros h x Hh1 Hh2 [Hx1 Hx2].
    apply wp_bind. apply wp_mget with (w := w); auto; [lia|].
    apply wp_bind. apply wp_mget with (w := w); auto; [lia|].
    apply wp_mset with (w := w); auto; [lia|].
    intros m' Hm1 Hm2. split; auto.
    intros r k. rewrite Hm2, !Hx2.
    destruct (Nat.ltb_spec h h); [lia|]. rewrite !andb_false_r.
    destruct (Nat.eqb_spec r j) as [->|]; simpl; auto.
    destruct (Nat.eqb_spec k h) as [->|]; simpl.
    + destruct (Nat.leb_spec lo h), (Nat.ltb_spec h (S h)); try lia. reflexivity.
    + destruct (Nat.leb_spec lo k); simpl; auto.
      destruct (Nat.ltb_spec k h), (Nat.ltb_spec k (S h)); try lia; reflexivity.
  - intros x [H1 H2]. apply HQ; auto.
Qed.

Lemma wp_swap_row : forall w m i j lo hi (Q : mat -> Prop),
  shapeM w m -> i < dim w -> j < dim w -> lo <= hi -> hi <= nw w ->
  (forall m', shapeM w m' ->
     (forall r k, word m' r k =
        if (Nat.leb lo k && Nat.ltb k hi)%bool
        then word m (if Nat.eqb r i then j else if Nat.eqb r j then i else r) k
        else word m r k) -> Q m') ->
  wp (swap_row m i j lo hi) Q.
Proof.
  intros w m i j lo hi Q Hm Hi Hj Hlh Hh HQ. unfold swap_row.
  apply wp_for_up with
    (I := fun h m' => shapeM w m' /\
       forall r k, word m' r k =
        if (Nat.leb lo k && Nat.ltb k h)%bool
        then word m (if Nat.eqb r i then j else if Nat.eqb r j then i else r) k
        else word m r k); auto.
  - split; auto. intros r k.
    destruct (Nat.leb_spec lo k), (Nat.ltb_spec k lo); try lia;
      rewrite ?andb_false_r; auto.
  - intros h x Hh1 Hh2 [Hx1 Hx2].
    apply wp_bind. apply wp_mget with (w := w); auto; [lia|].
    apply wp_bind. apply wp_mget with (w := w); auto; [lia|].
    apply wp_bind. apply wp_mset with (w := w); auto; [lia|].
    intros m1 Hm1 Hw1. apply wp_mset with (w := w); auto; [lia|].
    intros m2 Hm2 Hw2. split; auto.
    intros r k. rewrite Hw2, !Hw1, !Hx2.
    destruct (Nat.ltb_spec h h); [lia|]. rewrite !andb_false_r.
    destruct (Nat.eqb_spec k h) as [->|Hkh].
    + rewrite !andb_true_r.
      destruct (Nat.leb_spec lo h), (Nat.ltb_spec h (S h)); try lia. simpl.
      destruct (Nat.eqb_spec r j) as [->|].
      * destruct (Nat.eqb_spec j i) as [->|]; reflexivity.
      * destruct (Nat.eqb_spec r i) as [->|]; auto.
        destruct (Nat.ltb_spec h h); [lia|]. reflexivity.
    + rewrite !andb_false_r.
      destruct (Nat.ltb_spec k h), (Nat.ltb_spec k (S h)); try lia; reflexivity.
  - intros x [H1 H2]. apply HQ; auto.
Qed.

(** bits after a (partial) row addition which is complete because the rest of
    row i is zero *)
Lemma wp_xor_row_bits : forall w m j i lo hi (Q : mat -> Prop),
  wfM w m -> j < dim w -> i < dim w -> lo <= hi -> hi <= nw w ->
  (forall c, c < dim w -> (c / wb w < lo \/ hi <= c / wb w) -> mbit w m i c = false) ->
  (forall m', wfM w m' -> feq (dim w) (mbit w m') (radd j i (mbit w m)) -> Q m') ->
  wp (xor_row m j i lo hi) Q.
Proof.
  intros w m j i lo hi Q Hm Hj Hi Hlh Hh Hz HQ. apply mat_of_iff in Hm.
  destruct Hm as [Hs Hb].
  apply wp_xor_row with (w := w); auto. intros m' Hs' Hw. apply HQ.
  - apply mat_of_iff. split; auto. intros r k. rewrite Hw.
    destruct (_ && _)%bool; auto. apply lxor_bound; auto.
  - intros r c Hr Hc. unfold mbit at 1. rewrite Hw. unfold radd.
    destruct (Nat.eqb_spec r j) as [->|]; simpl; auto.
    destruct (Nat.leb_spec lo (c / wb w)), (Nat.ltb_spec (c / wb w) hi); simpl;
      try (rewrite (Hz c Hc) by lia; rewrite xorb_false_r; reflexivity).
    rewrite N.lxor_spec. reflexivity.
Qed.

Lemma wp_swap_row_bits : forall w m i j lo hi (Q : mat -> Prop),
  wfM w m -> i < dim w -> j < dim w -> lo <= hi -> hi <= nw w ->
  (forall c, c < dim w -> (c / wb w < lo \/ hi <= c / wb w) -> mbit w m i c = mbit w m j c) ->
  (forall m', wfM w m' -> feq (dim w) (mbit w m') (rswap i j (mbit w m)) -> Q m') ->
  wp (swap_row m i j lo hi) Q.
Proof.
  intros w m i j lo hi Q Hm Hi Hj Hlh Hh Hz HQ. apply mat_of_iff in Hm.
  destruct Hm as [Hs Hb].
  apply wp_swap_row with (w := w); auto. intros m' Hs' Hw. apply HQ.
  - apply mat_of_iff. split; auto. intros r k. rewrite Hw.
    destruct (_ && _)%bool; auto.
  - intros r c Hr Hc. unfold mbit at 1. rewrite Hw. unfold rswap.
    destruct (Nat.leb_spec lo (c / wb w)), (Nat.ltb_spec (c / wb w) hi); simpl;
      try reflexivity;
      (destruct (Nat.eqb_spec r i) as [->|];
       [ | destruct (Nat.eqb_spec r j) as [->|] ]);
      try reflexivity;
      try (symmetry; apply (Hz c Hc); lia); try (apply (Hz c Hc); lia).
Qed.
