(** Concatenation: Matrixcom, Vectorcom, affinecom *)
From Coq Require Import Arith NArith List Bool Lia Setoid Morphisms.
From Verif Require Import Base Tables Model Spec LinAlg Mem Cons Rand Mul.
Import ListNotations.

(** number of blocks *)
Definition com_n (c : com) : nat := length (com_layout c).

(** Column block which receives argument number q.  On a big-endian machine the
    blocks are reversed inside each machine word. *)
Definition slot (e : endian) (c : com) (q : nat) : nat :=
  match e with
  | LE => q
  | BE => let p := wb (com_tgt c) / dim (com_src c) in p * (q / p) + (p - 1 - q mod p)
  end.

Lemma com_dims : forall c, dim (com_tgt c) = dim (com_src c) * com_n c.
Proof. destruct c; reflexivity. Qed.
Lemma com_nw : forall c, nw (com_src c) = 1.
Proof. destruct c; reflexivity. Qed.
Lemma com_wb : forall c, wb (com_src c) = dim (com_src c).
Proof. destruct c; reflexivity. Qed.
Lemma com_cb : forall c, cb (com_tgt c) = wb (com_tgt c).
Proof. destruct c; reflexivity. Qed.

Definition layout_ok (e : endian) (c : com) : bool :=
  let s := dim (com_src c) in let t := wb (com_tgt c) in
  forallb (fun q =>
    let (k, o) := nth q (com_layout c) (0, 0) in
    let sh := N.to_nat (sub_shift e t s o) in
    Nat.ltb k (nw (com_tgt c)) && Nat.leb (sh + s) t && Nat.ltb (slot e c q) (com_n c) &&
    forallb (fun j =>
      let b := t - 1 - j mod t in
      Bool.eqb (Nat.eqb (j / t) k && (Nat.leb sh b && Nat.ltb b (sh + s))) (Nat.eqb (j / s) (slot e c q)) &&
      (if Nat.eqb (j / s) (slot e c q) then Nat.eqb (b - sh) (s - 1 - j mod s) else true))
      (seq 0 (dim (com_tgt c))))%bool
    (seq 0 (com_n c)).

Lemma layout_true : forall e c, layout_ok e c = true.
Proof. intros e c. destruct e, c; vm_compute; reflexivity. Qed.

Lemma layout_spec : forall e c q k o, q < com_n c -> nth q (com_layout c) (0, 0) = (k, o) ->
  let s := dim (com_src c) in let t := wb (com_tgt c) in
  let sh := sub_shift e t s o in
  k < nw (com_tgt c) /\ (sh + N.of_nat s <= N.of_nat t)%N /\ slot e c q < com_n c /\
  forall j, j < dim (com_tgt c) ->
    let b := N.of_nat (t - 1 - j mod t) in
    (if Nat.eqb (j / t) k then ((sh <=? b) && (b <? sh + N.of_nat s))%N%bool else false)
      = Nat.eqb (j / s) (slot e c q) /\
    (j / s = slot e c q -> (b - sh)%N = N.of_nat (s - 1 - j mod s)).
Proof.
  intros e c q k o Hq Hko s t sh. pose proof (layout_true e c) as H. unfold layout_ok in H.
  cbv zeta in H. rewrite forallb_forall in H. specialize (H q).
  rewrite in_seq in H. specialize (H ltac:(lia)). rewrite Hko in H.
  fold s t in H. fold sh in H. rewrite !andb_true_iff in H. destruct H as [[[H1 H2] H3] H4].
  apply Nat.ltb_lt in H1, H3. apply Nat.leb_le in H2. rewrite forallb_forall in H4.
  split; [exact H1|]. split; [lia|]. split; [exact H3|].
  intros j Hj b. specialize (H4 j). rewrite in_seq in H4. specialize (H4 ltac:(lia)).
  cbv zeta in H4. rewrite andb_true_iff in H4. destruct H4 as [H4 H5].
  apply eqb_prop in H4. split.
  - rewrite <- H4. destruct (Nat.eqb (j / t) k); [|reflexivity]. cbn [andb]. unfold b.
    f_equal.
    + destruct (N.leb_spec sh (N.of_nat (t - 1 - j mod t))), (Nat.leb_spec (N.to_nat sh) (t - 1 - j mod t)); auto; lia.
    + destruct (N.ltb_spec (N.of_nat (t - 1 - j mod t)) (sh + N.of_nat s)),
        (Nat.ltb_spec (t - 1 - j mod t) (N.to_nat sh + s)); auto; lia.
  - intros E. rewrite E, Nat.eqb_refl in H5. apply Nat.eqb_eq in H5. unfold b. lia.
Qed.

Lemma put_sub_bound : forall e t s q v x,
  (sub_shift e t s q + N.of_nat s <= N.of_nat t)%N -> (x < 2 ^ N.of_nat t)%N ->
  (put_sub e t s q v x < 2 ^ N.of_nat t)%N.
Proof.
  intros e t s q v x Hs Hx. apply bits_bound. intros k Hk. rewrite put_sub_bit.
  destruct (N.leb_spec (sub_shift e t s q) k), (N.ltb_spec k (sub_shift e t s q + N.of_nat s));
    cbn [andb]; try lia; apply (testbit_high x (N.of_nat t)); auto.
Qed.

(** the value written, bit by bit *)
Lemma put_sub_col : forall e c q k o v x j, q < com_n c ->
  nth q (com_layout c) (0, 0) = (k, o) -> j < dim (com_tgt c) -> j / wb (com_tgt c) = k ->
  N.testbit (put_sub e (wb (com_tgt c)) (dim (com_src c)) o v x)
            (N.of_nat (wb (com_tgt c) - 1 - j mod wb (com_tgt c)))
  = if Nat.eqb (j / dim (com_src c)) (slot e c q)
    then N.testbit v (N.of_nat (dim (com_src c) - 1 - j mod dim (com_src c)))
    else N.testbit x (N.of_nat (wb (com_tgt c) - 1 - j mod wb (com_tgt c))).
Proof.
  intros e c q k o v x j Hq Hko Hj Hk.
  destruct (layout_spec e c q k o Hq Hko) as (_ & _ & _ & H). specialize (H j Hj).
  cbv zeta in H. rewrite Hk, Nat.eqb_refl in H. destruct H as [H1 H2].
  rewrite put_sub_bit, H1.
  destruct (Nat.eqb_spec (j / dim (com_src c)) (slot e c q)) as [E|E]; [|reflexivity].
  rewrite (H2 E). reflexivity.
Qed.
Lemma not_slot : forall e c q k o j, q < com_n c ->
  nth q (com_layout c) (0, 0) = (k, o) -> j < dim (com_tgt c) -> j / wb (com_tgt c) <> k ->
  j / dim (com_src c) <> slot e c q.
Proof.
  intros e c q k o j Hq Hko Hj Hk.
  destruct (layout_spec e c q k o Hq Hko) as (_ & _ & _ & H). specialize (H j Hj).
  cbv zeta in H. destruct (Nat.eqb_spec (j / wb (com_tgt c)) k); [contradiction|].
  destruct H as [H _]. symmetry in H. apply Nat.eqb_neq in H. exact H.
Qed.

(** specification: block q = i / s of row i in column block [pos q] *)
Definition blocks (s : nat) (pos : nat -> nat) (f : nat -> fmat) : fmat := fun i j =>
  if Nat.eqb (j / s) (pos (i / s)) then f (i / s) (i mod s) (j mod s) else false.

Lemma wp_layout : forall c q (Q : nat * nat -> Prop), q < com_n c ->
  (forall k o, nth q (com_layout c) (0, 0) = (k, o) -> Q (k, o)) ->
  wp (aget (com_layout c) q) Q.
Proof.
  intros c q Q Hq HQ. apply wp_aget with (d := (0, 0)); auto.
  destruct (nth q (com_layout c) (0, 0)) as [k o]. apply HQ. reflexivity.
Qed.

Lemma src_bit : forall c m i j, j < dim (com_src c) ->
  mbit (com_src c) m i j = N.testbit (word m i 0) (N.of_nat (dim (com_src c) - 1 - j)).
Proof.
  intros c m i j Hj. unfold mbit. rewrite com_wb, Nat.div_small, Nat.mod_small by auto.
  reflexivity.
Qed.
Lemma src_vbit : forall c v j, j < dim (com_src c) ->
  vbit (com_src c) v j = N.testbit (nth 0 v 0%N) (N.of_nat (dim (com_src c) - 1 - j)).
Proof.
  intros c v j Hj. unfold vbit. rewrite com_wb, Nat.div_small, Nat.mod_small by auto.
  reflexivity.
Qed.

Lemma Matrixcom_wp : forall e c ms out,
  length ms = com_n c -> Forall (shapeM (com_src c)) ms -> shapeM (com_tgt c) out ->
  wp (Matrixcom e c ms out) (fun r =>
    wfM (com_tgt c) r /\
    feq (dim (com_tgt c)) (mbit (com_tgt c) r)
        (blocks (dim (com_src c)) (slot e c) (fun q => mbit (com_src c) (nth q ms [])))).
Proof.
  intros e c ms out HL Hms Hout. unfold Matrixcom. cbv zeta.
  rewrite initM_ok by auto. cbn [bind].
  set (s := dim (com_src c)). set (t := com_tgt c).
  pose proof (dim_pos (com_src c)) as Ps. fold s in Ps.
  pose (spec := blocks s (slot e c) (fun q => mbit (com_src c) (nth q ms []))).
  assert (HD : dim t = s * com_n c) by apply com_dims.
  pose (I := fun n m => wfM t m /\
    forall r j, r < dim t -> j < dim t -> mbit t m r j = if Nat.ltb r n then spec r j else false).
  apply wp_for_up with (I := fun q => I (s * q)).
  - lia.
  - rewrite Nat.mul_0_r. split; [apply wf_zero|]. intros r j Hr Hj.
    rewrite mbit_zero by auto. reflexivity.
  - intros q m0 _ Hq HI0. fold (com_n c) in Hq.
    apply wp_bind. apply wp_aget with (d := []); [lia|].
    apply wp_bind. apply wp_layout; auto. intros k o Hko.
    destruct (layout_spec e c q k o Hq Hko) as (Hk & Hb & Hsl & _).
    fold t s in Hk, Hb, Hsl.
    assert (Hmq : shapeM (com_src c) (nth q ms [])).
    { rewrite Forall_forall in Hms. apply Hms. apply nth_In. lia. }
    apply wp_for_up with (I := fun i => I (s * q + i)).
    + lia.
    + rewrite Nat.add_0_r. exact HI0.
    + clear m0 HI0. intros i m _ Hi [Hm HB].
      assert (Hrow : s * q + i < dim t) by nia.
      pose proof Hm as Hm'. apply mat_of_iff in Hm'. destruct Hm' as [Sm Bm].
      apply wp_bind. apply wp_mget with (w := com_src c); auto; [rewrite com_nw; lia|].
      apply wp_bind. apply wp_mget with (w := t); auto.
      apply wp_mset with (w := t); auto. intros m' Sm' Em'.
      split.
      * apply mat_of_iff. split; auto. intros r k'. rewrite Em'.
        destruct (_ && _)%bool; auto. apply put_sub_bound; auto.
      * intros r j Hr Hj. unfold mbit at 1. rewrite Em'.
        destruct (Nat.eqb_spec r (s * q + i)) as [->|Hne]; cbn [andb].
        -- destruct (Nat.ltb_spec (s * q + i) (s * q + S i)); [|lia].
           unfold spec, blocks.
           replace ((s * q + i) / s) with q
             by (rewrite Nat.mul_comm, Nat.div_add_l, Nat.div_small by lia; lia).
           replace ((s * q + i) mod s) with i
             by (rewrite Nat.mul_comm, Nat.add_comm, Nat.mod_add, Nat.mod_small by lia; lia).
           assert (Hold : mbit t m (s * q + i) j = false).
           { rewrite HB by auto. rewrite Nat.ltb_irrefl. reflexivity. }
           assert (Hjm : j mod s < s) by (apply Nat.mod_upper_bound; lia).
           destruct (Nat.eqb_spec (j / wb t) k) as [Ek|Ek].
           ++ unfold t, s. rewrite (put_sub_col e c q k o) by auto. fold t s.
              destruct (Nat.eqb (j / s) (slot e c q)).
              ** symmetry. apply src_bit. exact Hjm.
              ** unfold mbit in Hold. rewrite Ek in Hold. exact Hold.
           ++ pose proof (not_slot e c q k o j Hq Hko Hj Ek) as Hns. fold s in Hns.
              destruct (Nat.eqb_spec (j / s) (slot e c q)); [contradiction|].
              exact Hold.
        -- fold (mbit t m r j). rewrite HB by auto.
           destruct (Nat.ltb_spec r (s * q + i)), (Nat.ltb_spec r (s * q + S i)); auto; lia.
    + intros m' Hm'. replace (s * S q) with (s * q + s) by lia. exact Hm'.
  - intros m [Hm HB]. split; auto. intros r j Hr Hj. rewrite HB by auto.
    fold (com_n c). destruct (Nat.ltb_spec r (s * com_n c)); [reflexivity|lia].
Qed.

Lemma Vectorcom_wp : forall e c vs out,
  length vs = com_n c -> Forall (shapeV (com_src c)) vs -> typedV (com_tgt c) out ->
  wp (Vectorcom e c vs out) (fun r =>
    wfV (com_tgt c) r /\
    forall q j, q < com_n c -> j < dim (com_src c) ->
      vbit (com_tgt c) r (dim (com_src c) * slot e c q + j) = vbit (com_src c) (nth q vs []) j).
Proof.
  intros e c vs out HL Hvs Hout. unfold Vectorcom. cbv zeta.
  set (s := dim (com_src c)). set (t := com_tgt c).
  pose proof (dim_pos (com_src c)) as Ps. fold s in Ps.
  assert (HD : dim t = s * com_n c) by apply com_dims.
  assert (Hslot : forall a b, a < com_n c -> b < com_n c -> slot e c a = slot e c b -> a = b).
  { intros a b Ha Hb. destruct e; [auto|].
    assert (HC : forallb (fun a => forallb (fun b =>
      (negb (Nat.eqb (slot BE c a) (slot BE c b)) || Nat.eqb a b)%bool) (seq 0 (com_n c)))
      (seq 0 (com_n c)) = true) by (destruct c; vm_compute; reflexivity).
    rewrite forallb_forall in HC. specialize (HC a). rewrite in_seq in HC.
    specialize (HC ltac:(lia)). rewrite forallb_forall in HC. specialize (HC b).
    rewrite in_seq in HC. specialize (HC ltac:(lia)). intros E. rewrite E, Nat.eqb_refl in HC.
    apply Nat.eqb_eq in HC. exact HC. }
  apply wp_for_up with (I := fun n v => wfV t v /\
    forall q j, q < n -> q < com_n c -> j < s ->
      vbit t v (s * slot e c q + j) = vbit (com_src c) (nth q vs []) j).
  - lia.
  - split; [|intros; lia]. unfold typedV in Hout. rewrite com_cb in Hout. exact Hout.
  - intros q v _ Hq [Hv HB]. fold (com_n c) in Hq.
    apply wp_bind. apply wp_aget with (d := []); [lia|].
    apply wp_bind. apply wp_layout; auto. intros k o Hko.
    destruct (layout_spec e c q k o Hq Hko) as (Hk & Hb & Hsl & _).
    fold t s in Hk, Hb, Hsl.
    assert (Hvq : shapeV (com_src c) (nth q vs [])).
    { rewrite Forall_forall in Hvs. apply Hvs. apply nth_In. lia. }
    pose proof Hv as Hv'. apply vec_of_iff in Hv'. destruct Hv' as [Sv Bv].
    apply wp_bind. apply wp_vget with (w := com_src c); auto; [rewrite com_nw; lia|].
    apply wp_bind. apply wp_vget with (w := t); auto.
    apply wp_vset with (w := t); auto. intros v' Sv' Ev'. split.
    + apply vec_of_iff. split; auto. intros k'. rewrite Ev'. destruct (Nat.eqb k' k); auto.
      apply put_sub_bound; auto.
    + intros q' j Hq' Hqn Hj.
      set (J := s * slot e c q' + j).
      assert (Hsl' : slot e c q' < com_n c).
      { destruct (nth q' (com_layout c) (0, 0)) as [k' o'] eqn:E'.
        apply (layout_spec e c q' k' o' Hqn E'). }
      assert (HJ : J < dim t) by (unfold J; nia).
      assert (HJd : J / s = slot e c q').
      { unfold J. rewrite Nat.mul_comm, Nat.div_add_l, Nat.div_small by lia; lia. }
      assert (HJm : J mod s = j).
      { unfold J. rewrite Nat.mul_comm, Nat.add_comm, Nat.mod_add, Nat.mod_small by lia; lia. }
      unfold vbit at 1. rewrite Ev'.
      destruct (Nat.eqb_spec (J / wb t) k) as [Ek|Ek].
      * unfold t, s. rewrite (put_sub_col e c q k o) by auto. fold t s. rewrite HJd, HJm.
        destruct (Nat.eqb_spec (slot e c q') (slot e c q)) as [E|E].
        -- apply Hslot in E; auto. subst q'. symmetry. apply src_vbit. exact Hj.
        -- assert (q' < q) by (assert (q' <> q) by (intros ->; auto); lia).
           rewrite <- HB by auto. unfold vbit. fold J. rewrite Ek. reflexivity.
      * pose proof (not_slot e c q k o J Hq Hko HJ Ek) as Hns. fold s in Hns. rewrite HJd in Hns.
        assert (q' < q) by (assert (q' <> q) by (intros ->; auto); lia).
        rewrite <- HB by auto. unfold vbit. fold J. reflexivity.
  - intros v [Hv HB]. split; auto.
Qed.

(** ** Block diagonal matrices *)

Definition bdiag (s : nat) (f : nat -> fmat) : fmat := blocks s (fun q => q) f.

Lemma xsum_block : forall s q n (g : nat -> bool), 0 < s -> q < n ->
  (forall k, k < s * n -> k / s <> q -> g k = false) ->
  xsum (s * n) g = xsum s (fun k => g (s * q + k)).
Proof.
  intros s q n g Hs Hq H.
  assert (Hz : forall a b, (forall k, a <= k -> k < a + b -> g k = false) ->
           xsum b (fun k => g (a + k)) = false).
  { intros a b. induction b as [|b IH]; intros Hk; [reflexivity|].
    cbn [xsum]. rewrite IH by (intros; apply Hk; lia). rewrite Hk by lia. reflexivity. }
  assert (Hsplit : forall a b, xsum (a + b) g = xorb (xsum a g) (xsum b (fun k => g (a + k)))).
  { intros a b. induction b as [|b IH]; [rewrite Nat.add_0_r; cbn [xsum]; rewrite xorb_false_r; reflexivity|].
    rewrite Nat.add_succ_r. cbn [xsum]. rewrite IH. apply xorb_assoc. }
  replace (s * n) with (s * q + (s + s * (n - q - 1))) by nia.
  rewrite Hsplit. rewrite (xsum_false (s * q)).
  2:{ intros k Hk. apply H; [nia|]. intros E. 
      pose proof (Nat.mod_upper_bound k s ltac:(lia)). pose proof (Nat.div_mod k s ltac:(lia)). nia. }
  rewrite xorb_false_l.
  assert (Hsplit2 : forall b, xsum (s + b) (fun k => g (s * q + k)) =
            xorb (xsum s (fun k => g (s * q + k))) (xsum b (fun k => g (s * q + s + k)))).
  { intros b. induction b as [|b IH]; [rewrite Nat.add_0_r; cbn [xsum]; rewrite xorb_false_r; reflexivity|].
    rewrite Nat.add_succ_r. cbn [xsum]. rewrite IH. rewrite xorb_assoc.
    f_equal. f_equal. f_equal. lia. }
  rewrite Hsplit2. rewrite (Hz (s * q + s)).
  2:{ intros k H1 H2. apply H; [nia|]. intros E.
      pose proof (Nat.mod_upper_bound k s ltac:(lia)). pose proof (Nat.div_mod k s ltac:(lia)). nia. }
  apply xorb_false_r.
Qed.

Lemma div_sub : forall s n i, 0 < s -> i < s * n -> i / s < n /\ i mod s < s.
Proof.
  intros s n i Hs Hi. split; [apply Nat.div_lt_upper_bound; lia|apply Nat.mod_upper_bound; lia].
Qed.
Lemma sub_div : forall s q k, k < s -> (s * q + k) / s = q.
Proof. intros s q k H. rewrite Nat.mul_comm, Nat.div_add_l, Nat.div_small by lia. lia. Qed.
Lemma sub_mod : forall s q k, k < s -> (s * q + k) mod s = k.
Proof. intros s q k H. rewrite Nat.mul_comm, Nat.add_comm, Nat.mod_add, Nat.mod_small by lia. lia. Qed.

Lemma bdiag_mul : forall s n f g, 0 < s ->
  feq (s * n) (fmul (s * n) (bdiag s f) (bdiag s g)) (bdiag s (fun q => fmul s (f q) (g q))).
Proof.
  intros s n f g Hs i j Hi Hj. unfold fmul.
  destruct (div_sub s n i Hs Hi) as [Di Mi]. destruct (div_sub s n j Hs Hj) as [Dj Mj].
  rewrite (xsum_block s (i / s) n); [|exact Hs|exact Di|].
  2:{ intros k Hk Hne. unfold bdiag, blocks.
      destruct (Nat.eqb_spec (k / s) (i / s)); [contradiction|reflexivity]. }
  unfold bdiag, blocks.
  destruct (Nat.eqb_spec (j / s) (i / s)) as [E|E].
  - apply xsum_ext. intros k Hk. rewrite sub_div, sub_mod by auto.
    rewrite Nat.eqb_refl, E, Nat.eqb_refl. reflexivity.
  - apply xsum_false. intros k Hk. rewrite sub_div by auto.
    destruct (Nat.eqb_spec (j / s) (i / s)); [contradiction|]. apply andb_false_r.
Qed.
Lemma bdiag_app : forall s n f x i, 0 < s -> i < s * n ->
  fapp (s * n) (bdiag s f) x i = fapp s (f (i / s)) (fun k => x (s * (i / s) + k)) (i mod s).
Proof.
  intros s n f x i Hs Hi. unfold fapp. destruct (div_sub s n i Hs Hi) as [Di Mi].
  rewrite (xsum_block s (i / s) n); [|exact Hs|exact Di|].
  2:{ intros k Hk Hne. unfold bdiag, blocks.
      destruct (Nat.eqb_spec (k / s) (i / s)); [contradiction|reflexivity]. }
  apply xsum_ext. intros k Hk. unfold bdiag, blocks. rewrite sub_div, sub_mod, Nat.eqb_refl by auto.
  reflexivity.
Qed.
Lemma bdiag_id : forall s n, 0 < s -> feq (s * n) (bdiag s (fun _ => fid)) fid.
Proof.
  intros s n Hs i j Hi Hj. unfold bdiag, blocks, fid.
  destruct (Nat.eqb_spec (j / s) (i / s)) as [E|E].
  - destruct (Nat.eqb_spec (i mod s) (j mod s)) as [F|F]; symmetry.
    + apply Nat.eqb_eq. rewrite (Nat.div_mod i s), (Nat.div_mod j s) by lia. lia.
    + apply Nat.eqb_neq. congruence.
  - symmetry. apply Nat.eqb_neq. congruence.
Qed.
Lemma bdiag_ext : forall s n f g, 0 < s -> (forall q, q < n -> feq s (f q) (g q)) ->
  feq (s * n) (bdiag s f) (bdiag s g).
Proof.
  intros s n f g Hs H i j Hi Hj. unfold bdiag, blocks.
  destruct (div_sub s n i Hs Hi) as [Di Mi]. destruct (div_sub s n j Hs Hj) as [Dj Mj].
  destruct (Nat.eqb (j / s) (i / s)); auto. apply H; auto.
Qed.
Lemma bdiag_inverse : forall s n f g, 0 < s ->
  (inverse_of (s * n) (bdiag s f) (bdiag s g) <-> forall q, q < n -> inverse_of s (f q) (g q)).
Proof.
  intros s n f g Hs. split.
  - intros [H1 H2] q Hq.
    split; intros i j Hi Hj.
    + specialize (H1 (s * q + i) (s * q + j) ltac:(nia) ltac:(nia)).
      rewrite bdiag_mul in H1 by (auto; nia). unfold bdiag, blocks in H1.
      rewrite !sub_div, !sub_mod, Nat.eqb_refl in H1 by auto. rewrite H1. unfold fid.
      destruct (Nat.eqb_spec (s * q + i) (s * q + j)), (Nat.eqb_spec i j); auto; lia.
    + specialize (H2 (s * q + i) (s * q + j) ltac:(nia) ltac:(nia)).
      rewrite bdiag_mul in H2 by (auto; nia). unfold bdiag, blocks in H2.
      rewrite !sub_div, !sub_mod, Nat.eqb_refl in H2 by auto. rewrite H2. unfold fid.
      destruct (Nat.eqb_spec (s * q + i) (s * q + j)), (Nat.eqb_spec i j); auto; lia.
  - intros H. split; rewrite bdiag_mul by auto;
      (apply (feq_trans _ _ (bdiag s (fun _ => fid))); [|apply bdiag_id; auto]);
      apply bdiag_ext; auto; intros q Hq; apply (H q Hq).
Qed.
(** the diagonal blocks of the inverse are inverses of the blocks *)
Lemma bdiag_invertible : forall s n f, 0 < s ->
  (invertible (s * n) (bdiag s f) <-> forall q, q < n -> invertible s (f q)).
Proof.
  intros s n f Hs. split.
  - intros [B [H1 H2]] q Hq. exists (fun i j => B (s * q + i) (s * q + j)).
    assert (HL : feq s (fmul s (f q) (fun i j => B (s * q + i) (s * q + j))) fid).
    { intros i j Hi Hj. specialize (H1 (s * q + i) (s * q + j) ltac:(nia) ltac:(nia)).
      change (fapp (s * n) (bdiag s f) (fun k => B k (s * q + j)) (s * q + i) = fid (s * q + i) (s * q + j)) in H1.
      rewrite bdiag_app in H1 by (auto; nia). rewrite sub_div, sub_mod in H1 by auto.
      change (fapp s (f q) (fun k => B (s * q + k) (s * q + j)) i = fid i j).
      rewrite H1. unfold fid.
      destruct (Nat.eqb_spec (s * q + i) (s * q + j)), (Nat.eqb_spec i j); auto; lia. }
    split; [exact HL|]. intros i j Hi Hj.
    specialize (H2 (s * q + i) (s * q + j) ltac:(nia) ltac:(nia)). unfold fmul in H2.
    rewrite (xsum_block s q n) in H2.
    + unfold fmul. etransitivity; [|etransitivity; [exact H2|]].
      * apply xsum_ext. intros k Hk. unfold bdiag, blocks.
        rewrite !sub_div, !sub_mod, Nat.eqb_refl by auto. reflexivity.
      * unfold fid. destruct (Nat.eqb_spec (s * q + i) (s * q + j)), (Nat.eqb_spec i j); auto; lia.
    + auto.
    + auto.
    + intros k Hk Hne. unfold bdiag, blocks. rewrite sub_div by auto.
      destruct (Nat.eqb_spec q (k / s)); [congruence|]. apply andb_false_r.
  - intros H.
    assert (Hx : exists g, forall q, q < n -> inverse_of s (f q) (g q)).
    { induction n as [|n IH].
      - exists (fun _ => fid). intros; lia.
      - destruct IH as [g Hg]; [intros q Hq; apply H; lia|].
        destruct (H n ltac:(lia)) as [B HB].
        exists (fun q => if Nat.eqb q n then B else g q). intros q Hq.
        destruct (Nat.eqb_spec q n) as [->|]; [exact HB|]. apply Hg. lia. }
    destruct Hx as [g Hg]. exists (bdiag s g). apply bdiag_inverse; auto.
Qed.
