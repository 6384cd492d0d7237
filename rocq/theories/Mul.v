(** Sums and products; affine maps. *)
From Coq Require Import Arith NArith List Bool Lia.
From Verif Require Import Base Tables Model Spec LinAlg Mem Cons Parity Trans.
Import ListNotations.

(** ** Sums *)

Lemma VecAddVec_ok : forall w v1 v2 v, shapeV w v1 -> shapeV w v2 -> shapeV w v ->
  VecAddVec w v1 v2 v = Ok (mkv w (fun k => N.lxor (nth k v1 0%N) (nth k v2 0%N))).
Proof.
  intros w v1 v2 v H1 H2 H. unfold VecAddVec.
  apply (wp_fillv w (fun k => N.lxor (nth k v1 0%N) (nth k v2 0%N))); auto.
  intros k v' Hk Hv' _. apply wp_bind. apply wp_vget with (w := w); auto.
  apply wp_bind. apply wp_vget with (w := w); auto. apply wp_vset with (w := w); auto.
Qed.
Lemma MatAddMat_ok : forall w m1 m2 m, shapeM w m1 -> shapeM w m2 -> shapeM w m ->
  MatAddMat w m1 m2 m = Ok (mk w (fun i k => N.lxor (word m1 i k) (word m2 i k))).
Proof.
  intros w m1 m2 m H1 H2 H. unfold MatAddMat.
  apply (wp_fill w (fun i k => N.lxor (word m1 i k) (word m2 i k))
     (fun i k m => x <- mget m1 i k ;; y <- mget m2 i k ;; mset m i k (N.lxor x y))); auto.
  intros i k m' Hi Hk Hm' _. apply wp_bind. apply wp_mget with (w := w); auto.
  apply wp_bind. apply wp_mget with (w := w); auto. apply wp_mset with (w := w); auto.
Qed.
Lemma mbit_add : forall w m1 m2,
  feq (dim w) (mbit w (mk w (fun i k => N.lxor (word m1 i k) (word m2 i k))))
              (fadd (mbit w m1) (mbit w m2)).
Proof.
  intros w m1 m2 i j Hi Hj. unfold mbit, fadd.
  rewrite word_mk by (auto using div_lt_nw). apply N.lxor_spec.
Qed.
Lemma vbit_add : forall w v1 v2,
  veq (dim w) (vbit w (mkv w (fun k => N.lxor (nth k v1 0%N) (nth k v2 0%N))))
              (vadd (vbit w v1) (vbit w v2)).
Proof.
  intros w v1 v2 j Hj. unfold vbit, vadd.
  rewrite nth_mkv by (auto using div_lt_nw). apply N.lxor_spec.
Qed.
Lemma wf_addv : forall w v1 v2, wfV w v1 -> wfV w v2 ->
  wfV w (mkv w (fun k => N.lxor (nth k v1 0%N) (nth k v2 0%N))).
Proof.
  intros w v1 v2 H1 H2. apply vec_of_iff in H1, H2. apply mkv_bound.
  intros k Hk. apply lxor_bound; [apply H1|apply H2].
Qed.
Lemma wf_addm : forall w m1 m2, wfM w m1 -> wfM w m2 ->
  wfM w (mk w (fun i k => N.lxor (word m1 i k) (word m2 i k))).
Proof.
  intros w v1 v2 H1 H2. apply mat_of_iff in H1, H2. apply mk_bound.
  intros i k Hi Hk. apply lxor_bound; [apply H1|apply H2].
Qed.

(** ** Scalar product of a row and a vector *)

Definition and_elem (w : width) (x y : N) : N :=
  match w with W4 => N.land (N.land x y) 15 | _ => N.land x y end.
Lemma and_elem_bound : forall w x y, (x < 2 ^ N.of_nat (cb w))%N ->
  (and_elem w x y < 2 ^ N.of_nat (wb w))%N.
Proof.
  intros w x y H. destruct w; unfold and_elem; cbn [cb wb] in *; try (apply land_bound_l; exact H).
  apply bits_bound. intros k Hk. rewrite N.land_spec. change 15%N with (N.ones 4).
  rewrite N.ones_spec_high by exact Hk. apply andb_false_r.
Qed.
Lemma and_elem_bit : forall w x y q, (q < N.of_nat (wb w))%N ->
  N.testbit (and_elem w x y) q = N.testbit x q && N.testbit y q.
Proof.
  intros w x y q Hq. destruct w; unfold and_elem; try apply N.land_spec.
  rewrite !N.land_spec. change 15%N with (N.ones 4).
  rewrite N.ones_spec_low by exact Hq. apply andb_true_r.
Qed.
Lemma and_words_ok : forall w r v, shapeV w r -> shapeV w v ->
  and_words w r v = Ok (mkv w (fun k => and_elem w (nth k r 0%N) (nth k v 0%N))).
Proof.
  intros w r v Hr Hv. unfold and_words.
  apply (wp_fillv w (fun k => and_elem w (nth k r 0%N) (nth k v 0%N))); [apply shape_fresh_v|].
  intros k v' Hk Hv' _. apply wp_bind. apply wp_vget with (w := w); auto.
  apply wp_bind. apply wp_vget with (w := w); auto. apply wp_vset with (w := w); auto.
Qed.

Lemma dot_ok : forall e w r v, typedV w r -> shapeV w v ->
  (a <- and_words w r v ;; xorU e w a) = Ok (b2n (xsum (dim w) (fun j => vbit w r j && vbit w v j))).
Proof.
  intros e w r v Hr Hv. rewrite and_words_ok by auto using typedV_shape. cbn [bind].
  set (a := mkv w (fun k => and_elem w (nth k r 0%N) (nth k v 0%N))).
  assert (Ha : wfV w a).
  { apply mkv_bound. intros k Hk. apply and_elem_bound. apply vec_of_iff in Hr. apply Hr. }
  rewrite xorU_ok by auto using wfV_typed. rewrite vparity_bits by auto.
  f_equal. f_equal. apply xsum_ext. intros j Hj. unfold a, vbit.
  rewrite nth_mkv by (auto using div_lt_nw). apply and_elem_bit.
  pose proof (wb_pos w). lia.
Qed.

Lemma typedM_row : forall w m i, typedM w m -> i < dim w -> typedV w (nth i m []).
Proof.
  intros w m i [HL HF] Hi. rewrite Forall_forall in HF. apply HF. apply nth_In. lia.
Qed.
Lemma wfM_row : forall w m i, wfM w m -> i < dim w -> wfV w (nth i m []).
Proof.
  intros w m i [HL HF] Hi. rewrite Forall_forall in HF. apply HF. apply nth_In. lia.
Qed.
Lemma shapeM_rowV : forall w m i, shapeM w m -> i < dim w -> shapeV w (nth i m []).
Proof. intros. apply shapeM_row; auto. Qed.
Lemma vbit_row : forall w m i j, vbit w (nth i m []) j = mbit w m i j.
Proof. reflexivity. Qed.

(** setting bit i of element b in a word array by xor *)
Lemma xor_bit : forall w b i j (x : nat -> N), wb w * b <= i -> i < wb w * (b + 1) ->
  N.testbit (if Nat.eqb (j / wb w) b
             then N.lxor (x b) (2 ^ N.of_nat (wb w - 1 - (i - wb w * b))) else x (j / wb w))
            (N.of_nat (wb w - 1 - j mod wb w))
  = xorb (N.testbit (x (j / wb w)) (N.of_nat (wb w - 1 - j mod wb w))) (Nat.eqb j i).
Proof.
  intros w b i j x H1 H2. pose proof (wb_pos w). pose proof (mod_lt_wb w j).
  pose proof (Nat.div_mod j (wb w) ltac:(lia)) as Dj.
  destruct (Nat.eqb_spec (j / wb w) b) as [E|E].
  - rewrite N.lxor_spec, N.pow2_bits_eqb, E. f_equal.
    destruct (Nat.eqb_spec j i) as [->|Hne].
    + apply N.eqb_eq. rewrite E in Dj. lia.
    + apply N.eqb_neq. rewrite E in Dj. lia.
  - destruct (Nat.eqb_spec j i) as [->|Hne].
    + exfalso. apply E. replace i with (wb w * b + (i - wb w * b)) by lia. apply div_block. lia.
    + rewrite xorb_false_r. reflexivity.
Qed.
Lemma xor_bit_bound : forall w b i x, wb w * b <= i -> i < wb w * (b + 1) ->
  (x < 2 ^ N.of_nat (wb w))%N ->
  (N.lxor x (2 ^ N.of_nat (wb w - 1 - (i - wb w * b))) < 2 ^ N.of_nat (wb w))%N.
Proof.
  intros w b i x H1 H2 Hx. apply lxor_bound; auto. apply pow2_bound. pose proof (wb_pos w). lia.
Qed.

(** ** MatMulVec *)

Lemma MatMulVec_wp : forall e w m v ans, typedM w m -> shapeV w v -> shapeV w ans ->
  wp (MatMulVec e w m v ans) (fun r => wfV w r /\
    veq (dim w) (vbit w r) (fapp (dim w) (mbit w m) (vbit w v))).
Proof.
  intros e w m v ans Hm Hv Ha. unfold MatMulVec. apply wp_bind.
  rewrite initV_ok by auto. apply wp_ok.
  set (p := fapp (dim w) (mbit w m) (vbit w v)).
  apply wp_blocks_up with (I := fun i a => wfV w a /\
    forall j, j < dim w -> vbit w a j = Nat.ltb j i && p j).
  - split; [apply wf_zerov|]. intros j Hj. apply vbit_zero; auto.
  - intros b i a Hb Hi1 Hi2 Hin [H1 H2].
    apply wp_bind. apply wp_aget with (d := []). { destruct Hm as [-> _]. auto. }
    pose proof (dot_ok e w (nth i m []) v (typedM_row w m i Hm Hin) Hv) as HD.
    rewrite and_words_ok in * by (auto using typedV_shape, typedM_row).
    cbn [bind] in *. rewrite HD. cbn [bind].
    change (xsum (dim w) (fun j => vbit w (nth i m []) j && vbit w v j)) with (p i).
    destruct (p i) eqn:Ep; cbn [b2n N.eqb].
    + apply wp_bind. apply wp_idt; [lia|]. apply wp_bind.
      apply wp_vget with (w := w); auto using wfV_shape.
      apply wp_vset with (w := w); auto using wfV_shape.
      intros a' Sa' Na'. pose proof H1 as H1'. apply vec_of_iff in H1'. destruct H1' as [_ B1]. split.
      * apply vec_of_iff. split; auto. intros k. rewrite Na'.
        destruct (Nat.eqb k b); auto. apply xor_bit_bound; auto.
      * intros j Hj. unfold vbit at 1. rewrite Na'.
        rewrite (xor_bit w b i j (fun k => nth k a 0%N)) by auto.
        change (N.testbit (nth (j / wb w) a 0%N) (N.of_nat (wb w - 1 - j mod wb w))) with (vbit w a j).
        rewrite H2 by auto.
        destruct (Nat.eqb_spec j i) as [->|Hne].
        -- destruct (Nat.ltb_spec i i); [lia|]. destruct (Nat.ltb_spec i (S i)); [|lia].
           rewrite Ep. reflexivity.
        -- rewrite xorb_false_r.
           destruct (Nat.ltb_spec j i), (Nat.ltb_spec j (S i)); try lia; reflexivity.
    + apply wp_ok. split; auto. intros j Hj. rewrite H2 by auto.
      destruct (Nat.eq_dec j i) as [->|Hne].
      * rewrite Ep, !andb_false_r. reflexivity.
      * destruct (Nat.ltb_spec j i), (Nat.ltb_spec j (S i)); try lia; reflexivity.
  - intros a [H1 H2]. split; auto. intros j Hj. rewrite H2 by auto.
    destruct (Nat.ltb_spec j (dim w)); [reflexivity|lia].
Qed.

(** ** MatMulNum (one element) *)

Lemma MatMulNum_wp : forall e w m n, nw w = 1 -> typedM w m ->
  wp (MatMulNum e w m n) (fun r => wfV w [r] /\
    veq (dim w) (vbit w [r]) (fapp (dim w) (mbit w m) (vbit w [n]))).
Proof.
  intros e w m n Hw Hm. unfold MatMulNum.
  set (p := fapp (dim w) (mbit w m) (vbit w [n])).
  assert (Hd : dim w = wb w) by (rewrite dim_eq, Hw; lia).
  assert (Sv : forall x, shapeV w [x]) by (intros; unfold shapeV; rewrite Hw; reflexivity).
  assert (Wv : forall x, (x < 2 ^ N.of_nat (wb w))%N -> wfV w [x]).
  { intros x Hx. split; [rewrite Hw; reflexivity|]. constructor; auto. }
  assert (Bv : forall x, wfV w [x] -> (x < 2 ^ N.of_nat (wb w))%N).
  { intros x Hx. apply vec_of_iff in Hx. destruct Hx as [_ Hx]. apply (Hx 0). }
  apply wp_for_up with (I := fun i a => wfV w [a] /\
    forall j, j < dim w -> vbit w [a] j = Nat.ltb j i && p j).
  - lia.
  - split; [apply Wv; apply N.neq_0_lt_0, N.pow_nonzero; lia|].
    intros j Hj. unfold vbit. rewrite (Nat.div_small j (wb w)) by lia. apply N.bits_0.
  - intros i a _ Hin [H1 H2].
    apply wp_bind. apply wp_mget with (w := w); auto using typedM_shape; [lia|].
    pose proof (dot_ok e w (nth i m []) [n] (typedM_row w m i Hm Hin) (Sv n)) as HD.
    rewrite and_words_ok in HD by (auto using typedV_shape, typedM_row).
    cbn [bind] in HD. unfold mkv in HD. rewrite Hw in HD. cbn [seq map nth] in HD.
    unfold and_elem in HD. fold (word m i 0) in HD.
    cbv zeta. rewrite HD. cbn [bind].
    change (xsum (dim w) (fun j => vbit w (nth i m []) j && vbit w [n] j)) with (p i).
    destruct (p i) eqn:Ep; cbn [b2n N.eqb].
    + apply wp_bind. apply wp_idt; [lia|]. apply wp_ok. split.
      * apply Wv. apply lxor_bound; [apply Bv; auto|]. apply pow2_bound. pose proof (wb_pos w); lia.
      * intros j Hj. pose proof (xor_bit w 0 i j (fun _ => a) ltac:(lia) ltac:(lia)) as X.
        unfold vbit at 1. rewrite (Nat.div_small j (wb w)) in X |- * by lia. cbn [nth Nat.eqb] in X |- *.
        rewrite Nat.mul_0_r, Nat.sub_0_r in X. rewrite X.
        assert (Ea : N.testbit a (N.of_nat (wb w - 1 - j mod wb w)) = vbit w [a] j).
        { unfold vbit. rewrite (Nat.div_small j (wb w)) by lia. reflexivity. }
        rewrite Ea, H2 by auto.
        destruct (Nat.eqb_spec j i) as [->|Hne].
        -- destruct (Nat.ltb_spec i i); [lia|]. destruct (Nat.ltb_spec i (S i)); [|lia].
           rewrite Ep. reflexivity.
        -- rewrite xorb_false_r.
           destruct (Nat.ltb_spec j i), (Nat.ltb_spec j (S i)); try lia; reflexivity.
    + apply wp_ok. split; auto. intros j Hj. rewrite H2 by auto.
      destruct (Nat.eq_dec j i) as [->|Hne].
      * rewrite Ep, !andb_false_r. reflexivity.
      * destruct (Nat.ltb_spec j i), (Nat.ltb_spec j (S i)); try lia; reflexivity.
  - intros a [H1 H2]. split; auto. intros j Hj. rewrite H2 by auto.
    destruct (Nat.ltb_spec j (dim w)); [reflexivity|lia].
Qed.

(** ** MatMulMat: second factor with low nibbles only for 4 bits *)

Lemma MatMulMat_wp : forall e w m1 m2 out, typedM w m1 -> wfM w m2 -> shapeM w out ->
  wp (MatMulMat e w m1 m2 out) (fun r => wfM w r /\
    feq (dim w) (mbit w r) (fmul (dim w) (mbit w m1) (mbit w m2))).
Proof.
  intros e w m1 m2 out H1 H2 Ho. unfold MatMulMat. apply wp_bind.
  rewrite initM_ok by auto. apply wp_ok. apply wp_bind.
  eapply wp_mono; [apply Mattrans_wp; auto using shape_fresh_m|].
  intros tr [Htr Ftr].
  set (p := fmul (dim w) (mbit w m1) (mbit w m2)).
  apply wp_for_up with (I := fun i m => wfM w m /\
    forall r j, r < dim w -> j < dim w -> mbit w m r j = Nat.ltb r i && p r j).
  - lia.
  - split; [apply wf_zero|]. intros r j Hr Hj. apply mbit_zero; auto.
  - intros i m0 _ Hi HI0.
    apply wp_blocks_up with (I := fun j m => wfM w m /\
      forall r c, r < dim w -> c < dim w ->
        mbit w m r c = (Nat.ltb r i || (Nat.eqb r i && Nat.ltb c j)) && p r c).
    + destruct HI0 as [E1 E2]. split; auto. intros r c Hr Hc. rewrite E2 by auto.
      destruct (Nat.ltb r i); auto. simpl. rewrite andb_false_r. reflexivity.
    + intros b j m Hb Hj1 Hj2 Hjn [E1 E2].
      apply wp_bind. apply wp_aget with (d := []). { destruct H1 as [-> _]. auto. }
      apply wp_bind. apply wp_aget with (d := []). { destruct Htr as [-> _]. auto. }
      pose proof (dot_ok e w (nth i m1 []) (nth j tr []) (typedM_row w m1 i H1 Hi)
                   (shapeM_rowV w tr j (wfM_shape _ _ Htr) Hjn)) as HD.
      rewrite and_words_ok in * by (auto using typedV_shape, typedM_row, shapeM_rowV, wfM_shape).
      cbn [bind] in *. rewrite HD. cbn [bind].
      assert (EP : xsum (dim w) (fun k => vbit w (nth i m1 []) k && vbit w (nth j tr []) k) = p i j).
      { apply xsum_ext. intros k Hk. rewrite !vbit_row. rewrite Ftr by auto. reflexivity. }
      rewrite EP.
      destruct (p i j) eqn:Ep; cbn [b2n N.eqb].
      * apply wp_bind. apply wp_idt; [lia|]. apply wp_bind.
        apply wp_mget with (w := w); auto using wfM_shape.
        apply wp_mset with (w := w); auto using wfM_shape.
        intros m' Sm' Nm'. pose proof E1 as E1'. apply mat_of_iff in E1'. destruct E1' as [_ B1]. split.
        -- apply mat_of_iff. split; auto. intros r k. rewrite Nm'.
           destruct (_ && _)%bool; auto. apply xor_bit_bound; auto.
        -- intros r c Hr Hc. unfold mbit at 1. rewrite Nm'.
           destruct (Nat.eqb_spec r i) as [->|Hri]; cbn [andb].
           ++ rewrite (xor_bit w b j c (fun k => word m i k)) by auto.
              change (N.testbit (word m i (c / wb w)) (N.of_nat (wb w - 1 - c mod wb w))) with (mbit w m i c).
              rewrite E2 by auto. rewrite Nat.eqb_refl.
              destruct (Nat.ltb_spec i i); [lia|]. cbn [orb andb].
              destruct (Nat.eqb_spec c j) as [->|Hne].
              ** destruct (Nat.ltb_spec j j); [lia|]. destruct (Nat.ltb_spec j (S j)); [|lia].
                 rewrite Ep. reflexivity.
              ** rewrite xorb_false_r.
                 destruct (Nat.ltb_spec c j), (Nat.ltb_spec c (S j)); try lia; reflexivity.
           ++ change (N.testbit (word m r (c / wb w)) (N.of_nat (wb w - 1 - c mod wb w))) with (mbit w m r c).
              rewrite E2 by auto. destruct (Nat.eqb_spec r i); [lia|]. reflexivity.
      * apply wp_ok. split; auto. intros r c Hr Hc. rewrite E2 by auto.
        destruct (Nat.eqb_spec r i) as [->|Hri]; cbn [andb]; auto.
        destruct (Nat.ltb_spec i i); [lia|]. cbn [orb].
        destruct (Nat.eq_dec c j) as [->|Hne].
        -- rewrite Ep, !andb_false_r. reflexivity.
        -- destruct (Nat.ltb_spec c j), (Nat.ltb_spec c (S j)); try lia; reflexivity.
    + intros m [E1 E2]. split; auto. intros r c Hr Hc. rewrite E2 by auto.
      destruct (Nat.ltb_spec c (dim w)); [|lia]. rewrite andb_true_r.
      destruct (Nat.ltb_spec r i), (Nat.eqb_spec r i), (Nat.ltb_spec r (S i)); try lia; reflexivity.
  - intros m [E1 E2]. split; auto. intros r c Hr Hc. rewrite E2 by auto.
    destruct (Nat.ltb_spec r (dim w)); [reflexivity|lia].
Qed.

(** ** Affine maps *)

Lemma affineU_wp : forall e w f x, typedM w (amat f) -> wfV w (avec f) -> shapeV w x ->
  wp (affineU e w f x) (fun r => wfV w r /\
    veq (dim w) (vbit w r) (vadd (fapp (dim w) (mbit w (amat f)) (vbit w x)) (vbit w (avec f)))).
Proof.
  intros e w f x Hf Hv Hx. unfold affineU. apply wp_bind.
  rewrite (wp_fillv w (fun k => nth k x 0%N) (fun k v => y <- aget x k ;; aset v k y)).
  2:{ apply shape_fresh_v. }
  2:{ intros k v' Hk Hv' _. apply wp_bind. apply wp_vget with (w := w); auto.
      apply wp_vset with (w := w); auto. }
  apply wp_ok. rewrite mkv_nth by auto. apply wp_bind.
  eapply wp_mono; [apply MatMulVec_wp; auto using shape_fresh_v|].
  intros a [Ha Fa].
  rewrite (wp_fillv w (fun k => N.lxor (nth k a 0%N) (nth k (avec f) 0%N))
    (fun k out => x <- aget a k ;; y <- aget (avec f) k ;; aset out k (N.lxor x y))).
  2:{ apply shape_fresh_v. }
  2:{ intros k v' Hk Hv' _. apply wp_bind. apply wp_vget with (w := w); auto using wfV_shape.
      apply wp_bind. apply wp_vget with (w := w); auto using wfV_shape.
      apply wp_vset with (w := w); auto. }
  apply wp_ok. split; [apply wf_addv; auto|].
  eapply veq_trans; [apply vbit_add|]. apply vadd_proper; [exact Fa|reflexivity].
Qed.

Lemma affinemix_wp : forall e w f g mix, wfA w f -> wfA w g -> shapeA w mix ->
  wp (affinemix e w f g mix) (fun h => wfA w h /\
    feq (dim w) (mbit w (amat h)) (fmul (dim w) (mbit w (amat f)) (mbit w (amat g))) /\
    veq (dim w) (vbit w (avec h))
      (vadd (fapp (dim w) (mbit w (amat f)) (vbit w (avec g))) (vbit w (avec f)))).
Proof.
  intros e w f g mix [Hf1 Hf2] [Hg1 Hg2] [Hm1 Hm2]. unfold affinemix. apply wp_bind.
  eapply wp_mono; [apply MatMulMat_wp; auto using wfM_typed|]. intros m [Em Fm].
  apply wp_bind.
  eapply wp_mono; [apply MatMulVec_wp; auto using wfM_typed, wfV_shape|]. intros a [Ha Fa].
  apply wp_bind.
  rewrite (wp_fillv w (fun k => N.lxor (nth k a 0%N) (nth k (avec f) 0%N))
    (fun k v => x <- aget v k ;; y <- aget (avec f) k ;; aset v k (N.lxor x y))).
  2:{ auto using wfV_shape. }
  2:{ intros k v' Hk Hv' Hsame. apply wp_bind. apply wp_vget with (w := w); auto.
      rewrite Hsame by lia.
      apply wp_bind. apply wp_vget with (w := w); auto using wfV_shape.
      apply wp_vset with (w := w); auto. }
  apply wp_ok. apply wp_ok. cbn [amat avec]. split; [split|split].
  - exact Em.
  - apply wf_addv; auto.
  - exact Fm.
  - eapply veq_trans; [apply vbit_add|]. apply vadd_proper; [exact Fa|reflexivity].
Qed.
