(** test/Accuracy_test.c: every test passes (on a little-endian machine). *)
From Coq Require Import Arith NArith ZArith List Bool Lia String.
From Verif Require Import Base Tables Model Spec LinAlg Mem Cons Mul Rand Elim GenPair Com Affine Check Main1 Main2 ModelAcc SpecAcc.
Import ListNotations.
Local Open Scope list_scope.

Lemma loop_true : forall St n (body : St -> res (St * bool)) (I : St -> Prop) st, I st ->
  (forall x, I x -> exists x', body x = Ok (x', true) /\ I x') ->
  exists st', acc_loop n body st = Ok (true, st') /\ I st'.
Proof.
  intros St n body I st H0 Hs. unfold acc_loop.
  assert (W : wp (for_ret 0 n (fun _ st => x <- body st ;; let (st', go) := x : St * bool in
                    if go then Ok (inl st') else Ok (inr st')) st)
                 (fun r => exists st', r = inl st' /\ I st')).
  { apply wp_for_ret with (I := fun _ x => I x); [lia|exact H0| |eauto].
    intros i x _ _ Hx. destruct (Hs x Hx) as (x' & -> & HI). cbn [bind wp]. exact HI. }
  destruct (for_ret _ _ _ _) as [r|]; [|contradiction W]. destruct W as (st' & -> & HI).
  cbn [bind]. eauto.
Qed.

Lemma width_eq_dec : forall a b : width, {a = b} + {a <> b}.
Proof. decide equality. Qed.
Lemma eqM_same : forall w a, shapeM w a -> isequalM w a a = Ok 1%N.
Proof.
  intros w a H. destruct (C17_isequalM_main w a a H H) as (r & E & [[-> _]|[_ N]]); [exact E|].
  destruct (N eq_refl).
Qed.
Lemma eqV_same : forall w a, shapeV w a -> isequalV w a a = Ok 1%N.
Proof.
  intros w a H. destruct (width_eq_dec w W256) as [->|Hw].
  - destruct (C18_isequalV256_main a a H H) as (r & E & [[-> _]|[_ N]]); [exact E|]. destruct N; auto.
  - destruct (C18_isequalV_main w a a Hw H H) as (r & E & [[-> _]|[_ N]]); [exact E|]. destruct (N eq_refl).
Qed.
Lemma wfV_shape2 : forall w v, wfV w v -> shapeV w v.
Proof. auto using wfV_shape. Qed.

Lemma pair_vec : forall w a b x y z, inverse_of (dim w) (mbit w a) (mbit w b) -> wfV w x -> wfV w z ->
  veq (dim w) (vbit w y) (fapp (dim w) (mbit w a) (vbit w x)) ->
  veq (dim w) (vbit w z) (fapp (dim w) (mbit w b) (vbit w y)) -> z = x.
Proof.
  intros w a b x y z [_ H] Wx Wz Hy Hz. apply (vbit_ext w); auto.
  rewrite Hz, Hy, <- fmul_fapp, H. apply fapp_id.
Qed.

(** ** The tests *)

(** the loops over the diagonal *)
Lemma diag_set : forall w, exists m, for_up 0 (dim w) (fun i m => setbit w m (Z.of_nat i) (Z.of_nat i) 1)
    (mk w (fun _ _ => 0%N)) = Ok m /\ m = mk w (id_word w).
Proof.
  intros w.
  assert (W : wp (for_up 0 (dim w) (fun i m => setbit w m (Z.of_nat i) (Z.of_nat i) 1) (mk w (fun _ _ => 0%N)))
    (fun m => m = mk w (id_word w))).
  { apply wp_for_up with (I := fun i m => wfM w m /\ forall r c, r < dim w -> c < dim w ->
      mbit w m r c = (Nat.eqb r c && Nat.ltb r i)%bool).
    - lia.
    - split; [exact (wf_zero w)|]. intros r c Hr Hc.
      replace (r <? 0) with false by reflexivity. rewrite andb_false_r.
      exact (mbit_zero w r c Hr Hc).
    - intros i m _ Hi (Wm & Hb).
      destruct (C15_setbit_main w m (Z.of_nat i) (Z.of_nat i) true (wfM_shape _ _ Wm) ltac:(lia) ltac:(lia))
        as (r & E & Sr & B & Wo & Hi').
      cbv iota in E. rewrite E. cbn [wp]. rewrite !Nat2Z.id in *. split.
      + apply mat_of_iff. split; [exact Sr|]. intros p q.
        destruct (Nat.eq_dec p i) as [->|Np]; [|rewrite Wo by auto; apply mat_of_iff in Wm; apply Wm].
        destruct (Nat.eq_dec q (i / wb w)) as [->|Nq]; [|rewrite Wo by auto; apply mat_of_iff in Wm; apply Wm].
        apply bits_bound. intros k Hk. rewrite Hi' by auto.
        apply mat_of_iff in Wm. apply testbit_high with (n := N.of_nat (wb w)); [apply Wm|exact Hk].
      + intros p c Hp Hc. rewrite B, Hb by auto.
        destruct (Nat.eqb_spec p i) as [->|], (Nat.eqb_spec c i) as [->|]; cbn [andb];
          rewrite ?Nat.eqb_refl; cbn [andb].
        * symmetry. apply Nat.ltb_lt. lia.
        * destruct (Nat.eqb_spec i c); [lia|]. reflexivity.
        * destruct (Nat.eqb_spec p i); [lia|]. reflexivity.
        * destruct (Nat.eqb_spec p c); [|reflexivity]. cbn [andb]. destruct (Nat.ltb_spec p i), (Nat.ltb_spec p (S i)); auto; lia.
    - intros m (Wm & Hb). apply (mbit_ext w); auto using wf_id. intros r c Hr Hc.
      rewrite Hb, mbit_id by auto. unfold fid. replace (r <? dim w) with true by (symmetry; apply Nat.ltb_lt; lia).
      apply andb_true_r. }
  destruct (for_up _ _ _ _) as [m|]; [|contradiction W]. exists m. auto.
Qed.
Lemma diag_flip : forall w, exists m, for_up 0 (dim w) (fun i m => flipbit w m (Z.of_nat i) (Z.of_nat i))
    (mk w (id_word w)) = Ok m /\ m = mk w (fun _ _ => 0%N).
Proof.
  intros w.
  assert (W : wp (for_up 0 (dim w) (fun i m => flipbit w m (Z.of_nat i) (Z.of_nat i)) (mk w (id_word w)))
    (fun m => m = mk w (fun _ _ => 0%N))).
  { apply wp_for_up with (I := fun i m => wfM w m /\ forall r c, r < dim w -> c < dim w ->
      mbit w m r c = (Nat.eqb r c && negb (Nat.ltb r i))%bool).
    - lia.
    - split; [exact (wf_id w)|]. intros r c Hr Hc.
      replace (r <? 0) with false by reflexivity. cbn [negb]. rewrite andb_true_r.
      exact (mbit_id w r c Hr Hc).
    - intros i m _ Hi (Wm & Hb).
      destruct (C15_flipbit_main w m (Z.of_nat i) (Z.of_nat i) (wfM_shape _ _ Wm) ltac:(lia) ltac:(lia))
        as (r & E & Sr & B & Wo & Hi').
      rewrite E. cbn [wp]. rewrite !Nat2Z.id in *. split.
      + apply mat_of_iff. split; [exact Sr|]. intros p q.
        destruct (Nat.eq_dec p i) as [->|Np]; [|rewrite Wo by auto; apply mat_of_iff in Wm; apply Wm].
        destruct (Nat.eq_dec q (i / wb w)) as [->|Nq]; [|rewrite Wo by auto; apply mat_of_iff in Wm; apply Wm].
        apply bits_bound. intros k Hk. rewrite Hi' by auto.
        apply mat_of_iff in Wm. apply testbit_high with (n := N.of_nat (wb w)); [apply Wm|exact Hk].
      + intros p c Hp Hc. rewrite B, Hb by auto.
        destruct (Nat.eqb_spec p i) as [->|], (Nat.eqb_spec c i) as [->|]; cbn [andb];
          rewrite ?Nat.eqb_refl, ?xorb_false_r; cbn [andb].
        * rewrite Nat.ltb_irrefl. replace (i <? S i) with true by (symmetry; apply Nat.ltb_lt; lia). reflexivity.
        * destruct (Nat.eqb_spec i c); [lia|]. reflexivity.
        * destruct (Nat.eqb_spec p i); [lia|]. reflexivity.
        * destruct (Nat.eqb_spec p c); [|reflexivity]. cbn [andb]. destruct (Nat.ltb_spec p i), (Nat.ltb_spec p (S i)); auto; lia.
    - intros m (Wm & Hb). apply (mbit_ext w); auto. { exact (wf_zero w). } intros r c Hr Hc.
      rewrite Hb by auto. replace (r <? dim w) with true by (symmetry; apply Nat.ltb_lt; lia).
      rewrite andb_false_r. symmetry. exact (mbit_zero w r c Hr Hc). }
  destruct (for_up _ _ _ _) as [m|]; [|contradiction W]. exists m. auto.
Qed.

Lemma bitop_pass : forall w gm, (forall k, typedM w (gm k)) -> acc_bitop w gm = Ok true.
Proof.
  intros w gm Hg. assert (Hs : forall k, shapeM w (gm k)) by auto using typedM_shape. unfold acc_bitop.
  rewrite initM_ok by auto. cbn [bind]. rewrite identityM_ok by auto. cbn [bind].
  rewrite initM_ok by auto. cbn [bind].
  destruct (diag_set w) as (m & -> & ->). cbn [bind].
  rewrite eqM_same by apply wfM_shape, wf_id. cbn [bind].
  assert (R : for_ret 0 (dim w) (fun i (_ : unit) =>
          r <- readbit w (mk w (id_word w)) (Z.of_nat i) (Z.of_nat i) ;;
          if N.eqb r 0 then Ok (inr tt) else Ok (inl tt)) tt = Ok (inl tt)).
  { apply wp_eq. apply wp_for_ret with (I := fun _ _ => True); auto; [lia| |intros []; reflexivity].
    intros i x _ Hi _. rewrite C15_readbit_main by (auto using wfM_shape, wf_id; lia).
    rewrite Nat2Z.id, mbit_id by auto. unfold fid. rewrite Nat.eqb_refl. exact I. }
  rewrite R. cbn [bind]. destruct (diag_flip w) as (m & -> & ->). cbn [bind].
  rewrite eqM_same by (apply wfM_shape; exact (wf_zero w)). reflexivity.
Qed.

Lemma C07_pair : forall e w m v s, shapeM w m -> shapeM w v ->
  exists a b s', genMatpair e w m v s = Ok (a, b, s') /\ wfM w a /\ wfM w b /\
    inverse_of (dim w) (mbit w a) (mbit w b).
Proof. intros. apply C07_genMatpair_main; auto. Qed.

Lemma num_wf : forall w, nw w = 1 -> wfV w [acc_num w].
Proof. intros w H. destruct w; try discriminate H; (split; [reflexivity|repeat constructor]). Qed.

Lemma mulnum_pass : forall e w n gm s, nw w = 1 -> (forall k, typedM w (gm k)) ->
  exists s', acc_mulnum e w n gm s = Ok (true, s').
Proof.
  intros e w n gm s Hw Hg. unfold acc_mulnum.
  destruct (loop_true _ n (fun st =>
         let '(m1, m2, s) := st : mat * mat * world in
         '(a, b, s') <- genMatpair e w m1 m2 s ;;
         x <- MatMulNum e w a (acc_num w) ;; y <- MatMulNum e w b x ;;
         Ok ((a, b, s'), N.eqb (acc_num w) y))
       (fun st => let '(m1, m2, s) := st : mat * mat * world in shapeM w m1 /\ shapeM w m2) (gm 0, gm 1, s))
    as (st & E & _).
  - split; auto using typedM_shape.
  - intros [[m1 m2] s0] [H1 H2]. destruct (C07_pair e w m1 m2 s0 H1 H2) as (a & b & s' & -> & Wa & Wb & HI).
    cbn [bind].
    pose (o := mkv w (fun _ => 0%N)). assert (So : shapeV w o) by (unfold o, shapeV, mkv; rewrite map_length, seq_length; reflexivity).
    destruct (C02_MatMulNum_main e w a (acc_num w) o Hw (wfM_typed _ _ Wa) So) as (x & -> & _ & Bx). cbn [bind].
    destruct (C02_MatMulNum_main e w b x o Hw (wfM_typed _ _ Wb) So) as (y & -> & Ey & By). cbn [bind].
    assert (Wy : wfV w [y]).
    { assert (Sx : shapeV w [x]) by (unfold shapeV; rewrite Hw; reflexivity).
      destruct (C02_MatMulVec_main e w b [x] o (wfM_typed _ _ Wb) Sx So) as (r & Er & Wr & _).
      rewrite Ey in Er. injection Er as <-. exact Wr. }
    assert (Hy : [y] = [acc_num w]).
    { apply (pair_vec w a b [acc_num w] [x] [y] HI (num_wf w Hw) Wy); [exact Bx|exact By]. }
    injection Hy as ->. rewrite N.eqb_refl. eexists. split; [reflexivity|]. split; auto using wfM_shape.
  - rewrite E. cbn [bind]. eauto.
Qed.

Lemma mulvec_pass : forall e w n gm gv s, (forall k, typedM w (gm k)) -> (forall k, typedV w (gv k)) ->
  exists s', acc_mulvec e w n gm gv s = Ok (true, s').
Proof.
  intros e w n gm gv s Hg Hv. unfold acc_mulvec.
  destruct (loop_true _ n (fun st =>
         let '(m1, m2, (v1, v2, v3), s) := st : mat * mat * (vec * vec * vec) * world in
         '(a, b, s1) <- genMatpair e w m1 m2 s ;;
         '(x, s2) <- randV e w v1 s1 ;;
         y <- MatMulVec e w a x v2 ;; z <- MatMulVec e w b y v3 ;;
         q <- isequalV w x z ;;
         Ok ((a, b, (x, y, z), s2), nz q))
       (fun st => let '(m1, m2, (v1, v2, v3), s) := st : mat * mat * (vec * vec * vec) * world in
          shapeM w m1 /\ shapeM w m2 /\ typedV w v1 /\ typedV w v2 /\ typedV w v3)
       (gm 0, gm 1, (gv 0, gv 1, gv 2), s))
    as (st & E & _).
  - refine (conj _ (conj _ (conj _ (conj _ _)))); auto using typedM_shape.
  - intros [[[m1 m2] [[v1 v2] v3]] s0] (H1 & H2 & H3 & H4 & H5).
    destruct (C07_pair e w m1 m2 s0 H1 H2) as (a & b & s1 & -> & Wa & Wb & HI).
    cbn [bind]. rewrite randV_ok by auto. cbn [bind].
    set (x := mkv w _). assert (Wx : wfV w x) by apply wf_randv.
    destruct (mulv_spec e w a x v2 Wa Wx (typedV_shape _ _ H4)) as (y & -> & Wy & By). cbn [bind].
    destruct (mulv_spec e w b y v3 Wb Wy (typedV_shape _ _ H5)) as (z & -> & Wz & Bz). cbn [bind].
    rewrite (pair_vec w a b x y z HI Wx Wz By Bz).
    rewrite eqV_same by auto using wfV_shape. cbn [bind]. eexists. split; [reflexivity|].
    repeat (split; auto using wfM_shape, wfV_typed).
  - rewrite E. cbn [bind]. eauto.
Qed.

Lemma mulmat_pass : forall e w n gm gv s, (forall k, typedM w (gm k)) -> (forall k, typedV w (gv k)) ->
  exists s', acc_mulmat e w n gm gv s = Ok (true, s').
Proof.
  intros e w n gm gv s Hg Hv. unfold acc_mulmat.
  destruct (loop_true _ n (fun st =>
         let '(m1, m2, m3, (v1, v2, v3, v4), s) :=
           st : mat * mat * mat * (vec * vec * vec * vec) * world in
         '(a, s1) <- randM e w m1 s ;;
         '(b, s2) <- randM e w m2 s1 ;;
         '(x, s3) <- randV e w v1 s2 ;;
         y <- MatMulVec e w a x v2 ;; z <- MatMulVec e w b y v3 ;;
         c <- MatMulMat e w b a m3 ;; u <- MatMulVec e w c x v4 ;;
         q <- isequalV w z u ;;
         Ok ((a, b, c, (x, y, z, u), s3), nz q))
       (fun st => let '(m1, m2, m3, (v1, v2, v3, v4), s) :=
           st : mat * mat * mat * (vec * vec * vec * vec) * world in
          typedM w m1 /\ typedM w m2 /\ typedM w m3 /\ typedV w v1 /\ typedV w v2 /\ typedV w v3 /\ typedV w v4)
       (gm 0, gm 1, gm 2, (gv 0, gv 1, gv 2, gv 3), s))
    as (st & E & _).
  - repeat (split; auto).
  - intros [[[[m1 m2] m3] [[[v1 v2] v3] v4]] s0] (H1 & H2 & H3 & H4 & H5 & H6 & H7).
    rewrite randM_ok by auto. cbn [bind]. set (a := mk w _). assert (Wa : wfM w a) by apply wf_rand.
    rewrite randM_ok by auto. cbn [bind]. set (b := mk w _). assert (Wb : wfM w b) by apply wf_rand.
    rewrite randV_ok by auto. cbn [bind]. set (x := mkv w _). assert (Wx : wfV w x) by apply wf_randv.
    destruct (mulv_spec e w a x v2 Wa Wx (typedV_shape _ _ H5)) as (y & -> & Wy & By). cbn [bind].
    destruct (mulv_spec e w b y v3 Wb Wy (typedV_shape _ _ H6)) as (z & -> & Wz & Bz). cbn [bind].
    destruct (mul_spec e w b a m3 Wb Wa (typedM_shape _ _ H3)) as (c & -> & Wc & Bc). cbn [bind].
    destruct (mulv_spec e w c x v4 Wc Wx (typedV_shape _ _ H7)) as (u & -> & Wu & Bu). cbn [bind].
    assert (Ez : z = u).
    { apply (vbit_ext w); auto. rewrite Bz, By, Bu, Bc, fmul_fapp. reflexivity. }
    rewrite <- Ez, eqV_same by auto using wfV_shape. cbn [bind]. eexists. split; [reflexivity|].
    repeat (split; auto using wfM_typed, wfV_typed).
  - rewrite E. cbn [bind]. eauto.
Qed.

Lemma inv_pass : forall e w n gm s, (forall k, typedM w (gm k)) ->
  exists s', acc_inv e w n gm s = Ok (true, s').
Proof.
  intros e w n gm s Hg. unfold acc_inv.
  rewrite identityM_ok by auto using typedM_shape. cbn [bind].
  destruct (loop_true _ n (fun st =>
         let '(m1, m2, m3, m5, s) := st : mat * mat * mat * mat * world in
         '(a, b, s1) <- genMatpair e w m1 m2 s ;;
         i1 <- isinvert w a ;;
         if negb (nz i1) then Ok ((a, b, m3, m5, s1), false) else
         i2 <- isinvert w b ;;
         if negb (nz i2) then Ok ((a, b, m3, m5, s1), false) else
         c <- MatMulMat e w a b m3 ;;
         q <- isequalM w c (mk w (id_word w)) ;;
         if negb (nz q) then Ok ((a, b, c, m5, s1), false) else
         d <- invs w a m5 ;;
         p <- isequalM w b d ;;
         Ok ((a, b, c, d, s1), nz p))
       (fun st => let '(m1, m2, m3, m5, s) := st : mat * mat * mat * mat * world in
          shapeM w m1 /\ shapeM w m2 /\ shapeM w m3 /\ shapeM w m5)
       (gm 0, gm 1, gm 2, gm 4, s))
    as (st & E & _).
  - repeat (split; auto using typedM_shape).
  - intros [[[[m1 m2] m3] m5] s0] (H1 & H2 & H3 & H5).
    destruct (C07_pair e w m1 m2 s0 H1 H2) as (a & b & s1 & -> & Wa & Wb & HI). cbn [bind].
    assert (Ia : invertible (dim w) (mbit w a)) by (eexists; exact HI).
    assert (Ib : invertible (dim w) (mbit w b)) by (exists (mbit w a); destruct HI; split; auto).
    assert (X : forall m, wfM w m -> invertible (dim w) (mbit w m) -> isinvert w m = Ok 1%N).
    { intros m Wm Im. destruct (wp_exists _ _ _ (isinvert_wp w m Wm)) as (r & -> & [[-> _]|[_ N]]); [reflexivity|].
      destruct (N Im). }
    rewrite (X a Wa Ia). cbn [bind nz N.eqb negb]. rewrite (X b Wb Ib). cbn [bind nz N.eqb negb].
    destruct (mul_spec e w a b m3 Wa Wb H3) as (c & -> & Wc & Bc). cbn [bind].
    assert (Ec : c = mk w (id_word w)).
    { apply (mbit_ext w); auto using wf_id. rewrite Bc, mbit_id. apply HI. }
    rewrite Ec, eqM_same by apply wfM_shape, wf_id. cbn [bind nz N.eqb negb].
    destruct (wp_exists _ _ _ (invs_wp w a m5 Wa H5)) as (d & -> & Wd & _ & Hd). cbn [bind].
    assert (Ed : d = b).
    { apply (mbit_ext w); auto. apply (inverse_of_unique (dim w) (mbit w a)); auto. }
    rewrite Ed, eqM_same by auto using wfM_shape. cbn [bind]. eexists. split; [reflexivity|].
    repeat (split; auto using wfM_shape, wf_id).
  - rewrite E. cbn [bind]. eauto.
Qed.

Lemma same_refl : forall w x, shapeV w x -> acc_same w x x = Ok true.
Proof.
  intros w x H. apply wp_eq. apply wp_for_up with (I := fun _ b => b = true); [lia|reflexivity| |auto].
  intros k b _ Hk ->. apply wp_bind. apply wp_aget with (d := 0%N); [unfold shapeV in H; lia|].
  apply wp_bind. apply wp_aget with (d := 0%N); [unfold shapeV in H; lia|]. rewrite N.eqb_refl. reflexivity.
Qed.
Lemma same_total : forall w x y, shapeV w x -> shapeV w y -> exists b, acc_same w x y = Ok b.
Proof.
  intros w x y H H'. assert (W : wp (acc_same w x y) (fun _ => True)).
  { apply wp_for_up with (I := fun _ b => True); auto; [lia|].
    intros k b _ Hk _. apply wp_bind. apply wp_aget with (d := 0%N); [unfold shapeV in H; lia|].
    apply wp_bind. apply wp_aget with (d := 0%N); [unfold shapeV in H'; lia|]. exact I. }
  destruct (acc_same w x y) as [b|]; [eauto|contradiction W].
Qed.

Definition typedA (w : width) (f : aff) : Prop := typedM w (amat f) /\ typedV w (avec f).
Lemma typedA_shape : forall w f, typedA w f -> shapeA w f.
Proof. intros w f [H1 H2]. split; auto using typedM_shape, typedV_shape. Qed.

Lemma num_wfV : forall w, w <> W256 -> wfV w (repeat (acc_num w) (nw w)) /\ wfV w (repeat (acc_num2 w) (nw w)).
Proof. intros w H. destruct w; try contradiction; (split; (split; [reflexivity|repeat constructor])). Qed.

Lemma affine_pass : forall e w ga s, w <> W256 -> (forall k, typedA w (ga k)) ->
  exists s', acc_affine e w ga s = Ok (true, s').
Proof.
  intros e w ga s Hw Hg. unfold acc_affine. cbv zeta.
  destruct (C10_genaffinepair_main e w (ga 0) (ga 1) s) as (g & gi & s' & -> & Wg & Wgi & HX);
    try apply typedM_shape; try apply Hg; [apply typedA_shape, Hg|].
  cbn [bind]. destruct (num_wfV w Hw) as [Wx _]. destruct (HX _ Wx) as [HX1 _].
  destruct (affineU e w g (repeat (acc_num w) (nw w))) as [y|]; [|discriminate HX1]. cbn [bind] in *.
  rewrite HX1. cbn [bind]. rewrite same_refl by auto using wfV_shape. cbn [bind]. eauto.
Qed.

Lemma affineU_wf : forall e w f x y, wfA w f -> wfV w x -> affineU e w f x = Ok y -> wfV w y.
Proof.
  intros e w f x y Hf Hx E. destruct (C11_affinemix_main e w f f f Hf Hf) as (h & _ & _ & _).
  { destruct Hf; split; auto using wfM_shape, wfV_shape. }
  pose proof (affineU_wp e w f x) as W. 
  destruct (wp_exists _ _ _ (W (wfM_typed _ _ (proj1 Hf)) (proj2 Hf) (wfV_shape _ _ Hx))) as (y' & E' & Wy & _).
  rewrite E in E'. injection E' as <-. exact Wy.
Qed.

Lemma mix_pass : forall e w ga s, w <> W256 -> (forall k, typedA w (ga k)) ->
  exists s', acc_mix e w ga s = Ok (true, s').
Proof.
  intros e w ga s Hw Hg. unfold acc_mix. cbv zeta.
  destruct (C10_genaffinepair_main e w (ga 0) (ga 1) s) as (f1 & f2 & s1 & -> & W1 & W2 & X12);
    try apply typedM_shape; try apply Hg; [apply typedA_shape, Hg|].
  cbn [bind].
  destruct (C10_genaffinepair_main e w (ga 2) (ga 3) s1) as (f3 & f4 & s2 & -> & W3 & W4 & X34);
    try apply typedM_shape; try apply Hg; [apply typedA_shape, Hg|].
  cbn [bind]. destruct (num_wfV w Hw) as [_ Wx]. set (x := repeat (acc_num2 w) (nw w)) in *.
  destruct (X12 x Wx) as [H1 _]. destruct (affineU e w f1 x) as [y|] eqn:Ey; [|discriminate H1]. cbn [bind] in *.
  pose proof (affineU_wf e w f1 x y W1 Wx Ey) as Wy.
  destruct (C11_affinemix_main e w f3 f2 (ga 4) W3 W2 (typedA_shape _ _ (Hg 4))) as (f5 & -> & W5 & X5). cbn [bind].
  destruct (X5 y (wfV_shape _ _ Wy)) as (z & -> & Ez). rewrite H1 in Ez. cbn [bind] in *.
  destruct (X34 x Wx) as [H3 _]. rewrite Ez in H3. cbn [bind] in H3. rewrite H3. cbn [bind].
  rewrite same_refl by auto using wfV_shape. cbn [bind]. eauto.
Qed.

Lemma nth_repeat_lt : forall A (x d : A) n i, i < n -> nth i (repeat x n) d = x.
Proof. induction n; intros [|i] H; cbn; auto; [lia|lia|apply IHn; lia]. Qed.
Lemma repeat_snoc : forall A (x : A) n, repeat x (S n) = repeat x n ++ [x].
Proof. induction n; [reflexivity|]. cbn [repeat app] in *. rewrite <- IHn. reflexivity. Qed.
(** the constant operands of the concatenation tests *)
Definition ones (w : width) : vec := repeat (2 ^ N.of_nat (wb w) - 1)%N (nw w).
Lemma wf_ones : forall w, wfV w (ones w).
Proof.
  intros w. split; [apply repeat_length|]. apply Forall_forall. intros x Hx. apply repeat_spec in Hx as ->.
  assert (0 < 2 ^ N.of_nat (wb w))%N by (apply N.neq_0_lt_0, N.pow_nonzero; discriminate). lia.
Qed.
Lemma vbit_ones : forall w j, j < dim w -> vbit w (ones w) j = true.
Proof.
  intros w j Hj. unfold vbit, ones. rewrite nth_repeat_lt by (apply div_lt_nw; auto).
  replace (2 ^ N.of_nat (wb w) - 1)%N with (N.ones (N.of_nat (wb w))).
  - apply N.ones_spec_low. pose proof (wb_pos w). lia.
  - rewrite N.ones_equiv. lia.
Qed.

Definition idaff (w : width) : aff := mkaff (mk w (id_word w)) (ones w).
Lemma wf_idaff : forall w, wfA w (idaff w).
Proof. intros w. split; [apply wf_id|apply wf_ones]. Qed.

Lemma com_fs : forall c (gm : nat -> mat), (forall q, shapeM (com_src c) (gm q)) ->
  for_up 0 (dim (com_tgt c) / dim (com_src c)) (fun q l =>
          m <- identityM (com_src c) (gm q) ;;
          Ok (l ++ [mkaff m (repeat (2 ^ N.of_nat (wb (com_src c)) - 1)%N (nw (com_src c)))])) [] =
  Ok (repeat (idaff (com_src c)) (com_n c)).
Proof.
  intros c gm Hg. apply wp_eq.
  assert (En : dim (com_tgt c) / dim (com_src c) = com_n c).
  { rewrite com_dims, Nat.mul_comm. apply Nat.div_mul. pose proof (dim_pos (com_src c)). lia. }
  rewrite En. apply wp_for_up with (I := fun q l => l = repeat (idaff (com_src c)) q); [lia|reflexivity| |auto].
  intros q l _ Hq ->. rewrite identityM_ok by auto. cbn [bind wp]. fold (ones (com_src c)).
  fold (idaff (com_src c)). rewrite <- repeat_snoc. reflexivity.
Qed.

Lemma map_repeat' : forall A B (f : A -> B) x n, map f (repeat x n) = repeat (f x) n.
Proof. induction n; cbn; congruence. Qed.

Lemma com_pass : forall c gm gt ga0, (forall q, shapeM (com_src c) (gm q)) -> shapeM (com_tgt c) gt ->
  shapeM (com_tgt c) (amat ga0) -> typedV (com_tgt c) (avec ga0) -> acc_com LE c gm gt ga0 = Ok true.
Proof.
  intros c gm gt ga0 Hg Ht Hm Hv. unfold acc_com. rewrite identityM_ok by auto. cbn [bind].
  rewrite com_fs by auto. cbn [bind].
  assert (P : 0 < dim (com_src c)) by (pose proof (dim_pos (com_src c)); lia).
  destruct (wp_exists _ _ _ (affinecom_wp c (repeat (idaff (com_src c)) (com_n c)) ga0
    ltac:(apply repeat_length) ltac:(apply Forall_forall; intros x Hx; apply repeat_spec in Hx as ->; apply wf_idaff) Hm Hv))
    as (h & -> & [Wm Wv] & Bm & Bv). cbn [bind].
  assert (Em : amat h = mk (com_tgt c) (id_word (com_tgt c))).
  { apply (mbit_ext (com_tgt c)); auto using wf_id. rewrite Bm, mbit_id. intros i j Hi Hj.
    unfold bdiag, blocks, fid. rewrite map_repeat'. cbn [amat idaff].
    rewrite com_dims in Hi, Hj.
    destruct (div_sub _ _ i P Hi) as [Di Mi]. destruct (div_sub _ _ j P Hj) as [Dj Mj].
    pose proof (Nat.div_mod i (dim (com_src c)) ltac:(lia)). pose proof (Nat.div_mod j (dim (com_src c)) ltac:(lia)).
    rewrite nth_repeat_lt by auto. rewrite mbit_id by auto. unfold fid.
    destruct (Nat.eqb_spec (j / dim (com_src c)) (i / dim (com_src c))),
      (Nat.eqb_spec (i mod dim (com_src c)) (j mod dim (com_src c))), (Nat.eqb_spec i j); auto; try congruence; lia. }
  assert (Ev : avec h = ones (com_tgt c)).
  { apply (vbit_ext (com_tgt c)); auto using wf_ones. intros j Hj. rewrite Bv, vbit_ones by auto.
    rewrite map_repeat'. cbn [avec idaff]. rewrite com_dims in Hj.
    destruct (div_sub _ _ j P Hj) as [Dj Mj]. rewrite nth_repeat_lt by auto. apply vbit_ones; auto. }
  rewrite Em, Ev, eqM_same by apply wfM_shape, wf_id. cbn [bind]. fold (ones (com_tgt c)).
  rewrite same_refl by apply wfV_shape, wf_ones. reflexivity.
Qed.

Lemma com_fail : forall c gm gt ga0, (forall q, shapeM (com_src c) (gm q)) -> shapeM (com_tgt c) gt ->
  shapeM (com_tgt c) (amat ga0) -> typedV (com_tgt c) (avec ga0) -> acc_com BE c gm gt ga0 = Ok false.
Proof.
  intros c gm gt ga0 Hg Ht Hm Hv. unfold acc_com. rewrite identityM_ok by auto. cbn [bind].
  rewrite com_fs by auto. cbn [bind]. unfold affinecom. rewrite !map_repeat'. cbn [amat avec idaff].
  assert (F1 : Forall (shapeM (com_src c)) (repeat (mk (com_src c) (id_word (com_src c))) (com_n c))).
  { apply Forall_forall. intros x Hx. apply repeat_spec in Hx as ->. apply wfM_shape, wf_id. }
  assert (F2 : Forall (shapeV (com_src c)) (repeat (ones (com_src c)) (com_n c))).
  { apply Forall_forall. intros x Hx. apply repeat_spec in Hx as ->. apply wfV_shape, wf_ones. }
  destruct (wp_exists _ _ _ (Matrixcom_wp BE c _ (amat ga0) (repeat_length _ _) F1 Hm)) as (m & -> & Wm & Bm).
  cbn [bind].
  destruct (wp_exists _ _ _ (Vectorcom_wp BE c _ (avec ga0) (repeat_length _ _) F2 Hv)) as (v & -> & Wv & _).
  cbn [bind amat avec].
  assert (N : m <> mk (com_tgt c) (id_word (com_tgt c))).
  { intros E. assert (P : 0 < dim (com_tgt c)) by (pose proof (dim_pos (com_tgt c)); lia).
    pose proof (Bm 0 0 P P) as B. rewrite E, mbit_id in B by auto.
    assert (Z : blocks (dim (com_src c)) (slot BE c) (fun q => mbit (com_src c)
      (nth q (repeat (mk (com_src c) (id_word (com_src c))) (com_n c)) [])) 0 0 = false).
    { unfold blocks. replace (Nat.eqb _ _) with false; [reflexivity|]. destruct c; reflexivity. }
    rewrite Z in B. discriminate B. }
  destruct (C17_isequalM_main (com_tgt c) m (mk (com_tgt c) (id_word (com_tgt c))) (wfM_shape _ _ Wm)
    (wfM_shape _ _ (wf_id _))) as (r & -> & [[_ E]|[-> _]]); [contradiction|]. cbn [bind].
  destruct (same_total (com_tgt c) v (ones (com_tgt c)) (wfV_shape _ _ Wv) (wfV_shape _ _ (wf_ones _))) as (b & E).
  unfold ones in E. rewrite E. reflexivity.
Qed.

(** ** The program *)
Local Open Scope string_scope.
Lemma lines_pass : forall A (name : A -> string) t l st,
  (forall a, In a l -> forall s, exists s', t a s = Ok (true, s')) ->
  exists s', acc_lines name t l st =
    Ok (mkacc (a_flag st) (app (a_out st) (map (fun a => name a ++ ": PASS" ++ acc_nl) l)) s').
Proof.
  intros A name t. induction l as [|a l IH]; intros st H; cbn [acc_lines map].
  - exists (a_world st). rewrite app_nil_r. destruct st; reflexivity.
  - unfold acc_line. destruct (H a (or_introl eq_refl) (a_world st)) as (s1 & ->). cbn [bind].
    destruct (IH (mkacc (a_flag st) (app (a_out st) [name a ++ ": PASS" ++ acc_nl]) s1)) as (s' & E).
    { intros b Hb. apply H. right. exact Hb. }
    exists s'. rewrite E. cbn [a_flag a_out]. rewrite <- app_assoc. reflexivity.
Qed.
Lemma lines_fail : forall A (name : A -> string) t l st,
  (forall a, In a l -> forall s, exists s', t a s = Ok (false, s')) ->
  exists s', acc_lines name t l st =
    Ok (mkacc (match l with nil => a_flag st | _ => false end)
       (app (a_out st) (map (fun a => name a ++ ": ERROR" ++ acc_nl) l)) s').
Proof.
  intros A name t. induction l as [|a l IH]; intros st H; cbn [acc_lines map].
  - exists (a_world st). rewrite app_nil_r. destruct st; reflexivity.
  - unfold acc_line. destruct (H a (or_introl eq_refl) (a_world st)) as (s1 & ->). cbn [bind].
    destruct (IH (mkacc false (app (a_out st) [name a ++ ": ERROR" ++ acc_nl]) s1)) as (s' & E).
    { intros b Hb. apply H. right. exact Hb. }
    exists s'. rewrite E. cbn [a_flag a_out]. rewrite <- app_assoc. destruct l; reflexivity.
Qed.

Lemma noworld_ok : forall b, (forall s, exists s', noworld (Ok b) s = Ok (b, s')).
Proof. intros b s. exists s. reflexivity. Qed.

Ltac gens := generalize acc_nl "-----bitwise operation (read/set/flip) test-----" "-----mat mul num test-----"
  "-----mat mul vec test-----" "-----mat mul mat (includes mat transpositon) test-----"
  "-----invertible and inverse test-----" "-----invertible affine and affine transform test-----"
  "-----affine mix test-----" "-----affine concatenation test-----" ": PASS" ": ERROR" "ALL PASS!" "ERROR!"; intros.
Lemma main_run : forall e n g s, typed_locals g ->
  exists s', accuracy_main e n g s =
    Ok (match e with
        | LE => app (List.concat (map (fun x => (fst x ++ acc_nl) :: map (fun y => y ++ ": PASS" ++ acc_nl) (snd x))
          [("-----bitwise operation (read/set/flip) test-----", map bitname [W4; W8; W16; W32; W64; W128; W256]);
           ("-----mat mul num test-----", map bitname [W4; W8; W16; W32; W64]);
           ("-----mat mul vec test-----", map bitname [W4; W8; W16; W32; W64; W128; W256]);
           ("-----mat mul mat (includes mat transpositon) test-----", map bitname [W4; W8; W16; W32; W64; W128; W256]);
           ("-----invertible and inverse test-----", map bitname [W4; W8; W16; W32; W64; W128; W256]);
           ("-----invertible affine and affine transform test-----", map bitname [W4; W8; W16; W32; W64; W128]);
           ("-----affine mix test-----", map bitname [W4; W8; W16; W32; W64; W128]);
           ("-----affine concatenation test-----", map comname [C8to32; C8to64; C8to128; C16to64; C32to128; C16to128])]))
          [acc_nl ++ "ALL PASS!"]
        | BE => app (List.concat (map (fun x => (fst x ++ acc_nl) :: map (fun y => y ++ ": PASS" ++ acc_nl) (snd x))
          [("-----bitwise operation (read/set/flip) test-----", map bitname [W4; W8; W16; W32; W64; W128; W256]);
           ("-----mat mul num test-----", map bitname [W4; W8; W16; W32; W64]);
           ("-----mat mul vec test-----", map bitname [W4; W8; W16; W32; W64; W128; W256]);
           ("-----mat mul mat (includes mat transpositon) test-----", map bitname [W4; W8; W16; W32; W64; W128; W256]);
           ("-----invertible and inverse test-----", map bitname [W4; W8; W16; W32; W64; W128; W256]);
           ("-----invertible affine and affine transform test-----", map bitname [W4; W8; W16; W32; W64; W128]);
           ("-----affine mix test-----", map bitname [W4; W8; W16; W32; W64; W128])]))
          (app (("-----affine concatenation test-----" ++ acc_nl) ::
             map (fun y => y ++ ": ERROR" ++ acc_nl)
              (map comname [C8to32; C8to64; C8to128; C16to64; C32to128; C16to128]))
          [acc_nl ++ "ERROR!"])
        end, s').
Proof.
  intros e n g s [Hg Hc]. unfold accuracy_main. cbv zeta. cbn [acc_puts a_flag a_out a_world].
  assert (HM : forall k w i, typedM w (l_mat g k w i)) by (intros; apply Hg).
  assert (HV : forall k w i, typedV w (l_vec g k w i)) by (intros; apply Hg).
  assert (HA : forall k w i, typedA w (l_aff g k w i)) by (intros; split; apply Hg).
  match goal with |- context [acc_lines ?nm ?t ?l ?st] => destruct (lines_pass _ nm t l st) as (s1 & ->) end.
  { intros w _ s0. rewrite bitop_pass by auto. apply noworld_ok. }
  cbn [bind acc_puts a_flag a_out a_world].
  match goal with |- context [acc_lines ?nm ?t ?l ?st] => destruct (lines_pass _ nm t l st) as (s2 & ->) end.
  { intros w Hw s0. apply mulnum_pass; auto. destruct w; auto; exfalso; cbn in Hw; intuition discriminate. }
  cbn [bind acc_puts a_flag a_out a_world].
  match goal with |- context [acc_lines ?nm ?t ?l ?st] => destruct (lines_pass _ nm t l st) as (s3 & ->) end.
  { intros w _ s0. apply mulvec_pass; auto. }
  cbn [bind acc_puts a_flag a_out a_world].
  match goal with |- context [acc_lines ?nm ?t ?l ?st] => destruct (lines_pass _ nm t l st) as (s4 & ->) end.
  { intros w _ s0. apply mulmat_pass; auto. }
  cbn [bind acc_puts a_flag a_out a_world].
  match goal with |- context [acc_lines ?nm ?t ?l ?st] => destruct (lines_pass _ nm t l st) as (s5 & ->) end.
  { intros w _ s0. apply inv_pass; auto. }
  cbn [bind acc_puts a_flag a_out a_world].
  match goal with |- context [acc_lines ?nm ?t ?l ?st] => destruct (lines_pass _ nm t l st) as (s6 & ->) end.
  { intros w Hw s0. apply affine_pass; auto. intros ->. cbn in Hw. intuition discriminate. }
  cbn [bind acc_puts a_flag a_out a_world].
  match goal with |- context [acc_lines ?nm ?t ?l ?st] => destruct (lines_pass _ nm t l st) as (s7 & ->) end.
  { intros w Hw s0. apply mix_pass; auto. intros ->. cbn in Hw. intuition discriminate. }
  cbn [bind acc_puts a_flag a_out a_world].
  assert (HC : forall c, (forall q, shapeM (com_src c) (l_src g c q)) /\ shapeM (com_tgt c) (l_tgt g c) /\
    shapeM (com_tgt c) (amat (l_com g c)) /\ typedV (com_tgt c) (avec (l_com g c))).
  { intros c. destruct (Hc c) as (C1 & C2 & C3 & C4).
    refine (conj _ (conj _ (conj _ _))); auto using typedM_shape. }
  destruct e.
  - match goal with |- context [acc_lines ?nm ?t ?l ?st] => destruct (lines_pass _ nm t l st) as (s8 & ->) end.
    { intros c _ s0. destruct (HC c) as (C1 & C2 & C3 & C4). rewrite com_pass by auto. apply noworld_ok. }
    cbn [bind acc_puts a_flag a_out a_world]. exists s8. gens. reflexivity.
  - match goal with |- context [acc_lines ?nm ?t ?l ?st] => destruct (lines_fail _ nm t l st) as (s8 & ->) end.
    { intros c _ s0. destruct (HC c) as (C1 & C2 & C3 & C4). rewrite com_fail by auto. apply noworld_ok. }
    cbn [bind acc_puts a_flag a_out a_world]. exists s8. gens. reflexivity.
Qed.
