(** Final form of the properties C01 - C11.  tools/gen_props.py copies the
    statements (names without the suffix _main) to Properties1.v. *)
From Coq Require Import Arith NArith List Bool Lia Setoid Morphisms.
From Verif Require Import Base Tables Model Spec LinAlg Mem Cons Elim Parity Trans Mul Rand
  GenPair Com Affine Check.
Import ListNotations.

(** C01: MatMulMat writes the product. *)
Lemma C01_MatMulMat_main : forall e w a b out,
  typedM w a -> wfM w b -> shapeM w out ->
  exists r, MatMulMat e w a b out = Ok r /\ wfM w r /\
    forall i j, i < dim w -> j < dim w ->
      mbit w r i j = xsum (dim w) (fun k => mbit w a i k && mbit w b k j).
Proof.
  intros e w a b out Ha Hb Ho.
  destruct (wp_exists _ _ _ (MatMulMat_wp e w a b out Ha Hb Ho)) as (r & E & Wr & Br).
  exists r. auto.
Qed.
(** The matrices are not zero, and neither is the product. *)
Example C01_ex_main : forall w, typedM w (sample w) /\ wfM w (rank1 w) /\ shapeM w (zeros w).
Proof. intros w. auto using wfM_typed, wf_sample, wf_rank1, shape_zeros. Qed.
Example C01_ex2_main :
  MatMulMat LE W4 [[0xe]; [0x1]; [0x3]; [0x8]]%N [[0x3]; [0x6]; [0x9]; [0xf]]%N (zeros W4)
  = Ok [[0xc]; [0xf]; [0x6]; [0x3]]%N.
Proof. vm_compute. reflexivity. Qed.

(** C02: MatMulVec multiplies with a column vector. *)
Lemma C02_MatMulVec_main : forall e w a x out,
  typedM w a -> shapeV w x -> shapeV w out ->
  exists r, MatMulVec e w a x out = Ok r /\ wfV w r /\
    forall i, i < dim w -> vbit w r i = xsum (dim w) (fun k => mbit w a i k && vbit w x k).
Proof.
  intros e w a x out Ha Hx Ho.
  destruct (wp_exists _ _ _ (MatMulVec_wp e w a x out Ha Hx Ho)) as (r & E & Wr & Br).
  exists r. auto.
Qed.
(** C02: MatMulNum (one element per row) agrees with MatMulVec. *)
Lemma C02_MatMulNum_main : forall e w a x out,
  nw w = 1 -> typedM w a -> shapeV w out ->
  exists r, MatMulNum e w a x = Ok r /\ MatMulVec e w a [x] out = Ok [r] /\
    forall i, i < dim w -> vbit w [r] i = xsum (dim w) (fun k => mbit w a i k && vbit w [x] k).
Proof.
  intros e w a x out Hw Ha Ho.
  assert (Hx : shapeV w [x]) by (unfold shapeV; rewrite Hw; reflexivity).
  destruct (wp_exists _ _ _ (MatMulNum_wp e w a x Hw Ha)) as (r & E & Wr & Br).
  destruct (wp_exists _ _ _ (MatMulVec_wp e w a [x] out Ha Hx Ho)) as (r2 & E2 & Wr2 & Br2).
  exists r. split; [exact E|]. split; [|exact Br]. rewrite E2. f_equal.
  apply (vbit_ext w); auto. rewrite Br, Br2. reflexivity.
Qed.
Example C02_ex_main : typedM W8 (sample W8) /\ shapeV W8 [0x35]%N /\
  MatMulNum LE W8 (sample W8) 0x35%N = Ok 0x13%N.
Proof. split; [apply wfM_typed, wf_sample|]. split; vm_compute; reflexivity. Qed.

(** C03: Mattrans writes the transposed matrix. *)
Lemma C03_Mattrans_main : forall w a out, wfM w a -> shapeM w out ->
  exists r, Mattrans w a out = Ok r /\ wfM w r /\
    forall i j, i < dim w -> j < dim w -> mbit w r i j = mbit w a j i.
Proof.
  intros w a out Ha Ho.
  destruct (wp_exists _ _ _ (Mattrans_wp w a out Ha Ho)) as (r & E & Wr & Br).
  exists r. auto.
Qed.
(** C03: applied twice it gives back the matrix. *)
Lemma C03_involution_main : forall w a out out2, wfM w a -> shapeM w out -> shapeM w out2 ->
  (r <- Mattrans w a out ;; Mattrans w r out2) = Ok a.
Proof.
  intros w a out out2 Ha Ho Ho2.
  destruct (wp_exists _ _ _ (Mattrans_wp w a out Ha Ho)) as (r & E & Wr & Br).
  rewrite E. cbn [bind].
  destruct (wp_exists _ _ _ (Mattrans_wp w r out2 Wr Ho2)) as (r2 & E2 & Wr2 & Br2).
  rewrite E2. f_equal. apply (mbit_ext w); auto. rewrite Br2.
  intros i j Hi Hj. unfold ftr at 1. rewrite Br by auto. reflexivity.
Qed.
Example C03_ex_main : wfM W4 [[0xe]; [0x1]; [0x3]; [0x8]]%N /\
  Mattrans W4 [[0xe]; [0x1]; [0x3]; [0x8]]%N (zeros W4) = Ok [[0x9]; [0x8]; [0xa]; [0x6]]%N.
Proof. split; [apply mat_ofb_ok|]; vm_compute; reflexivity. Qed.

(** C04: isinvert is exact. *)
Lemma C04_isinvert_main : forall w a, wfM w a ->
  exists r, isinvert w a = Ok r /\
    ((r = 1%N /\ exists B, feq (dim w) (fmul (dim w) (mbit w a) B) fid /\
                           feq (dim w) (fmul (dim w) B (mbit w a)) fid) \/
     (r = 0%N /\ forall B, ~ feq (dim w) (fmul (dim w) (mbit w a) B) fid \/
                           ~ feq (dim w) (fmul (dim w) B (mbit w a)) fid)).
Proof.
  intros w a Ha. destruct (wp_exists _ _ _ (isinvert_wp w a Ha)) as (r & E & H).
  exists r. split; [exact E|]. destruct H as [[H1 [B HB]]|[H1 H2]].
  - left. split; auto. exists B. exact HB.
  - right. split; auto. intros B.
    destruct (forallb (fun i => forallb (fun j => Bool.eqb (fmul (dim w) (mbit w a) B i j) (fid i j))
                                (seq 0 (dim w))) (seq 0 (dim w))) eqn:F.
    + right. intros HB. apply H2. exists B. split; auto. intros i j Hi Hj.
      rewrite forallb_forall in F. specialize (F i). rewrite in_seq in F.
      specialize (F ltac:(lia)). rewrite forallb_forall in F. specialize (F j).
      rewrite in_seq in F. specialize (F ltac:(lia)). apply eqb_prop in F. exact F.
    + left. intros HA. apply Bool.not_true_iff_false in F. apply F. apply forallb_forall.
      intros i Hi. apply in_seq in Hi. apply forallb_forall. intros j Hj. apply in_seq in Hj.
      apply eqb_true_iff. apply HA; lia.
Qed.
Example C04_ex_main : forall w, wfM w (sample w) /\ isinvert w (sample w) = Ok 1%N /\
  wfM w (rank1 w) /\ isinvert w (rank1 w) = Ok 0%N.
Proof. intros w. auto using wf_sample, wf_rank1, sample_invertible, rank1_singular. Qed.

(** C05: invs writes the two-sided inverse of an invertible matrix. *)
Lemma C05_invs_main : forall w a out, wfM w a -> shapeM w out -> isinvert w a = Ok 1%N ->
  exists r, invs w a out = Ok r /\ wfM w r /\
    feq (dim w) (fmul (dim w) (mbit w a) (mbit w r)) fid /\
    feq (dim w) (fmul (dim w) (mbit w r) (mbit w a)) fid.
Proof.
  intros w a out Ha Ho Hi. apply isinvert_1 in Hi; auto.
  destruct (wp_exists _ _ _ (invs_wp w a out Ha Ho)) as (r & E & Wr & _ & Br).
  exists r. split; auto. split; auto. apply Br; auto.
Qed.
(** C05: so both products computed by the library are the identity matrix. *)
Lemma C05_invs_products_main : forall e w a out o1 o2 o3,
  wfM w a -> shapeM w out -> shapeM w o1 -> shapeM w o2 -> shapeM w o3 -> isinvert w a = Ok 1%N ->
  exists r id, invs w a out = Ok r /\ identityM w o3 = Ok id /\
    MatMulMat e w a r o1 = Ok id /\ MatMulMat e w r a o2 = Ok id.
Proof.
  intros e w a out o1 o2 o3 Ha Ho H1 H2 H3 Hi. apply isinvert_1 in Hi; auto.
  destruct (wp_exists _ _ _ (invs_wp w a out Ha Ho)) as (r & E & Wr & _ & Br).
  destruct (Br Hi) as [B1 B2]. exists r, (mk w (id_word w)). split; auto.
  split; [apply identityM_ok; auto|]. split.
  - destruct (wp_exists _ _ _ (MatMulMat_wp e w a r o1 (wfM_typed _ _ Ha) Wr H1)) as (p & Ep & Wp & Bp).
    rewrite Ep. f_equal. apply (mbit_ext w); auto using wf_id. rewrite Bp, mbit_id. exact B1.
  - destruct (wp_exists _ _ _ (MatMulMat_wp e w r a o2 (wfM_typed _ _ Wr) Ha H2)) as (p & Ep & Wp & Bp).
    rewrite Ep. f_equal. apply (mbit_ext w); auto using wf_id. rewrite Bp, mbit_id. exact B2.
Qed.
Example C05_ex_main : wfM W4 [[0xe]; [0x1]; [0x3]; [0x8]]%N /\
  isinvert W4 [[0xe]; [0x1]; [0x3]; [0x8]]%N = Ok 1%N /\
  invs W4 [[0xe]; [0x1]; [0x3]; [0x8]]%N (zeros W4) = Ok [[0x1]; [0xf]; [0x6]; [0x4]]%N.
Proof. split; [apply mat_ofb_ok|split]; vm_compute; reflexivity. Qed.

(** C06: on a singular matrix invs is silent; its result is an invertible matrix which
    is not even a one-sided inverse. *)
Lemma C06_invs_singular_main : forall w a out, wfM w a -> shapeM w out -> isinvert w a = Ok 0%N ->
  exists r, invs w a out = Ok r /\ wfM w r /\ isinvert w r = Ok 1%N /\
    ~ feq (dim w) (fmul (dim w) (mbit w a) (mbit w r)) fid /\
    ~ feq (dim w) (fmul (dim w) (mbit w r) (mbit w a)) fid.
Proof.
  intros w a out Ha Ho Hi. apply isinvert_0 in Hi; auto.
  destruct (wp_exists _ _ _ (invs_wp w a out Ha Ho)) as (r & E & Wr & Ir & _).
  exists r. split; auto. split; auto. split.
  - destruct (wp_exists _ _ _ (isinvert_wp w r Wr)) as (b & Eb & [[-> _]|[_ H]]); [exact Eb|contradiction].
  - split; intros H; apply Hi; exists (mbit w r); apply inverse_of_sym.
    + apply left_inverse_of_invertible; auto.
    + apply right_inverse_of_invertible; auto.
Qed.
Example C06_ex_main : forall w, wfM w (rank1 w) /\ isinvert w (rank1 w) = Ok 0%N.
Proof. intros w. auto using wf_rank1, rank1_singular. Qed.

(** C07: genMatpair writes a pair of inverse matrices. *)
Lemma C07_genMatpair_main : forall e w m v s, shapeM w m -> shapeM w v ->
  exists a b s', genMatpair e w m v s = Ok (a, b, s') /\ wfM w a /\ wfM w b /\
    feq (dim w) (fmul (dim w) (mbit w a) (mbit w b)) fid /\
    feq (dim w) (fmul (dim w) (mbit w b) (mbit w a)) fid.
Proof.
  intros e w m v s Hm Hv.
  destruct (wp_exists _ _ _ (genMatpair_wp e w m v s Hm Hv)) as ([[a b] s'] & E & Wa & Wb & [H1 H2] & _).
  exists a, b, s'. auto.
Qed.
(** A world in which the draw is singular, so that the repair branch runs. *)
Example C07_ex_main :
  let s := mkworld 0 0 0 (fun _ => 0%N) 0 in
  (match randM LE W4 (zeros W4) (reseed s) return Prop with
  | Ok (d, _) => d = [[7]; [12]; [0]; [2]]%N /\ isinvert W4 d = Ok 0%N | UB => False end) /\
  (match genMatpair LE W4 (zeros W4) (zeros W4) s return Prop with
  | Ok (a, b, _) => a = [[7]; [12]; [1]; [2]]%N /\ b = [[15]; [11]; [1]; [2]]%N
  | UB => False end).
Proof. vm_compute. repeat split; reflexivity. Qed.

(** C08: no undefined behaviour; at most n*n-1 operations are recorded, with row
    numbers below n. *)
Lemma C08_trail_main : forall e w m v s, shapeM w m -> shapeM w v ->
  exists r tr, genMatpair_trail e w m v s = Ok (r, tr) /\ genMatpair e w m v s = Ok r /\
    length tr <= dim w * dim w - 1 /\
    Forall (fun o => let '(_, a, b) := o in N.to_nat a < dim w /\ N.to_nat b < dim w) tr.
Proof.
  intros e w m v s Hm Hv.
  destruct (wp_exists _ _ _ (genMatpair_trail_wp e w m v s Hm Hv))
    as ([[[a b] s'] tr] & E & _ & _ & _ & _ & HL & HV).
  exists (a, b, s'), tr. split; [exact E|]. split; [unfold genMatpair; rewrite E; reflexivity|].
  split; [lia|]. eapply Forall_impl; [|exact HV].
  intros [[op x] y] (H1 & H2 & _). auto.
Qed.

(** Lengths of the trail in four worlds (the bound is 15). *)
Example C08_ex_main :
  map (fun k => match genMatpair_trail LE W4 (zeros W4) (zeros W4) (mkworld k 0 0 (fun _ => 0%N) 0) with
                | Ok (_, tr) => length tr | UB => 99 end) [0; 1; 2; 3]%N = [5; 7; 9; 9].
Proof. vm_compute. reflexivity. Qed.

(** C09: an invertible draw is returned unchanged, with the matrix that invs computes. *)
Lemma C09_keeps_draw_main : forall e w m v s m0 out draw s1,
  shapeM w m -> shapeM w v -> typedM w m0 -> shapeM w out ->
  randM e w m0 (reseed s) = Ok (draw, s1) -> isinvert w draw = Ok 1%N ->
  exists b s', genMatpair e w m v s = Ok (draw, b, s') /\ invs w draw out = Ok b.
Proof.
  intros e w m v s m0 out draw s1 Hm Hv Hm0 Ho HD HI.
  rewrite randM_ok in HD by auto. injection HD as <- _. fold (drawn e w s) in *.
  assert (Wd : wfM w (drawn e w s)) by apply wf_rand.
  apply isinvert_1 in HI; auto.
  destruct (wp_exists _ _ _ (genMatpair_wp e w m v s Hm Hv)) as ([[a b] s'] & E & Wa & Wb & H1 & H2).
  exists b, s'. rewrite (H2 HI) in *. split; [exact E|].
  destruct (wp_exists _ _ _ (invs_wp w (drawn e w s) out Wd Ho)) as (r & Er & Wr & _ & Br).
  rewrite Er. f_equal. apply (mbit_ext w); auto.
  eapply inverse_of_unique; [apply Br; auto|exact H1].
Qed.

(** A world in which the draw is invertible. *)
Example C09_ex_main :
  let s := mkworld 4 0 0 (fun _ => 0%N) 0 in
  (match randM LE W4 (zeros W4) (reseed s) return Prop with
  | Ok (d, _) => d = [[2]; [1]; [7]; [8]]%N /\ isinvert W4 d = Ok 1%N | UB => False end) /\
  (match genMatpair LE W4 (zeros W4) (zeros W4) s return Prop with
  | Ok (a, b, _) => a = [[2]; [1]; [7]; [8]]%N /\ b = [[1]; [14]; [8]; [4]]%N
  | UB => False end).
Proof. vm_compute. repeat split; reflexivity. Qed.

(** C10: a generated affine pair consists of mutually inverse functions. *)
Lemma C10_genaffinepair_main : forall e w f fi s,
  shapeM w (amat f) -> typedV w (avec f) -> shapeA w fi ->
  exists g gi s', genaffinepair e w f fi s = Ok (g, gi, s') /\ wfA w g /\ wfA w gi /\
    forall x, wfV w x ->
      (y <- affineU e w g x ;; affineU e w gi y) = Ok x /\
      (y <- affineU e w gi x ;; affineU e w g y) = Ok x.
Proof.
  intros e w f fi s Hm Hv Hi.
  destruct (wp_exists _ _ _ (genaffinepair_wp e w f fi s Hm Hv Hi))
    as ([[g gi] s'] & E & Wg & Wgi & _ & H1 & H2).
  exists g, gi, s'. split; auto. split; auto. split; auto. intros x Wx. split.
  - destruct (affineU_spec e w g x Wg (wfV_shape _ _ Wx)) as (y & Ey & Wy & By).
    rewrite Ey. cbn [bind].
    destruct (affineU_spec e w gi y Wgi (wfV_shape _ _ Wy)) as (z & Ez & Wz & Bz).
    rewrite Ez. f_equal. apply (vbit_ext w); auto. rewrite Bz, (aapp_ext w gi _ _ By). apply H1.
  - destruct (affineU_spec e w gi x Wgi (wfV_shape _ _ Wx)) as (y & Ey & Wy & By).
    rewrite Ey. cbn [bind].
    destruct (affineU_spec e w g y Wg (wfV_shape _ _ Wy)) as (z & Ez & Wz & Bz).
    rewrite Ez. f_equal. apply (vbit_ext w); auto. rewrite Bz, (aapp_ext w g _ _ By). apply H2.
Qed.
Example C10_ex_main : forall w, shapeM w (sample w) /\ typedV w (samplev w) /\
  shapeA w (mkaff (zeros w) (zerov w)) /\ wfV w (samplev w).
Proof.
  intros w. split; [apply wfM_shape, wf_sample|]. split; [apply wfV_typed, wf_samplev|].
  split; [|apply wf_samplev]. split; [apply shape_zeros|apply shape_zerov].
Qed.

(** C11: affinemix composes. *)
Lemma C11_affinemix_main : forall e w f g mix, wfA w f -> wfA w g -> shapeA w mix ->
  exists h, affinemix e w f g mix = Ok h /\ wfA w h /\
    forall x, shapeV w x ->
      exists y, affineU e w h x = Ok y /\ (z <- affineU e w g x ;; affineU e w f z) = Ok y.
Proof.
  intros e w f g mix Hf Hg Hmix.
  destruct (affinemix_spec e w f g mix Hf Hg Hmix) as (h & E & Wh & Bh).
  exists h. split; auto. split; auto. intros x Hx.
  destruct (affineU_spec e w h x Wh Hx) as (y & Ey & Wy & By).
  destruct (affineU_spec e w g x Hg Hx) as (z & Ez & Wz & Bz).
  destruct (affineU_spec e w f z Hf (wfV_shape _ _ Wz)) as (u & Eu & Wu & Bu).
  exists y. split; auto. rewrite Ez. cbn [bind]. rewrite Eu. f_equal.
  apply (vbit_ext w); auto. rewrite Bu, By, Bh. apply aapp_ext. exact Bz.
Qed.
Example C11_ex_main :
  wfA W8 (mkaff (sample W8) [0x35]%N) /\ wfA W8 (mkaff (rank1 W8) [0xa1]%N) /\
  affineU LE W8 (mkaff (sample W8) [0x35]%N) [0x80]%N = Ok [0xb5]%N.
Proof.
  split; [split; [apply wf_sample|apply vec_ofb_ok; reflexivity]|].
  split; [split; [apply wf_rank1|apply vec_ofb_ok; reflexivity]|]. vm_compute. reflexivity.
Qed.
