(** Final form of the properties C26 - C33, C37 and C40.  tools/gen_props.py copies the
    statements (names without the suffix _main) to Properties3.v. *)
From Coq Require Import Arith NArith ZArith List Bool Lia Setoid Morphisms.
From Verif Require Import Base Tables Model Spec LinAlg Mem Cons Elim Parity Trans Mul Rand
  GenPair Com Affine Bits Qpr Check Gauss Rel Repro Main2.
Import ListNotations.

(** C26: permuteQPR is a bijection of the 32-bit words. *)
Lemma C26_permuteQPR_main :
  (forall x, (x < 2 ^ 32)%N -> (permuteQPR x < 2 ^ 32)%N) /\
  (forall x y, (x < 2 ^ 32)%N -> (y < 2 ^ 32)%N -> permuteQPR x = permuteQPR y -> x = y) /\
  (forall y, (y < 2 ^ 32)%N -> exists x, (x < 2 ^ 32)%N /\ permuteQPR x = y).
Proof. split; [exact permuteQPR_bound|]. split; [exact permuteQPR_inj|exact permuteQPR_surj]. Qed.
Example C26_ex_main : permuteQPR 70000 = 605032709%N /\ permuteQPR 4294897291 = 3689934582%N.
Proof. vm_compute. split; reflexivity. Qed.

(** C27: after InitRandom no value repeats within 2^32 consecutive results. *)
Lemma C27_no_repetition_main : forall b s0 i j,
  let s := InitRandom b s0 in
  (N.of_nat i < N.of_nat j + 2 ^ 32)%N -> (N.of_nat j < N.of_nat i + 2 ^ 32)%N -> i <> j ->
  stream s i <> stream s j.
Proof.
  intros b s0 i j s H1 H2 Hne E. apply Hne.
  apply (rnd_inj s i j (InitRandom_idx b s0) H1 H2 E).
Qed.
(** C27: every 32-bit value occurs among the first 2^32 results, and then the results
    repeat: the period is exactly 2^32. *)
Lemma C27_full_period_main : forall b s0,
  let s := InitRandom b s0 in
  (forall k, (stream s k < 2 ^ 32)%N) /\
  (forall v, (v < 2 ^ 32)%N -> exists k, (N.of_nat k < 2 ^ 32)%N /\ stream s k = v) /\
  (forall k p, N.of_nat p = (2 ^ 32)%N -> stream s (k + p) = stream s k).
Proof.
  intros b s0 s. pose proof (InitRandom_idx b s0 : (w_idx s < 2 ^ 32)%N) as Hs.
  split; [intros k; apply rnd_bound|]. split.
  - intros v Hv. destruct (rnd_surj s v Hs Hv) as (i & Hi & E).
    exists (N.to_nat i). rewrite N2Nat.id. split; auto.
    change (rnd s (N.to_nat i) = v). rewrite rnd_out by auto. rewrite N2Nat.id. exact E.
  - intros k p Hp. change (rnd s (k + p) = rnd s k). rewrite !rnd_out by auto.
    rewrite Nat2N.inj_add, Hp. f_equal. unfold u32.
    replace (w_idx s + (N.of_nat k + 2 ^ 32))%N with (w_idx s + N.of_nat k + 1 * 2 ^ 32)%N by lia.
    apply N.mod_add. discriminate.
Qed.
Example C27_ex_main : let s := InitRandom 7 (mkworld 0 0 0 (fun _ => 0%N) 0) in
  stream s 0 = 1732797488%N /\ stream s 1 = 230091316%N.
Proof. vm_compute. split; reflexivity. Qed.

Lemma put64_inj : forall e a b a' b', (b < 2 ^ 32)%N -> (b' < 2 ^ 32)%N ->
  put_sub e 64 32 0 b (put_sub e 64 32 1 a 0) = put_sub e 64 32 0 b' (put_sub e 64 32 1 a' 0) -> b = b'.
Proof.
  intros e a b a' b' Hb Hb' E. apply N.bits_inj. intros k.
  destruct (N.lt_ge_cases k 32) as [Hk|Hk].
  2:{ rewrite !(testbit_high _ 32) by auto. reflexivity. }
  apply (f_equal (fun x => N.testbit x (k + sub_shift e 64 32 0))) in E. rewrite !put_sub_bit in E.
  revert E. generalize (sub_shift e 64 32 0). intros sh E.
  destruct (N.leb_spec sh (k + sh)); [|lia].
  destruct (N.ltb_spec (k + sh) (sh + N.of_nat 32)); [|lia]. cbn [andb] in E.
  rewrite N.add_sub in E. exact E.
Qed.
(** C28: randM for 32 and more bits never draws two equal rows. *)
Lemma C28_distinct_rows_main : forall e w m s i j,
  w = W32 \/ w = W64 \/ w = W128 \/ w = W256 -> typedM w m ->
  i < dim w -> j < dim w -> i <> j ->
  exists r s', randM e w m s = Ok (r, s') /\ nth i r [] <> nth j r [].
Proof.
  intros e w m s i j Hw Hm Hi Hj Hne. rewrite randM_ok by auto. do 2 eexists. split; [reflexivity|].
  intros E. apply Hne. apply (f_equal (fun r => nth 0 r 0%N)) in E.
  assert (Pn : 0 < nw w) by apply nw_pos.
  assert (HW : forall i, i < dim w ->
    nth 0 (nth i (mk w (fun i k => relem e w (reseed s) (i * nw w + k))) []) 0%N
    = relem e w (reseed s) (i * nw w + 0)).
  { intros i' Hi'. exact (word_mk w (fun i k => relem e w (reseed s) (i * nw w + k)) i' 0 Hi' Pn). }
  rewrite !HW in E by auto. rewrite !Nat.add_0_r in E.
  assert (HR : forall a b, a < 4096 -> b < 4096 -> rnd (reseed s) a = rnd (reseed s) b -> a = b).
  { intros a b Ha Hb. apply rnd_inj; [apply reseed_idx| |]; change (2 ^ 32)%N with 4294967296%N; lia. }
  destruct Hw as [->|[->|[->| ->]]]; cbn [relem nw dim] in *.
  - unfold trunc in E. cbn [cb] in E. change (2 ^ N.of_nat 32)%N with (2 ^ 32)%N in E.
    rewrite !N.mod_small in E by apply rnd_bound. apply HR in E; lia.
  - apply put64_inj in E; try apply rnd_bound. apply HR in E; lia.
  - apply put64_inj in E; try apply rnd_bound. apply HR in E; lia.
  - apply put64_inj in E; try apply rnd_bound. apply HR in E; lia.
Qed.
Example C28_ex_main : typedM W32 (zeros W32) /\
  (forall s, exists r s', randM LE W32 (zeros W32) s = Ok (r, s') /\ nth 3 r [] <> nth 17 r []).
Proof.
  assert (H : typedM W32 (zeros W32)) by (apply mat_ofb_ok; vm_compute; reflexivity).
  split; auto. intros s. apply C28_distinct_rows_main; cbn; auto; lia.
Qed.

(** C29: equal seed and equal clock readings give equal results and leave equal
    generators, whatever the generator state was before. *)
Lemma C29_reproducible_main : forall e w s1 s2, same_seed s1 s2 ->
  (forall m, typedM w m -> exists r t1 t2,
     randM e w m s1 = Ok (r, t1) /\ randM e w m s2 = Ok (r, t2) /\ same t1 t2) /\
  (forall v, w <> W64 -> typedV w v -> exists r t1 t2,
     randV e w v s1 = Ok (r, t1) /\ randV e w v s2 = Ok (r, t2) /\ same t1 t2) /\
  (forall m v, shapeM w m -> shapeM w v -> exists a b t1 t2,
     genMatpair e w m v s1 = Ok (a, b, t1) /\ genMatpair e w m v s2 = Ok (a, b, t2) /\ same t1 t2) /\
  (forall f g, shapeM w (amat f) -> typedV w (avec f) -> shapeA w g -> exists a b t1 t2,
     genaffinepair e w f g s1 = Ok (a, b, t1) /\ genaffinepair e w f g s2 = Ok (a, b, t2) /\ same t1 t2).
Proof.
  intros e w s1 s2 H.
  assert (HG : forall A (c1 c2 : res (A * world)) Q, rp c1 c2 samep -> wp c1 Q ->
    exists r t1 t2, c1 = Ok (r, t1) /\ c2 = Ok (r, t2) /\ same t1 t2).
  { intros A [[r1 t1]|] [[r2 t2]|] Q HR HW; simpl in *; try contradiction.
    destruct HR as [E S]. cbn [fst snd] in *. subst. eauto 6. }
  split; [|split; [|split]].
  - intros m Hm. eapply HG; [apply same_randM; auto|]. rewrite randM_ok by auto.
    apply wp_ok with (Q := fun _ => True). exact I.
  - intros v Hw Hv. eapply HG; [apply same_randV_gen; auto|]. rewrite randV_ok by auto.
    apply wp_ok with (Q := fun _ => True). exact I.
  - intros m v Hm Hv.
    destruct (HG _ _ _ _ (same_genMatpair e w m v s1 s2 H) (genMatpair_wp e w m v s1 Hm Hv))
      as ([a b] & t1 & t2 & E). eauto.
  - intros f g Hf Hfv Hg.
    destruct (HG _ _ _ _ (same_genaffinepair e w f g s1 s2 H) (genaffinepair_wp e w f g s1 Hf Hfv Hg))
      as ([a b] & t1 & t2 & E). eauto.
Qed.
(** C29: SetRandSeed fixes the seed whatever was done before. *)
Lemma C29_SetRandSeed_main : forall x s1 s2,
  (forall k, w_clk s1 (w_tick s1 + k) = w_clk s2 (w_tick s2 + k)) ->
  same_seed (SetRandSeed x s1) (SetRandSeed x s2).
Proof. intros x s1 s2 H. split; [reflexivity|exact H]. Qed.
Example C29_ex_main :
  let s1 := mkworld 3 77 1234 (fun k => N.of_nat k) 5 in
  let s2 := mkworld 9 0 0 (fun k => N.of_nat (k + 5)) 0 in
  same_seed (SetRandSeed 42 s1) (SetRandSeed 42 s2) /\ ~ same (SetRandSeed 42 s1) (SetRandSeed 42 s2).
Proof.
  intros s1 s2. split.
  - split; [reflexivity|]. intros k. cbn [s1 s2 SetRandSeed w_clk w_tick]. f_equal. lia.
  - intros [_ [H _]]. discriminate H.
Qed.

(** C30: SetRandSeed never influences randV64; in a fresh process (both generator
    variables 0) the first randV64 is a constant. *)
Lemma C30_randV64_main : forall e v x s, typedV W64 v ->
  (exists r t1 t2, randV e W64 v s = Ok (r, t1) /\ randV e W64 v (SetRandSeed x s) = Ok (r, t2)) /\
  (w_idx s = 0%N -> w_off s = 0%N ->
   exists t, randV e W64 v s =
     Ok ([match e with LE => 140085105540547131 | BE => 5337119854613868201 end]%N, t)).
Proof.
  intros e v x s Hv. split.
  - pose proof (randV_ok e W64 v s Hv) as E. pose proof (randV_ok e W64 v (SetRandSeed x s) Hv) as E'.
    do 3 eexists. split; [exact E|]. rewrite E'. reflexivity.
  - intros H1 H2. rewrite randV_ok by auto. eexists. f_equal. f_equal.
    destruct s as [sd ix of ck tk]. cbn [w_idx w_off] in H1, H2. subst.
    destruct e; vm_compute; reflexivity.
Qed.
(** C30: hence randV64 is not reproducible from seed and clock. *)
Lemma C30_randV64_refuted_main : exists s1 s2 v r1 r2 t1 t2, same_seed s1 s2 /\ typedV W64 v /\
  randV LE W64 v s1 = Ok (r1, t1) /\ randV LE W64 v s2 = Ok (r2, t2) /\ r1 <> r2.
Proof.
  set (s1 := mkworld 42 0 0 (fun _ => 0%N) 0). set (s2 := mkworld 42 1 0 (fun _ => 0%N) 0).
  assert (Hv : typedV W64 [0%N]) by (apply vec_ofb_ok; vm_compute; reflexivity).
  exists s1, s2, [0%N]. do 4 eexists. split; [split; reflexivity|]. split; [exact Hv|].
  split; [apply randV_ok; auto|]. split; [apply randV_ok; auto|]. vm_compute. discriminate.
Qed.
Example C30_ex_main : typedV W64 [5%N] /\
  w_idx (SetRandSeed 99 (mkworld 1 0 0 (fun k => N.of_nat k) 0)) = 0%N.
Proof. split; [apply vec_ofb_ok; vm_compute; reflexivity|reflexivity]. Qed.

(** C31: randM and randV write well-formed values and terminate without undefined behaviour. *)
Lemma C31_rand_range_main : forall e w m v s, typedM w m -> typedV w v ->
  (exists r s', randM e w m s = Ok (r, s') /\ wfM w r) /\
  (exists r s', randV e w v s = Ok (r, s') /\ wfV w r).
Proof.
  intros e w m v s Hm Hv. rewrite randM_ok, randV_ok by auto.
  split; do 2 eexists; (split; [reflexivity|]); [apply wf_rand|apply wf_randv].
Qed.
Example C31_ex_main : typedM W4 [[255]; [17]; [0]; [128]]%N /\ ~ wfM W4 [[255]; [17]; [0]; [128]]%N.
Proof.
  split; [apply mat_ofb_ok; vm_compute; reflexivity|]. intros [_ H].
  inversion H as [|? ? [_ H1] _]; subst. inversion H1 as [|? ? H2 _]; subst. vm_compute in H2. discriminate.
Qed.

(** C32: constructors and sums. *)
Lemma C32_constructors_main : forall w m v a b x y, shapeM w m -> shapeV w v ->
  shapeM w a -> shapeM w b -> shapeV w x -> shapeV w y ->
  (exists r, initM w m = Ok r /\ wfM w r /\ forall i j, i < dim w -> j < dim w -> mbit w r i j = false) /\
  (exists r, initV w v = Ok r /\ wfV w r /\ forall j, j < dim w -> vbit w r j = false) /\
  (exists r, identityM w m = Ok r /\ wfM w r /\
     forall i j, i < dim w -> j < dim w -> mbit w r i j = Nat.eqb i j) /\
  copyM w a m = Ok a /\
  (exists r, MatAddMat w a b m = Ok r /\ shapeM w r /\
     forall i k, i < dim w -> k < nw w -> word r i k = N.lxor (word a i k) (word b i k)) /\
  (exists r, VecAddVec w x y v = Ok r /\ shapeV w r /\
     forall k, k < nw w -> nth k r 0%N = N.lxor (nth k x 0%N) (nth k y 0%N)).
Proof.
  intros w m v a b x y Hm Hv Ha Hb Hx Hy.
  rewrite initM_ok, initV_ok, identityM_ok, copyM_ok, MatAddMat_ok, VecAddVec_ok by auto.
  split; [eexists; split; [reflexivity|]; split; [apply wf_zero|apply mbit_zero]|].
  split; [eexists; split; [reflexivity|]; split; [apply wf_zerov|apply vbit_zero]|].
  split; [eexists; split; [reflexivity|]; split; [apply wf_id|apply mbit_id]|].
  split; [reflexivity|].
  split; [eexists; split; [reflexivity|]; split; [apply shape_mk|intros; apply word_mk; auto]|].
  eexists; split; [reflexivity|]; split; [apply shape_mkv|intros; apply nth_mkv; auto].
Qed.
Example C32_ex_main : forall w, shapeM w (zeros w) /\ shapeM w (sample w) /\ shapeV w (samplev w).
Proof. intros w. split; [apply shape_zeros|]. split; [apply wfM_shape, wf_sample|apply wfV_shape, wf_samplev]. Qed.

Lemma slot_onto : forall e c p, p < com_n c -> exists q, q < com_n c /\ slot e c q = p.
Proof.
  intros e c p Hp.
  assert (HC : forallb (fun p => existsb (fun q => Nat.eqb (slot e c q) p) (seq 0 (com_n c)))
                 (seq 0 (com_n c)) = true) by (destruct e, c; vm_compute; reflexivity).
  rewrite forallb_forall in HC. specialize (HC p ltac:(apply in_seq; lia)).
  apply existsb_exists in HC. destruct HC as (q & Hq & E). apply in_seq in Hq.
  apply Nat.eqb_eq in E. exists q. split; [lia|auto].
Qed.
Lemma Vectorcom_old : forall e c vs o1 o2, length vs = com_n c -> Forall (shapeV (com_src c)) vs ->
  typedV (com_tgt c) o1 -> typedV (com_tgt c) o2 -> Vectorcom e c vs o1 = Vectorcom e c vs o2.
Proof.
  intros e c vs o1 o2 HL Hvs H1 H2.
  destruct (wp_exists _ _ _ (Vectorcom_wp e c vs o1 HL Hvs H1)) as (r1 & E1 & W1 & B1).
  destruct (wp_exists _ _ _ (Vectorcom_wp e c vs o2 HL Hvs H2)) as (r2 & E2 & W2 & B2).
  rewrite E1, E2. f_equal. apply (vbit_ext (com_tgt c)); auto. intros j Hj.
  rewrite com_dims in Hj. pose proof (dim_pos (com_src c)) as P.
  destruct (div_sub (dim (com_src c)) (com_n c) j ltac:(lia) Hj) as [Dj Mj].
  destruct (slot_onto e c _ Dj) as (q & Hq & Eq).
  assert (Ej : j = dim (com_src c) * slot e c q + j mod dim (com_src c)).
  { rewrite Eq. apply Nat.div_mod. lia. }
  rewrite Ej, B1, B2 by auto. reflexivity.
Qed.

(** C33: results do not depend on the old contents of the output buffer: matrices. *)
Lemma C33_matrices_main : forall e w a b s m m', typedM w m -> typedM w m' -> wfM w a -> wfM w b ->
  initM w m = initM w m' /\ identityM w m = identityM w m' /\ copyM w a m = copyM w a m' /\
  randM e w m s = randM e w m' s /\ invs w a m = invs w a m' /\
  MatAddMat w a b m = MatAddMat w a b m' /\ Mattrans w a m = Mattrans w a m' /\
  MatMulMat e w a b m = MatMulMat e w a b m' /\
  (forall v v', shapeM w v -> shapeM w v' -> genMatpair e w m v s = genMatpair e w m' v' s).
Proof.
  intros e w a b s m m' Hm Hm' Ha Hb. pose proof (typedM_shape _ _ Hm) as Sm.
  pose proof (typedM_shape _ _ Hm') as Sm'.
  rewrite !initM_ok, !identityM_ok, !copyM_ok, !randM_ok, !MatAddMat_ok by auto using wfM_shape.
  do 4 (split; [reflexivity|]).
  split; [unfold invs; rewrite !identityM_ok by auto; reflexivity|].
  split; [reflexivity|].
  split.
  { destruct (trans_spec w a m Ha Sm) as (r & E & W & B).
    destruct (trans_spec w a m' Ha Sm') as (r' & E' & W' & B').
    rewrite E, E'. f_equal. apply (mbit_ext w); auto. rewrite B, B'. reflexivity. }
  split; [unfold MatMulMat; rewrite !initM_ok by auto; reflexivity|].
  intros v v' Hv Hv'. apply genMatpair_old; auto.
Qed.
(** C33: vectors and affine transformations. *)
Lemma C33_vectors_main : forall e w x y a f g s v v' h h' k k',
  typedV w v -> typedV w v' -> wfV w x -> wfV w y -> wfM w a -> wfA w f -> wfA w g ->
  typedM w (amat h) -> typedV w (avec h) -> typedM w (amat h') -> typedV w (avec h') ->
  shapeA w k -> shapeA w k' ->
  initV w v = initV w v' /\ randV e w v s = randV e w v' s /\
  VecAddVec w x y v = VecAddVec w x y v' /\ MatMulVec e w a x v = MatMulVec e w a x v' /\
  affinemix e w f g h = affinemix e w f g h' /\
  genaffinepair e w h k s = genaffinepair e w h' k' s.
Proof.
  intros e w x y a f g s v v' h h' k k' Hv Hv' Hx Hy Ha Hf Hg Hm Hav Hm' Hav' Hk Hk'.
  pose proof (typedV_shape _ _ Hv). pose proof (typedV_shape _ _ Hv').
  pose proof (typedV_shape _ _ Hav). pose proof (typedV_shape _ _ Hav').
  pose proof (typedM_shape _ _ Hm). pose proof (typedM_shape _ _ Hm').
  assert (HMV : forall a x v v', shapeV w v -> shapeV w v' -> MatMulVec e w a x v = MatMulVec e w a x v').
  { intros. unfold MatMulVec. rewrite !initV_ok by auto. reflexivity. }
  rewrite !initV_ok, !randV_ok, !VecAddVec_ok by auto using wfV_shape.
  do 3 (split; [reflexivity|]). split; [apply HMV; auto|]. split.
  - destruct (wp_exists _ _ _ (affinemix_wp e w f g h Hf Hg (conj H3 H1))) as (r & E & W & B1 & B2).
    destruct (wp_exists _ _ _ (affinemix_wp e w f g h' Hf Hg (conj H4 H2))) as (r' & E' & W' & B1' & B2').
    rewrite E, E'. f_equal. destruct r as [rm rv], r' as [rm' rv']. cbn [amat avec] in *. destruct W, W'.
    cbn [amat avec] in *. f_equal.
    + apply (mbit_ext w); auto. rewrite B1, B1'. reflexivity.
    + apply (vbit_ext w); auto. rewrite B2, B2'. reflexivity.
  - unfold genaffinepair. destruct Hk, Hk'.
    rewrite (genMatpair_old e w (amat h) (amat k) (amat h') (amat k') s) by auto.
    destruct (genMatpair e w (amat h') (amat k') s) as [[[p q] s1]|]; cbn [bind]; auto.
    rewrite !randV_ok by auto. cbn [bind]. rewrite (HMV q _ (avec k) (avec k')) by auto. reflexivity.
Qed.
(** C33: concatenations (both byte orders). *)
Lemma C33_concatenation_main : forall e c ms vs fs m m' v v',
  length vs * dim (com_src c) = dim (com_tgt c) -> Forall (shapeV (com_src c)) vs ->
  length fs * dim (com_src c) = dim (com_tgt c) -> Forall (shapeA (com_src c)) fs ->
  shapeM (com_tgt c) m -> shapeM (com_tgt c) m' -> typedV (com_tgt c) v -> typedV (com_tgt c) v' ->
  Matrixcom e c ms m = Matrixcom e c ms m' /\ Vectorcom e c vs v = Vectorcom e c vs v' /\
  affinecom e c fs (mkaff m v) = affinecom e c fs (mkaff m' v').
Proof.
  intros e c ms vs fs m m' v v' HLv Hvs HLf Hfs Hm Hm' Hv Hv'.
  apply com_count in HLv. apply com_count in HLf.
  assert (HM : forall l, Matrixcom e c l m = Matrixcom e c l m').
  { intros l. unfold Matrixcom. cbv zeta. rewrite !initM_ok by auto. reflexivity. }
  split; [apply HM|]. split; [apply Vectorcom_old; auto|].
  unfold affinecom. cbn [amat avec]. rewrite HM.
  rewrite (Vectorcom_old e c (map avec fs) v v'); auto.
  - rewrite map_length. exact HLf.
  - apply Forall_map. eapply Forall_impl; [|exact Hfs]. intros f Hf. apply Hf.
Qed.
Example C33_ex_main : forall w, typedM w (sample w) /\ typedM w (rank1 w) /\ sample w <> rank1 w /\
  wfA w (mkaff (sample w) (samplev w)).
Proof.
  intros w. split; [apply wfM_typed, wf_sample|]. split; [apply wfM_typed, wf_rank1|].
  split; [|split; [apply wf_sample|apply wf_samplev]].
  destruct w; vm_compute; discriminate.
Qed.

(** C37: on a big-endian machine column block number q of the result is taken by the
    block p of the same machine word counted from the other end. *)
Lemma C37_big_endian_main : forall c ms out,
  length ms * dim (com_src c) = dim (com_tgt c) ->
  Forall (shapeM (com_src c)) ms -> shapeM (com_tgt c) out ->
  exists r, Matrixcom BE c ms out = Ok r /\ wfM (com_tgt c) r /\
    forall i j, i < dim (com_tgt c) -> j < dim (com_tgt c) ->
      let s := dim (com_src c) in
      let p := wb (com_tgt c) / s in
      let q := i / s in
      mbit (com_tgt c) r i j =
        if Nat.eqb (j / s) (p * (q / p) + (p - 1 - q mod p))
        then mbit (com_src c) (nth q ms []) (i mod s) (j mod s) else false.
Proof.
  intros c ms out HL Hms Ho. apply com_count in HL.
  destruct (wp_exists _ _ _ (Matrixcom_wp BE c ms out HL Hms Ho)) as (r & E & Wr & Br).
  exists r. split; auto.
Qed.
(** C37: in particular the result is not block diagonal there. *)
Lemma C37_block_diagonal_refuted_main : exists ms out r i j,
  length ms * dim (com_src C8to32) = dim (com_tgt C8to32) /\
  Forall (wfM (com_src C8to32)) ms /\ shapeM (com_tgt C8to32) out /\
  Matrixcom BE C8to32 ms out = Ok r /\ i < 32 /\ j < 32 /\ i / 8 <> j / 8 /\
  mbit W32 r i j = true.
Proof.
  exists (repeat (sample W8) 4), (zeros W32). eexists. exists 0, 24.
  split; [reflexivity|]. split.
  { apply Forall_forall. intros x Hx. apply repeat_spec in Hx. subst. apply wf_sample. }
  split; [apply shape_zeros|]. split; [vm_compute; reflexivity|].
  split; [lia|]. split; [lia|]. split; [discriminate|]. vm_compute. reflexivity.
Qed.
(** C37: the functions which do not concatenate do not depend on the byte order,
    apart from the order of the two halves of drawn 64-bit elements. *)
Lemma C37_byte_order_free_main : forall w a b x, w <> W256 -> wfM w a -> wfM w b -> wfV w x ->
  xorU BE w x = xorU LE w x /\ HWU BE w x = HWU LE w x /\
  (forall v, shapeV w v -> MatMulVec BE w a x v = MatMulVec LE w a x v) /\
  (forall m, shapeM w m -> MatMulMat BE w a b m = MatMulMat LE w a b m).
Proof.
  intros w a b x Hw Ha Hb Hx. rewrite !xorU_ok, !HWU_ok by auto using wfV_typed.
  split; [reflexivity|]. split; [reflexivity|]. split.
  - intros v Hv. destruct (mulv_spec BE w a x v Ha Hx Hv) as (r & E & W & B).
    destruct (mulv_spec LE w a x v Ha Hx Hv) as (r' & E' & W' & B').
    rewrite E, E'. f_equal. apply (vbit_ext w); auto. rewrite B, B'. reflexivity.
  - intros m Hm. destruct (mul_spec BE w a b m Ha Hb Hm) as (r & E & W & B).
    destruct (mul_spec LE w a b m Ha Hb Hm) as (r' & E' & W' & B').
    rewrite E, E'. f_equal. apply (mbit_ext w); auto. rewrite B, B'. reflexivity.
Qed.
Example C37_ex_main : Forall (shapeM (com_src C8to32)) (repeat (sample W8) 4) /\
  length (repeat (sample W8) 4) * dim (com_src C8to32) = dim (com_tgt C8to32).
Proof.
  split; [|reflexivity].
  apply Forall_forall. intros x Hx. apply repeat_spec in Hx. subst. apply wfM_shape, wf_sample.
Qed.

(** C40: differences pass through affine maps. *)
Lemma C40_difference_main : forall e w f x y o1 o2 o3, wfA w f -> wfV w x -> wfV w y ->
  shapeV w o1 -> shapeV w o2 -> shapeV w o3 ->
  exists r, (u <- affineU e w f x ;; v <- affineU e w f y ;; VecAddVec w u v o1) = Ok r /\
            (d <- VecAddVec w x y o2 ;; MatMulVec e w (amat f) d o3) = Ok r.
Proof.
  intros e w f x y o1 o2 o3 Hf Hx Hy H1 H2 H3.
  destruct (affineU_spec e w f x Hf (wfV_shape _ _ Hx)) as (u & Eu & Wu & Bu).
  destruct (affineU_spec e w f y Hf (wfV_shape _ _ Hy)) as (v & Ev & Wv & Bv).
  destruct (addv_spec w u v o1) as (r & Er & Wr & Br); auto.
  destruct (addv_spec w x y o2) as (d & Ed & Wd & Bd); auto.
  destruct (mulv_spec e w (amat f) d o3) as (z & Ez & Wz & Bz); auto; [apply Hf|].
  exists r. rewrite Eu, Ev, Ed. cbn [bind]. rewrite Er, Ez. split; auto. f_equal.
  apply (vbit_ext w); auto. rewrite Br, Bz, Bd, Bu, Bv. rewrite fapp_vadd.
  intros j Hj. unfold vadd, aapp, vadd.
  destruct (fapp (dim w) (mbit w (amat f)) (vbit w x) j), (fapp (dim w) (mbit w (amat f)) (vbit w y) j),
    (vbit w (avec f) j); reflexivity.
Qed.
(** C40: with an invertible matrix the affine map is a bijection of the vectors. *)
Lemma C40_bijective_main : forall e w f, wfA w f -> isinvert w (amat f) = Ok 1%N ->
  (forall x, wfV w x -> exists y, wfV w y /\ affineU e w f x = Ok y) /\
  (forall x x' y, wfV w x -> wfV w x' -> affineU e w f x = Ok y -> affineU e w f x' = Ok y -> x = x') /\
  (forall y, wfV w y -> exists x, wfV w x /\ affineU e w f x = Ok y).
Proof.
  intros e w f Hf Hi. pose proof Hf as [Hm Hv].
  destruct (invs_spec w (amat f) (fresh_m w) Hm (shape_fresh_m w) Hi) as (g & Eg & Wg & Bg & _).
  split; [|split].
  - intros x Hx. destruct (affineU_spec e w f x Hf (wfV_shape _ _ Hx)) as (y & E & W & _). eauto.
  - intros x x' y Hx Hx' E E'.
    destruct (affineU_spec e w f x Hf (wfV_shape _ _ Hx)) as (u & Eu & Wu & Bu).
    destruct (affineU_spec e w f x' Hf (wfV_shape _ _ Hx')) as (u' & Eu' & Wu' & Bu').
    assert (u = y) by congruence. assert (u' = y) by congruence. subst u u'.
    apply (vbit_ext w); auto.
    assert (HA : veq (dim w) (fapp (dim w) (mbit w (amat f)) (vbit w x)) (fapp (dim w) (mbit w (amat f)) (vbit w x'))).
    { intros j Hj. specialize (Bu j Hj). specialize (Bu' j Hj). rewrite Bu in Bu'.
      unfold aapp, vadd in Bu'. destruct (fapp (dim w) (mbit w (amat f)) (vbit w x) j),
        (fapp (dim w) (mbit w (amat f)) (vbit w x') j), (vbit w (avec f) j); auto; discriminate. }
    rewrite <- (fapp_id (dim w) (vbit w x)), <- (fapp_id (dim w) (vbit w x')).
    destruct Bg as [_ Bg]. rewrite <- Bg, !fmul_fapp, HA. reflexivity.
  - intros y Hy.
    destruct (addv_spec w y (avec f) (fresh_v w) Hy Hv (shape_fresh_v w)) as (d & Ed & Wd & Bd).
    destruct (mulv_spec e w g d (fresh_v w) Wg Wd (shape_fresh_v w)) as (x & Ex & Wx & Bx).
    exists x. split; auto.
    destruct (affineU_spec e w f x Hf (wfV_shape _ _ Wx)) as (u & Eu & Wu & Bu).
    rewrite Eu. f_equal. apply (vbit_ext w); auto. rewrite Bu. unfold aapp.
    rewrite Bx, <- fmul_fapp. destruct Bg as [Bg _]. rewrite Bg, fapp_id, Bd.
    apply vadd_self.
Qed.
Example C40_ex_main : forall w, wfA w (mkaff (sample w) (samplev w)) /\ wfV w (samplev w) /\
  isinvert w (amat (mkaff (sample w) (samplev w))) = Ok 1%N.
Proof.
  intros w. split; [split; [apply wf_sample|apply wf_samplev]|]. split; [apply wf_samplev|apply sample_invertible].
Qed.
