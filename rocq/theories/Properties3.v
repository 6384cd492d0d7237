(** Generated by tools/gen_props.py from Main3.v: statements of the properties.
    Every theorem is closed by [exact]; its assumptions are printed beneath it. *)
From Coq Require Import Arith NArith ZArith List Bool Lia Setoid Morphisms.
From Verif Require Import Base Tables Model Spec LinAlg Mem Cons Elim Parity Trans Mul Rand GenPair Com Affine Bits Qpr Check Gauss Rel Repro Main2 Main3.
Import ListNotations.

(** C26: permuteQPR is a bijection of the 32-bit words. *)
Theorem C26_permuteQPR :
  (forall x, (x < 2 ^ 32)%N -> (permuteQPR x < 2 ^ 32)%N) /\
  (forall x y, (x < 2 ^ 32)%N -> (y < 2 ^ 32)%N -> permuteQPR x = permuteQPR y -> x = y) /\
  (forall y, (y < 2 ^ 32)%N -> exists x, (x < 2 ^ 32)%N /\ permuteQPR x = y).
Proof. exact C26_permuteQPR_main. Qed.
Print Assumptions C26_permuteQPR.

Example C26_ex : permuteQPR 70000 = 605032709%N /\ permuteQPR 4294897291 = 3689934582%N.
Proof. exact C26_ex_main. Qed.

(** C27: after InitRandom no value repeats within 2^32 consecutive results. *)
Theorem C27_no_repetition : forall b s0 i j,
  let s := InitRandom b s0 in
  (N.of_nat i < N.of_nat j + 2 ^ 32)%N -> (N.of_nat j < N.of_nat i + 2 ^ 32)%N -> i <> j ->
  stream s i <> stream s j.
Proof. exact C27_no_repetition_main. Qed.
Print Assumptions C27_no_repetition.

(** C27: every 32-bit value occurs among the first 2^32 results, and then the results
    repeat: the period is exactly 2^32. *)
Theorem C27_full_period : forall b s0,
  let s := InitRandom b s0 in
  (forall k, (stream s k < 2 ^ 32)%N) /\
  (forall v, (v < 2 ^ 32)%N -> exists k, (N.of_nat k < 2 ^ 32)%N /\ stream s k = v) /\
  (forall k p, N.of_nat p = (2 ^ 32)%N -> stream s (k + p) = stream s k).
Proof. exact C27_full_period_main. Qed.
Print Assumptions C27_full_period.

Example C27_ex : let s := InitRandom 7 (mkworld 0 0 0 (fun _ => 0%N) 0) in
  stream s 0 = 1732797488%N /\ stream s 1 = 230091316%N.
Proof. exact C27_ex_main. Qed.

(** C28: randM for 32 and more bits never draws two equal rows. *)
Theorem C28_distinct_rows : forall e w m s i j,
  w = W32 \/ w = W64 \/ w = W128 \/ w = W256 -> typedM w m ->
  i < dim w -> j < dim w -> i <> j ->
  exists r s', randM e w m s = Ok (r, s') /\ nth i r [] <> nth j r [].
Proof. exact C28_distinct_rows_main. Qed.
Print Assumptions C28_distinct_rows.

Example C28_ex : typedM W32 (zeros W32) /\
  (forall s, exists r s', randM LE W32 (zeros W32) s = Ok (r, s') /\ nth 3 r [] <> nth 17 r []).
Proof. exact C28_ex_main. Qed.

(** C29: equal seed and equal clock readings give equal results and leave equal
    generators, whatever the generator state was before. *)
Theorem C29_reproducible : forall e w s1 s2, same_seed s1 s2 ->
  (forall m, typedM w m -> exists r t1 t2,
     randM e w m s1 = Ok (r, t1) /\ randM e w m s2 = Ok (r, t2) /\ same t1 t2) /\
  (forall v, w <> W64 -> typedV w v -> exists r t1 t2,
     randV e w v s1 = Ok (r, t1) /\ randV e w v s2 = Ok (r, t2) /\ same t1 t2) /\
  (forall m v, shapeM w m -> shapeM w v -> exists a b t1 t2,
     genMatpair e w m v s1 = Ok (a, b, t1) /\ genMatpair e w m v s2 = Ok (a, b, t2) /\ same t1 t2) /\
  (forall f g, shapeM w (amat f) -> typedV w (avec f) -> shapeA w g -> exists a b t1 t2,
     genaffinepair e w f g s1 = Ok (a, b, t1) /\ genaffinepair e w f g s2 = Ok (a, b, t2) /\ same t1 t2).
Proof. exact C29_reproducible_main. Qed.
Print Assumptions C29_reproducible.

(** C29: SetRandSeed fixes the seed whatever was done before. *)
Theorem C29_SetRandSeed : forall x s1 s2,
  (forall k, w_clk s1 (w_tick s1 + k) = w_clk s2 (w_tick s2 + k)) ->
  same_seed (SetRandSeed x s1) (SetRandSeed x s2).
Proof. exact C29_SetRandSeed_main. Qed.
Print Assumptions C29_SetRandSeed.

Example C29_ex :
  let s1 := mkworld 3 77 1234 (fun k => N.of_nat k) 5 in
  let s2 := mkworld 9 0 0 (fun k => N.of_nat (k + 5)) 0 in
  same_seed (SetRandSeed 42 s1) (SetRandSeed 42 s2) /\ ~ same (SetRandSeed 42 s1) (SetRandSeed 42 s2).
Proof. exact C29_ex_main. Qed.

(** C30: SetRandSeed never influences randV64; in a fresh process (both generator
    variables 0) the first randV64 is a constant. *)
Theorem C30_randV64 : forall e v x s, typedV W64 v ->
  (exists r t1 t2, randV e W64 v s = Ok (r, t1) /\ randV e W64 v (SetRandSeed x s) = Ok (r, t2)) /\
  (w_idx s = 0%N -> w_off s = 0%N ->
   exists t, randV e W64 v s =
     Ok ([match e with LE => 140085105540547131 | BE => 5337119854613868201 end]%N, t)).
Proof. exact C30_randV64_main. Qed.
Print Assumptions C30_randV64.

(** C30: hence randV64 is not reproducible from seed and clock. *)
Theorem C30_randV64_refuted : exists s1 s2 v r1 r2 t1 t2, same_seed s1 s2 /\ typedV W64 v /\
  randV LE W64 v s1 = Ok (r1, t1) /\ randV LE W64 v s2 = Ok (r2, t2) /\ r1 <> r2.
Proof. exact C30_randV64_refuted_main. Qed.
Print Assumptions C30_randV64_refuted.

Example C30_ex : typedV W64 [5%N] /\
  w_idx (SetRandSeed 99 (mkworld 1 0 0 (fun k => N.of_nat k) 0)) = 0%N.
Proof. exact C30_ex_main. Qed.

(** C31: randM and randV write well-formed values and terminate without undefined behaviour. *)
Theorem C31_rand_range : forall e w m v s, typedM w m -> typedV w v ->
  (exists r s', randM e w m s = Ok (r, s') /\ wfM w r) /\
  (exists r s', randV e w v s = Ok (r, s') /\ wfV w r).
Proof. exact C31_rand_range_main. Qed.
Print Assumptions C31_rand_range.

Example C31_ex : typedM W4 [[255]; [17]; [0]; [128]]%N /\ ~ wfM W4 [[255]; [17]; [0]; [128]]%N.
Proof. exact C31_ex_main. Qed.

(** C32: constructors and sums. *)
Theorem C32_constructors : forall w m v a b x y, shapeM w m -> shapeV w v ->
  shapeM w a -> shapeM w b -> shapeV w x -> shapeV w y ->
  (exists r, initM w m = Ok r /\ wfM w r /\ forall i j, i < dim w -> j < dim w -> mbit w r i j = false) /\
  (exists r, initV w v = Ok r /\ wfV w r /\ forall j, j < dim w -> vbit w r j = false) /\
  (exists r, identityM w m = Ok r /\ wfM w r /\
     forall i j, i < dim w -> j < dim w -> mbit w r i j = Nat.eqb i j) /\
  copyM w a m = Ok a /\
  (exists r, MatAddMat w a b m = Ok r /\ shapeM w r /\
     forall i k, i < dim w -> k < nw w -> word r i k = N.lxor (word a i k) (word b i k)) /\
  (exists r, VecAddVec w x y v = Ok r /\ shapeV w r /\
     forall k, k < nw w -> nth k r 0%N = N.lxor (nth k x 0%N) (nth k y 0%N)).
Proof. exact C32_constructors_main. Qed.
Print Assumptions C32_constructors.

Example C32_ex : forall w, shapeM w (zeros w) /\ shapeM w (sample w) /\ shapeV w (samplev w).
Proof. exact C32_ex_main. Qed.

(** C33: results do not depend on the old contents of the output buffer: matrices. *)
Theorem C33_matrices : forall e w a b s m m', typedM w m -> typedM w m' -> wfM w a -> wfM w b ->
  initM w m = initM w m' /\ identityM w m = identityM w m' /\ copyM w a m = copyM w a m' /\
  randM e w m s = randM e w m' s /\ invs w a m = invs w a m' /\
  MatAddMat w a b m = MatAddMat w a b m' /\ Mattrans w a m = Mattrans w a m' /\
  MatMulMat e w a b m = MatMulMat e w a b m' /\
  (forall v v', shapeM w v -> shapeM w v' -> genMatpair e w m v s = genMatpair e w m' v' s).
Proof. exact C33_matrices_main. Qed.
Print Assumptions C33_matrices.

(** C33: vectors and affine transformations. *)
Theorem C33_vectors : forall e w x y a f g s v v' h h' k k',
  typedV w v -> typedV w v' -> wfV w x -> wfV w y -> wfM w a -> wfA w f -> wfA w g ->
  typedM w (amat h) -> typedV w (avec h) -> typedM w (amat h') -> typedV w (avec h') ->
  shapeA w k -> shapeA w k' ->
  initV w v = initV w v' /\ randV e w v s = randV e w v' s /\
  VecAddVec w x y v = VecAddVec w x y v' /\ MatMulVec e w a x v = MatMulVec e w a x v' /\
  affinemix e w f g h = affinemix e w f g h' /\
  genaffinepair e w h k s = genaffinepair e w h' k' s.
Proof. exact C33_vectors_main. Qed.
Print Assumptions C33_vectors.

(** C33: concatenations (both byte orders). *)
Theorem C33_concatenation : forall e c ms vs fs m m' v v',
  length vs * dim (com_src c) = dim (com_tgt c) -> Forall (shapeV (com_src c)) vs ->
  length fs * dim (com_src c) = dim (com_tgt c) -> Forall (shapeA (com_src c)) fs ->
  shapeM (com_tgt c) m -> shapeM (com_tgt c) m' -> typedV (com_tgt c) v -> typedV (com_tgt c) v' ->
  Matrixcom e c ms m = Matrixcom e c ms m' /\ Vectorcom e c vs v = Vectorcom e c vs v' /\
  affinecom e c fs (mkaff m v) = affinecom e c fs (mkaff m' v').
Proof. exact C33_concatenation_main. Qed.
Print Assumptions C33_concatenation.

Example C33_ex : forall w, typedM w (sample w) /\ typedM w (rank1 w) /\ sample w <> rank1 w /\
  wfA w (mkaff (sample w) (samplev w)).
Proof. exact C33_ex_main. Qed.

(** C37: on a big-endian machine column block number q of the result is taken by the
    block p of the same machine word counted from the other end. *)
Theorem C37_big_endian : forall c ms out,
  length ms * dim (com_src c) = dim (com_tgt c) ->
  Forall (shapeM (com_src c)) ms -> shapeM (com_tgt c) out ->
  exists r, Matrixcom BE c ms out = Ok r /\ wfM (com_tgt c) r /\
    forall i j, i < dim (com_tgt c) -> j < dim (com_tgt c) ->
      let s := dim (com_src c) in
      let p := wb (com_tgt c) / s in
      let q := i / s in
      mbit (com_tgt c) r i j =
        if Nat.eqb (j / s) (p * (q / p) + (p - 1 - q mod p))
        then mbit (com_src c) (nth q ms []) (i mod s) (j mod s) else false.
Proof. exact C37_big_endian_main. Qed.
Print Assumptions C37_big_endian.

(** C37: in particular the result is not block diagonal there. *)
Theorem C37_block_diagonal_refuted : exists ms out r i j,
  length ms * dim (com_src C8to32) = dim (com_tgt C8to32) /\
  Forall (wfM (com_src C8to32)) ms /\ shapeM (com_tgt C8to32) out /\
  Matrixcom BE C8to32 ms out = Ok r /\ i < 32 /\ j < 32 /\ i / 8 <> j / 8 /\
  mbit W32 r i j = true.
Proof. exact C37_block_diagonal_refuted_main. Qed.
Print Assumptions C37_block_diagonal_refuted.

(** C37: the functions which do not concatenate do not depend on the byte order,
    apart from the order of the two halves of drawn 64-bit elements. *)
Theorem C37_byte_order_free : forall w a b x, w <> W256 -> wfM w a -> wfM w b -> wfV w x ->
  xorU BE w x = xorU LE w x /\ HWU BE w x = HWU LE w x /\
  (forall v, shapeV w v -> MatMulVec BE w a x v = MatMulVec LE w a x v) /\
  (forall m, shapeM w m -> MatMulMat BE w a b m = MatMulMat LE w a b m).
Proof. exact C37_byte_order_free_main. Qed.
Print Assumptions C37_byte_order_free.

Example C37_ex : Forall (shapeM (com_src C8to32)) (repeat (sample W8) 4) /\
  length (repeat (sample W8) 4) * dim (com_src C8to32) = dim (com_tgt C8to32).
Proof. exact C37_ex_main. Qed.

(** C40: differences pass through affine maps. *)
Theorem C40_difference : forall e w f x y o1 o2 o3, wfA w f -> wfV w x -> wfV w y ->
  shapeV w o1 -> shapeV w o2 -> shapeV w o3 ->
  exists r, (u <- affineU e w f x ;; v <- affineU e w f y ;; VecAddVec w u v o1) = Ok r /\
            (d <- VecAddVec w x y o2 ;; MatMulVec e w (amat f) d o3) = Ok r.
Proof. exact C40_difference_main. Qed.
Print Assumptions C40_difference.

(** C40: with an invertible matrix the affine map is a bijection of the vectors. *)
Theorem C40_bijective : forall e w f, wfA w f -> isinvert w (amat f) = Ok 1%N ->
  (forall x, wfV w x -> exists y, wfV w y /\ affineU e w f x = Ok y) /\
  (forall x x' y, wfV w x -> wfV w x' -> affineU e w f x = Ok y -> affineU e w f x' = Ok y -> x = x') /\
  (forall y, wfV w y -> exists x, wfV w x /\ affineU e w f x = Ok y).
Proof. exact C40_bijective_main. Qed.
Print Assumptions C40_bijective.

Example C40_ex : forall w, wfA w (mkaff (sample w) (samplev w)) /\ wfV w (samplev w) /\
  isinvert w (amat (mkaff (sample w) (samplev w))) = Ok 1%N.
Proof. exact C40_ex_main. Qed.
