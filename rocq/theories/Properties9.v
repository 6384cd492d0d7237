(** Generated by tools/gen_props.py from Main9.v: statements of the properties.
    Every theorem is closed by [exact]; its assumptions are printed beneath it. *)
From Coq Require Import Arith NArith List Bool Lia.
From Verif Require Import Base Tables Model Spec LinAlg Mem Cons Mul Check RowProd ModelBasis SpecBasis Basis Main9.
Import ListNotations.

(** C58: for the widths 8 to 64 entry k of the second table is the inverse of entry k of the
    first *)
Theorem C58_tables : forall w k, In w [W8; W16; W32; W64] -> k < 16 ->
  inverse_of (dim w) (mbit w (nth k (basis w) [])) (mbit w (nth k (basis_inv w) [])).
Proof. exact C58_tables_main. Qed.
Print Assumptions C58_tables.

(** C58: InvTMat returns the product of the n * n / 4 drawn matrices, which is invertible, for
    every sequence r of values returned by rand() *)
Theorem C58_InvTMat : forall e w r t0 m seed, In w [W8; W16; W32; W64] ->
  shapeM w t0 -> shapeM w m -> seed <> (2 ^ 31 - 1)%N ->
  exists m', InvT_basis e w r t0 m seed = Ok (m', ((seed + 1) mod 2 ^ 32)%N) /\ wfM w m' /\
    feq (dim w) (mbit w m') (fprod (dim w) (dim w * dim w / 4)
      (fun i => mbit w (nth (N.to_nat (r i mod 16)) (basis w) []))) /\
    invertible (dim w) (mbit w m').
Proof. exact C58_InvTMat_main. Qed.
Print Assumptions C58_InvTMat.

(** C58: Trail records its draws in row k only, and InvSMat of that row is the inverse of the
    product of the drawn matrices *)
Theorem C58_InvSMat : forall e w r t0 v tm k, In w [W8; W16; W32; W64] ->
  shapeM w t0 -> shapeM w v -> k < length tm -> length (nth k tm []) = dim w * dim w / 4 ->
  exists tm' v', Trail w r k tm = Ok tm' /\
    (forall j, j <> k -> nth j tm' [] = nth j tm []) /\
    (forall i, i < dim w * dim w / 4 -> nth i (nth k tm' []) 0%N = (r i mod 16)%N) /\
    InvS_basis e w t0 v tm' k = Ok v' /\ wfM w v' /\
    inverse_of (dim w) (fprod (dim w) (dim w * dim w / 4)
      (fun i => mbit w (nth (N.to_nat (r i mod 16)) (basis w) []))) (mbit w v').
Proof. exact C58_InvSMat_main. Qed.
Print Assumptions C58_InvSMat.

(** C58: Matrixpair returns a matrix, the product of the drawn ones, and its inverse *)
Theorem C58_Matrixpair : forall e w r t0 u0 m v seed, In w [W8; W16; W32; W64] ->
  shapeM w t0 -> shapeM w u0 -> shapeM w m -> shapeM w v -> seed <> (2 ^ 31 - 1)%N ->
  exists m' v', Matrixpair_basis e w r t0 u0 m v seed = Ok (m', v', ((seed + 1) mod 2 ^ 32)%N) /\
    wfM w m' /\ wfM w v' /\
    feq (dim w) (mbit w m') (fprod (dim w) (dim w * dim w / 4)
      (fun i => mbit w (nth (N.to_nat (r i mod 16)) (basis w) []))) /\
    inverse_of (dim w) (mbit w m') (mbit w v').
Proof. exact C58_Matrixpair_main. Qed.
Print Assumptions C58_Matrixpair.

(** C58: the increment of randseed = INT_MAX is undefined *)
Theorem C58_seed : forall e w r t0 u0 m v, shapeM w t0 -> shapeM w u0 ->
  InvT_basis e w r t0 m (2 ^ 31 - 1) = UB /\ Matrixpair_basis e w r t0 u0 m v (2 ^ 31 - 1) = UB.
Proof. exact C58_seed_main. Qed.
Print Assumptions C58_seed.

Example C58_ex : Matrixpair_basis LE W8 (fun i => N.of_nat (7 * i + 3))
    (zeros W8) (zeros W8) (zeros W8) (zeros W8) 5 =
    Ok ([[5]; [164]; [68]; [6]; [166]; [78]; [180]; [128]],
        [[1]; [120]; [25]; [66]; [108]; [88]; [72]; [216]], 6)%N /\ shapeM W64 (zeros W64) /\ length (nth 3 (repeat (repeat 0%N 16) 100) []) = 8 * 8 / 4.
Proof. exact C58_ex_main. Qed.

(** C59: InvTMatM128 returns the product of 4096 drawn matrices; it is invertible only if every
    one of the draws selects entry 14 *)
Theorem C59_InvTMat128 : forall e r t0 m seed,
  shapeM W128 t0 -> shapeM W128 m -> seed <> (2 ^ 31 - 1)%N ->
  exists m', InvT_basis e W128 r t0 m seed = Ok (m', ((seed + 1) mod 2 ^ 32)%N) /\
    wfM W128 m' /\
    (invertible 128 (mbit W128 m') <-> forall i, i < 128 * 128 / 4 -> (r i mod 16 = 14)%N).
Proof. exact C59_InvTMat128_main. Qed.
Print Assumptions C59_InvTMat128.

(** C59: InvSMatM128 is singular for every trail, also for one recorded by TrailM128 *)
Theorem C59_InvSMat128 : forall e t0 v tm k,
  shapeM W128 t0 -> shapeM W128 v -> k < length tm -> length (nth k tm []) = 128 * 128 / 4 ->
  (forall i, i < 128 * 128 / 4 -> (nth i (nth k tm []) 0 < 16)%N) ->
  exists v', InvS_basis e W128 t0 v tm k = Ok v' /\ wfM W128 v' /\ ~ invertible 128 (mbit W128 v').
Proof. exact C59_InvSMat128_main. Qed.
Print Assumptions C59_InvSMat128.

(** C59: the second matrix of MatrixpairM128 is always singular, so the pair never consists of
    a matrix and its inverse *)
Theorem C59_Matrixpair128 : forall e r t0 u0 m v seed,
  shapeM W128 t0 -> shapeM W128 u0 -> shapeM W128 m -> shapeM W128 v -> seed <> (2 ^ 31 - 1)%N ->
  exists m' v', Matrixpair_basis e W128 r t0 u0 m v seed = Ok (m', v', ((seed + 1) mod 2 ^ 32)%N) /\
    wfM W128 m' /\ wfM W128 v' /\
    (invertible 128 (mbit W128 m') <-> forall i, i < 128 * 128 / 4 -> (r i mod 16 = 14)%N) /\
    ~ invertible 128 (mbit W128 v') /\ ~ inverse_of 128 (mbit W128 m') (mbit W128 v').
Proof. exact C59_Matrixpair128_main. Qed.
Print Assumptions C59_Matrixpair128.

(** C59: entry k of the second 128-bit table is not the inverse of entry k of the first, for
    every k *)
Theorem C59_tables : forall k, k < 16 ->
  ~ inverse_of 128 (mbit W128 (nth k (basis W128) [])) (mbit W128 (nth k (basis_inv W128) [])).
Proof. exact C59_tables_main. Qed.
Print Assumptions C59_tables.

(** C59: the claim in the comment of InvTMatM128, "generate 128*128 invertible matrix", fails
    for example if every draw is 0 *)
Theorem C59_invertible_refuted : exists e r t0 m seed m' seed',
  shapeM W128 t0 /\ shapeM W128 m /\ InvT_basis e W128 r t0 m seed = Ok (m', seed') /\
  ~ invertible 128 (mbit W128 m').
Proof. exact C59_invertible_refuted_main. Qed.
Print Assumptions C59_invertible_refuted.

Example C59_ex : exists e t0 m m' seed', shapeM W128 t0 /\ shapeM W128 m /\
  InvT_basis e W128 (fun _ => 30%N) t0 m 0 = Ok (m', seed') /\ invertible 128 (mbit W128 m').
Proof. exact C59_ex_main. Qed.
