(** Generated by tools/gen_props.py from Main1.v: statements of the properties.
    Every theorem is closed by [exact]; its assumptions are printed beneath it. *)
From Coq Require Import Arith NArith List Bool Lia Setoid Morphisms.
From Verif Require Import Base Tables Model Spec LinAlg Mem Cons Elim Parity Trans Mul Rand GenPair Com Affine Check Main1.
Import ListNotations.

(** C01: MatMulMat writes the product. *)
Theorem C01_MatMulMat : forall e w a b out,
  typedM w a -> wfM w b -> shapeM w out ->
  exists r, MatMulMat e w a b out = Ok r /\ wfM w r /\
    forall i j, i < dim w -> j < dim w ->
      mbit w r i j = xsum (dim w) (fun k => mbit w a i k && mbit w b k j).
Proof. exact C01_MatMulMat_main. Qed.
Print Assumptions C01_MatMulMat.

(** The matrices are not zero, and neither is the product. *)
Example C01_ex : forall w, typedM w (sample w) /\ wfM w (rank1 w) /\ shapeM w (zeros w).
Proof. exact C01_ex_main. Qed.

Example C01_ex2 :
  MatMulMat LE W4 [[0xe]; [0x1]; [0x3]; [0x8]]%N [[0x3]; [0x6]; [0x9]; [0xf]]%N (zeros W4)
  = Ok [[0xc]; [0xf]; [0x6]; [0x3]]%N.
Proof. exact C01_ex2_main. Qed.

(** C02: MatMulVec multiplies with a column vector. *)
Theorem C02_MatMulVec : forall e w a x out,
  typedM w a -> shapeV w x -> shapeV w out ->
  exists r, MatMulVec e w a x out = Ok r /\ wfV w r /\
    forall i, i < dim w -> vbit w r i = xsum (dim w) (fun k => mbit w a i k && vbit w x k).
Proof. exact C02_MatMulVec_main. Qed.
Print Assumptions C02_MatMulVec.

(** C02: MatMulNum (one element per row) agrees with MatMulVec. *)
Theorem C02_MatMulNum : forall e w a x out,
  nw w = 1 -> typedM w a -> shapeV w out ->
  exists r, MatMulNum e w a x = Ok r /\ MatMulVec e w a [x] out = Ok [r] /\
    forall i, i < dim w -> vbit w [r] i = xsum (dim w) (fun k => mbit w a i k && vbit w [x] k).
Proof. exact C02_MatMulNum_main. Qed.
Print Assumptions C02_MatMulNum.

Example C02_ex : typedM W8 (sample W8) /\ shapeV W8 [0x35]%N /\
  MatMulNum LE W8 (sample W8) 0x35%N = Ok 0x13%N.
Proof. exact C02_ex_main. Qed.

(** C03: Mattrans writes the transposed matrix. *)
Theorem C03_Mattrans : forall w a out, wfM w a -> shapeM w out ->
  exists r, Mattrans w a out = Ok r /\ wfM w r /\
    forall i j, i < dim w -> j < dim w -> mbit w r i j = mbit w a j i.
Proof. exact C03_Mattrans_main. Qed.
Print Assumptions C03_Mattrans.

(** C03: applied twice it gives back the matrix. *)
Theorem C03_involution : forall w a out out2, wfM w a -> shapeM w out -> shapeM w out2 ->
  (r <- Mattrans w a out ;; Mattrans w r out2) = Ok a.
Proof. exact C03_involution_main. Qed.
Print Assumptions C03_involution.

Example C03_ex : wfM W4 [[0xe]; [0x1]; [0x3]; [0x8]]%N /\
  Mattrans W4 [[0xe]; [0x1]; [0x3]; [0x8]]%N (zeros W4) = Ok [[0x9]; [0x8]; [0xa]; [0x6]]%N.
Proof. exact C03_ex_main. Qed.

(** C04: isinvert is exact. *)
Theorem C04_isinvert : forall w a, wfM w a ->
  exists r, isinvert w a = Ok r /\
    ((r = 1%N /\ exists B, feq (dim w) (fmul (dim w) (mbit w a) B) fid /\
                           feq (dim w) (fmul (dim w) B (mbit w a)) fid) \/
     (r = 0%N /\ forall B, ~ feq (dim w) (fmul (dim w) (mbit w a) B) fid \/
                           ~ feq (dim w) (fmul (dim w) B (mbit w a)) fid)).
Proof. exact C04_isinvert_main. Qed.
Print Assumptions C04_isinvert.

Example C04_ex : forall w, wfM w (sample w) /\ isinvert w (sample w) = Ok 1%N /\
  wfM w (rank1 w) /\ isinvert w (rank1 w) = Ok 0%N.
Proof. exact C04_ex_main. Qed.

(** C05: invs writes the two-sided inverse of an invertible matrix. *)
Theorem C05_invs : forall w a out, wfM w a -> shapeM w out -> isinvert w a = Ok 1%N ->
  exists r, invs w a out = Ok r /\ wfM w r /\
    feq (dim w) (fmul (dim w) (mbit w a) (mbit w r)) fid /\
    feq (dim w) (fmul (dim w) (mbit w r) (mbit w a)) fid.
Proof. exact C05_invs_main. Qed.
Print Assumptions C05_invs.

(** C05: so both products computed by the library are the identity matrix. *)
Theorem C05_invs_products : forall e w a out o1 o2 o3,
  wfM w a -> shapeM w out -> shapeM w o1 -> shapeM w o2 -> shapeM w o3 -> isinvert w a = Ok 1%N ->
  exists r id, invs w a out = Ok r /\ identityM w o3 = Ok id /\
    MatMulMat e w a r o1 = Ok id /\ MatMulMat e w r a o2 = Ok id.
Proof. exact C05_invs_products_main. Qed.
Print Assumptions C05_invs_products.

Example C05_ex : wfM W4 [[0xe]; [0x1]; [0x3]; [0x8]]%N /\
  isinvert W4 [[0xe]; [0x1]; [0x3]; [0x8]]%N = Ok 1%N /\
  invs W4 [[0xe]; [0x1]; [0x3]; [0x8]]%N (zeros W4) = Ok [[0x1]; [0xf]; [0x6]; [0x4]]%N.
Proof. exact C05_ex_main. Qed.

(** C06: on a singular matrix invs is silent; its result is an invertible matrix which
    is not even a one-sided inverse. *)
Theorem C06_invs_singular : forall w a out, wfM w a -> shapeM w out -> isinvert w a = Ok 0%N ->
  exists r, invs w a out = Ok r /\ wfM w r /\ isinvert w r = Ok 1%N /\
    ~ feq (dim w) (fmul (dim w) (mbit w a) (mbit w r)) fid /\
    ~ feq (dim w) (fmul (dim w) (mbit w r) (mbit w a)) fid.
Proof. exact C06_invs_singular_main. Qed.
Print Assumptions C06_invs_singular.

Example C06_ex : forall w, wfM w (rank1 w) /\ isinvert w (rank1 w) = Ok 0%N.
Proof. exact C06_ex_main. Qed.

(** C07: genMatpair writes a pair of inverse matrices. *)
Theorem C07_genMatpair : forall e w m v s, shapeM w m -> shapeM w v ->
  exists a b s', genMatpair e w m v s = Ok (a, b, s') /\ wfM w a /\ wfM w b /\
    feq (dim w) (fmul (dim w) (mbit w a) (mbit w b)) fid /\
    feq (dim w) (fmul (dim w) (mbit w b) (mbit w a)) fid.
Proof. exact C07_genMatpair_main. Qed.
Print Assumptions C07_genMatpair.

(** A world in which the draw is singular, so that the repair branch runs. *)
Example C07_ex :
  let s := mkworld 0 0 0 (fun _ => 0%N) 0 in
  (match randM LE W4 (zeros W4) (reseed s) return Prop with
  | Ok (d, _) => d = [[7]; [12]; [0]; [2]]%N /\ isinvert W4 d = Ok 0%N | UB => False end) /\
  (match genMatpair LE W4 (zeros W4) (zeros W4) s return Prop with
  | Ok (a, b, _) => a = [[7]; [12]; [1]; [2]]%N /\ b = [[15]; [11]; [1]; [2]]%N
  | UB => False end).
Proof. exact C07_ex_main. Qed.

(** C08: no undefined behaviour; at most n*n-1 operations are recorded, with row
    numbers below n. *)
Theorem C08_trail : forall e w m v s, shapeM w m -> shapeM w v ->
  exists r tr, genMatpair_trail e w m v s = Ok (r, tr) /\ genMatpair e w m v s = Ok r /\
    length tr <= dim w * dim w - 1 /\
    Forall (fun o => let '(_, a, b) := o in N.to_nat a < dim w /\ N.to_nat b < dim w) tr.
Proof. exact C08_trail_main. Qed.
Print Assumptions C08_trail.

(** Lengths of the trail in four worlds (the bound is 15). *)
Example C08_ex :
  map (fun k => match genMatpair_trail LE W4 (zeros W4) (zeros W4) (mkworld k 0 0 (fun _ => 0%N) 0) with
                | Ok (_, tr) => length tr | UB => 99 end) [0; 1; 2; 3]%N = [5; 7; 9; 9].
Proof. exact C08_ex_main. Qed.

(** C09: an invertible draw is returned unchanged, with the matrix that invs computes. *)
Theorem C09_keeps_draw : forall e w m v s m0 out draw s1,
  shapeM w m -> shapeM w v -> typedM w m0 -> shapeM w out ->
  randM e w m0 (reseed s) = Ok (draw, s1) -> isinvert w draw = Ok 1%N ->
  exists b s', genMatpair e w m v s = Ok (draw, b, s') /\ invs w draw out = Ok b.
Proof. exact C09_keeps_draw_main. Qed.
Print Assumptions C09_keeps_draw.

(** A world in which the draw is invertible. *)
Example C09_ex :
  let s := mkworld 4 0 0 (fun _ => 0%N) 0 in
  (match randM LE W4 (zeros W4) (reseed s) return Prop with
  | Ok (d, _) => d = [[2]; [1]; [7]; [8]]%N /\ isinvert W4 d = Ok 1%N | UB => False end) /\
  (match genMatpair LE W4 (zeros W4) (zeros W4) s return Prop with
  | Ok (a, b, _) => a = [[2]; [1]; [7]; [8]]%N /\ b = [[1]; [14]; [8]; [4]]%N
  | UB => False end).
Proof. exact C09_ex_main. Qed.

(** C10: a generated affine pair consists of mutually inverse functions. *)
Theorem C10_genaffinepair : forall e w f fi s,
  shapeM w (amat f) -> typedV w (avec f) -> shapeA w fi ->
  exists g gi s', genaffinepair e w f fi s = Ok (g, gi, s') /\ wfA w g /\ wfA w gi /\
    forall x, wfV w x ->
      (y <- affineU e w g x ;; affineU e w gi y) = Ok x /\
      (y <- affineU e w gi x ;; affineU e w g y) = Ok x.
Proof. exact C10_genaffinepair_main. Qed.
Print Assumptions C10_genaffinepair.

Example C10_ex : forall w, shapeM w (sample w) /\ typedV w (samplev w) /\
  shapeA w (mkaff (zeros w) (zerov w)) /\ wfV w (samplev w).
Proof. exact C10_ex_main. Qed.

(** C11: affinemix composes. *)
Theorem C11_affinemix : forall e w f g mix, wfA w f -> wfA w g -> shapeA w mix ->
  exists h, affinemix e w f g mix = Ok h /\ wfA w h /\
    forall x, shapeV w x ->
      exists y, affineU e w h x = Ok y /\ (z <- affineU e w g x ;; affineU e w f z) = Ok y.
Proof. exact C11_affinemix_main. Qed.
Print Assumptions C11_affinemix.

Example C11_ex :
  wfA W8 (mkaff (sample W8) [0x35]%N) /\ wfA W8 (mkaff (rank1 W8) [0xa1]%N) /\
  affineU LE W8 (mkaff (sample W8) [0x35]%N) [0x80]%N = Ok [0xb5]%N.
Proof. exact C11_ex_main. Qed.
