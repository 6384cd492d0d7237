(** Generated by tools/gen_props.py from Main4.v: statements of the properties.
    Every theorem is closed by [exact]; its assumptions are printed beneath it. *)
From Coq Require Import Arith NArith List Bool String Ascii Lia.
From Verif Require Import Base Tables Model Spec LinAlg Mem Cons Rand Mul Elim GenPair Affine Check ModelPrint SpecPrint Print ModelAlias Alias Main4.
Import ListNotations.

(** C34: printbit draws the bits of the matrix (M4 ... M128 exist in C). *)
Theorem C34_printbit : forall w m, shapeM w m ->
  printbit w m = Ok (bit_picture (dim w) (mbit w m)).
Proof. exact C34_printbit_main. Qed.
Print Assumptions C34_printbit.

Example C34_ex : shapeM W4 [[1]; [2]; [10]; [15]]%N /\
  printbit W4 [[1]; [2]; [10]; [15]]%N = Ok "0 0 0 1 
0 0 1 0 
1 0 1 0 
1 1 1 1 

"%string.
Proof. exact C34_ex_main. Qed.

(** C35: reading the numbers of each line of the output of printM gives the rows back. *)
Theorem C35_printM : forall w m, shapeM w m ->
  exists s, printM w m = Ok s /\ readtext s = map (map Some) m.
Proof. exact C35_printM_main. Qed.
Print Assumptions C35_printM.

(** C35: the same for printV, which prints one line. *)
Theorem C35_printV : forall w v, shapeV w v ->
  exists s, printV w v = Ok s /\ readtext s = [map Some v].
Proof. exact C35_printV_main. Qed.
Print Assumptions C35_printV.

Theorem C35_injective :
  (forall w m m', shapeM w m -> shapeM w m' -> printM w m = printM w m' -> m = m') /\
  (forall w v v', shapeV w v -> shapeV w v' -> printV w v = printV w v' -> v = v').
Proof. exact C35_injective_main. Qed.
Print Assumptions C35_injective.

Example C35_ex : printV W128 [81985529216486895; 0]%N = Ok "0x123456789abcdef 0x0
"%string /\
  printM W4 [[1]; [2]; [10]; [15]]%N = Ok "0x1
0x2
0xa
0xf
"%string.
Proof. exact C35_ex_main. Qed.

(** C36: printU64 and printU128 are undefined for every argument. *)
Theorem C36_printU64_printU128_refuted :
  (forall n, printU64 n = UB) /\ (forall a b, printU128 [a; b] = UB).
Proof. exact C36_printU64_printU128_refuted_main. Qed.
Print Assumptions C36_printU64_printU128_refuted.

(** C36: the others print the number in hexadecimal on a line of its own. *)
Theorem C36_others :
  (forall n, exists s, printU8 n = Ok s /\ readtext s = [[Some n]]) /\
  (forall n, exists s, printU16 n = Ok s /\ readtext s = [[Some n]]) /\
  (forall n, exists s, printU32 n = Ok s /\ readtext s = [[Some n]]) /\
  (forall a b c d, exists s, printU256 [a; b; c; d] = Ok s /\
                             readtext s = [[Some a; Some b; Some c; Some d]]).
Proof. exact C36_others_main. Qed.
Print Assumptions C36_others.

Example C36_ex : printU32 3735928559 = Ok "0xdeadbeef
"%string.
Proof. exact C36_ex_main. Qed.

(** C38: genMatpair with one and the same buffer for both results stores the drawn matrix
    if it is invertible, and the identity otherwise. *)
Theorem C38_same_buffer : forall e w m s, shapeM w m ->
  exists a s1 m' s', randM e w (fresh_m w) (reseed s) = Ok (a, s1) /\
    genMatpair_same e w m s = Ok (m', s') /\ wfM w m' /\
    (invertible (dim w) (mbit w a) -> m' = a) /\
    (~ invertible (dim w) (mbit w a) -> feq (dim w) (mbit w m') fid).
Proof. exact C38_same_buffer_main. Qed.
Print Assumptions C38_same_buffer.

(** C38: for every width there is a generator state for which the result is not its own
    inverse, so that the call does not give an inverse pair. *)
Theorem C38_same_buffer_refuted : forall w, exists s m' s',
  genMatpair_same LE w (fresh_m w) s = Ok (m', s') /\
  ~ inverse_of (dim w) (mbit w m') (mbit w m').
Proof. exact C38_same_buffer_refuted_main. Qed.
Print Assumptions C38_same_buffer_refuted.

(** C38: likewise genaffinepair with aff == aff_inv does not give an involution. *)
Theorem C38_same_affine_refuted : forall w, exists s f s' x,
  genaffinepair_same LE w (mkaff (fresh_m w) (fresh_v w)) s = Ok (f, s') /\
  ~ veq (dim w) (vadd (fapp (dim w) (mbit w (amat f))
                            (vadd (fapp (dim w) (mbit w (amat f)) x) (vbit w (avec f))))
                      (vbit w (avec f))) x.
Proof. exact C38_same_affine_refuted_main. Qed.
Print Assumptions C38_same_affine_refuted.

Example C38_ex : exists s', genMatpair_same LE W4 (fresh_m W4) (mkworld 0 1 1 (fun _ => 1%N) 0)
  = Ok ([[1]; [14]; [11]; [2]]%N, s').
Proof. exact C38_ex_main. Qed.

(** C39: affineU128 on a memory, the input at p and the output at q, wherever they are:
    the two words at q become the image of the two words that were at p (the same as for
    separate arrays), and nothing else changes. *)
Theorem C39_overlap : forall e f p q h, wfA W128 f -> p + 1 < List.length h -> q + 1 < List.length h ->
  exists h' y0 y1, affineU128_mem e f p q h = Ok h' /\
    affineU e W128 f [nth p h 0%N; nth (p + 1) h 0%N] = Ok [y0; y1] /\
    veq 128 (vbit W128 [y0; y1])
      (vadd (fapp 128 (mbit W128 (amat f)) (vbit W128 [nth p h 0%N; nth (p + 1) h 0%N]))
            (vbit W128 (avec f))) /\
    List.length h' = List.length h /\ nth q h' 0%N = y0 /\ nth (q + 1) h' 0%N = y1 /\
    (forall k, k <> q -> k <> q + 1 -> nth k h' 0%N = nth k h 0%N).
Proof. exact C39_overlap_main. Qed.
Print Assumptions C39_overlap.

Example C39_ex :
  let f := mkaff (sample W128) (samplev W128) in
  wfA W128 f /\
  affineU128_mem LE f 0 1 [1; 2; 3]%N = affineU128_mem LE f 0 1 [1; 2; 7]%N /\
  affineU128_mem LE f 0 0 [1; 2; 3]%N <> affineU128_mem LE f 1 0 [1; 2; 3]%N.
Proof. exact C39_ex_main. Qed.
