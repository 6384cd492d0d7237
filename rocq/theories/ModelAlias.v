(** Calls in which pointer arguments overlap: the variants of the model needed because the
    functions of Model.v take and return separate buffers.  Every other function of the
    library takes its inputs by value, so there an output may be the variable an input was
    read from without further ado. *)
From Coq Require Import Arith NArith List Bool.
From Verif Require Import Base Tables Model.
Import ListNotations.

(** genMatpairM4..M256 (lines 2450-4339) called with Mat == Mat_inv: [g_v] is the shared
    buffer.  *Mat is touched by identityM (line 2460), by copyM at the end of the
    invertible case (line 2596) and by the replay (lines 2580-2592). *)
Definition genMatpair_same (e : endian) (w : width) (m : mat) (s : world)
  : res (mat * world) :=
  let s0 := reseed s in
  m0 <- identityM w m ;;
  v0 <- identityM w m0 ;;
  ' (tmp, s1) <- randM e w (fresh_m w) s0 ;;
  result <- copyM w tmp (fresh_m w) ;;
  ' (g, s2) <- g_forward w (mkgst tmp v0 [] true, s1) ;;
  if g_inv g then
    mv <- back_subst w (g_t g, g_v g) ;;
    m1 <- copyM w result (snd mv) ;;
    Ok (m1, s2)
  else
    g' <- g_back w g ;;
    m1 <- replay w (g_tr g') (g_v g') ;;
    Ok (m1, s2).

(** genaffinepairM4..M128 (lines 4340-4375) called with aff == aff_inv; the arguments of
    MatMulVec are passed by value *)
Definition genaffinepair_same (e : endian) (w : width) (f : aff) (s : world)
  : res (aff * world) :=
  ' (m, s1) <- genMatpair_same e w (amat f) s ;;
  ' (c, s2) <- randV e w (avec f) s1 ;;
  d <- MatMulVec e w m c c ;;
  Ok (mkaff m d, s2).

(** affineU128, lines 2046-2054, on a memory of 64-bit words: arr is at address p and ans
    at address q of the memory h *)
Definition affineU128_mem (e : endian) (f : aff) (p q : nat) (h : list N) : res (list N) :=
  x0 <- aget h p ;;
  x1 <- aget h (p + 1) ;;
  ans <- MatMulVec e W128 (amat f) [x0; x1] (fresh_v W128) ;;
  a0 <- aget ans 0 ;; c0 <- aget (avec f) 0 ;;
  h1 <- aset h q (N.lxor a0 c0) ;;
  a1 <- aget ans 1 ;; c1 <- aget (avec f) 1 ;;
  aset h1 (q + 1) (N.lxor a1 c1).
