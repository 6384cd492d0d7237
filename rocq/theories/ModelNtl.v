(** Model of the matrix layer over NTL: RandMat.cpp (test/NTL/src/RandMat.cpp and test/WBAES/NTL/src/RandMat.cpp)
    and test/WBSM4/NTL/src/matrixlib/MatrixUtils.cpp.

    NTL itself is not part of the repository.  Its types mat_GF2 and vec_GF2 are values here: a matrix
    is its dimensions and its rows, a vector is the list of its entries.  Sums and products are
    those of NTL's documentation; an error raised by NTL (wrong dimensions, index out of range,
    inverse of a singular matrix) is [UB].  The determinant and the inverse are parameters (record
    [ntl]); what is assumed about them is [ntl_ok] in SpecNtl.v.  random_GF2() and NTL's random of
    a vector take the next elements of an arbitrary sequence of bits; [s] counts them.
    Arguments of type int and long that are sizes are natural numbers. *)
From Coq Require Import Arith NArith ZArith List Bool.
From Verif Require Import Base.
From Verif Require ModelSM4.
Import ListNotations.
Local Open Scope nat_scope.

(** mat_GF2 and vec_GF2 (NTL/mat_GF2.h, NTL/vec_GF2.h, included by RandMat.h line 6 and MatrixUtils.h
    line 4) *)
Record gmat := mkgmat { grows : nat; gcols : nat; gdata : list (list bool) }.
Notation gvec := (list bool).
(** determinant(A) != 0 and inv(A) of NTL, the random bits, and the size of long *)
Record ntl := mkntl { tdet : gmat -> bool; tinv : gmat -> gmat; trand : nat -> bool; tlong : ModelSM4.ulong }.

(** A.SetDims(n, m) and v.SetLength(n); the entries are then all written by the callers *)
Definition gdims (n m : nat) : gmat := mkgmat n m (repeat (repeat false m) n).
Definition gzero (n : nat) : gvec := repeat false n.
(** A[i][j], A.get(i, j), v[i], v.get(i) *)
Definition gget (A : gmat) (i j : nat) : res bool := r <- aget (gdata A) i ;; aget r j.
Definition vget (v : gvec) (i : nat) : res bool := aget v i.
(** A[i][j] = b, A.put(i, j, b), v[i] = b, v.put(i, b) *)
Definition gput (A : gmat) (i j : nat) (b : bool) : res gmat :=
  r <- aget (gdata A) i ;; r' <- aset r j b ;; d <- aset (gdata A) i r' ;; Ok (mkgmat (grows A) (gcols A) d).
Definition vput (v : gvec) (i : nat) (b : bool) : res gvec := aset v i b.
(** put(i, a) for a of type long: a & 1 *)
Definition to_GF2 (a : Z) : bool := Z.odd a.

(** A * v, A * B, v + w of NTL *)
Definition dot (v w : gvec) : bool := fold_left xorb (map (fun p => fst p && snd p) (combine v w)) false.
Definition gmulv (A : gmat) (v : gvec) : res gvec :=
  if Nat.eqb (gcols A) (length v) then Ok (map (fun r => dot r v) (gdata A)) else UB.
Definition gcolumn (B : gmat) (j : nat) : gvec := map (fun r => nth j r false) (gdata B).
Definition gmul (A B : gmat) : res gmat :=
  if Nat.eqb (gcols A) (grows B)
  then Ok (mkgmat (grows A) (gcols B) (map (fun r => map (fun j => dot r (gcolumn B j)) (seq 0 (gcols B))) (gdata A)))
  else UB.
Definition gaddv (v w : gvec) : res gvec :=
  if Nat.eqb (length v) (length w) then Ok (map (fun p => xorb (fst p) (snd p)) (combine v w)) else UB.
(** determinant(A) == 0 and inv(A): errors for a matrix that is not square, inv also for a singular one *)
Definition gsingular (nt : ntl) (A : gmat) : res bool :=
  if Nat.eqb (grows A) (gcols A) then Ok (negb (tdet nt A)) else UB.
Definition ginv (nt : ntl) (A : gmat) : res gmat :=
  s <- gsingular nt A ;; if s then UB else Ok (tinv nt A).

(** ** Random matrices *)

(** One pass over row i, RandMat.cpp (test/WBAES/NTL) lines 16-22, MatrixUtils.cpp lines 12-18: the
    entries are drawn and the ones counted *)
Definition draw_pass (nt : ntl) (i m : nat) (A : gmat) (s : nat) : res (gmat * nat * nat) :=
  for_up 0 m (fun j st =>
    let '(A, hw, s) := st : gmat * nat * nat in
    A <- gput A i j (trand nt s) ;; b <- gget A i j ;;
    Ok (A, if b then hw + 1 else hw, s + 1)) (A, 0, s).
(** do ... while (hw == 1), RandMat.cpp lines 14-23, MatrixUtils.cpp lines 10-19.  [fuel] bounds the
    number of repetitions; None if it is not enough. *)
Fixpoint draw_row (fuel : nat) (nt : ntl) (i m : nat) (A : gmat) (s : nat) : res (option (gmat * nat)) :=
  ' (A, hw, s) <- draw_pass nt i m A s ;;
  if Nat.eqb hw 1
  then match fuel with O => Ok None | S fuel' => draw_row fuel' nt i m A s end
  else Ok (Some (A, s)).
(** The loop over the rows, RandMat.cpp lines 12-24; MatrixUtils.cpp lines 8-20 *)
Definition draw_rows (fuel : nat) (nt : ntl) (n m : nat) (A : gmat) (s : nat) : res (option (gmat * nat)) :=
  for_up 0 n (fun i st =>
    match st with None => Ok None | Some (A, s) => draw_row fuel nt i m A s end) (Some (A, s)).

(** RandMat::init, test/WBAES/NTL/src/RandMat.cpp lines 5-32 (the same text in test/NTL/src/RandMat.cpp): the new
    mat and, if is_mb, invMat.  Without is_mb invMat keeps its value: None. *)
Fixpoint init_loop (fuel fuel' : nat) (nt : ntl) (dim : nat) (is_mb : bool) (A : gmat) (s : nat)
  : res (option (gmat * option gmat * nat)) :=
  o <- draw_rows fuel nt dim dim A s ;;
  match o with
  | None => Ok None
  | Some (A, s) =>
      if negb is_mb then Ok (Some (A, None, s))
      else
        z <- gsingular nt A ;;
        if z then match fuel' with O => Ok None | S fuel'' => init_loop fuel fuel'' nt dim is_mb A s end
        else B <- ginv nt A ;; Ok (Some (A, Some B, s))
  end.
Definition RandMat_init (fuel : nat) (nt : ntl) (dim : nat) (is_mb : bool) (s : nat)
  : res (option (gmat * option gmat * nat)) :=
  init_loop fuel fuel nt dim is_mb (gdims dim dim) s.
(** InvTMat, test/NTL/src/RandMat.cpp lines 44-65 *)
Fixpoint invt_loop (fuel fuel' : nat) (nt : ntl) (dim : nat) (A : gmat) (s : nat) : res (option (gmat * nat)) :=
  o <- draw_rows fuel nt dim dim A s ;;
  match o with
  | None => Ok None
  | Some (A, s) =>
      z <- gsingular nt A ;;
      if z then match fuel' with O => Ok None | S fuel'' => invt_loop fuel fuel'' nt dim A s end
      else Ok (Some (A, s))
  end.
Definition InvTMat (fuel : nat) (nt : ntl) (dim s : nat) : res (option (gmat * nat)) :=
  invt_loop fuel fuel nt dim (gdims dim dim) s.
(** initVec, test/NTL/src/RandMat.cpp lines 34-43; also random(v, n) of NTL *)
Definition initVec (nt : ntl) (dim s : nat) : res (gvec * nat) :=
  for_up 0 dim (fun j st =>
    let (v, s) := st : gvec * nat in
    v <- vput v j (trand nt s) ;; Ok (v, s + 1)) (gzero dim, s).

(** random, MatrixUtils.cpp lines 4-21 *)
Definition random_mat (fuel : nat) (nt : ntl) (n1 n2 s : nat) : res (option (gmat * nat)) :=
  draw_rows fuel nt n1 n2 (gdims n1 n2) s.
(** random(x, n, n); while (determinant(x) == 0) random(x, n, n): MatrixUtils.cpp lines 47-50, 83-86, 94-97,
    106-109 *)
Fixpoint random_inv (fuel fuel' : nat) (nt : ntl) (n s : nat) : res (option (gmat * nat)) :=
  o <- random_mat fuel nt n n s ;;
  match o with
  | None => Ok None
  | Some (A, s) =>
      z <- gsingular nt A ;;
      if z then match fuel' with O => Ok None | S fuel'' => random_inv fuel fuel'' nt n s end
      else Ok (Some (A, s))
  end.

(** genRandomAffineMatrix with four arguments, MatrixUtils.cpp lines 82-91: X, Y and V *)
Definition genRandomAffineMatrix (fuel : nat) (nt : ntl) (n s : nat) : res (option (gmat * gmat * gvec * nat)) :=
  o <- random_inv fuel fuel nt n s ;;
  match o with
  | None => Ok None
  | Some (X, s) =>
      Y <- ginv nt X ;; ' (V, s) <- initVec nt n s ;; Ok (Some (X, Y, V, s))
  end.
(** genRandomAffineMatrix with five arguments, MatrixUtils.cpp lines 93-103 *)
Definition genRandomAffineMatrix5 (fuel : nat) (nt : ntl) (n s : nat)
  : res (option (gmat * gmat * gvec * gvec * nat)) :=
  o <- genRandomAffineMatrix fuel nt n s ;;
  match o with
  | None => Ok None
  | Some (X, Y, V, s) => W <- gmulv Y V ;; Ok (Some (X, Y, V, W, s))
  end.
(** genRandomInvMatrix, MatrixUtils.cpp lines 105-113 *)
Definition genRandomInvMatrix (fuel : nat) (nt : ntl) (n s : nat) : res (option (gmat * gmat * nat)) :=
  o <- random_inv fuel fuel nt n s ;;
  match o with None => Ok None | Some (X, s) => Y <- ginv nt X ;; Ok (Some (X, Y, s)) end.
(** genRandomAffineAugmentedMatrix, MatrixUtils.cpp lines 45-80; LINV is not used *)
Definition genRandomAffineAugmentedMatrix (fuel : nat) (nt : ntl) (n s : nat) : res (option (gmat * gmat * nat)) :=
  o <- random_inv fuel fuel nt n s ;;
  match o with
  | None => Ok None
  | Some (L, s) =>
      _ <- ginv nt L ;; ' (tran, s) <- initVec nt n s ;;
      X <- for_up 0 n (fun i X => for_up 0 n (fun j X => b <- gget L i j ;; gput X i j b) X) (gdims (n + 1) (n + 1)) ;;
      X <- for_up 0 n (fun j X => gput X n j (to_GF2 0)) X ;;
      X <- gput X n n (to_GF2 1) ;;
      X <- for_up 0 n (fun i X => b <- vget tran i ;; gput X i n b) X ;;
      Y <- ginv nt X ;; Ok (Some (X, Y, s))
  end.

(** ** Numbers *)

(** The conversion of a number below 2^32 to long: with 32 bits it wraps *)
Definition to_long (u : ModelSM4.ulong) (x : N) : Z :=
  match u with
  | ModelSM4.UL32 => if N.ltb x (2 ^ 31) then Z.of_N x else (Z.of_N x - 2 ^ 32)%Z
  | ModelSM4.UL64 => Z.of_N x
  end.
(** initMatrixFromBit, MatrixUtils.cpp lines 22-34; the remainder t % 2 has the sign of t; >> of a negative
    number is taken to be the arithmetic shift *)
Definition initMatrixFromBit (M : gmat) (data : list Z) : res gmat :=
  for_up 0 (grows M) (fun i M =>
    t <- aget data i ;;
    ' (M, _) <- for_down (gcols M) 0 (fun j st =>
        let (M, t) := st : gmat * Z in
        M <- gput M i j (to_GF2 (Z.rem t 2)) ;; Ok (M, Z.shiftr t 1)) (M, t) ;;
    Ok M) M.
(** initVecFromBit, MatrixUtils.cpp lines 36-44 *)
Definition initVecFromBit (data : Z) (len : nat) : res gvec :=
  ' (v, _) <- for_down len 0 (fun i st =>
      let (v, t) := st : gvec * Z in
      v <- vput v i (to_GF2 (Z.rem t 2)) ;; Ok (v, Z.shiftr t 1)) (gzero len, data) ;;
  Ok v.
(** The loop of getDigitalFromVec (lines 116-125), get32FromVec (lines 128-136) and get8FromVec (lines
    138-146): n entries, [bits] bits *)
Definition gdigits (bits : N) (n : nat) (v : gvec) : res N :=
  for_up 0 n (fun i d =>
    b <- vget v i ;; Ok ((N.shiftl d 1 mod 2 ^ bits + (if b then 1 else 0)) mod 2 ^ bits)%N) 0%N.
Definition getDigitalFromVec (v : gvec) : res N := gdigits 32 (length v) v.
Definition get32FromVec (v : gvec) : res N := gdigits 32 32 v.
Definition get8FromVec (v : gvec) : res N := gdigits 8 8 v.
(** getVecFrom32, lines 149-157 *)
Definition getVecFrom32 (s : N) : res gvec :=
  ' (v, _) <- for_down 32 0 (fun i st =>
      let (v, t) := st : gvec * N in
      v <- vput v i (to_GF2 (Z.of_N (t mod 2))) ;; Ok (v, N.shiftr t 1)) (gzero 32, s) ;;
  Ok v.
(** getAugmentedVecFrom32, lines 159-168 *)
Definition getAugmentedVecFrom32 (s : N) : res gvec :=
  ' (v, _) <- for_down 32 0 (fun i st =>
      let (v, t) := st : gvec * N in
      v <- vput v i (to_GF2 (Z.of_N (t mod 2))) ;; Ok (v, N.shiftr t 1)) (gzero 33, s) ;;
  vput v 32 (to_GF2 1).

(** combineDiagMat, lines 170-192; d is a matrix different from s1 and s2 *)
Definition combineDiagMat (s1 s2 : gmat) : res gmat :=
  let n1 := gcols s1 in
  let n2 := gcols s2 in
  d <- for_up 0 n1 (fun i d =>
         d <- for_up 0 n1 (fun j d => x <- gget s1 i j ;; gput d i j x) d ;;
         for_up 0 n2 (fun j d => gput d i (n1 + j) (to_GF2 0)) d) (gdims (n1 + n2) (n1 + n2)) ;;
  for_up 0 n2 (fun i d =>
    d <- for_up 0 n1 (fun j d => gput d (n1 + i) j (to_GF2 0)) d ;;
    for_up 0 n2 (fun j d => x <- gget s2 i j ;; gput d (n1 + i) (n1 + j) x) d) d.

(** affine_transform_t, test/WBSM4/NTL/include/matrixlib/MatrixUtils.h lines 9-12 *)
Record gaff := mkgaff { glin : gmat; gtra : gvec }.
(** applyAffineToU32, lines 194-201 *)
Definition applyAffineToU32 (nt : ntl) (aff : gaff) (data : N) : res N :=
  a <- initVecFromBit (to_long (tlong nt) data) 32 ;;
  m <- gmulv (glin aff) a ;; b <- gaddv m (gtra aff) ;; get32FromVec b.
(** applyAffineToU8, lines 203-210 *)
Definition applyAffineToU8 (aff : gaff) (data : N) : res N :=
  a <- initVecFromBit (Z.of_N data) 8 ;;
  m <- gmulv (glin aff) a ;; b <- gaddv m (gtra aff) ;; r <- getDigitalFromVec b ;; Ok (r mod 256)%N.
(** applyMatToU8, lines 212-217, and applyMatToU32, lines 219-224 *)
Definition applyMatToU8 (mat : gmat) (data : N) : res N :=
  a <- initVecFromBit (Z.of_N data) 8 ;; b <- gmulv mat a ;; r <- getDigitalFromVec b ;; Ok (r mod 256)%N.
Definition applyMatToU32 (nt : ntl) (mat : gmat) (data : N) : res N :=
  a <- initVecFromBit (to_long (tlong nt) data) 32 ;; b <- gmulv mat a ;; getDigitalFromVec b.
(** addVecToU32, lines 226-231, and addVecToU8, lines 233-238 *)
Definition addVecToU32 (nt : ntl) (vec : gvec) (data : N) : res N :=
  a <- initVecFromBit (to_long (tlong nt) data) 32 ;; b <- gaddv vec a ;; getDigitalFromVec b.
Definition addVecToU8 (vec : gvec) (data : N) : res N :=
  a <- initVecFromBit (Z.of_N data) 8 ;; b <- gaddv vec a ;; r <- getDigitalFromVec b ;; Ok (r mod 256)%N.
(** genIndMatrix, lines 241-250 *)
Definition genIndMatrix (size : nat) : res gmat :=
  for_up 0 size (fun i M =>
    for_up 0 size (fun j M => gput M i j (to_GF2 (if Nat.eqb i j then 1 else 0))) M) (gdims size size).
(** genZeroVec, lines 252-259 *)
Definition genZeroVec (size : nat) : res gvec :=
  for_up 0 size (fun i v => vput v i (to_GF2 0)) (gzero size).
