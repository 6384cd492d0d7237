(** Model of the matrix and affine layer over M4RI: src/matrixlib/matrix_gf2.c (the same file in
    test/github1_M4RI, test/WBSM4/M4RI and test/WBAES/M4RI), test/WBSM4/M4RI/src/matrixlib/affine_transform.c,
    and mzd_randomize, m4ri_random_word and mzd_from_str of src/m4ri.  Line numbers without a file name
    are those of matrix_gf2.c.

    A MatGf2 is a pointer to a matrix; here it is the matrix.  The functions that take a pointer
    to such a pointer return the new matrix here; freeing is left out, except in the section on
    pointers, which models these functions on a memory of matrices.  Memory that is never freed
    is left out.
    Arguments of type int that are sizes or indices are natural numbers. *)
From Coq Require Import Arith NArith ZArith List Bool.
From Verif Require Import Base ModelM4ri ModelM4ri2.
From Verif Require ModelSM4.
Import ListNotations.
Local Open Scope nat_scope.

(** What the functions get from the machine: the table size computed from the cache sizes (see
    [m4rm_k]), the content of uninitialised stack arrays (see [transpose_lt64x64]; taken to be
    the same at every call, the products do not depend on it), the results of random(), the
    size of unsigned long and the content of fresh memory. *)
Record menv := mkenv
  { ekc : nat; ejunk : nat -> list N; erand : nat -> N; elong : ModelSM4.ulong; efill : nat -> N }.

(** ** Random matrices *)

(** m4ri_random_word, src/m4ri/misc.c lines 58-73, the branch for compilers other than MSVC.  [s] counts
    the calls of random(), which returns a number below 2^31. *)
Definition m4ri_random_word (e : menv) (s : nat) : N * nat :=
  let a k := (erand e (s + k) mod 2 ^ 31)%N in
  (N.lxor (N.lxor (a 0) (N.land (N.shiftl (a 1) 24) ffff)) (N.land (N.shiftl (a 2) 48) ffff), s + 3).

(** mzd_randomize, src/m4ri/mzd.c lines 1554-1564; without columns word -1 of each row is accessed *)
Definition mzd_randomize (e : menv) (A : mzd) (s : nat) : res (mzd * nat) :=
  let width := mwidth A - 1 in
  for_up 0 (mnrows A) (fun i st =>
    ' (A, s) <- for_up 0 width (fun j st =>
        let (A, s) := st : mzd * nat in
        let (w, s') := m4ri_random_word e s in
        A' <- wset A i j w ;; Ok (A', s')) (st : mzd * nat) ;;
    x <- wget A i width ;;
    let (w, s') := m4ri_random_word e s in
    A' <- wset A i width (N.lxor x (N.land (N.lxor x w) (high_bitmask A))) ;; Ok (A', s')) (A, s).

(** RandomMatGf2, lines 192-195, and GenRandomMatGf2, lines 10-14 *)
Definition RandomMatGf2 := mzd_randomize.
Definition GenRandomMatGf2 (e : menv) (r c s : nat) : res (mzd * nat) := RandomMatGf2 e (mzd_init r c) s.

(** while (IsMatGf2Invertible(mat)==0) RandomMatGf2(mat), lines 38-40 and affine_transform.c lines
    10-12.  [fuel] bounds the number of iterations; None if it is not enough. *)
Fixpoint random_until (fuel : nat) (e : menv) (A : mzd) (s : nat) : res (option (mzd * nat)) :=
  b <- IsMatGf2Invertible A ;;
  if b then Ok (Some (A, s))
  else match fuel with
       | O => Ok None
       | S fuel' => ' (A, s) <- RandomMatGf2 e A s ;; random_until fuel' e A s
       end.
(** GenInvertibleMatGf2, lines 36-42 *)
Definition GenInvertibleMatGf2 (fuel : nat) (e : menv) (r c s : nat) : res (option (mzd * nat)) :=
  ' (A, s) <- GenRandomMatGf2 e r c s ;; random_until fuel e A s.

(** ** Entries *)

(** MatGf2Set, lines 183-186: value%2 is the remainder with the sign of value *)
Definition MatGf2Set (M : mzd) (row col : nat) (value : Z) : res mzd :=
  mzd_write_bit M row col (Z.rem value 2).
(** MatGf2Get, lines 188-190 *)
Definition MatGf2Get (M : mzd) (row col : nat) : res Z := b <- mzd_read_bit M row col ;; Ok (Z.b2z b).

(** GenIndMatrix, lines 16-25 *)
Definition GenIndMatrix (size : nat) : res mzd :=
  for_up 0 size (fun i M =>
    for_up 0 size (fun j M => MatGf2Set M i j (if Nat.eqb i j then 1 else 0)) M) (mzd_init size size).
(** GenZeroVec, lines 27-34 *)
Definition GenZeroVec (size : nat) : res mzd :=
  for_up 0 size (fun i M => MatGf2Set M i 0 0) (mzd_init size 1).

(** InitMatGf2ByValueArray, lines 136-144: n is the number of rows *)
Definition InitMatGf2ByValueArray (data : list Z) (M : mzd) : res mzd :=
  let n := mnrows M in
  for_up 0 n (fun i M =>
    for_up 0 (mncols M) (fun j M => x <- aget data (n * i + j) ;; MatGf2Set M i j x) M) M.

(** InitMatrixFromBitArray, lines 147-158; the elements of data are of type unsigned long *)
Definition InitMatrixFromBitArray (data : list N) (M : mzd) : res mzd :=
  for_up 0 (mnrows M) (fun i M =>
    t <- aget data i ;;
    ' (M, _) <- for_down (mncols M) 0 (fun j st =>
        let (M, t) := st : mzd * N in
        M' <- MatGf2Set M i j (Z.of_N (t mod 2)) ;; Ok (M', N.shiftr t 1)) (M, t) ;;
    Ok M) M.

(** The common text of InitVecFromBit (lines 160-168), InitVecFromBit_64 (lines 170-180) and
    InitVecFromBit_128 (lines 415-425), which differ in the type of data *)
Definition vec_from_bits (data : N) (M : mzd) : res mzd :=
  ' (M, _) <- for_down (mnrows M) 0 (fun i st =>
      let (M, t) := st : mzd * N in
      M' <- MatGf2Set M i 0 (Z.of_N (t mod 2)) ;; Ok (M', N.shiftr t 1)) (M, data) ;;
  Ok M.
Definition InitVecFromBit (e : menv) (data : N) (M : mzd) : res mzd := vec_from_bits (ModelSM4.ulw (elong e) data) M.
Definition InitVecFromBit_64 (data : N) (M : mzd) : res mzd := vec_from_bits (data mod 2 ^ 64)%N M.
Definition InitVecFromBit_128 (data : N) (M : mzd) : res mzd := vec_from_bits (data mod 2 ^ 128)%N M.

(** The common text of getDigitalFromVec (lines 312-324), getDigital64FromVec (lines 281-298) and
    getDigital128FromVec (lines 427-443): [bits] is the size of d *)
Definition digits (bits : N) (M : mzd) : res N :=
  if negb (Nat.eqb (mncols M) 1) then Ok 0%N
  else for_up 0 (mnrows M) (fun i d =>
         b <- MatGf2Get M i 0 ;;
         Ok ((N.shiftl d 1 mod 2 ^ bits + (if Z.eqb b 1 then 1 else 0)) mod 2 ^ bits)%N) 0%N.
Definition getDigitalFromVec := digits 32.
Definition getDigital64FromVec := digits 64.
Definition getDigital128FromVec := digits 128.
(** get32FromVec, lines 273-279 *)
Definition get32FromVec (M : mzd) : res N :=
  if negb (Nat.eqb (mnrows M) 32) then Ok 0%N else getDigitalFromVec M.
(** get64FromVec, lines 300-308 *)
Definition get64FromVec (M : mzd) : res N :=
  if negb (Nat.eqb (mnrows M) 64) then Ok 0%N else getDigital64FromVec M.
(** get128FromVec, lines 445-453 *)
Definition get128FromVec (M : mzd) : res N :=
  if negb (Nat.eqb (mnrows M) 128) then Ok 0%N else getDigital128FromVec M.

(** ** Operations *)

(** GenMatGf2Stack, GenMatGf2Concat, GenMatGf2Inv, GenMatGf2Add, GenMatGf2Copy, MatGf2Transpose and
    MatGf2Cmp (lines 44-50, 58-60, 66-68, 112-114, 265-270, 481-483) are calls of M4RI.
    GenMatGf2Mul, lines 62-64 *)
Definition GenMatGf2Mul (e : menv) (a b : mzd) : res mzd := mzd_mul_m4rm (ekc e) (ejunk e) a b 0.
Definition GenMatGf2Inv (a : mzd) : res mzd := mzd_inv_m4ri a.
Definition GenMatGf2Add (a b : mzd) : res mzd := mzd_add a b.

(** MatGf2Diag, lines 342-365, and GenMatGf2Diag, lines 52-56: both dimensions are taken from the
    numbers of columns.  The old matrix of the destination, which is freed before the entries are
    read, is taken to be different from a and b; see [MatGf2Diag_p]. *)
Definition MatGf2Diag (a b : mzd) : res mzd :=
  let n1 := mncols a in
  let n2 := mncols b in
  d <- for_up 0 n1 (fun i d =>
         d <- for_up 0 n1 (fun j d => x <- MatGf2Get a i j ;; MatGf2Set d i j x) d ;;
         for_up 0 n2 (fun j d => MatGf2Set d i (n1 + j) 0) d) (mzd_init (n1 + n2) (n1 + n2)) ;;
  for_up 0 n2 (fun i d =>
    d <- for_up 0 n1 (fun j d => MatGf2Set d (n1 + i) j 0) d ;;
    for_up 0 n2 (fun j d => x <- MatGf2Get b i j ;; MatGf2Set d (n1 + i) (n1 + j) x) d) d.

(** GenMatAddU8, GenMatAddU16 and GenMatAddU32, lines 70-88: n = 8, 16, 32; b is of type uintn_t *)
Definition GenMatAddU (e : menv) (n : nat) (a : mzd) (b : N) : res mzd :=
  m <- InitVecFromBit e b (mzd_init n 1) ;; mzd_add a m.
(** AddMatToU32, lines 91-99 *)
Definition AddMatToU32 (e : menv) (a : mzd) (b : N) : res N :=
  m <- InitVecFromBit e b (mzd_init 32 1) ;; m <- mzd_add a m ;; get32FromVec m.
(** AddMatToU64, lines 101-110 *)
Definition AddMatToU64 (a : mzd) (b : N) : res N :=
  m <- InitVecFromBit_64 b (mzd_init 64 1) ;; m <- mzd_add a m ;; get64FromVec m.
(** AddMatToU128, lines 456-465 *)
Definition AddMatToU128 (a : mzd) (x : N) : res N :=
  m <- InitVecFromBit_128 x (mzd_init 128 1) ;; m <- mzd_add a m ;; get128FromVec m.

(** ApplyMatToU8, ApplyMatToU16 and ApplyMatToU32, lines 374-400: n = 8, 16, 32; data and the result
    are of type uintn_t *)
Definition ApplyMatToU (e : menv) (n : nat) (mat : mzd) (data : N) : res N :=
  a <- InitVecFromBit e data (mzd_init n 1) ;; a <- GenMatGf2Mul e mat a ;;
  r <- getDigitalFromVec a ;; Ok (r mod 2 ^ N.of_nat n)%N.
(** ApplyMatToU64, lines 401-409 *)
Definition ApplyMatToU64 (e : menv) (mat : mzd) (data : N) : res N :=
  a <- InitVecFromBit_64 data (mzd_init 64 1) ;; a <- GenMatGf2Mul e mat a ;; get64FromVec a.
(** ApplyMatToU128, lines 469-477 *)
Definition ApplyMatToU128 (e : menv) (mat : mzd) (data : N) : res N :=
  a <- InitVecFromBit_128 data (mzd_init 128 1) ;; a <- GenMatGf2Mul e mat a ;; get128FromVec a.

(** ** Pointers *)

(** A memory of matrices: a matrix that has been freed is None; addresses are not used again.  A
    pointer is an address or NULL (None). *)
Definition heap := list (option mzd).
Definition ptr := option nat.
Definition deref (h : heap) (p : ptr) : res mzd :=
  match p with
  | None => UB
  | Some i => o <- aget h i ;; match o with Some M => Ok M | None => UB end
  end.
Definition alloc (h : heap) (M : mzd) : heap * ptr := (h ++ [Some M], Some (length h)).
(** MatGf2Free, lines 367-370; freeing twice is undefined *)
Definition MatGf2Free_p (h : heap) (p : ptr) : res heap :=
  match p with
  | None => Ok h
  | Some i => M <- deref h p ;; aset h i None
  end.
(** The common text of MatGf2Inv (lines 216-226), MatGf2Mul (lines 229-234), MatGf2Add (lines 236-241),
    MatGf2Transpose (lines 265-270), MatGf2Stack (lines 327-332) and MatGf2Concat (lines 335-340):
    to_be_free = *dst; *dst = the new matrix; free.  The result is the memory and the new *dst. *)
Definition store_p (h : heap) (dst : ptr) (c : res mzd) : res (heap * ptr) :=
  M <- c ;; let (h, p) := alloc h M in h <- MatGf2Free_p h dst ;; Ok (h, p).
Definition MatGf2Inv_p (h : heap) (a dst : ptr) : res (heap * ptr) :=
  A <- deref h a ;; store_p h dst (GenMatGf2Inv A).
Definition MatGf2Mul_p (e : menv) (h : heap) (a b dst : ptr) : res (heap * ptr) :=
  A <- deref h a ;; B <- deref h b ;; store_p h dst (GenMatGf2Mul e A B).
Definition MatGf2Add_p (h : heap) (a b dst : ptr) : res (heap * ptr) :=
  A <- deref h a ;; B <- deref h b ;; store_p h dst (GenMatGf2Add A B).
Definition MatGf2Transpose_p (e : menv) (h : heap) (a dst : ptr) : res (heap * ptr) :=
  A <- deref h a ;; store_p h dst (mzd_transpose (ejunk e) A).
Definition MatGf2Stack_p (h : heap) (a b dst : ptr) : res (heap * ptr) :=
  A <- deref h a ;; B <- deref h b ;; store_p h dst (mzd_stack A B).
Definition MatGf2Concat_p (h : heap) (a b dst : ptr) : res (heap * ptr) :=
  A <- deref h a ;; B <- deref h b ;; store_p h dst (mzd_concat A B).
(** MatGf2Copy, lines 244-248: the old matrix is freed first *)
Definition MatGf2Copy_p (h : heap) (a dst : ptr) : res (heap * ptr) :=
  h <- MatGf2Free_p h dst ;; A <- deref h a ;; M <- mzd_copy A ;; Ok (alloc h M).
(** MatGf2Diag, lines 342-365: the numbers of columns are read, then the old matrix is freed
    (ReAllocatedMatGf2, lines 123-127), then the entries are read; taken to be read also if there
    are none *)
Definition MatGf2Diag_p (h : heap) (a b dst : ptr) : res (heap * ptr) :=
  A <- deref h a ;; B <- deref h b ;;
  h <- MatGf2Free_p h dst ;;
  A <- deref h a ;; B <- deref h b ;; M <- MatGf2Diag A B ;; Ok (alloc h M).

(** ** Export and import *)

(** malloc(n): n bytes of unknown content *)
Definition malloc (e : menv) (n : nat) : list N := map (efill e) (seq 0 n).
(** Accesses through a pointer of type uint32_t at byte p, in little-endian order *)
Definition put_u32 (buf : list N) (p : nat) (x : N) : res (list N) :=
  for_up 0 4 (fun k buf => aset buf (p + k) (N.shiftr x (N.of_nat (8 * k)) mod 256)%N) buf.
Definition get_u32 (buf : list N) (p : nat) : res N :=
  for_up 0 4 (fun k x => b <- aget buf (p + k) ;; Ok (x + N.shiftl b (N.of_nat (8 * k)))%N) 0%N.
(** A uint32_t stored in an int that is used as a size: negative values are taken as undefined *)
Definition int_of_u32 (x : N) : res nat := if N.ltb x (2 ^ 31) then Ok (N.to_nat x) else UB.

(** ExportMatGf2ToStr, lines 485-501; the size is an int, larger products overflow *)
Definition ExportMatGf2ToStr (e : menv) (a : mzd) : res (list N) :=
  if negb (N.ltb (8 + N.of_nat (mnrows a) * N.of_nat (mncols a)) (2 ^ 31)) then UB
  else
    let buf := malloc e (8 + mnrows a * mncols a) in
    buf <- put_u32 buf 0 (N.of_nat (mnrows a)) ;;
    buf <- put_u32 buf 4 (N.of_nat (mncols a)) ;;
    ' (buf, _) <- for_up 0 (mnrows a) (fun i st =>
        for_up 0 (mncols a) (fun j st =>
          let (buf, iter) := st : list N * nat in
          x <- MatGf2Get a i j ;;
          buf <- aset buf iter (if Z.eqb x 0 then 48 else 49)%N ;;
          Ok (buf, iter + 1)) st) (buf, 8) ;;
    Ok buf.

(** mzd_from_str, src/m4ri/io.c lines 365-374, on the bytes from position p of the buffer *)
Definition mzd_from_str (m n : nat) (buf : list N) (p : nat) : res mzd :=
  ' (A, _) <- for_up 0 m (fun i st =>
      for_up 0 n (fun j st =>
        let (A, idx) := st : mzd * nat in
        c <- aget buf (p + idx) ;;
        A <- mzd_write_bit A i j (if N.eqb c 49 then 1 else 0) ;;
        Ok (A, idx + 1)) st) (mzd_init m n, 0) ;;
  Ok A.
(** ImportMatGf2FromStr, lines 503-510, with source at position p of the buffer *)
Definition ImportMatGf2FromStr (buf : list N) (p : nat) : res mzd :=
  nr <- get_u32 buf p ;; nc <- get_u32 buf (p + 4) ;;
  nr <- int_of_u32 nr ;; nc <- int_of_u32 nc ;;
  mzd_from_str nr nc buf (p + 8).

(** ** affine_transform.c *)

(** AffineTransform, test/WBSM4/M4RI/include/matrixlib/affine_transform.h lines 6-9 *)
Record afft := mkafft { alin : mzd; atrans : mzd }.

(** GenRandomAffineTransform, lines 2-19: the map, its inverse and the new state *)
Definition GenRandomAffineTransform (fuel : nat) (e : menv) (dim s : nat) : res (option (afft * afft * nat)) :=
  ' (A, s) <- RandomMatGf2 e (mzd_init dim dim) s ;;
  o <- random_until fuel e A s ;;
  match o with
  | None => Ok None
  | Some (A, s) =>
      ' (v, s) <- RandomMatGf2 e (mzd_init dim 1) s ;;
      B <- GenMatGf2Inv A ;;
      w <- GenMatGf2Mul e B v ;;
      Ok (Some (mkafft A v, mkafft B w, s))
  end.
(** GenIndAffineTransform, lines 21-28 *)
Definition GenIndAffineTransform (dim : nat) : res (afft * afft) :=
  A <- GenIndMatrix dim ;; B <- GenIndMatrix dim ;;
  Ok (mkafft A (mzd_init dim 1), mkafft B (mzd_init dim 1)).

(** ApplyAffineTransform, lines 31-37 *)
Definition ApplyAffineTransform (e : menv) (at_ : afft) (mat : mzd) : res mzd :=
  d <- GenMatGf2Mul e (alin at_) mat ;; mzd_add (atrans at_) d.
(** ApplyAffineToU32, lines 39-47 *)
Definition ApplyAffineToU32 (e : menv) (aff : afft) (x : N) : res N :=
  m <- InitVecFromBit e x (mzd_init 32 1) ;; m <- GenMatGf2Mul e (alin aff) m ;;
  m <- mzd_add m (atrans aff) ;; get32FromVec m.
(** ApplyAffineToU16 and ApplyAffineToU8, lines 49-67: n = 16, 8 *)
Definition ApplyAffineToU (e : menv) (n : nat) (aff : afft) (x : N) : res N :=
  m <- InitVecFromBit e x (mzd_init n 1) ;; m <- GenMatGf2Mul e (alin aff) m ;;
  m <- mzd_add m (atrans aff) ;; r <- getDigitalFromVec m ;; Ok (r mod 2 ^ N.of_nat n)%N.

(** memcpy(dst + p, src, n) *)
Definition memcpy_to (dst : list N) (p : nat) (src : list N) (n : nat) : res (list N) :=
  for_up 0 n (fun k dst => x <- aget src k ;; aset dst (p + k) x) dst.
(** int sz = sizes[0] * sizes[1] of an exported matrix at byte p, lines 80-83, 85-88 and 107-110: the
    product is computed as unsigned int *)
Definition str_size (buf : list N) (p : nat) : res nat :=
  r <- get_u32 buf p ;; c <- get_u32 buf (p + 4) ;; int_of_u32 ((r * c) mod 2 ^ 32)%N.
(** ExportAffineToStr, lines 77-100; the sum of the sizes is computed as size_t *)
Definition ExportAffineToStr (e : menv) (aff : afft) : res (list N) :=
  a <- ExportMatGf2ToStr e (alin aff) ;; b <- ExportMatGf2ToStr e (atrans aff) ;;
  sza <- str_size a 0 ;; szb <- str_size b 0 ;;
  let buf := malloc e (20 + sza + szb) in
  buf <- put_u32 buf 0 (N.of_nat (20 + sza + szb) mod 2 ^ 32)%N ;;
  buf <- memcpy_to buf 4 a (sza + 8) ;;
  memcpy_to buf (4 + sza + 8) b (szb + 8).
(** ImportAffineFromStr, lines 102-114 *)
Definition ImportAffineFromStr (buf : list N) : res afft :=
  A <- ImportMatGf2FromStr buf 4 ;;
  sza <- str_size buf 4 ;;
  v <- ImportMatGf2FromStr buf (4 + sza + 8) ;;
  Ok (mkafft A v).
