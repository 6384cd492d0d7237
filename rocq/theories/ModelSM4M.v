(** Model of the white-box SM4 example over M4RI, test/WBSM4/M4RI: src/matrixlib/wbsm4_gen.c and
    sm4_wb_enc in test/main.c.  Line numbers without a file name are those of wbsm4_gen.c.

    src/matrixlib/sm4.c and the S-box in include/matrixlib/sbox.h are the same text as in
    test/WBSM4/WBMatrix, except for one include directive and white space; they are those of
    ModelSM4.v.  Matrices are values as in ModelGf2.v: the functions with a destination return
    the new matrix, and freeing is left out.  The destinations temp, kv and dest are not among
    the matrices that are read after a call has replaced them; see C98 for the calls
    themselves. *)
From Coq Require Import Arith NArith ZArith List Bool.
From Verif Require Import Base ModelSM4 ModelM4ri ModelM4ri2 ModelGf2.
Import ListNotations.
Local Open Scope nat_scope.

(** P, E, Q and skbox_enc, include/matrixlib/wbsm4.h lines 5-9 *)
Record mglob := mkmg
  { hP : list (list afft);            (* P[36][2] *)
    hE : list (list (list afft));     (* E[36][5][2] *)
    hQ : list (list afft);            (* Q[36][2] *)
    hS : list (list (list N)) }.      (* skbox_enc[32][4][256] *)
(** Sm4Whitebox, include/matrixlib/wbsm4.h lines 11-22 *)
Record mctx := mkmx
  { xM : list (list afft);            (* M[32][3] *)
    xC : list afft;                   (* C[32] *)
    xD : list afft;                   (* D[32] *)
    xSE : list afft;                  (* SE[4] *)
    xFE : list afft;                  (* FE[4] *)
    xT : list (list (list N)) }.      (* Table[32][4][256] *)

(** initMatrixL, lines 4-8: sm4_csl_xor_matrix has the same numbers as in test/WBSM4/WBMatrix *)
Definition m_initMatrixL (M : mzd) : res mzd := InitMatrixFromBitArray wb_csl M.

(** sm4_wb_gen_secrect_sbox, lines 9-27: the same text as in test/WBSM4/WBMatrix, see
    [sm4_wb_gen_secrect_sbox] in ModelSM4.v *)

(** Lines 38-41: E[i][0..3].  The result is None if [fuel] is not enough for one of the random
    matrices. *)
Definition m_gen_E (fuel : nat) (e : menv) (i : nat) (E : list (list (list afft))) (s : nat)
  : res (option (list (list (list afft)) * nat)) :=
  for_up 0 4 (fun j st =>
    match st with
    | None => Ok None
    | Some (E, s) =>
        o <- GenRandomAffineTransform fuel e 8 s ;;
        match o with
        | None => Ok None
        | Some (f, fi, s) => E <- set3 E i j 0 f ;; E <- set3 E i j 1 fi ;; Ok (Some (E, s))
        end
    end) (Some (E, s)).
(** Lines 42-53: E[i][4]; both fields of an element are written here at the same time *)
Definition m_join_E (e : menv) (i : nat) (E : list (list (list afft))) : res (list (list (list afft))) :=
  e0 <- get3 E i 0 0 ;; e1 <- get3 E i 1 0 ;;
  T <- MatGf2Diag (alin e0) (alin e1) ;;
  e2 <- get3 E i 2 0 ;;
  S <- MatGf2Diag T (alin e2) ;;
  e3 <- get3 E i 3 0 ;;
  L <- MatGf2Diag S (alin e3) ;;
  Li <- GenMatGf2Inv L ;;
  v <- for_up 0 32 (fun j v =>
         f <- get3 E i (j / 8) 0 ;; x <- MatGf2Get (atrans f) (j mod 8) 0 ;; MatGf2Set v j 0 x) (mzd_init 32 1) ;;
  w <- GenMatGf2Mul e Li v ;;
  E <- set3 E i 4 0 (mkafft L v) ;; set3 E i 4 1 (mkafft Li w).
(** One iteration of sm4_wb_gen_affine, lines 33-60 *)
Definition m_gen_row (fuel : nat) (e : menv) (i : nat) (g : mglob) (s : nat) : res (option (mglob * nat)) :=
  o <- GenRandomAffineTransform fuel e 32 s ;;
  match o with
  | None => Ok None
  | Some (p, pi, s) =>
      P <- set2 (hP g) i 0 p ;; P <- set2 P i 1 pi ;;
      o <- m_gen_E fuel e i (hE g) s ;;
      match o with
      | None => Ok None
      | Some (E, s) =>
          E <- m_join_E e i E ;;
          o <- GenRandomAffineTransform fuel e 32 s ;;
          match o with
          | None => Ok None
          | Some (q, qi, s) =>
              Q <- set2 (hQ g) i 0 q ;; Q <- set2 Q i 1 qi ;;
              Ok (Some (mkmg P E Q (hS g), s))
          end
      end
  end.
(** sm4_wb_gen_affine, lines 28-63 *)
Definition m_gen_affine (fuel : nat) (e : menv) (g : mglob) (s : nat) : res (option (mglob * nat)) :=
  for_up 0 36 (fun i st =>
    match st with None => Ok None | Some (g, s) => m_gen_row fuel e i g s end) (Some (g, s)).

(** Lines 74-84: the three pairs of statements are a loop here *)
Definition m_gen_M (e : menv) (g : mglob) (i : nat) (M : list (list afft)) : res (list (list afft)) :=
  for_up 0 3 (fun j M =>
    ec <- get3 (hE g) i 4 1 ;; p <- get2 (hP g) (i + 1 + j) 1 ;;
    L <- GenMatGf2Mul e (alin ec) (alin p) ;;
    t <- GenMatGf2Mul e (alin ec) (atrans p) ;; v <- GenMatGf2Add t (atrans ec) ;;
    set2 M i j (mkafft L v)) M.
(** Lines 91-99 *)
Definition m_split_QL (QL : mzd) : res (list mzd) :=
  for_up 0 4 (fun j L =>
    m <- for_up 0 32 (fun ii m =>
           for_up 0 8 (fun jj m => x <- MatGf2Get QL ii (j * 8 + jj) ;; MatGf2Set m ii jj x) m) (mzd_init 32 8) ;;
    aset L j m) (repeat (mzd_init 0 0) 4).
(** Lines 107-119: the entry for byte d with input k *)
Definition m_table_entry (e : menv) (g : mglob) (QLi : list mzd) (i k d : nat) : res N :=
  kv <- InitVecFromBit e (N.of_nat k) (mzd_init 8 1) ;;
  f <- get3 (hE g) i d 0 ;;
  t <- GenMatGf2Mul e (alin f) kv ;; kv <- GenMatGf2Add t (atrans f) ;;
  k1 <- getDigitalFromVec kv ;; kd <- get3 (hS g) i d (N.to_nat k1) ;;
  kv <- InitVecFromBit e kd kv ;;
  m <- aget QLi d ;; dest <- GenMatGf2Mul e m kv ;; get32FromVec dest.
(** Lines 104-123 *)
Definition m_gen_table (e : menv) (g : mglob) (QLi : list mzd) (r : N) (i : nat)
  (T : list (list (list N))) : res (list (list (list N))) :=
  for_up 0 256 (fun k T =>
    T <- for_up 0 4 (fun d T => x <- m_table_entry e g QLi i k d ;; set3 T i d k x) T ;;
    x <- get3 T i 3 k ;; set3 T i 3 k (N.lxor x r)) T.
(** One round of sm4_wb_combine_tables, lines 71-150 *)
Definition m_combine_round (e : menv) (g : mglob) (csl : mzd) (i : nat) (c : mctx) : res mctx :=
  M <- m_gen_M e g i (xM c) ;;
  q0 <- get2 (hQ g) i 0 ;; QL <- GenMatGf2Mul e (alin q0) csl ;;
  QLi <- m_split_QL QL ;;
  r <- get32FromVec (atrans q0) ;;
  T <- m_gen_table e g QLi r i (xT c) ;;
  p4 <- get2 (hP g) (i + 4) 0 ;; p1 <- get2 (hP g) i 1 ;;
  cl <- GenMatGf2Mul e (alin p4) (alin p1) ;;
  t <- GenMatGf2Mul e (alin p4) (atrans p1) ;; cv <- GenMatGf2Add (atrans p4) t ;;
  C <- aset (xC c) i (mkafft cl cv) ;;
  q1 <- get2 (hQ g) i 1 ;;
  dl <- GenMatGf2Mul e (alin p4) (alin q1) ;;
  t <- GenMatGf2Mul e (alin p4) (atrans q1) ;; dv <- GenMatGf2Add (atrans p4) t ;;
  dv <- GenMatGf2Add (atrans p4) dv ;;
  D <- aset (xD c) i (mkafft dl dv) ;;
  Ok (mkmx M C D (xSE c) (xFE c) T).
(** GenMatGf2Copy of both parts of an affine map, lines 156-157 and 159-160 *)
Definition m_copy_aff (f : afft) : res afft :=
  L <- mzd_copy (alin f) ;; v <- mzd_copy (atrans f) ;; Ok (mkafft L v).
(** sm4_wb_combine_tables, lines 64-167 *)
Definition m_combine_tables (e : menv) (g : mglob) (csl : mzd) (c : mctx) : res mctx :=
  c <- for_up 0 32 (m_combine_round e g csl) c ;;
  for_up 0 4 (fun i c =>
    p <- get2 (hP g) i 0 ;; p <- m_copy_aff p ;; SE <- aset (xSE c) i p ;;
    q <- get2 (hP g) (32 + i) 1 ;; q <- m_copy_aff q ;; FE <- aset (xFE c) i q ;;
    Ok (mkmx (xM c) (xC c) (xD c) SE FE (xT c))) c.

(** sm4_wb_gen_tables, lines 168-179; the round keys in the local sm4_context are uninitialised
    in C and completely written *)
Definition m_gen_tables (fuel : nat) (e : menv) (key : list N) (g : mglob) (c : mctx) (s : nat)
  : res (option (mglob * mctx * nat)) :=
  sk <- sm4_setkey_enc (elong e) (repeat 0%N 32) key ;;
  S <- sm4_wb_gen_secrect_sbox sk (hS g) ;;
  o <- m_gen_affine fuel e (mkmg (hP g) (hE g) (hQ g) S) s ;;
  match o with
  | None => Ok None
  | Some (g, s) =>
      csl <- m_initMatrixL (mzd_init 32 32) ;;
      c <- m_combine_tables e g csl c ;;
      Ok (Some (g, c, s))
  end.

(** ** Encryption with the tables, test/main.c *)

(** GET32, PUT32 and SK32, lines 26-42, are the same text as in test/WBSM4/WBMatrix/test/main.c, see
    ModelSM4.v.  sm4round, lines 45-54: the new x4 *)
Definition m_round (e : menv) (c : mctx) (i : nat) (x0 x1 x2 x3 : N) : res N :=
  m0 <- get2 (xM c) i 0 ;; xt1 <- ApplyAffineToU32 e m0 x1 ;;
  m1 <- get2 (xM c) i 1 ;; xt2 <- ApplyAffineToU32 e m1 x2 ;;
  m2 <- get2 (xM c) i 2 ;; xt3 <- ApplyAffineToU32 e m2 x3 ;;
  x4 <- SK32 (xT c) i (N.lxor (N.lxor xt1 xt2) xt3) ;;
  cc <- aget (xC c) i ;; xt0 <- ApplyAffineToU32 e cc x0 ;;
  cd <- aget (xD c) i ;; xt4 <- ApplyAffineToU32 e cd x4 ;;
  Ok (N.lxor xt0 xt4).

(** sm4_wb_enc, lines 57-96; the moves in lines 82-85 are done on the tuple *)
Definition m_wb_enc (e : menv) (IN OUT : list N) (c : mctx) : res (list N) :=
  x0 <- GET32 IN 0 ;; x1 <- GET32 IN 4 ;; x2 <- GET32 IN 8 ;; x3 <- GET32 IN 12 ;;
  s0 <- aget (xSE c) 0 ;; x0 <- ApplyAffineToU32 e s0 x0 ;;
  s1 <- aget (xSE c) 1 ;; x1 <- ApplyAffineToU32 e s1 x1 ;;
  s2 <- aget (xSE c) 2 ;; x2 <- ApplyAffineToU32 e s2 x2 ;;
  s3 <- aget (xSE c) 3 ;; x3 <- ApplyAffineToU32 e s3 x3 ;;
  st <- for_up 0 32 (fun i st =>
          let '(x0, x1, x2, x3) := st : N * N * N * N in
          x4 <- m_round e c i x0 x1 x2 x3 ;; Ok (x1, x2, x3, x4)) (x0, x1, x2, x3) ;;
  let '(x0, x1, x2, x3) := st in
  f3 <- aget (xFE c) 3 ;; y0 <- ApplyAffineToU32 e f3 x3 ;;
  f2 <- aget (xFE c) 2 ;; y1 <- ApplyAffineToU32 e f2 x2 ;;
  f1 <- aget (xFE c) 1 ;; y2 <- ApplyAffineToU32 e f1 x1 ;;
  f0 <- aget (xFE c) 0 ;; y3 <- ApplyAffineToU32 e f0 x0 ;;
  o <- PUT32 y0 OUT 0 ;; o <- PUT32 y1 o 4 ;; o <- PUT32 y2 o 8 ;; PUT32 y3 o 12.
