(** Model of the white-box SM4 example over NTL, test/WBSM4/NTL: src/matrixlib/wbsm4_gen.cpp and
    sm4_wb_enc in test/main.cpp.  Line numbers without a file name are those of wbsm4_gen.cpp.

    src/matrixlib/sm4.cpp and the S-box in include/matrixlib/sbox.h are the same text as in
    test/WBSM4/WBMatrix, except for one include directive and white space; they are those of
    ModelSM4.v.  Matrices and vectors are values as in ModelNtl.v (NTL's assignments copy).

    Not modelled: main and the printing in test/main.cpp. *)
From Coq Require Import Arith NArith ZArith List Bool.
From Verif Require Import Base ModelSM4 ModelNtl.
Import ListNotations.
Local Open Scope nat_scope.

(** P, E, Q and skbox_enc, lines 5-9 *)
Record nglob := mkng
  { kP : list (list gaff);            (* P[36][2] *)
    kE : list (list (list gaff));     (* E[36][5][2] *)
    kQ : list (list gaff);            (* Q[36][2] *)
    kS : list (list (list N)) }.      (* skbox_enc[32][4][256] *)
(** Sm4Whitebox, include/matrixlib/wbsm4.h lines 8-19 *)
Record nctx := mknx
  { yM : list (list gaff);            (* M[32][3] *)
    yC : list gaff;                   (* C[32] *)
    yD : list gaff;                   (* D[32] *)
    ySE : list gaff;                  (* SE[4] *)
    yFE : list gaff;                  (* FE[4] *)
    yT : list (list (list N)) }.      (* Table[32][4][256] *)

(** initMatrixL, lines 11-16: the same numbers as in test/WBSM4/WBMatrix, converted to long *)
Definition n_initMatrixL (nt : ntl) : res gmat :=
  initMatrixFromBit (gdims 32 32) (map (to_long (tlong nt)) wb_csl).

(** sm4_wb_gen_secrect_sbox, lines 17-35: the same text as in test/WBSM4/WBMatrix, see
    [sm4_wb_gen_secrect_sbox] in ModelSM4.v *)

(** RANDOM_AFFINE_MAT, lines 36-37: the two maps.  The statement yi = xi * y is the last one of
    [genRandomAffineMatrix5].  The result is None if [fuel] is not enough. *)
Definition RANDOM_AFFINE_MAT (fuel : nat) (nt : ntl) (d s : nat) : res (option (gaff * gaff * nat)) :=
  o <- genRandomAffineMatrix5 fuel nt d s ;;
  match o with
  | None => Ok None
  | Some (x, xi, y, yi, s) => Ok (Some (mkgaff x y, mkgaff xi yi, s))
  end.

(** Lines 47-49: E[i][0..3] *)
Definition n_gen_E (fuel : nat) (nt : ntl) (i : nat) (E : list (list (list gaff))) (s : nat)
  : res (option (list (list (list gaff)) * nat)) :=
  for_up 0 4 (fun j st =>
    match st with
    | None => Ok None
    | Some (E, s) =>
        o <- RANDOM_AFFINE_MAT fuel nt 8 s ;;
        match o with
        | None => Ok None
        | Some (f, fi, s) => E <- set3 E i j 0 f ;; E <- set3 E i j 1 fi ;; Ok (Some (E, s))
        end
    end) (Some (E, s)).
(** Lines 50-59: E[i][4]; both fields of an element are written here at the same time *)
Definition n_join_E (nt : ntl) (i : nat) (E : list (list (list gaff))) : res (list (list (list gaff))) :=
  e0 <- get3 E i 0 0 ;; e1 <- get3 E i 1 0 ;;
  T <- combineDiagMat (glin e0) (glin e1) ;;
  e2 <- get3 E i 2 0 ;;
  S <- combineDiagMat T (glin e2) ;;
  e3 <- get3 E i 3 0 ;;
  L <- combineDiagMat S (glin e3) ;;
  Li <- ginv nt L ;;
  v <- for_up 0 32 (fun j v =>
         f <- get3 E i (j / 8) 0 ;; x <- vget (gtra f) (j mod 8) ;; vput v j x) (gzero 32) ;;
  w <- gmulv Li v ;;
  E <- set3 E i 4 0 (mkgaff L v) ;; set3 E i 4 1 (mkgaff Li w).
(** One iteration of sm4_wb_gen_affine, lines 43-63 *)
Definition n_gen_row (fuel : nat) (nt : ntl) (i : nat) (g : nglob) (s : nat) : res (option (nglob * nat)) :=
  o <- RANDOM_AFFINE_MAT fuel nt 32 s ;;
  match o with
  | None => Ok None
  | Some (p, pi, s) =>
      P <- set2 (kP g) i 0 p ;; P <- set2 P i 1 pi ;;
      o <- n_gen_E fuel nt i (kE g) s ;;
      match o with
      | None => Ok None
      | Some (E, s) =>
          E <- n_join_E nt i E ;;
          o <- RANDOM_AFFINE_MAT fuel nt 32 s ;;
          match o with
          | None => Ok None
          | Some (q, qi, s) =>
              Q <- set2 (kQ g) i 0 q ;; Q <- set2 Q i 1 qi ;;
              Ok (Some (mkng P E Q (kS g), s))
          end
      end
  end.
(** sm4_wb_gen_affine, lines 39-64 *)
Definition n_gen_affine (fuel : nat) (nt : ntl) (g : nglob) (s : nat) : res (option (nglob * nat)) :=
  for_up 0 36 (fun i st =>
    match st with None => Ok None | Some (g, s) => n_gen_row fuel nt i g s end) (Some (g, s)).

(** Lines 72-82: the three pairs of statements are a loop here *)
Definition n_gen_M (g : nglob) (i : nat) (M : list (list gaff)) : res (list (list gaff)) :=
  for_up 0 3 (fun j M =>
    ec <- get3 (kE g) i 4 1 ;; p <- get2 (kP g) (i + 1 + j) 1 ;;
    L <- gmul (glin ec) (glin p) ;;
    t <- gmulv (glin ec) (gtra p) ;; v <- gaddv t (gtra ec) ;;
    set2 M i j (mkgaff L v)) M.
(** Lines 89-97 *)
Definition n_split_QL (QL : gmat) : res (list gmat) :=
  for_up 0 4 (fun j L =>
    m <- for_up 0 32 (fun ii m =>
           for_up 0 8 (fun jj m => x <- gget QL ii (j * 8 + jj) ;; gput m ii jj x) m) (gdims 32 8) ;;
    aset L j m) (repeat (gdims 0 0) 4).
(** Lines 105-114: the entry for byte d with input k *)
Definition n_table_entry (g : nglob) (QLi : list gmat) (i k d : nat) : res N :=
  kv <- initVecFromBit (Z.of_nat k) 8 ;;
  f <- get3 (kE g) i d 0 ;;
  t <- gmulv (glin f) kv ;; kv <- gaddv t (gtra f) ;;
  k1 <- getDigitalFromVec kv ;; kd <- get3 (kS g) i d (N.to_nat k1) ;;
  kv <- initVecFromBit (Z.of_N kd) 8 ;;
  m <- aget QLi d ;; dest <- gmulv m kv ;; get32FromVec dest.
(** Lines 102-120 *)
Definition n_gen_table (g : nglob) (QLi : list gmat) (r : N) (i : nat)
  (T : list (list (list N))) : res (list (list (list N))) :=
  for_up 0 256 (fun k T =>
    T <- for_up 0 4 (fun d T => x <- n_table_entry g QLi i k d ;; set3 T i d k x) T ;;
    x <- get3 T i 3 k ;; set3 T i 3 k (N.lxor x r)) T.
(** One round of sm4_wb_combine_tables, lines 69-139 *)
Definition n_combine_round (g : nglob) (csl : gmat) (i : nat) (c : nctx) : res nctx :=
  M <- n_gen_M g i (yM c) ;;
  q0 <- get2 (kQ g) i 0 ;; QL <- gmul (glin q0) csl ;;
  QLi <- n_split_QL QL ;;
  r <- get32FromVec (gtra q0) ;;
  T <- n_gen_table g QLi r i (yT c) ;;
  p4 <- get2 (kP g) (i + 4) 0 ;; p1 <- get2 (kP g) i 1 ;;
  cl <- gmul (glin p4) (glin p1) ;;
  t <- gmulv (glin p4) (gtra p1) ;; cv <- gaddv (gtra p4) t ;;
  C <- aset (yC c) i (mkgaff cl cv) ;;
  q1 <- get2 (kQ g) i 1 ;;
  dl <- gmul (glin p4) (glin q1) ;;
  t <- gmulv (glin p4) (gtra q1) ;; dv <- gaddv (gtra p4) t ;;
  dv <- gaddv (gtra p4) dv ;;
  D <- aset (yD c) i (mkgaff dl dv) ;;
  Ok (mknx M C D (ySE c) (yFE c) T).
(** sm4_wb_combine_tables, lines 65-150 *)
Definition n_combine_tables (g : nglob) (csl : gmat) (c : nctx) : res nctx :=
  c <- for_up 0 32 (n_combine_round g csl) c ;;
  for_up 0 4 (fun i c =>
    p <- get2 (kP g) i 0 ;; SE <- aset (ySE c) i (mkgaff (glin p) (gtra p)) ;;
    q <- get2 (kP g) (32 + i) 1 ;; FE <- aset (yFE c) i (mkgaff (glin q) (gtra q)) ;;
    Ok (mknx (yM c) (yC c) (yD c) SE FE (yT c))) c.

(** sm4_wb_gen_tables, lines 151-160; the round keys in the local sm4_context are uninitialised
    in C and completely written *)
Definition n_gen_tables (fuel : nat) (nt : ntl) (key : list N) (g : nglob) (c : nctx) (s : nat)
  : res (option (nglob * nctx * nat)) :=
  sk <- sm4_setkey_enc (tlong nt) (repeat 0%N 32) key ;;
  S <- sm4_wb_gen_secrect_sbox sk (kS g) ;;
  o <- n_gen_affine fuel nt (mkng (kP g) (kE g) (kQ g) S) s ;;
  match o with
  | None => Ok None
  | Some (g, s) =>
      csl <- n_initMatrixL nt ;;
      c <- n_combine_tables g csl c ;;
      Ok (Some (g, c, s))
  end.

(** ** Encryption with the tables, test/main.cpp *)

(** GET32, PUT32 and SK32, lines 25-41, are the same text as in test/WBSM4/WBMatrix/test/main.c, see
    ModelSM4.v.  sm4round, lines 44-53: the new x4 *)
Definition n_round (nt : ntl) (c : nctx) (i : nat) (x0 x1 x2 x3 : N) : res N :=
  m0 <- get2 (yM c) i 0 ;; xt1 <- applyAffineToU32 nt m0 x1 ;;
  m1 <- get2 (yM c) i 1 ;; xt2 <- applyAffineToU32 nt m1 x2 ;;
  m2 <- get2 (yM c) i 2 ;; xt3 <- applyAffineToU32 nt m2 x3 ;;
  x4 <- SK32 (yT c) i (N.lxor (N.lxor xt1 xt2) xt3) ;;
  cc <- aget (yC c) i ;; xt0 <- applyAffineToU32 nt cc x0 ;;
  cd <- aget (yD c) i ;; xt4 <- applyAffineToU32 nt cd x4 ;;
  Ok (N.lxor xt0 xt4).

(** sm4_wb_enc, lines 56-95; the moves in lines 81-84 are done on the tuple *)
Definition n_wb_enc (nt : ntl) (IN OUT : list N) (c : nctx) : res (list N) :=
  x0 <- GET32 IN 0 ;; x1 <- GET32 IN 4 ;; x2 <- GET32 IN 8 ;; x3 <- GET32 IN 12 ;;
  s0 <- aget (ySE c) 0 ;; x0 <- applyAffineToU32 nt s0 x0 ;;
  s1 <- aget (ySE c) 1 ;; x1 <- applyAffineToU32 nt s1 x1 ;;
  s2 <- aget (ySE c) 2 ;; x2 <- applyAffineToU32 nt s2 x2 ;;
  s3 <- aget (ySE c) 3 ;; x3 <- applyAffineToU32 nt s3 x3 ;;
  st <- for_up 0 32 (fun i st =>
          let '(x0, x1, x2, x3) := st : N * N * N * N in
          x4 <- n_round nt c i x0 x1 x2 x3 ;; Ok (x1, x2, x3, x4)) (x0, x1, x2, x3) ;;
  let '(x0, x1, x2, x3) := st in
  f3 <- aget (yFE c) 3 ;; y0 <- applyAffineToU32 nt f3 x3 ;;
  f2 <- aget (yFE c) 2 ;; y1 <- applyAffineToU32 nt f2 x2 ;;
  f1 <- aget (yFE c) 1 ;; y2 <- applyAffineToU32 nt f1 x1 ;;
  f0 <- aget (yFE c) 0 ;; y3 <- applyAffineToU32 nt f0 x0 ;;
  o <- PUT32 y0 OUT 0 ;; o <- PUT32 y1 o 4 ;; o <- PUT32 y2 o 8 ;; PUT32 y3 o 12.
