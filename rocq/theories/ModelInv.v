(** Models of the matrix inversions under test/github2 to test/github7, which the project's
    benchmarks compare the library with.  File names below are relative to /repo/test.

    Common simplifications.
    - float and double are replaced by exact rational numbers (Qc).  Rounding, overflow to
      infinity and NaN are not modelled.
    - A division by zero gives infinity or NaN in C.  Here it stops the computation with the
      outcome UB, see qdiv; the same outcome stands for real undefined behaviour.
    - Sizes are natural numbers and malloc does not fail.  Text output is not modelled. *)
From Coq Require Import Arith ZArith QArith Qcanon List Bool.
From Verif Require Import Base ModelSM4.
Import ListNotations.
Open Scope nat_scope.

(** x / y, leaving the rationals if y is zero *)
Definition qdiv (x y : Qc) : res Qc := if Qc_eq_dec y 0%Qc then UB else Ok (x / y)%Qc.
(** pow(-1, k) *)
Definition powm1 (k : nat) : Qc := if Nat.even k then 1%Qc else (-(1))%Qc.

(** Arrays of numbers some of which may not have been written yet: reading such an element has
    no defined value *)
Definition cells := list (list (option Qc)).
Definition fresh (n m : nat) : cells := repeat (repeat None m) n.
Definition getc (t : cells) (i j : nat) : res Qc :=
  x <- get2 t i j ;; match x with Some v => Ok v | None => UB end.
Definition setc (t : cells) (i j : nat) (v : Qc) : res cells := set2 t i j (Some v).

(** ** github2/src/Inverse-matrix.c.  All matrices are arrays of 100 by 100. *)

(** minor, lines 41-54: b receives a without its first row and without column i *)
Definition g2_minor (b a : cells) (i n : nat) : res cells :=
  ' (b, _, _) <- for_up 1 n (fun l st =>
    for_up 0 n (fun j st => let '(b, h, k) := st in
      if Nat.eqb j i then Ok st else
      x <- getc a l j ;; b <- setc b h k x ;;
      Ok (if Nat.eqb (S k) (n - 1) then (b, S h, 0) else (b, h, S k))) st) (b, 0, 0) ;;
  Ok b.

(** det, lines 58-71 *)
Fixpoint g2_det (n : nat) (a : cells) {struct n} : res Qc :=
  match n with
  | 0 => Ok 0%Qc
  | S m =>
      match m with
      | 0 => getc a 0 0
      | 1 => a00 <- getc a 0 0 ;; a11 <- getc a 1 1 ;; a01 <- getc a 0 1 ;; a10 <- getc a 1 0 ;;
             Ok (a00 * a11 - a01 * a10)%Qc
      | _ => ' (sum, _) <- for_up 0 n (fun i st => let '(sum, b) := st in
               b <- g2_minor b a i n ;; x <- getc a 0 i ;; d <- g2_det m b ;;
               Ok ((sum + x * powm1 i * d)%Qc, b)) (0%Qc, fresh 100 100) ;;
             Ok sum
      end
  end.

(** transpose, lines 75-84; the size is passed as a float, which is exact *)
Definition g2_transpose (c d : cells) (n : nat) (det : Qc) : res cells :=
  b <- for_up 0 n (fun i b => for_up 0 n (fun j b => x <- getc c j i ;; setc b i j x) b) (fresh 100 100) ;;
  for_up 0 n (fun i d => for_up 0 n (fun j d =>
    x <- getc b i j ;; y <- qdiv x det ;; setc d i j y) d) d.

(** cofactor, lines 88-109 *)
Definition g2_cofactor (a d : cells) (n : nat) (det : Qc) : res cells :=
  ' (_, c) <- for_up 0 n (fun h st => for_up 0 n (fun l st => let '(b, c) := st in
    ' (b, _, _) <- for_up 0 n (fun i st => for_up 0 n (fun j st => let '(b, m, k) := st in
      if (negb (Nat.eqb i h) && negb (Nat.eqb j l))%bool then
        x <- getc a i j ;; b <- setc b m k x ;;
        Ok (if S (S k) <? n then (b, m, S k) else (b, S m, 0))
      else Ok st) st) (b, 0, 0) ;;
    x <- g2_det (n - 1) b ;; c <- setc c h l (powm1 (h + l) * x)%Qc ;;
    Ok (b, c)) st) (fresh 100 100, fresh 100 100) ;;
  g2_transpose c d n det.

(** inverse, lines 113-120: the contents of d afterwards *)
Definition g2_inverse (a d : cells) (n : nat) (det : Qc) : res cells :=
  if Qc_eq_dec det 0%Qc then Ok d
  else if Nat.eqb n 1 then setc d 0 0 1%Qc
  else g2_cofactor a d n det.

(** InvSMatM8 and its siblings, github2/test/InvMatrix_test.c lines 156-179: the determinant, then the
    inverse into an array d that has not been written.  The functions return nothing; the model
    returns d. *)
Definition g2_run (n : nat) (a : cells) : res cells :=
  deter <- g2_det n a ;; g2_inverse a (fresh 100 100) n deter.

(** ** github3/src/matriz_inversa.c *)

(** mmatrix, github3/include/matriz_inversa.h; memmatr, lines 18-39 *)
Record mmatrix := mkM { mn : nat; mm : nat; mM : cells }.
Definition memmatr (filas columnas : nat) : mmatrix := mkM filas columnas (fresh filas columnas).

(** mulmat, lines 41-57; None is the null pointer *)
Definition g3_mulmat (A B : mmatrix) : res (option mmatrix) :=
  if negb (Nat.eqb (mm A) (mn B)) then Ok None else
  let C := memmatr (mn A) (mm B) in
  c <- for_up 0 (mn A) (fun j c => for_up 0 (mm B) (fun i c =>
    c <- setc c j i 0%Qc ;;
    for_up 0 (mm A) (fun k c =>
      z <- getc c j i ;; x <- getc (mM A) j k ;; y <- getc (mM B) k i ;;
      setc c j i (z + x * y)%Qc) c) c) (mM C) ;;
  Ok (Some (mkM (mn C) (mm C) c)).

(** cofacmmatrix, lines 70-85 *)
Definition g3_cofac (A D : cells) (p q tam : nat) : res cells :=
  ' (D, _, _) <- for_up 0 tam (fun i st => for_up 0 tam (fun j st => let '(D, k, w) := st in
    if (negb (Nat.eqb i p) && negb (Nat.eqb j q))%bool then
      x <- getc A i j ;; D <- setc D k w x ;;
      Ok (if Nat.eqb (S w) (tam - 1) then (D, S k, 0) else (D, k, S w))
    else Ok st) st) (D, 0, 0) ;;
  Ok D.

(** determmatrix, lines 88-111.  The value of a call with a matrix that is not square is used
    although the function returns none: UB. *)
Fixpoint g3_determ (A : mmatrix) (tam : nat) {struct tam} : res Qc :=
  if negb (Nat.eqb (mn A) (mm A)) then UB else
  match tam with
  | 0 => Ok 0%Qc
  | S t =>
      match t with
      | 0 => getc (mM A) 0 0
      | 1 => a00 <- getc (mM A) 0 0 ;; a11 <- getc (mM A) 1 1 ;;
             a01 <- getc (mM A) 0 1 ;; a10 <- getc (mM A) 1 0 ;;
             Ok (a00 * a11 - a01 * a10)%Qc
      | _ => ' (determ, _, _) <- for_up 0 tam (fun i st => let '(determ, D, signo) := st in
               D <- g3_cofac (mM A) D 0 i tam ;; x <- getc (mM A) 0 i ;;
               d <- g3_determ (mkM (mn A) (mm A) D) t ;;
               Ok ((determ + signo * x * d)%Qc, D, (- signo)%Qc))
               (0%Qc, mM (memmatr (mn A) (mm A)), 1%Qc) ;;
             Ok determ
      end
  end.

(** adjmmatrix, lines 113-129: the contents of Adj, and the number of matrices E that were
    allocated and not freed.  With tam = 0 an uninitialised pointer is freed: UB. *)
Definition g3_adj (A : mmatrix) (Adj : cells) (tam : nat) : res (cells * nat) :=
  Adj <- (if Nat.eqb tam 1 then setc Adj 0 0 1%Qc else Ok Adj) ;;
  ' (Adj, live) <- for_up 0 tam (fun i st => for_up 0 tam (fun j st => let '(Adj, live) := st in
    let E := mM (memmatr (mn A) (mm A)) in
    E <- g3_cofac (mM A) E i j tam ;;
    let signo2 := if Nat.eqb ((i + j) mod 2) 0 then 1%Qc else (-(1))%Qc in
    d <- g3_determ (mkM (mn A) (mm A) E) (tam - 1) ;;
    Adj <- setc Adj j i (signo2 * d)%Qc ;;
    Ok (Adj, S live)) st) (Adj, 0) ;;
  if Nat.eqb tam 0 then UB else Ok (Adj, live - 1).

(** invermmatrix, lines 131-156: what inverA holds when it is freed (line 152), None if a
    message is printed instead, and the number of matrices that were not freed.  The function
    itself returns nothing. *)
Definition g3_inver (A : mmatrix) : res (option cells * nat) :=
  if Nat.eqb (mn A) (mm A) then
    determt <- g3_determ A (mn A) ;;
    if Qc_eq_dec determt 0%Qc then Ok (None, 0) else
    ' (Adj, leaked) <- g3_adj A (mM (memmatr (mn A) (mm A))) (mn A) ;;
    inverA <- for_up 0 (mn A) (fun i t => for_up 0 (mn A) (fun j t =>
      x <- getc Adj i j ;; y <- qdiv x determt ;; setc t i j y) t) (mM (memmatr (mn A) (mm A))) ;;
    Ok (Some inverA, leaked)
  else Ok (None, 0).

(** ** github4/src/matrixinverse.c: the augmented matrix has dimension rows of 2*dimension *)

Definition rmatrix := list (list Qc).

(** augmentingmatrix, lines 29-34 *)
Definition g4_augment (n : nat) (a : rmatrix) : res rmatrix :=
  for_up 0 n (fun i a => for_up n (2 * n) (fun j a =>
    if Nat.eqb i (j mod n) then set2 a i j 1%Qc else set2 a i j 0%Qc) a) a.

(** findPivo, lines 37-42: temp *)
Definition g4_findPivo (n : nat) (a : rmatrix) (j : nat) : res nat :=
  for_up (j + 1) n (fun i temp =>
    x <- get2 a i j ;; y <- get2 a temp j ;;
    Ok (if Qclt_le_dec y x then i else temp)) j.

(** swapLine, lines 45-52 *)
Definition g4_swapLine (n : nat) (a : rmatrix) (j temp : nat) : res rmatrix :=
  if Nat.eqb temp j then Ok a else
  for_up 0 (2 * n) (fun k a =>
    x <- get2 a j k ;; y <- get2 a temp k ;;
    a <- set2 a j k y ;; set2 a temp k x) a.

(** calcInverse, lines 55-66 *)
Definition g4_calcInverse (n : nat) (a : rmatrix) (j : nat) : res rmatrix :=
  for_up 0 n (fun i a =>
    r <- get2 a i j ;;
    for_up 0 (2 * n) (fun k a =>
      if Nat.eqb i j then
        x <- get2 a i k ;; y <- qdiv x r ;; set2 a i k y
      else
        x <- get2 a i k ;; y <- get2 a j k ;; p <- get2 a j j ;; q <- qdiv y p ;;
        set2 a i k (x - q * r)%Qc) a) a.

(** InvSMatM8 and its siblings, github4/test/InvMatrix_test.c lines 331-370 *)
Definition g4_run (n : nat) (a : rmatrix) : res rmatrix :=
  for_up 0 n (fun j a =>
    temp <- g4_findPivo n a j ;; a <- g4_swapLine n a j temp ;; g4_calcInverse n a j) a.

(** ** github7/inverseMatrix.c *)

(** abs(x) for a float x: the argument is converted to int, that is truncated, which is undefined
    out of the range of int, as is the absolute value of the least int *)
Definition q_trunc (x : Qc) : Z := Z.quot (Qnum (this x)) (Zpos (Qden (this x))).
Definition g7_abs (x : Qc) : res Z :=
  let t := q_trunc x in
  if ((- 2 ^ 31 <? t)%Z && (t <? 2 ^ 31)%Z)%bool then Ok (Z.abs t) else UB.

(** qMatrixSwapRows, lines 314-331 *)
Definition g7_swapRows (n : nat) (m : rmatrix) (row1 row2 : nat) : res rmatrix :=
  for_up 0 n (fun e m =>
    x <- get2 m row1 e ;; y <- get2 m row2 e ;;
    m <- set2 m row1 e y ;; set2 m row2 e x) m.

(** qMatrixMainElementLQ, lines 352-376: the position found; the element itself is not used *)
Definition g7_mainElement (n : nat) (m : rmatrix) (limiter : nat) : res (nat * nat) :=
  x <- get2 m limiter limiter ;; e <- g7_abs x ;;
  ' (_, r, c) <- for_up limiter n (fun i st => for_up limiter n (fun j st => let '(e, r, c) := st in
    x <- get2 m i j ;; a <- g7_abs x ;;
    Ok (if (e <? a)%Z then (a, i, j) else st)) st) (e, limiter, limiter) ;;
  Ok (r, c).

(** qMatrixExtractRow, lines 378-390, and multiplyRow, lines 392-401 *)
Definition g7_extractRow (n : nat) (m : rmatrix) (row : nat) : res (list Qc) :=
  for_up 0 n (fun e b => x <- get2 m row e ;; aset b e x) (repeat 0%Qc n).
Definition g7_multiplyRow (n : nat) (row : list Qc) (scalar : Qc) : res (list Qc) :=
  for_up 0 n (fun e b => x <- aget b e ;; aset b e (x * scalar)%Qc) row.

(** subtractRowQMatrix, lines 403-417 *)
Definition g7_subtractRow (n : nat) (m : rmatrix) (minuend : nat) (sub : list Qc) (limiter : nat)
  : res rmatrix :=
  for_up limiter n (fun e m => x <- get2 m minuend e ;; y <- aget sub e ;; set2 m minuend e (x - y)%Qc) m.

(** initEQMatrix, lines 419-437 *)
Definition g7_initE (n : nat) : res rmatrix :=
  for_up 0 n (fun i m => for_up 0 n (fun j m =>
    if Nat.eqb i j then set2 m i j 1%Qc else set2 m i j 0%Qc) m) (repeat (repeat 0%Qc n) n).

(** lines 468-476 and 496-504: subtract k times row i from row j in both matrices *)
Definition g7_rowStep (n : nat) (m r : rmatrix) (i j : nat) (k : Qc) (limiter : nat)
  : res (rmatrix * rmatrix) :=
  b <- g7_extractRow n m i ;; b <- g7_multiplyRow n b k ;; m <- g7_subtractRow n m j b limiter ;;
  b <- g7_extractRow n r i ;; b <- g7_multiplyRow n b k ;; r <- g7_subtractRow n r j b 0 ;;
  Ok (m, r).

(** reverseMatrix, lines 439-509: the matrix, which is spoiled, and the result *)
Definition g7_passI (n : nat) (m r : rmatrix) : res (rmatrix * rmatrix) :=
  for_up 0 n (fun i st => let '(m, r) := st in
    ' (mr, mc) <- g7_mainElement n m i ;;
    ' (m, r) <- (if Nat.eqb mr i then Ok (m, r) else
                 m <- g7_swapRows n m i mr ;; r <- g7_swapRows n r i mr ;; Ok (m, r)) ;;
    ' (m, r) <- (if Nat.eqb mc i then Ok (m, r) else
                 m <- g7_swapRows n m i mc ;; r <- g7_swapRows n r i mc ;; Ok (m, r)) ;;
    for_up (i + 1) n (fun j st => let '(m, r) := st in
      x <- get2 m j i ;; y <- get2 m i i ;; k <- qdiv x y ;;
      g7_rowStep n m r i j k i) (m, r)) (m, r).
Definition g7_passII (n : nat) (m r : rmatrix) : res (rmatrix * rmatrix) :=
  for_up 0 n (fun i st => let '(m, _) := st in
    d <- get2 m i i ;;
    for_up 0 n (fun j st => let '(m, r) := st in
      x <- get2 m i j ;; x <- qdiv x d ;; m <- set2 m i j x ;;
      y <- get2 r i j ;; y <- qdiv y d ;; r <- set2 r i j y ;; Ok (m, r)) st) (m, r).
Definition g7_passIII (n : nat) (m r : rmatrix) : res (rmatrix * rmatrix) :=
  for_down n 0 (fun i st => for_down i 0 (fun j st => let '(m, r) := st in
    k <- get2 m j i ;; g7_rowStep n m r i j k 0) st) (m, r).
Definition g7_reverse (n : nat) (m : rmatrix) : res (rmatrix * rmatrix) :=
  r <- g7_initE n ;;
  ' (m, r) <- g7_passI n m r ;; ' (m, r) <- g7_passII n m r ;; g7_passIII n m r.

(** the calls of main, github7/main.c lines 43-46: the result of the last of k calls, every one
    of which gets the same matrix.elements *)
Fixpoint g7_repeat (k n : nat) (m : rmatrix) : res (rmatrix * rmatrix) :=
  match k with
  | 0 => Ok (m, [])
  | 1 => g7_reverse n m
  | S k => ' (m, _) <- g7_reverse n m ;; g7_repeat k n m
  end.

(** ** github6/Inverse_of_matrix.c: int matrices stored row after row *)

(** a value of type int; overflow is undefined *)
Definition int32 (z : Z) : res Z := if ((- 2 ^ 31 <=? z)%Z && (z <? 2 ^ 31)%Z)%bool then Ok z else UB.
Definition zcells := list (option Z).
Definition getz (t : zcells) (i : nat) : res Z :=
  x <- aget t i ;; match x with Some v => Ok v | None => UB end.
Definition setz (t : zcells) (i : nat) (v : Z) : res zcells := aset t i (Some v).

(** the loops of determinant, lines 48-65 (p = 0) and of cofactor, lines 117-135: the matrix
    without row p and column q, written with rows of order-1.  The index written at line 53/123
    is i*(order-1)+j. *)
Definition g6_sub (matrix t : zcells) (p q order : nat) : res zcells :=
  ' (t, _, _) <- for_up 0 order (fun i st => for_up 0 order (fun j st => let '(t, row, col) := st in
    t <- setz t (i * (order - 1) + j) 0%Z ;;
    if (negb (Nat.eqb i p) && negb (Nat.eqb j q))%bool then
      x <- getz matrix (i * order + j) ;; t <- setz t (row * (order - 1) + col) x ;;
      Ok (if order <? S (S (S col)) then (t, S row, 0) else (t, row, S col))
    else Ok (t, row, col)) st) (t, 0, 0) ;;
  Ok t.

(** determinant, lines 34-72: the value, and the number of arrays that are not freed (the
    return at line 42 skips the free at line 70) *)
Fixpoint g6_determinant (matrix : zcells) (order : nat) {struct order} : res (Z * N) :=
  match order with
  | 0 => Ok (0%Z, 0%N)
  | S o =>
      match o with
      | 0 => x <- getz matrix 0 ;; Ok (x, 1%N)
      | _ => ' (det, _, _, leaked) <- for_up 0 order (fun runloop st => let '(det, sign, minor, leaked) := st in
               minor <- g6_sub matrix minor 0 runloop order ;;
               x <- getz matrix runloop ;; ' (d, l) <- g6_determinant minor o ;;
               xd <- int32 (x * d) ;; sxd <- int32 (sign * xd) ;; det <- int32 (det + sxd) ;;
               Ok (det, (-1 * sign)%Z, minor, (leaked + l)%N))
               (0%Z, 1%Z, repeat None (order * order), 0%N) ;;
             Ok (det, leaked)
      end
  end.

(** transpose, lines 78-101; in is a flat array of float *)
Definition getf (t : list (option Qc)) (i : nat) : res Qc :=
  x <- aget t i ;; match x with Some v => Ok v | None => UB end.
Definition g6_transpose (matrix : zcells) (inp : list (option Qc)) (order : nat)
  : res (list (option Qc) * N) :=
  temp1 <- for_up 0 order (fun row t => for_up 0 order (fun col t =>
    x <- getf inp (col * order + row) ;; aset t (row * order + col) (Some x)) t)
    (repeat None (order * order)) ;;
  ' (det, leaked) <- g6_determinant matrix order ;;
  inp <- for_up 0 order (fun row t => for_up 0 order (fun col t =>
    x <- getf temp1 (row * order + col) ;; y <- qdiv x (Q2Qc (inject_Z det)) ;;
    aset t (row * order + col) (Some y)) t) inp ;;
  Ok (inp, leaked).

(** cofactor, lines 107-144: the contents of in, and the number of arrays that are not freed.
    The array temp2 is used again for every element; at line 136 pow(-1, .) is a double and the
    product is converted to int. *)
Definition g6_cofactor (matrix : zcells) (order : nat) (inp : list (option Qc))
  : res (list (option Qc) * N) :=
  ' (_, inp, leaked) <- for_up 0 order (fun rowmain st => for_up 0 order (fun colmain st =>
    let '(temp2, inp, leaked) := st in
    temp2 <- g6_sub matrix temp2 rowmain colmain order ;;
    ' (d, l) <- g6_determinant temp2 (order - 1) ;;
    f <- int32 (if Nat.even (rowmain + colmain) then d else - d) ;;
    inp <- aset inp (rowmain * order + colmain) (Some (Q2Qc (inject_Z f))) ;;
    Ok (temp2, inp, (leaked + l)%N)) st) (repeat None (order * order), inp, 0%N) ;;
  ' (inp, l) <- g6_transpose matrix inp order ;;
  Ok (inp, (leaked + l)%N).

(** ** github5/src/invertiblematrix.c *)

Definition zmatrix := list (list Z).

(** getIdentityMatrix, lines 43-59 *)
Definition g5_identity (n : nat) : zmatrix :=
  map (fun r => map (fun c => if Nat.eqb r c then 1%Z else 0%Z) (seq 0 n)) (seq 0 n).

(** The values of rand(): s x is the x-th one *)
Definition stream := nat -> Z.
(** rand()%5 - 10 *)
Definition g5_factor (s : stream) (x : nat) : Z := (Z.rem (s x) 5 - 10)%Z.

(** lines 79-83: tempArray and the number of calls of rand so far.  The first time an element of
    tempArray is compared (line 80) nothing has been written to it; it is None then, or any
    value if the memory is to be thought of as holding one. *)
Definition g5_temp (s : stream) (n : nat) (array : zmatrix) (mainRow : nat) (t : zcells) (x : nat)
  : res (zcells * nat) :=
  for_up 0 n (fun k st => let '(t, x) := st in
    v <- get2 array mainRow k ;;
    p <- int32 (v * g5_factor s x) ;; p <- int32 (65535 - p) ;;
    if (p <? 0)%Z then t <- setz t k v ;; Ok (t, x + 1)
    else
      p <- int32 (v * g5_factor s (x + 1)) ;; p <- int32 (65535 * (-1) - p) ;; old <- getz t k ;;
      if (old <? p)%Z then t <- setz t k v ;; Ok (t, x + 2)
      else p <- int32 (v * g5_factor s (x + 2)) ;; t <- setz t k p ;; Ok (t, x + 3)) (t, x).

(** lines 85-93 *)
Definition g5_rows (n : nat) (array : zmatrix) (mainRow : nat) (t : zcells) : res zmatrix :=
  for_up 0 n (fun j array =>
    if Nat.eqb mainRow j then Ok array else
    for_up 0 n (fun k array =>
      v <- get2 array j k ;; w <- getz t k ;;
      p <- int32 (65535 - v) ;;
      if (p <? w)%Z then set2 array j k (Z.quot v 4) else
      p <- int32 (65535 * (-1) - v) ;;
      if (w <? p)%Z then set2 array j k (Z.quot v 4) else
      p <- int32 (v + w) ;; set2 array j k p) array) array.

(** getInvertibleMatrix, lines 61-97: the array afterwards.  rand()%(n-1) is a division by zero
    if n is 1. *)
Definition g5_get (s : stream) (n : nat) (array : zmatrix) (t : zcells) : res zmatrix :=
  ' (array, _, _) <- for_up 0 (Z.to_nat (Z.rem (s 0) 1000)) (fun _ st => let '(array, t, x) := st in
    if Nat.eqb n 1 then UB else
    let mainRow := Z.to_nat (Z.rem (s x) (Z.of_nat n - 1)) in
    ' (t, x) <- g5_temp s n array mainRow t (x + 1) ;;
    array <- g5_rows n array mainRow t ;;
    Ok (array, t, x)) (array, t, 1) ;;
  Ok array.
