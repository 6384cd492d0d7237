(** Model of the triangular systems of M4RI with the triangular matrix on the right and of the inversion
    of small triangular matrices, test/github1_M4RI/src/m4ri/triangular.c and triangular_russian.c.  The
    conventions are those of ModelTri.v. *)
From Coq Require Import Arith NArith List Bool.
From Verif Require Import Base ModelM4ri ModelM4ri2 ModelStrassen ModelTri ModelPle.
Import ListNotations.
Local Open Scope nat_scope.

(** ** At most 64 columns *)

(** ucol, triangular.c lines 118-122 and 261-265: the bits i of the rows lo to hi - 1 of T *)
Definition right_col (T : mzd) (i lo hi : nat) : res N :=
  for_up lo hi (fun k u => b <- bit0 T k i ;; Ok (if b then N.lor u (N.shiftl 1 (N.of_nat k)) else u)) 0%N.
(** The scalar products of the rows o to o + n - 1 of B with ucol, added to column i: lines 129-173 and
    271-315 with n = 64, where all rows are written, and 175-184 and 318-327 with what remains, n <= 64;
    tmp is filled up with zeros *)
Definition right_group (B : mzd) (u : N) (i o n : nat) : res mzd :=
  tmp <- for_up 0 n (fun b tmp => x <- wget B (o + b) 0 ;; aset tmp b (N.land x u)) (repeat 0%N 64) ;;
  let dotprod := parity64 tmp in
  for_up 0 n (fun b B =>
    if N.testbit dotprod (N.of_nat b)
    then x <- wget B (o + b) 0 ;; wset B (o + b) 0 (N.lxor x (N.shiftl 1 (N.of_nat i)))
    else Ok B) B.
(** Lines 124-185 and 267-328: giantstep runs while giantstep + 64 < mb *)
Definition right_column (B : mzd) (u : N) (i : nat) : res mzd :=
  let mb := mnrows B in
  let G := (mb - 1) / 64 in
  B <- for_up 0 G (fun g B => right_group B u i (64 * g) 64) B ;; right_group B u i (64 * G) (mb - 64 * G).
(** _mzd_trsm_upper_right_base, triangular.c lines 112-188 *)
Definition upper_right_base (U B : mzd) : res mzd :=
  for_up 1 (mncols B) (fun i B => u <- right_col U i 0 i ;; right_column B u i) B.
(** _mzd_trsm_lower_right_base, triangular.c lines 255-331 *)
Definition lower_right_base (L B : mzd) : res mzd :=
  for_down (mncols B) 0 (fun i B => u <- right_col L i (i + 1) (mncols B) ;; right_column B u i) B.

(** ** The recursion *)

Section Right.
(** As in ModelTri.v *)
Variables (kcache : nat) (junk : nat -> list N).

(** _mzd_trsm_lower_right, triangular.c lines 206-253.  [fuel] bounds the recursion; B->ncols + 1 is
    enough. *)
Fixpoint trsm_lower_right (fuel cutoff : nat) (L B : mzd) : res mzd :=
  match fuel with
  | O => UB
  | S fuel =>
      let mb := mnrows B in
      let nb := mncols B in
      if Nat.leb nb 64 then lower_right_base L B
      else
        let nb1 := tri_cut nb in
        B0 <- win B 0 0 mb nb1 ;; B1 <- win B 0 nb1 mb nb ;;
        L00 <- win L 0 0 nb1 nb1 ;; L10 <- win L nb1 0 nb nb1 ;; L11 <- win L nb1 nb1 nb nb ;;
        B1 <- trsm_lower_right fuel cutoff L11 B1 ;;
        B0 <- mzd_addmul kcache junk true (Some B0) B1 L10 cutoff ;;
        B0 <- trsm_lower_right fuel cutoff L00 B0 ;;
        Ok (put (put B B0 0 0) B1 0 nb1)
  end.
(** mzd_trsm_lower_right, triangular.c lines 197-204 *)
Definition mzd_trsm_lower_right (L B : mzd) (cutoff : nat) : res mzd :=
  if negb (Nat.eqb (mnrows L) (mncols B)) || negb (Nat.eqb (mnrows L) (mncols L)) then UB
  else trsm_lower_right (S (mncols B)) cutoff L B.

(** mzd_extract_u(NULL, A), mzd.c lines 2227-2241 *)
Definition mzd_extract_u (A : mzd) : res mzd :=
  let k := Nat.min (mnrows A) (mncols A) in
  U <- mzd_submatrix A 0 0 k k ;;
  for_up 1 k (fun i U =>
    U <- for_up 0 (i / 64) (fun j U => wset U i j 0%N) U ;;
    if Nat.eqb (i mod 64) 0 then Ok U else mzd_clear_bits U i (i / 64 * 64) (i mod 64)) U.
(** [trtri] is mzd_trtri_upper *)
Variable trtri : mzd -> res mzd.
(** _mzd_trsm_upper_right_trtri, triangular.c lines 51-58 *)
Definition upper_right_trtri (U B : mzd) : res mzd :=
  u <- mzd_extract_u U ;; u <- trtri u ;; C <- mzd_mul kcache junk false None B u 0 ;; copy_onto B C.
(** _mzd_trsm_upper_right, triangular.c lines 60-110 *)
Fixpoint trsm_upper_right (fuel cutoff : nat) (U B : mzd) : res mzd :=
  match fuel with
  | O => UB
  | S fuel =>
      let mb := mnrows B in
      let nb := mncols B in
      if Nat.leb nb 64 then upper_right_base U B
      else if Nat.leb nb 512 then upper_right_trtri U B
      else
        let nb1 := tri_cut nb in
        B0 <- win B 0 0 mb nb1 ;; B1 <- win B 0 nb1 mb nb ;;
        U00 <- win U 0 0 nb1 nb1 ;; U01 <- win U 0 nb1 nb1 nb ;; U11 <- win U nb1 nb1 nb nb ;;
        B0 <- trsm_upper_right fuel cutoff U00 B0 ;;
        B1 <- mzd_addmul kcache junk true (Some B1) B0 U01 cutoff ;;
        B1 <- trsm_upper_right fuel cutoff U11 B1 ;;
        Ok (put (put B B0 0 0) B1 0 nb1)
  end.
(** mzd_trsm_upper_right, triangular.c lines 42-49 *)
Definition mzd_trsm_upper_right (U B : mzd) (cutoff : nat) : res mzd :=
  if negb (Nat.eqb (mnrows U) (mncols B)) || negb (Nat.eqb (mnrows U) (mncols U)) then UB
  else trsm_upper_right (S (mncols B)) cutoff U B.
End Right.

(** ** Inversion with tables *)

Section Trtri.
(** The size of the cache, __M4RI_CPU_L3_CACHE; and what a read behind the memory of a table gives: any
    word, or (None) no defined result *)
Variables (l3 : N) (beyond : option N).

(** rowstride, mzd.c line 157 with mzd_paddingwidth = 1 (mzd.h line 144) *)
Definition stride (w : nat) : nat := if Nat.ltb w 1 || Nat.even w then w else w + 1.
(** ple_table_t without M, ple_russian.c lines 40-47: the words of T, row i at i * rowstride, E, and B.
    Entries of E and B are not read before they are written. *)
Definition ple_table : Type := list N * list nat * list N.
Definition ple_table_init (k ncols : nat) : ple_table :=
  (repeat 0%N (2 ^ k * stride ((ncols + 63) / 64)), repeat 0 (2 ^ k), repeat 0%N (2 ^ k)).
(** mzd_xor_bits, mzd.h lines 598-606, in the row of T that begins at word [a] *)
Definition flat_xor_bits (T : list N) (a y n : nat) (values : N) : res (list N) :=
  let spot := y mod 64 in
  let block := a + y / 64 in
  w <- aget T block ;; s <- shl values spot ;; T <- aset T block (N.lxor w s) ;;
  let space := 64 - spot in
  if Nat.ltb space n
  then w <- aget T (block + 1) ;; s <- shr values space ;; aset T (block + 1) (N.lxor w s)
  else Ok T.
(** A word of T: behind the row it is one of the next row, behind the last row it is outside *)
Definition flat_get (T : list N) (i : nat) : res N :=
  if Nat.ltb i (length T) then aget T i else match beyond with Some v => Ok v | None => UB end.
(** mzd_read_bits(T, ., y, 64), mzd.h lines 566-576, in the row that begins at word [a] *)
Definition flat_read_64 (T : list N) (a y : nat) : res N :=
  let spot := y mod 64 in
  let block := a + y / 64 in
  if Nat.eqb spot 0 then flat_get T block
  else hi <- flat_get T (block + 1) ;; lo <- flat_get T block ;; x <- shl hi (64 - spot) ;; y <- shr lo spot ;; Ok (N.lor x y).
(** mzd_make_table_trtri, triangular_russian.c lines 331-380 *)
Definition make_table_trtri (M : mzd) (r c k : nat) (t : ple_table) (startcol : nat) : res ple_table :=
  let w := mwidth M in
  let s := stride w in
  let '(T, E, B) := t in
  ' (ord, inc) <- codebook k ;;
  E <- aset E 0 0 ;;
  ' (T, E) <- for_up 1 (2 ^ k) (fun i '(T, E) =>
      T <- aset T (i * s + startcol / 64) 0%N ;;
      d <- aget inc (i - 1) ;; m <- aget (mrows M) (r + d) ;;
      T <- for_up (c / 64) w (fun j T =>
             x <- aget m j ;; y <- aget T ((i - 1) * s + j) ;; aset T (i * s + j) (N.lxor x y)) T ;;
      o <- aget ord i ;; E <- aset E o i ;; Ok (T, E)) (T, E) ;;
  B <- aset B 0 0%N ;;
  ' (T, B) <- for_up 1 (2 ^ k) (fun i '(T, B) =>
      o <- aget ord i ;; T <- flat_xor_bits T (i * s) c k (N.of_nat o) ;;
      v <- flat_read_64 T (i * s) startcol ;; B <- aset B i v ;; Ok (T, B)) (T, B) ;;
  Ok (T, E, B).
(** Row x of T *)
Definition ple_row (w : nat) (T : list N) (x : nat) : list N := firstn w (skipn (x * stride w) T).

(** _mzd_trtri_upper_submatrix, triangular_russian.c lines 384-389; lines 453-456 are the same with
    elim_r = pivot_r = r *)
Definition trtri_sub (A : mzd) (pivot elim k : nat) : res mzd :=
  for_up pivot (pivot + k) (fun i A =>
    for_up elim i (fun j A =>
      b <- mzd_read_bit A j i ;;
      if b && Nat.ltb (i + 1) (mncols A) then mzd_row_add_offset A j i (i + 1) else Ok A) A) A.
(** _mzd_ple_to_e(E, A, r, c, k, id), ple_russian.c lines 362-376; a new matrix of k rows: what E holds
    in other rows is not read *)
Definition ple_to_e (A : mzd) (r c k : nat) : res mzd :=
  E <- mzd_submatrix A r 0 (r + k) (mncols A) ;;
  let start := c / 64 * 64 in
  for_up 0 k (fun i E =>
    for_up 0 ((c + i - start + 63) / 64) (fun t E =>
      let j := start + 64 * t in mzd_clear_bits E i j (Nat.min (c + i - j) 64)) E) E.
(** t[z] of _mzd_process_rows_ple_4, ple_russian_template.h lines 35-45; [sh] is sh[z] *)
Fixpoint ple_rows (w sh k : nat) (bits : N) (ts : list ple_table) : res (list (list N)) :=
  match ts with
  | [] => Ok []
  | (T, E, B) :: ts =>
      x <- aget E (N.to_nat (N.land (N.shiftr bits (N.of_nat sh)) (left_bitmask k))) ;;
      b <- aget B x ;; rest <- ple_rows w (sh + k) k (N.lxor bits b) ts ;; Ok (ple_row w T x :: rest)
  end.
(** _mzd_process_rows_ple_4(A, 0, r, r, {k, k, k, k}, T), ple_russian_template.h lines 3-51 *)
Definition process_ple_4 (A : mzd) (r k : nat) (ts : list ple_table) : res mzd :=
  for_up 0 r (fun i A =>
    bits <- mzd_read_bits A i r (4 * k) ;; rows <- ple_rows (mwidth A) 0 k bits ts ;;
    m <- aget (mrows A) i ;; m <- combine (r / 64) (mwidth A) rows m ;;
    rs <- aset (mrows A) i m ;; Ok (with_rows A rs)) A.
(** The body of the last loop of mzd_trtri_upper_russian, lines 450-463 *)
Definition trtri_step (A : mzd) (r k : nat) (t : ple_table) : res (mzd * ple_table) :=
  A <- trtri_sub A r r k ;;
  U <- ple_to_e A r r k ;;
  t <- make_table_trtri U 0 r k t r ;;
  let '(T, E, _) := t in
  A <- mzd_process_rows A 0 r r k (map (ple_row (mwidth A) T) (seq 0 (length E)), E) ;; Ok (A, t).
(** k, lines 395-401: 0.75 * 2^k * ncols > L3 / 2.0 *)
Definition trtri_k (A : mzd) : nat :=
  let k := Nat.min 7 (opt_k (mnrows A) (mncols A)) in
  if N.ltb (2 * l3) (3 * 2 ^ N.of_nat k * N.of_nat (mncols A)) then k - 1 else k.
(** mzd_trtri_upper_russian(A, 0), lines 392-472 for a square matrix; the first loop runs while
    r + kk <= nrows, r = kk * g, the last in steps of k and one of what remains.  With k = 0 the first
    loop does not end. *)
Definition trtri_upper_russian (A : mzd) : res mzd :=
  let n := mnrows A in
  let k := trtri_k A in
  let kk := 4 * k in
  if negb (Nat.eqb n (mncols A)) || Nat.eqb k 0 then UB
  else
    ' (A, ts) <- for_up 0 (n / kk) (fun g '(A, ts) =>
        let r := kk * g in
        ' (A, ts) <- for_up 0 4 (fun z '(A, ts) =>
            A <- trtri_sub A (r + z * k) r k ;; U <- ple_to_e A (r + z * k) (r + z * k) k ;;
            t <- aget ts z ;; t <- make_table_trtri U 0 (r + z * k) k t r ;;
            ts <- aset ts z t ;; Ok (A, ts)) (A, ts) ;;
        A <- process_ple_4 A r k ts ;; Ok (A, ts)) (A, repeat (ple_table_init k n) 4) ;;
    t <- aget ts 0 ;;
    let r := kk * (n / kk) in
    let rest := n - r in
    ' (A, t) <- for_up 0 (rest / k) (fun s '(A, t) => trtri_step A (r + k * s) k t) (A, t) ;;
    if Nat.eqb (rest mod k) 0 then Ok A
    else ' (A, _) <- trtri_step A (r + k * (rest / k)) (rest mod k) t ;; Ok A.
End Trtri.

(** ** The recursion for large matrices *)
Section TrtriRec.
Variables (l3 : N) (beyond : option N) (kcache : nat) (junk : nat -> list N).
(** mzd_trtri_upper, triangular.c lines 460-489 for a square matrix, without SSE2.  The product
    nrows * ncols of line 461 is one of ints.  [fuel] bounds the recursion; U->nrows + 1 is enough. *)
Fixpoint trtri_upper (fuel : nat) (U : mzd) : res mzd :=
  match fuel with
  | O => UB
  | S fuel =>
      let n := mnrows U in
      let p := (N.of_nat n * N.of_nat (mncols U))%N in
      if N.leb (2 ^ 31) p then UB
      else if N.ltb p (2 * l3) then trtri_upper_russian l3 beyond U
      else
        let n2 := tri_cut n in
        U00 <- win U 0 0 n2 n2 ;; U01 <- win U 0 n2 n2 n ;; U11 <- win U n2 n2 n n ;;
        U01 <- trsm_upper kcache junk (S (mnrows U01)) 0 U00 U01 ;;
        U01 <- trsm_upper_right kcache junk (trtri_upper fuel) (S (mncols U01)) 0 U11 U01 ;;
        U00 <- trtri_upper fuel U00 ;; U11 <- trtri_upper fuel U11 ;;
        Ok (put (put (put U U00 0 0) U01 0 n2) U11 n2 n2)
  end.
Definition mzd_trtri_upper (U : mzd) : res mzd := trtri_upper (S (mnrows U)) U.
End TrtriRec.
