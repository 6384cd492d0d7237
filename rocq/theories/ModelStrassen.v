(** Model of the Strassen product of M4RI, test/github1_M4RI/src/m4ri/strassen.c (line numbers
    without a file name are of this file).  mzd.c, mzd.h and brilliantrussian.c are as in
    ModelM4ri2.v; m4ri_die and a failed assert are [UB].

    A window (mzd_init_window) is the copy [win] of its words; when a function has worked on a
    window of C, [put] writes the words back into C.  The four windows C11 to C22 are read out when
    they are created and written back together when they are freed: they do not overlap, and between
    the two points C is reached through them only.  All windows of this file begin at a column that
    is a multiple of 64 and end at one, or at the last column of their matrix, so that no word
    belongs to two windows.  C is a matrix of its own, which overlaps neither A nor B. *)
From Coq Require Import Arith NArith List Bool.
From Verif Require Import Base ModelM4ri ModelM4ri2.
Import ListNotations.
Local Open Scope nat_scope.

(** ** Windows, sum *)

(** mzd_init_window(M, lr, lc, hr, hc), mzd.c lines 229-269: rows from lr, words from lc / 64.  A
    window that does not lie within M is [UB] here. *)
Definition win (M : mzd) (lr lc hr hc : nat) : res mzd :=
  if negb (Nat.eqb (lc mod 64) 0) || Nat.ltb (mnrows M) hr || Nat.ltb (mncols M) hc
     || Nat.ltb hr lr || Nat.ltb hc lc then UB
  else
    let ncols := hc - lc in
    Ok (mkmzd (hr - lr) ncols
          (map (fun row => firstn (wwidth ncols) (skipn (lc / 64) row)) (firstn (hr - lr) (skipn lr (mrows M))))).
(** What the owner of the words, M, is after its window at (lr, lc) has become W: the rows of W point
    into the rows of M, mzd.c lines 258-260 *)
Definition put (M W : mzd) (lr lc : nat) : mzd :=
  with_rows M
    (map (fun i => let row := nth i (mrows M) [] in
                   if Nat.leb lr i && Nat.ltb i (lr + mnrows W)
                   then firstn (lc / 64) row ++ nth (i - lr) (mrows W) [] ++ skipn (lc / 64 + mwidth W) row
                   else row) (seq 0 (length (mrows M)))).

(** _mzd_add(C, A, B), mzd.c lines 1770-1860: all cases compute the words below the last as A ^ B and
    the last one under the mask of C; without columns nothing is done.  C may be A or B: a word of C
    is written after the words of the same number of A and B have been read. *)
Definition add_into (C A B : mzd) : res mzd :=
  let w := mwidth A in
  if Nat.eqb w 0 then Ok C
  else
    rs <- for_up 0 (Nat.min (Nat.min (mnrows A) (mnrows B)) (mnrows C)) (fun i rs =>
            a <- aget (mrows A) i ;; b <- aget (mrows B) i ;; c <- aget rs i ;;
            c <- row_loop 0 (w - 1) (fun k _ => x <- aget a k ;; y <- aget b k ;; Ok (N.lxor x y)) c ;;
            x <- aget a (w - 1) ;; y <- aget b (w - 1) ;; z <- aget c (w - 1) ;;
            c <- aset c (w - 1) (N.lxor z (N.land (N.lxor (N.lxor x y) z) (high_bitmask C))) ;;
            aset rs i c) (mrows C) ;;
    Ok (with_rows C rs).

(** mzd_copy(C, P) for a C of the dimensions of P, mzd.c lines 1651-1673 *)
Definition copy_onto (C P : mzd) : res mzd :=
  rs <- mzd_copy_into (mrows C) 0 (high_bitmask P) (mnrows P) (mwidth P) (mrows P) 0 ;;
  Ok (with_rows C rs).

(** ** Where to cut *)

(** closer, lines 39-41; the products are computed in int *)
Definition closer (a cutoff : nat) : res bool :=
  if N.ltb (3 * N.of_nat a) (2 ^ 31) && N.ltb (4 * N.of_nat cutoff) (2 ^ 31)
  then Ok (N.ltb (3 * N.of_nat a) (4 * N.of_nat cutoff)) else UB.
(** closer(m, cutoff) || closer(k, cutoff) || closer(n, cutoff), line 55 *)
Definition closer3 (m k n cutoff : nat) : res bool :=
  b <- closer m cutoff ;;
  if b then Ok true
  else b <- closer k cutoff ;; if b then Ok true else closer n cutoff.

(** The loop of lines 77-80; [fuel] = width + 1 is enough since width is halved *)
Fixpoint cut_mult (fuel width mult cutoff : nat) : nat :=
  match fuel with
  | O => mult
  | S fuel => if Nat.ltb cutoff width then cut_mult fuel (width / 2) (mult * 2) cutoff else mult
  end.
(** mult, lines 75-80, from the smallest dimension *)
Definition mult_of (d cutoff : nat) : nat := cut_mult (S (d / 2)) (d / 2) 64 cutoff.
(** mmm, kkk, nnn, lines 82-84 *)
Definition half (m mult : nat) : nat := (m - m mod mult) / 64 / 2 * 64.

(** A11, A12, A21, A22, lines 89-92, and the same for B and C *)
Definition quarter (M : mzd) (r c : nat) : res (mzd * mzd * mzd * mzd) :=
  M11 <- win M 0 0 r c ;; M12 <- win M 0 c r (2 * c) ;;
  M21 <- win M r 0 (2 * r) c ;; M22 <- win M r c (2 * r) (2 * c) ;;
  Ok (M11, M12, M21, M22).
(** C after C11, C12, C21 and C22 (lines 99-102) have been changed *)
Definition unquarter (C C11 C12 C21 C22 : mzd) (r c : nat) : mzd :=
  put (put (put (put C C11 0 0) C12 0 c) C21 r 0) C22 r c.

(** ** The products *)
Section Strassen.
(** As in ModelM4ri2.v: the k that floating point arithmetic gives from the size of the cache, and
    the contents of uninitialised stack arrays (the same for each call) *)
Variables (kcache : nat) (junk : nat -> list N).

(** _mzd_mul_m4rm(C, A, B, 0, TRUE) for the products, lines 175 and 186, and
    mzd_addmul_m4rm(C, A, B, 0) for the sums, lines 491 and 502 *)
Definition m4rm (clear : bool) (C A B : mzd) : res mzd :=
  if clear then mul_m4rm_main true kcache junk C A B 0 else mzd_addmul_m4rm kcache junk C A B 0.

(** The rest, lines 169-202 ([clear] = true) and 485-518 (false); [m2], [k2], [n2] are the doubled
    mmm, kkk, nnn *)
Definition rest (clear : bool) (C A B : mzd) (m2 k2 n2 : nat) : res mzd :=
  let m := mnrows A in let k := mncols A in let n := mncols B in
  C <- (if Nat.ltb n2 n then
          B_last_col <- win B 0 n2 k n ;; C_last_col <- win C 0 n2 m n ;;
          C_last_col <- m4rm clear C_last_col A B_last_col ;; Ok (put C C_last_col 0 n2)
        else Ok C) ;;
  C <- (if Nat.ltb m2 m then
          A_last_row <- win A m2 0 m k ;; B_first_col <- win B 0 0 k n2 ;; C_last_row <- win C m2 0 m n2 ;;
          C_last_row <- m4rm clear C_last_row A_last_row B_first_col ;; Ok (put C C_last_row m2 0)
        else Ok C) ;;
  if Nat.ltb k2 k then
    A_last_col <- win A 0 k2 m2 k ;; B_last_row <- win B k2 0 k n2 ;; C_bulk <- win C 0 0 m2 n2 ;;
    C_bulk <- mzd_addmul_m4rm kcache junk C_bulk A_last_col B_last_row 0 ;; Ok (put C C_bulk 0 0)
  else Ok C.

(** _mzd_mul_even, lines 44-206.  [wn]: one of A, B, C is a window (the copies of lines 59-63).
    [fuel] bounds the depth of the recursion.  mzd_mul(NULL, A12, B21, cutoff) of line 141 is the
    call of _mzd_mul_even on a new matrix: cutoff is a multiple of 64 already, A12 and B21 are
    different windows. *)
Fixpoint mul_even (fuel : nat) (wn : bool) (cutoff : nat) (C A B : mzd) : res mzd :=
  match fuel with
  | O => UB
  | S fuel =>
    if Nat.eqb (mnrows C) 0 || Nat.eqb (mncols C) 0 then Ok C
    else
      let m := mnrows A in let k := mncols A in let n := mncols B in
      b <- closer3 m k n cutoff ;;
      if b then
        if wn then
          Abar <- mzd_copy A ;; Bbar <- mzd_copy B ;;
          Cbar <- mul_m4rm_main false kcache junk (mzd_init m n) Abar Bbar 0 ;;
          copy_onto C Cbar
        else mul_m4rm_main true kcache junk C A B 0
      else
        let mult := mult_of (Nat.min (Nat.min m n) k) cutoff in
        let mmm := half m mult in let kkk := half k mult in let nnn := half n mult in
        ' (A11, A12, A21, A22) <- quarter A mmm kkk ;;
        ' (B11, B12, B21, B22) <- quarter B kkk nnn ;;
        ' (C11, C12, C21, C22) <- quarter C mmm nnn ;;
        let Wmk := mzd_init mmm kkk in
        let Wkn := mzd_init kkk nnn in
        Wkn <- add_into Wkn B22 B12 ;;
        Wmk <- add_into Wmk A22 A12 ;;
        C21 <- mul_even fuel true cutoff C21 Wmk Wkn ;;
        Wmk <- add_into Wmk A22 A21 ;;
        Wkn <- add_into Wkn B22 B21 ;;
        C22 <- mul_even fuel true cutoff C22 Wmk Wkn ;;
        Wkn <- add_into Wkn Wkn B12 ;;
        Wmk <- add_into Wmk Wmk A12 ;;
        C11 <- mul_even fuel true cutoff C11 Wmk Wkn ;;
        Wmk <- add_into Wmk Wmk A11 ;;
        C12 <- mul_even fuel true cutoff C12 Wmk B12 ;;
        C12 <- add_into C12 C12 C22 ;;
        Wmk <- mul_even fuel true cutoff (mzd_init (mnrows A12) (mncols B21)) A12 B21 ;;
        C11 <- add_into C11 C11 Wmk ;;
        C12 <- add_into C12 C11 C12 ;;
        C11 <- add_into C11 C21 C11 ;;
        Wkn <- add_into Wkn Wkn B11 ;;
        C21 <- mul_even fuel true cutoff C21 A21 Wkn ;;
        C21 <- add_into C21 C11 C21 ;;
        C22 <- add_into C22 C22 C11 ;;
        C11 <- mul_even fuel true cutoff C11 A11 B11 ;;
        C11 <- add_into C11 C11 Wmk ;;
        rest true (unquarter C C11 C12 C21 C22 mmm nnn) A B (2 * mmm) (2 * kkk) (2 * nnn)
  end.

(** _mzd_sqr_even, lines 208-337; the three products of the rest, lines 301-333, are those of
    [rest] with B = A *)
Fixpoint sqr_even (fuel : nat) (wn : bool) (cutoff : nat) (C A : mzd) : res mzd :=
  match fuel with
  | O => UB
  | S fuel =>
    let m := mnrows A in
    b <- closer m cutoff ;;
    if b then
      if wn then
        Abar <- mzd_copy A ;;
        Cbar <- mul_m4rm_main false kcache junk (mzd_init m m) Abar Abar 0 ;;
        copy_onto C Cbar
      else mul_m4rm_main true kcache junk C A A 0
    else
      let mmm := half m (mult_of m cutoff) in
      ' (A11, A12, A21, A22) <- quarter A mmm mmm ;;
      ' (C11, C12, C21, C22) <- quarter C mmm mmm ;;
      let Wkn := mzd_init mmm mmm in
      Wkn <- add_into Wkn A22 A12 ;;
      C21 <- sqr_even fuel true cutoff C21 Wkn ;;
      Wkn <- add_into Wkn A22 A21 ;;
      C22 <- sqr_even fuel true cutoff C22 Wkn ;;
      Wkn <- add_into Wkn Wkn A12 ;;
      C11 <- sqr_even fuel true cutoff C11 Wkn ;;
      Wkn <- add_into Wkn Wkn A11 ;;
      C12 <- mul_even fuel true cutoff C12 Wkn A12 ;;
      C12 <- add_into C12 C12 C22 ;;
      Wmk <- mul_even fuel true cutoff (mzd_init (mnrows A12) (mncols A21)) A12 A21 ;;
      C11 <- add_into C11 C11 Wmk ;;
      C12 <- add_into C12 C11 C12 ;;
      C11 <- add_into C11 C21 C11 ;;
      C21 <- mul_even fuel true cutoff C21 A21 Wkn ;;
      C21 <- add_into C21 C11 C21 ;;
      C22 <- add_into C22 C22 C11 ;;
      C11 <- sqr_even fuel true cutoff C11 A11 ;;
      C11 <- add_into C11 C11 Wmk ;;
      rest true (unquarter C C11 C12 C21 C22 mmm mmm) A A (2 * mmm) (2 * mmm) (2 * mmm)
  end.

(** _mzd_addmul_even, lines 368-522; S, T and U are no windows *)
Fixpoint addmul_even (fuel : nat) (wn : bool) (cutoff : nat) (C A B : mzd) : res mzd :=
  match fuel with
  | O => UB
  | S fuel =>
    if Nat.eqb (mnrows C) 0 || Nat.eqb (mncols C) 0 then Ok C
    else
      let m := mnrows A in let k := mncols A in let n := mncols B in
      b <- closer3 m k n cutoff ;;
      if b then
        if wn then
          Abar <- mzd_copy A ;; Bbar <- mzd_copy B ;; Cbar <- mzd_copy C ;;
          Cbar <- mzd_addmul_m4rm kcache junk Cbar Abar Bbar 0 ;;
          copy_onto C Cbar
        else mzd_addmul_m4rm kcache junk C A B 0
      else
        let mult := mult_of (Nat.min (Nat.min m n) k) cutoff in
        let mmm := half m mult in let kkk := half k mult in let nnn := half n mult in
        ' (A11, A12, A21, A22) <- quarter A mmm kkk ;;
        ' (B11, B12, B21, B22) <- quarter B kkk nnn ;;
        ' (C11, C12, C21, C22) <- quarter C mmm nnn ;;
        let S := mzd_init mmm kkk in
        let T := mzd_init kkk nnn in
        let U := mzd_init mmm nnn in
        S <- add_into S A22 A21 ;;
        T <- add_into T B22 B21 ;;
        U <- mul_even fuel false cutoff U S T ;;
        C22 <- add_into C22 U C22 ;;
        C12 <- add_into C12 U C12 ;;
        U <- mul_even fuel true cutoff U A12 B21 ;;
        C11 <- add_into C11 U C11 ;;
        C11 <- addmul_even fuel true cutoff C11 A11 B11 ;;
        S <- add_into S S A12 ;;
        T <- add_into T T B12 ;;
        U <- addmul_even fuel false cutoff U S T ;;
        C12 <- add_into C12 C12 U ;;
        S <- add_into S A11 S ;;
        C12 <- addmul_even fuel true cutoff C12 S B12 ;;
        T <- add_into T B11 T ;;
        C21 <- addmul_even fuel true cutoff C21 A21 T ;;
        S <- add_into S A22 A12 ;;
        T <- add_into T B22 B12 ;;
        U <- addmul_even fuel false cutoff U S T ;;
        C21 <- add_into C21 C21 U ;;
        C22 <- add_into C22 C22 U ;;
        rest false (unquarter C C11 C12 C21 C22 mmm nnn) A B (2 * mmm) (2 * kkk) (2 * nnn)
  end.

(** _mzd_addsqr_even, lines 524-658 *)
Fixpoint addsqr_even (fuel : nat) (wn : bool) (cutoff : nat) (C A : mzd) : res mzd :=
  match fuel with
  | O => UB
  | S fuel =>
    if Nat.eqb (mnrows C) 0 then Ok C
    else
      let m := mnrows A in
      b <- closer m cutoff ;;
      if b then
        if wn then
          Cbar <- mzd_copy C ;; Abar <- mzd_copy A ;;
          Cbar <- mzd_addmul_m4rm kcache junk Cbar Abar Abar 0 ;;
          copy_onto C Cbar
        else mzd_addmul_m4rm kcache junk C A A 0
      else
        let mmm := half m (mult_of m cutoff) in
        ' (A11, A12, A21, A22) <- quarter A mmm mmm ;;
        ' (C11, C12, C21, C22) <- quarter C mmm mmm ;;
        let S := mzd_init mmm mmm in
        let U := mzd_init mmm mmm in
        S <- add_into S A22 A21 ;;
        U <- sqr_even fuel false cutoff U S ;;
        C22 <- add_into C22 U C22 ;;
        C12 <- add_into C12 U C12 ;;
        U <- mul_even fuel true cutoff U A12 A21 ;;
        C11 <- add_into C11 U C11 ;;
        C11 <- addsqr_even fuel true cutoff C11 A11 ;;
        S <- add_into S S A12 ;;
        U <- addsqr_even fuel false cutoff U S ;;
        C12 <- add_into C12 C12 U ;;
        S <- add_into S A11 S ;;
        C12 <- addmul_even fuel true cutoff C12 S A12 ;;
        C21 <- addmul_even fuel true cutoff C21 A21 S ;;
        S <- add_into S A22 A12 ;;
        U <- addsqr_even fuel false cutoff U S ;;
        C21 <- add_into C21 C21 U ;;
        C22 <- add_into C22 C22 U ;;
        rest false (unquarter C C11 C12 C21 C22 mmm mmm) A A (2 * mmm) (2 * mmm) (2 * mmm)
  end.

(** The cutoff, lines 348-355: __M4RI_STRASSEN_MUL_CUTOFF, include/m4ri/strassen.h line 134, is
    sqrt(4 * 262144) = 1024 for the L3 cache of ModelM4ri2.v.  A negative cutoff is an error
    (line 345) and not in the domain of the model. *)
Definition round_cutoff (cutoff : nat) : nat :=
  let c := if Nat.eqb cutoff 0 then 1024 else cutoff in
  let c := c / 64 * 64 in
  if Nat.ltb c 64 then 64 else c.
(** Enough for the recursion: each call halves the number of rows *)
Definition depth (A : mzd) : nat := S (Nat.log2 (mnrows A)).

(** The matrix C, lines 357-362 and 684-689: NULL is a new matrix *)
Definition target (C : option mzd) (r c : nat) : res mzd :=
  match C with
  | None => Ok (mzd_init r c)
  | Some C => if Nat.eqb (mnrows C) r && Nat.eqb (mncols C) c then Ok C else UB
  end.

(** mzd_mul(C, A, B, cutoff) for A != B (as pointers), lines 341-366 *)
Definition mzd_mul (wn : bool) (C : option mzd) (A B : mzd) (cutoff : nat) : res mzd :=
  if negb (Nat.eqb (mncols A) (mnrows B)) then UB
  else C <- target C (mnrows A) (mncols B) ;; mul_even (depth A) wn (round_cutoff cutoff) C A B.
(** mzd_mul(C, A, A, cutoff), lines 341-366 *)
Definition mzd_sqr (wn : bool) (C : option mzd) (A : mzd) (cutoff : nat) : res mzd :=
  if negb (Nat.eqb (mncols A) (mnrows A)) then UB
  else C <- target C (mnrows A) (mncols A) ;; sqr_even (depth A) wn (round_cutoff cutoff) C A.
(** mzd_addmul(C, A, B, cutoff) for A != B, lines 668-698 *)
Definition mzd_addmul (wn : bool) (C : option mzd) (A B : mzd) (cutoff : nat) : res mzd :=
  if negb (Nat.eqb (mncols A) (mnrows B)) then UB
  else
    C <- target C (mnrows A) (mncols B) ;;
    if Nat.eqb (mnrows A) 0 || Nat.eqb (mncols A) 0 || Nat.eqb (mncols B) 0 then Ok C
    else addmul_even (depth A) wn (round_cutoff cutoff) C A B.
(** mzd_addmul(C, A, A, cutoff), lines 668-698 *)
Definition mzd_addsqr (wn : bool) (C : option mzd) (A : mzd) (cutoff : nat) : res mzd :=
  if negb (Nat.eqb (mncols A) (mnrows A)) then UB
  else
    C <- target C (mnrows A) (mncols A) ;;
    if Nat.eqb (mnrows A) 0 || Nat.eqb (mncols A) 0 then Ok C
    else addsqr_even (depth A) wn (round_cutoff cutoff) C A.
End Strassen.
