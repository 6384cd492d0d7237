(** Model of the triangular systems of M4RI, test/github1_M4RI/src/m4ri/triangular.c and
    triangular_russian.c, the two with the triangular matrix on the left.  mzd.c, mzd.h,
    brilliantrussian.c and strassen.c are as in ModelM4ri.v, ModelM4ri2.v and ModelStrassen.v; windows
    are copies of their words that are written back, as there.  The triangular matrix does not overlap
    B.  Rows longer than their number of columns (windows) are possible for the triangular matrix: its
    words are read as they are. *)
From Coq Require Import Arith NArith List Bool.
From Verif Require Import Base ModelM4ri ModelM4ri2 ModelStrassen.
Import ListNotations.
Local Open Scope nat_scope.

(** ** Small systems *)

(** triangular_russian.c lines 173-206 for the rows start to start + k - 1 of B: [bit] is
    mzd_read_bit(L, ., .).  The eight-fold loop and the switch of lines 180-200 run over the words,
    the last one masked.  The base case of _mzd_trsm_lower_left, triangular.c lines 352-367, is the
    same with start = 0, k = B->nrows and a [bit] that reads word 0 (its loop begins at row 1: row 0
    has nothing to do). *)
Definition lower_rows (bit : nat -> nat -> res bool) (B : mzd) (start k : nat) : res mzd :=
  for_up 0 k (fun i B =>
    for_up 0 i (fun j B =>
      b <- bit (start + i) (start + j) ;;
      if b then combine_row B B (start + i) (start + j) else Ok B) B) B.
(** The same from below, triangular_russian.c lines 14-47 and triangular.c lines 415-432 (there the row
    mb - 1, which has nothing to do, is left out) *)
Definition upper_rows (bit : nat -> nat -> res bool) (B : mzd) (start k : nat) : res mzd :=
  for_up 0 k (fun i B =>
    for_up 0 i (fun j B =>
      b <- bit (start + (k - i - 1)) (start + (k - i) + j) ;;
      if b then combine_row B B (start + (k - i - 1)) (start + (k - i) + j) else Ok B) B) B.
(** __M4RI_GET_BIT(L->rows[i][0], k), triangular.c lines 361 and 427 *)
Definition bit0 (L : mzd) (i k : nat) : res bool := w <- wget L i 0 ;; Ok (N.testbit w (N.of_nat k)).

(** ** Tables *)

Section Tri.
(** The k that floating point arithmetic gives from the size of the cache and the width of B,
    triangular_russian.c lines 56 and 213; and the uninitialised memory of ModelM4ri2.v *)
Variables (kcache : nat) (junk : nat -> list N).

(** k, triangular_russian.c lines 54-63 and 211-220; round(0.75 * x) is (3 x + 2) / 4 *)
Definition tri_k (B : mzd) : nat :=
  let k := Nat.min kcache ((3 * log2_floor (Nat.min (mnrows B) (mncols B)) + 2) / 4) in
  if Nat.ltb k 2 then 2 else if Nat.ltb 8 k then 8 else k.
(** The eight empty tables, lines 76-86 and 233-242 *)
Definition tri_tables (B : mzd) (k : nat) : list (list (list N) * list nat) :=
  repeat (mrows (mzd_init (2 ^ k) (mncols B)), repeat 0 (2 ^ k)) 8.

(** The body of the last loop of _mzd_trsm_lower_left_russian, lines 303-317, with one table *)
Definition lower_step (L : mzd) (i k : nat) (st : mzd * list (list (list N) * list nat))
  : res (mzd * list (list (list N) * list nat)) :=
  let '(B, TLs) := st in
  B <- lower_rows (mzd_read_bit L) B i k ;;
  TL <- aget TLs 0 ;; TL <- mzd_make_table B i 0 k TL ;;
  B <- for_up (i + k) (mnrows L) (fun j B =>
         bits <- mzd_read_bits L j i k ;; x <- aget (snd TL) (N.to_nat bits) ;; t <- aget (fst TL) x ;;
         b <- aget (mrows B) j ;; b <- combine 0 (mwidth B) [t] b ;;
         rs <- aset (mrows B) j b ;; Ok (with_rows B rs)) B ;;
  TLs <- aset TLs 0 TL ;; Ok (B, TLs).
(** _mzd_trsm_lower_left_russian(L, B, 0), lines 208-328.  The loop of line 246 runs while
    i < nrows - kk, i = kk * g; that of line 300 in steps of k, the last one in what remains.  Without
    columns line 213 converts an infinity to int. *)
Definition lower_russian (L B : mzd) : res mzd :=
  let nr := mnrows B in
  if Nat.eqb (mncols B) 0 || Nat.eqb nr 0 then UB
  else
    let k := tri_k B in
    let kk := 8 * k in
    let G := (nr - 1) / kk in
    ' (B, TLs) <- for_up 0 G (fun g st =>
        let '(B, TLs) := st in
        let i := kk * g in
        B <- lower_rows (mzd_read_bit L) B i kk ;;
        TLs <- make_tables B i 0 (repeat k 8) TLs ;;
        B <- for_up (i + kk) nr (fun j B =>
               a <- mzd_read_bits L j i kk ;;
               ts <- table_rows a (repeat k 8) TLs ;;
               b <- aget (mrows B) j ;; b <- combine 0 (mwidth B) (map snd ts) b ;;
               rs <- aset (mrows B) j b ;; Ok (with_rows B rs)) B ;;
        Ok (B, TLs)) (B, tri_tables B k) ;;
    let r := nr - kk * G in
    ' (B, TLs) <- for_up 0 (r / k) (fun s st => lower_step L (kk * G + k * s) k st) (B, TLs) ;;
    if Nat.eqb (r mod k) 0 then Ok B
    else ' (B, _) <- lower_step L (kk * G + k * (r / k)) (r mod k) (B, TLs) ;; Ok B.

(** mzd_make_table(B, B->nrows - i - (z + 1) * k, 0, k, T[z], L[z]) for z = 0, ..., lines 97-104;
    [top] is B->nrows - i *)
Fixpoint make_down (B : mzd) (top k : nat) (TLs : list (list (list N) * list nat))
  : res (list (list (list N) * list nat)) :=
  match TLs with
  | [] => Ok []
  | TL :: TLs' =>
      TL <- mzd_make_table B (top - k) 0 k TL ;;
      rest <- make_down B (top - k) k TLs' ;; Ok (TL :: rest)
  end.
(** t[z] = T[z]->rows[L[z][mzd_read_bits_int(U, j, B->nrows - i - (z + 1) * k, k)]], lines 116-123 *)
Fixpoint rows_down (U : mzd) (j top k : nat) (TLs : list (list (list N) * list nat)) : res (list (list N)) :=
  match TLs with
  | [] => Ok []
  | (T, L) :: TLs' =>
      bits <- mzd_read_bits U j (top - k) k ;; x <- aget L (N.to_nat bits) ;; t <- aget T x ;;
      rest <- rows_down U j (top - k) k TLs' ;; Ok (t :: rest)
  end.
(** The tables of the rows below [top] and their use in the rows above, lines 94-143 and 151-160 *)
Definition upper_tables (U : mzd) (top k : nat) (B : mzd) (TLs : list (list (list N) * list nat))
  : res (mzd * list (list (list N) * list nat)) :=
  let n := length TLs in
  TLs <- make_down B top k TLs ;;
  B <- for_up 0 (top - n * k) (fun j B =>
         ts <- rows_down U j top k TLs ;;
         b <- aget (mrows B) j ;; b <- combine 0 (mwidth B) ts b ;;
         rs <- aset (mrows B) j b ;; Ok (with_rows B rs)) B ;;
  Ok (B, TLs).
(** The body of the last loop of _mzd_trsm_upper_left_russian, lines 149-160, with the table T[0] *)
Definition upper_step (U : mzd) (i k : nat) (st : mzd * list (list (list N) * list nat))
  : res (mzd * list (list (list N) * list nat)) :=
  let '(B, TLs) := st in
  let top := mnrows B - i in
  B <- upper_rows (mzd_read_bit U) B (top - k) k ;;
  ' (B, T0) <- upper_tables U top k B (firstn 1 TLs) ;; Ok (B, T0 ++ skipn 1 TLs).
(** _mzd_trsm_upper_left_russian(U, B, 0), lines 49-171; mask_end is B->high_bitmask *)
Definition upper_russian (U B : mzd) : res mzd :=
  let nr := mnrows B in
  if Nat.eqb (mncols B) 0 || Nat.eqb nr 0 then UB
  else
    let k := tri_k B in
    let kk := 8 * k in
    let G := (nr - 1) / kk in
    ' (B, TLs) <- for_up 0 G (fun g st =>
        let '(B, TLs) := st in
        let top := nr - kk * g in
        B <- upper_rows (mzd_read_bit U) B (top - kk) kk ;; upper_tables U top k B TLs) (B, tri_tables B k) ;;
    let r := nr - kk * G in
    ' (B, TLs) <- for_up 0 (r / k) (fun s st => upper_step U (kk * G + k * s) k st) (B, TLs) ;;
    if Nat.eqb (r mod k) 0 then Ok B
    else ' (B, _) <- upper_step U (kk * G + k * (r / k)) (r mod k) (B, TLs) ;; Ok B.

(** ** The recursion *)

(** mb1, triangular.c lines 371 and 436 *)
Definition tri_cut (mb : nat) : nat := ((mb - 1) / 64 + 1) / 2 * 64.
(** _mzd_trsm_lower_left, triangular.c lines 347-393; __M4RI_MUL_BLOCKSIZE is 512 (mzd.h line 68).
    [fuel] bounds the recursion; B->nrows + 1 is enough. *)
Fixpoint trsm_lower (fuel cutoff : nat) (L B : mzd) : res mzd :=
  match fuel with
  | O => UB
  | S fuel =>
      let mb := mnrows B in
      let nb := mncols B in
      if Nat.leb mb 64 then lower_rows (bit0 L) B 0 mb
      else if Nat.leb mb 512 then lower_russian L B
      else
        let mb1 := tri_cut mb in
        B0 <- win B 0 0 mb1 nb ;; B1 <- win B mb1 0 mb nb ;;
        L00 <- win L 0 0 mb1 mb1 ;; L10 <- win L mb1 0 mb mb1 ;; L11 <- win L mb1 mb1 mb mb ;;
        B0 <- trsm_lower fuel cutoff L00 B0 ;;
        B1 <- mzd_addmul kcache junk true (Some B1) L10 B0 cutoff ;;
        B1 <- trsm_lower fuel cutoff L11 B1 ;;
        Ok (put (put B B0 0 0) B1 mb1 0)
  end.
(** mzd_trsm_lower_left, triangular.c lines 338-345 *)
Definition mzd_trsm_lower_left (L B : mzd) (cutoff : nat) : res mzd :=
  if negb (Nat.eqb (mncols L) (mnrows B)) || negb (Nat.eqb (mnrows L) (mncols L)) then UB
  else trsm_lower (S (mnrows B)) cutoff L B.

(** _mzd_trsm_upper_left, triangular.c lines 408-458; line 445 calls _mzd_addmul, which takes the
    cutoff as it is (strassen.c lines 660-666) *)
Fixpoint trsm_upper (fuel cutoff : nat) (U B : mzd) : res mzd :=
  match fuel with
  | O => UB
  | S fuel =>
      let mb := mnrows B in
      let nb := mncols B in
      if Nat.leb mb 64 then upper_rows (bit0 U) B 0 mb
      else if Nat.leb mb 512 then upper_russian U B
      else
        let mb1 := tri_cut mb in
        B0 <- win B 0 0 mb1 nb ;; B1 <- win B mb1 0 mb nb ;;
        U00 <- win U 0 0 mb1 mb1 ;; U01 <- win U 0 mb1 mb1 mb ;; U11 <- win U mb1 mb1 mb mb ;;
        B1 <- trsm_upper fuel cutoff U11 B1 ;;
        B0 <- addmul_even kcache junk (depth U01) true cutoff B0 U01 B1 ;;
        B0 <- trsm_upper fuel cutoff U00 B0 ;;
        Ok (put (put B B0 0 0) B1 mb1 0)
  end.
(** mzd_trsm_upper_left, triangular.c lines 399-406 *)
Definition mzd_trsm_upper_left (U B : mzd) (cutoff : nat) : res mzd :=
  if negb (Nat.eqb (mncols U) (mnrows B)) || negb (Nat.eqb (mnrows U) (mncols U)) then UB
  else trsm_upper (S (mnrows B)) cutoff U B.
End Tri.
