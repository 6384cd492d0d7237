(** Model of M4RI, continued: transposition, product, sum and comparison.  File names are relative
    to test/github1_M4RI, as in ModelM4ri.v: mzd.h and parity.h in include/m4ri, mzd.c and
    brilliantrussian.c in src/m4ri.  m4ri_die and a failed assert are [UB]. *)
From Coq Require Import Arith NArith ZArith List Bool.
From Verif Require Import Base ModelM4ri.
Import ListNotations.
Local Open Scope nat_scope.

(** ** Transposition of words *)

(** A pointer into the words of a matrix is a row and a word number: adding rowstride goes to the
    next row, adding 1 to the next word.  The functions of mzd.c lines 353-1080 read [n] words
    below each other, work on them in a local array (or in the destination itself) and write words
    below each other; here they are read first and written last. *)
Fixpoint load_col (A : mzd) (r w n : nat) : res (list N) :=
  match n with
  | O => Ok []
  | S n' => x <- wget A r w ;; l <- load_col A (S r) w n' ;; Ok (x :: l)
  end.
Fixpoint store_col (D : mzd) (r w : nat) (ws : list N) : res mzd :=
  match ws with
  | [] => Ok D
  | x :: ws' => D <- wset D r w x ;; store_col D (S r) w ws'
  end.

(** Exchange of bits between words k and k + j: xor = ((t[k] >> j) ^ t[k + j]) & m; t[k] ^= xor << j;
    t[k + j] ^= xor, mzd.c lines 393-395, 406-408, 555-557 *)
Definition swap_bits (j : nat) (m : N) (k : nat) (t : list N) : res (list N) :=
  a <- aget t k ;; b <- aget t (k + j) ;;
  s <- shr a j ;;
  let x := N.land (N.lxor s b) m in
  y <- shl x j ;;
  t <- aset t k (N.lxor a y) ;; aset t (k + j) (N.lxor b x).
(** The loops over the words for one j: groups of 2 * j words up to word [n], mzd.c lines 404-410
    (n = 64) and 551-560 *)
Definition swap_level (n j : nat) (m : N) (t : list N) : res (list N) :=
  for_up 0 ((n + 2 * j - 1) / (2 * j)) (fun g t =>
    for_up 0 j (fun i t => swap_bits j m (2 * j * g + i) t) t) t.

(** _mzd_copy_transpose_64x64, mzd.c lines 353-412, on 64 words; j = 32, 16, ..., 1 and
    m ^= m << (j >> 1) after each step *)
Definition transpose_64 (t : list N) : res (list N) :=
  ' (t, _) <- for_up 0 6 (fun s '(t, m) =>
                let j := 2 ^ (5 - s) in
                t <- swap_level 64 j m t ;;
                h <- shl m (j / 2) ;;
                Ok (t, N.lxor m h)) (t, 4294967295%N) ;;
  Ok t.

(** transpose_mask, mzd.c lines 512-519 *)
Definition transpose_mask : list N :=
  [0x5555555555555555; 0x3333333333333333; 0x0F0F0F0F0F0F0F0F; 0x00FF00FF00FF00FF;
   0x0000FFFF0000FFFF; 0x00000000FFFFFFFF]%N.
(** _mzd_transpose_Nxjx64, mzd.c lines 535-569: j = 1, 2, 4, ... while j < n; the number of steps
    is [nxj_log n] *)
Definition nxj_log (n : nat) : nat := Nat.log2_up n.
Definition transpose_nxj (n : nat) (t : list N) : res (list N) :=
  for_up 0 (nxj_log n) (fun mi t =>
    m <- aget transpose_mask mi ;; swap_level n (2 ^ mi) m t) t.

(** _mzd_copy_transpose_lt64x64, mzd.c lines 587-707: [ws] are the n words read, [junk] is what the
    array t contained before.  The cases of the switch write
    wk[k + q * j] = (t[k] >> (j * q)) & m with j = 1 << log2j, for k < j and q < 64 / j. *)
Definition transpose_lt64x64 (junk : list N) (n : nat) (ws : list N) : res (list N) :=
  if Nat.ltb 32 n then transpose_64 (ws ++ repeat 0%N (64 - n))
  else
    t <- transpose_nxj n (ws ++ skipn n junk) ;;
    let j := 2 ^ nxj_log n in
    let m := left_bitmask n in
    for_up 0 64 (fun c l =>
      x <- aget t (c mod j) ;; y <- shr x (j * (c / j)) ;; Ok (l ++ [N.land y m])) [].

(** _mzd_copy_transpose_64xlt64, mzd.c lines 725-829: the words of a 64 x n matrix to the n words of
    its transpose.  log2_ceil(n) (lines 497-510) is the logarithm rounded up.  Cases 5 to 1 of the
    switch compute t[k] as the disjunction of wks[k + q * j] << (j * q) over q < 64 / j, in cases 2
    and 1 by shifting t[k] itself; case 0 that of wks[q] << q. *)
Definition gather (j k : nat) (ws : list N) : res N :=
  for_up 0 (64 / j) (fun q x => w <- aget ws (k + q * j) ;; y <- shl w (j * q) ;; Ok (N.lor x y)) 0%N.
Definition transpose_64xlt64 (n : nat) (ws : list N) : res (list N) :=
  if Nat.ltb 32 n then t <- transpose_64 ws ;; Ok (firstn n t)
  else
    let j := 2 ^ Nat.log2_up n in
    t <- for_up 0 j (fun k l => x <- gather j k ws ;; Ok (l ++ [x])) [] ;;
    t <- transpose_nxj j t ;;
    Ok (firstn n t).

(** _mzd_copy_transpose_le8xle8, mzd.c lines 847-875: an n x m matrix; maxsize = max n m.  w7 is the
    initial w shifted; d counts the steps: shift = 7 * d *)
Definition transpose_le8 (n m maxsize : nat) (ws : list N) : res (list N) :=
  w <- for_up 0 n (fun i w => x <- aget ws i ;; y <- shl x (8 * i) ;; Ok (N.lor w y)) 0%N ;;
  w7 <- shr w 7 ;;
  ' (w, _, _) <- for_up 1 (Nat.max 2 maxsize) (fun d '(w, w7, mask) =>
                   let x := N.land (N.lxor w w7) mask in
                   y <- shl x (7 * d) ;;
                   Ok (N.lxor (N.lxor w y) x, N.shiftr w7 7, N.shiftr mask 8))
                 (w, w7, 0x80402010080402%N) ;;
  for_up 0 m (fun c l => y <- shr w (8 * c) ;; Ok (l ++ [N.land y 255])) [].

(** _mzd_copy_transpose_le16xle16, mzd.c lines 894-990: t[a] collects the rows 4 * b + a, shifted by
    16 * b; d counts the steps of the loop at lines 939-957: shift = 12 * d *)
Definition transpose_le16 (n m maxsize : nat) (ws : list N) : res (list N) :=
  t <- for_up 0 n (fun i t =>
         x <- aget ws i ;; y <- shl x (16 * (i / 4)) ;;
         z <- aget t (i mod 4) ;; aset t (i mod 4) (N.lor z y)) [0; 0; 0; 0]%N ;;
  ' (t, _) <- for_up 1 (Nat.max 2 ((maxsize + 3) / 4)) (fun d '(t, mask) =>
                t <- for_up 0 4 (fun a t =>
                       z <- aget t a ;; s <- shr z (12 * d) ;;
                       let x := N.land (N.lxor z s) mask in
                       y <- shl x (12 * d) ;; aset t a (N.lxor (N.lxor z y) x)) t ;;
                Ok (t, N.shiftr mask 16)) (t, 0xF0000F0000F0%N) ;;
  t <- transpose_nxj 4 t ;;
  for_up 0 m (fun c l =>
    x <- aget t (c mod 4) ;; y <- shr x (16 * (c / 4)) ;; Ok (l ++ [N.land y 65535])) [].

(** _mzd_copy_transpose_le32xle32, mzd.c lines 1009-1062 *)
Definition transpose_le32 (n m : nat) (ws : list N) : res (list N) :=
  t <- for_up 0 n (fun i t =>
         x <- aget ws i ;; y <- shl x (32 * (i / 16)) ;;
         z <- aget t (i mod 16) ;; aset t (i mod 16) (N.lor z y)) (repeat 0%N 16) ;;
  t <- transpose_nxj 16 t ;;
  for_up 0 m (fun c l =>
    x <- aget t (c mod 16) ;;
    a <- shr x (16 * (c / 16)) ;; b <- shr x (16 * (c / 16) + 16) ;;
    Ok (l ++ [N.lor (N.land a 65535) (N.land b 4294901760)])) [].

(** _mzd_copy_transpose_le64xle64, mzd.c lines 1064-1082 *)
Definition transpose_le64 (n m : nat) (ws : list N) : res (list N) :=
  t <- transpose_64 (ws ++ repeat 0%N (64 - n)) ;; Ok (firstn m t).

(** ** Transposition of matrices *)

(** The fields rowstride and blockrows_log, mzd.c lines 157, 166-170 with __M4RI_MAX_MZD_BLOCKSIZE
    = 2^27 (mzd.h line 58) and mzd_paddingwidth = 1 (line 144), and whether all rows are in one
    block, lines 172-174 *)
Definition rowstride (c : nat) : nat := if Nat.even (wwidth c) then wwidth c else wwidth c + 1.
Definition blockrows_log (c : nat) : N := N.log2 (2 ^ 27 / N.of_nat (rowstride c)).
Definition one_block (r c : nat) : bool := N.leb (N.of_nat r) (2 ^ blockrows_log c).

(** The loop over the rows in groups of 64 in _mzd_transpose, mzd.c lines 1132-1178.  [js] is
    the parity bit of line 1134.  Two whole blocks are transposed together
    (_mzd_copy_transpose_64x64_2, lines 430-495, is _mzd_copy_transpose_64x64 on both): the first
    one is kept in [delayed] as (fwd row, fwd word, fws row, fws word). *)
Definition trans_block (D A : mzd) (p : nat * nat * nat * nat) : res mzd :=
  let '(dr, dw, sr, sw) := p in
  t <- load_col A sr sw 64 ;; t <- transpose_64 t ;; store_col D dr dw t.
Definition trans_group (A : mzd) (js ncols a : nat) (st : mzd * option (nat * nat * nat * nat))
  : res (mzd * option (nat * nat * nat * nat)) :=
  let whole := ncols / 64 in
  ' (D, delayed) <- for_up (if Nat.eqb a 0 then js else 0) whole (fun j '(D, delayed) =>
       match delayed with
       | None => Ok (D, Some (64 * j, a, 64 * a, j))
       | Some p => D <- trans_block D A p ;; D <- trans_block D A (64 * j, a, 64 * a, j) ;; Ok (D, None)
       end) st ;;
  if Nat.eqb (ncols mod 64) 0 then Ok (D, delayed)
  else t <- load_col A (64 * a) whole 64 ;; t <- transpose_64xlt64 (ncols mod 64) t ;;
       D <- store_col D (64 * whole) a t ;; Ok (D, delayed).
Definition trans_rows64 (D A : mzd) (nrows ncols : nat) : res mzd :=
  let js := if Nat.odd (nrows / 64) && Nat.odd (ncols / 64) then 1 else 0 in
  D <- (if Nat.eqb js 1 then trans_block D A (0, 0, 0, 0) else Ok D) ;;
  if Nat.eqb js 1 && Nat.eqb nrows 64 && Nat.eqb ncols 64 then Ok D
  else ' (D, _) <- for_up 0 (nrows / 64) (trans_group A js ncols) (D, None) ;; Ok D.

(** The corner, mzd.c lines 1218-1236 *)
Definition trans_corner (nr nc : nat) (ws : list N) : res (list N) :=
  let maxsize := Nat.max nr nc in
  if Nat.leb maxsize 8 then transpose_le8 nr nc maxsize ws
  else if Nat.leb maxsize 16 then transpose_le16 nr nc maxsize ws
  else if Nat.leb maxsize 32 then transpose_le32 nr nc ws
  else transpose_le64 nr nc ws.

(** _mzd_transpose, mzd.c lines 1086-1239, for matrices stored in one block each
    (_mzd_transpose_multiblock, for larger ones, is not modelled: [UB]).  [junk b] is the content
    of the stack array in the b-th call of _mzd_copy_transpose_lt64x64. *)
Definition mzd_transpose_main (junk : nat -> list N) (D A : mzd) : res mzd :=
  let nrows := mnrows A in
  let ncols := mncols A in
  if negb (N.leb 6 (blockrows_log ncols) && N.leb 6 (blockrows_log nrows)) then UB
  else if negb (one_block nrows ncols && one_block ncols nrows) then UB
  else
    D <- (if Nat.leb 64 nrows then trans_rows64 D A nrows ncols else Ok D) ;;
    let a := nrows / 64 in
    let nr := nrows mod 64 in
    if Nat.eqb nr 0 then Ok D
    else
      D <- for_up 0 (ncols / 64) (fun b D =>
             t <- load_col A (64 * a) b nr ;; t <- transpose_lt64x64 (junk b) nr t ;;
             store_col D (64 * b) a t) D ;;
      let b := ncols / 64 in
      let nc := ncols mod 64 in
      if Nat.eqb nc 0 then Ok D
      else t <- load_col A (64 * a) b nr ;; t <- trans_corner nr nc t ;; store_col D (64 * b) a t.

(** mzd_transpose(NULL, A), mzd.c lines 1385-1399, A no window: a matrix without rows or columns is
    copied into its transpose, which stops with an error unless both are zero (lines 1658-1659) *)
Definition mzd_transpose (junk : nat -> list N) (A : mzd) : res mzd :=
  let D := mzd_init (mncols A) (mnrows A) in
  if Nat.eqb (mnrows A) 0 || Nat.eqb (mncols A) 0 then
    if Nat.eqb (mnrows A) 0 && Nat.eqb (mncols A) 0 then Ok D else UB
  else mzd_transpose_main junk D A.

(** ** Parity *)

(** __M4RI_MIX32 to __M4RI_MIX1, parity.h lines 39-75; the shift counts are constants below 64 *)
Definition mix32 (a b : N) : N :=
  N.lor (N.land (N.shiftl (N.lxor (N.shiftr a 32) a) 32) ffff)
        (N.shiftr (N.lxor (N.land (N.shiftl b 32) ffff) b) 32).
Definition mix (s : N) (ma mb : N) (a b : N) : N :=
  N.lor (N.land (N.lxor (N.land (N.shiftl a s) ffff) a) ma)
        (N.land (N.lxor (N.shiftr b s) b) mb).
Definition mix16 := mix 16 0xFFFF0000FFFF0000 0x0000FFFF0000FFFF.
Definition mix8 := mix 8 0xFF00FF00FF00FF00 0x00FF00FF00FF00FF.
Definition mix4 := mix 4 0xF0F0F0F0F0F0F0F0 0x0F0F0F0F0F0F0F0F.
Definition mix2 := mix 2 0xCCCCCCCCCCCCCCCC 0x3333333333333333.
Definition mix1 := mix 1 0xAAAAAAAAAAAAAAAA 0x5555555555555555.
(** m4ri_parity64_helper, parity.h lines 82-108, on buf + o *)
Definition parity64_helper (o : nat) (buf : nat -> N) : N :=
  let b i := buf (o + i) in
  let c0 := mix8 (mix16 (mix32 (b 56) (b 24)) (mix32 (b 40) (b 8)))
                 (mix16 (mix32 (b 48) (b 16)) (mix32 (b 32) (b 0))) in
  let c1 := mix8 (mix16 (mix32 (b 60) (b 28)) (mix32 (b 44) (b 12)))
                 (mix16 (mix32 (b 52) (b 20)) (mix32 (b 36) (b 4))) in
  mix4 c1 c0.
(** m4ri_parity64, parity.h lines 118-131 *)
Definition parity64 (l : list N) : N :=
  let buf i := nth i l 0%N in
  mix1 (mix2 (parity64_helper 3 buf) (parity64_helper 1 buf))
       (mix2 (parity64_helper 2 buf) (parity64_helper 0 buf)).

(** ** Products *)

(** mzd_set_ui(C, 0), mzd.c lines 1578-1590 *)
Definition mzd_set_zero (C : mzd) : res mzd :=
  let w := mwidth C in
  rs <- for_up 0 (mnrows C) (fun i rs =>
          row <- aget rs i ;;
          row <- row_loop 0 (w - 1) (fun _ _ => Ok 0%N) row ;;
          x <- aget row (w - 1) ;;
          row <- aset row (w - 1) (N.ldiff x (high_bitmask C)) ;;
          aset rs i row) (mrows C) ;;
  Ok (with_rows C rs).

(** The words of _mzd_mul_naive: parity[k] = XOR of a[ii] & b[ii], mzd.c lines 1484-1487 etc. (the
    order of the words does not matter; a[0] is always read) *)
Definition dot_words (a b : list N) (wide : nat) : res N :=
  x <- aget a 0 ;; y <- aget b 0 ;;
  for_up 1 wide (fun ii p => x <- aget a ii ;; y <- aget b ii ;; Ok (N.lxor p (N.land x y)))
    (N.land x y).
(** One row of _mzd_mul_naive, mzd.c lines 1479-1503: [B] is the transposed factor; parity keeps its
    values from one word to the next *)
Definition mul_naive_row (C : mzd) (B : mzd) (wide : nat) (a : list N) (st : list N * list N)
  : res (list N * list N) :=
  let w := mwidth C in
  let eol := if Nat.eqb (mncols C mod 64) 0 then w else w - 1 in
  let '(c, parity) := st in
  ' (c, parity) <- for_up 0 eol (fun j '(c, parity) =>
      parity <- for_up 0 64 (fun k parity =>
                  b <- aget (mrows B) (64 * j + k) ;; p <- dot_words a b wide ;; aset parity k p) parity ;;
      x <- aget c j ;; c <- aset c j (N.lxor x (parity64 parity)) ;; Ok (c, parity)) (c, parity) ;;
  if Nat.eqb eol w then Ok (c, parity)
  else
    parity <- for_up 0 (mncols C mod 64) (fun k parity =>
                b <- aget (mrows B) (64 * eol + k) ;; p <- dot_words a b wide ;; aset parity k p) parity ;;
    x <- aget c eol ;;
    c <- aset c eol (N.lxor x (N.land (parity64 parity) (high_bitmask C))) ;; Ok (c, parity).
(** _mzd_mul_naive, mzd.c lines 1449-1536; the rows in blocks and the remaining rows
    are treated in the same way *)
Definition mul_naive_main (clear : bool) (C A B : mzd) : res mzd :=
  C <- (if clear then mzd_set_zero C else Ok C) ;;
  ' (rs, _) <- for_up 0 (mnrows C) (fun i '(rs, parity) =>
      a <- aget (mrows A) i ;; c <- aget rs i ;;
      ' (c, parity) <- mul_naive_row C B (mwidth A) a (c, parity) ;;
      rs <- aset rs i c ;; Ok (rs, parity)) (mrows C, repeat 0%N 64) ;;
  Ok (with_rows C rs).

(** mzd_combine(C, i, 0, C, i, 0, A, j, 0), mzd.h lines 1046-1098 *)
Definition combine_row (C A : mzd) (i j : nat) : res mzd :=
  let w := mwidth C in
  a <- aget (mrows C) i ;; b <- aget (mrows A) j ;;
  a <- row_loop 0 (w - 1) (fun k x => y <- aget b k ;; Ok (N.lxor x y)) a ;;
  x <- aget a (w - 1) ;; y <- aget b (w - 1) ;;
  a <- aset a (w - 1) (N.lxor x (N.land y (high_bitmask C))) ;;
  rs <- aset (mrows C) i a ;; Ok (with_rows C rs).
(** _mzd_mul_va, mzd.c lines 1538-1553 *)
Definition mul_va (clear : bool) (C v A : mzd) : res mzd :=
  C <- (if clear then mzd_set_zero C else Ok C) ;;
  for_up 0 (mnrows v) (fun i C =>
    for_up 0 (mncols v) (fun j C =>
      b <- mzd_read_bit v i j ;; if b then combine_row C A i j else Ok C) C) C.

(** mzd_mul_naive ([clear] = true) and mzd_addmul_naive (false), mzd.c lines 1424-1431 and 1439-1446:
    the body without the test of the dimensions of C, which the callers have made *)
Definition mul_naive_body (clear : bool) (junk : nat -> list N) (C A B : mzd) : res mzd :=
  if Nat.ltb (mncols B) 54 then BT <- mzd_transpose junk B ;; mul_naive_main clear C A BT
  else mul_va clear C A B.
(** mzd_mul_naive, mzd.c lines 1416-1432, for a C of the right dimensions *)
Definition mzd_mul_naive := mul_naive_body true.
(** mzd_addmul_naive, mzd.c lines 1434-1447, for a C of the right dimensions *)
Definition mzd_addmul_naive := mul_naive_body false.

(** The choice of k in _mzd_mul_m4rm, brilliantrussian.c lines 1080-1093: [kcache] is the value
    that floating point arithmetic gives from the size of the cache; round(0.75 * x) is
    (3 x + 2) / 4 *)
Definition m4rm_k (kcache k a_nr a_nc b_nc : nat) : nat :=
  let k := if Nat.eqb k 0 then
             let klog := (3 * log2_floor (Nat.min (Nat.min a_nr a_nc) b_nc) + 2) / 4 in
             Nat.min kcache klog
           else k in
  if Nat.ltb k 2 then 2 else if Nat.ltb 8 k then 8 else k.

(** One more table, brilliantrussian.c lines 1168-1187 *)
Definition m4rm_single (A B : mzd) (col k : nat) (st : mzd * list (list (list N) * list nat))
  : res (mzd * list (list (list N) * list nat)) :=
  let '(C, TLs) := st in
  TL <- aget TLs 0 ;;
  TL <- mzd_make_table B col 0 k TL ;;
  C <- for_up 0 (mnrows A) (fun j C =>
         bits <- mzd_read_bits A j col k ;;
         x <- aget (snd TL) (N.to_nat bits) ;; t <- aget (fst TL) x ;;
         c <- aget (mrows C) j ;; c <- combine 0 (mwidth C) [t] c ;;
         rs <- aset (mrows C) j c ;; Ok (with_rows C rs)) C ;;
  TLs <- aset TLs 0 TL ;; Ok (C, TLs).

(** _mzd_mul_m4rm, brilliantrussian.c lines 1033-1200: 8 tables, blocks of 512 rows
    (mzd.h line 68 with an L3 cache of 262144).  t[z] = T[z]->rows[L[z][(a >> z * k) & bm]] is
    [table_rows], which shifts a by k after each table. *)
Definition mul_m4rm_main (clear : bool) (kcache : nat) (junk : nat -> list N) (C A B : mzd) (k : nat) : res mzd :=
  let a_nr := mnrows A in
  let a_nc := mncols A in
  let b_nc := mncols B in
  if Nat.ltb b_nc 54 || Nat.ltb a_nr 16 then
    (if clear then mzd_mul_naive junk C A B else mzd_addmul_naive junk C A B)
  else
    C <- (if clear then mzd_set_zero C else Ok C) ;;
    let k := m4rm_k kcache k a_nr a_nc b_nc in
    let TL := (mrows (mzd_init (2 ^ k) b_nc), repeat 0 (2 ^ k)) in
    let kk := 8 * k in
    let last := a_nc / kk in
    ' (C, TLs) <- for_up 0 ((a_nr + 511) / 512) (fun giant '(C, TLs) =>
        for_up 0 last (fun i '(C, TLs) =>
          TLs <- make_tables B (kk * i) 0 (repeat k 8) TLs ;;
          C <- for_up (512 * giant) (Nat.min (512 * giant + 512) a_nr) (fun j C =>
                 a <- mzd_read_bits A j (kk * i) kk ;;
                 ts <- table_rows a (repeat k 8) TLs ;;
                 c <- aget (mrows C) j ;; c <- combine 0 (mwidth C) (map snd ts) c ;;
                 rs <- aset (mrows C) j c ;; Ok (with_rows C rs)) C ;;
          Ok (C, TLs)) (C, TLs)) (C, repeat TL 8) ;;
    if Nat.eqb (a_nc mod kk) 0 then Ok C
    else
      ' (C, TLs) <- for_up (8 * last) (a_nc / k) (fun i st => m4rm_single A B (k * i) k st) (C, TLs) ;;
      if Nat.eqb (a_nc mod k) 0 then Ok C
      else ' (C, _) <- m4rm_single A B (k * (a_nc / k)) (a_nc mod k) (C, TLs) ;; Ok C.
(** mzd_mul_m4rm(NULL, A, B, k), brilliantrussian.c lines 998-1011 *)
Definition mzd_mul_m4rm (kcache : nat) (junk : nat -> list N) (A B : mzd) (k : nat) : res mzd :=
  if negb (Nat.eqb (mncols A) (mnrows B)) then UB
  else mul_m4rm_main true kcache junk (mzd_init (mnrows A) (mncols B)) A B k.
(** mzd_addmul_m4rm on an existing C, brilliantrussian.c lines 1013-1029 *)
Definition mzd_addmul_m4rm (kcache : nat) (junk : nat -> list N) (C A B : mzd) (k : nat) : res mzd :=
  if Nat.eqb (mncols C) 0 || Nat.eqb (mnrows C) 0 then Ok C
  else if negb (Nat.eqb (mncols A) (mnrows B)) then UB
  else if negb (Nat.eqb (mnrows C) (mnrows A)) || negb (Nat.eqb (mncols C) (mncols B)) then UB
  else mul_m4rm_main false kcache junk C A B k.

(** ** Sum, comparison, concatenation *)

(** mzd_add(NULL, A, B), mzd.c lines 1756-1860, on a new matrix C: all cases compute the words
    below the last as A ^ B and the last one under the mask; without columns nothing is done *)
Definition mzd_add (A B : mzd) : res mzd :=
  if negb (Nat.eqb (mnrows A) (mnrows B) && Nat.eqb (mncols A) (mncols B)) then UB
  else
    let C := mzd_init (mnrows A) (mncols A) in
    let w := mwidth A in
    if Nat.eqb w 0 then Ok C
    else
      rs <- for_up 0 (mnrows A) (fun i rs =>
              a <- aget (mrows A) i ;; b <- aget (mrows B) i ;; c <- aget rs i ;;
              c <- row_loop 0 (w - 1) (fun k _ => x <- aget a k ;; y <- aget b k ;; Ok (N.lxor x y)) c ;;
              x <- aget a (w - 1) ;; y <- aget b (w - 1) ;; z <- aget c (w - 1) ;;
              c <- aset c (w - 1) (N.lxor z (N.land (N.lxor (N.lxor x y) z) (high_bitmask C))) ;;
              aset rs i c) (mrows C) ;;
      Ok (with_rows C rs).

(** mzd_cmp, mzd.c lines 1623-1649; without columns the word -1 of each row is read *)
Definition cmp_words (x y : N) : option Z :=
  if N.ltb x y then Some (-1)%Z else if N.ltb y x then Some 1%Z else None.
Definition mzd_cmp (A B : mzd) : res Z :=
  if Nat.ltb (mnrows A) (mnrows B) then Ok (-1)%Z
  else if Nat.ltb (mnrows B) (mnrows A) then Ok 1%Z
  else if Nat.ltb (mncols A) (mncols B) then Ok (-1)%Z
  else if Nat.ltb (mncols B) (mncols A) then Ok 1%Z
  else
    let n := mwidth A - 1 in
    r <- for_ret 0 (mnrows A) (fun i _ =>
           if Nat.eqb (mwidth A) 0 then UB
           else
             a <- aget (mrows A) i ;; b <- aget (mrows B) i ;;
             x <- aget a n ;; y <- aget b n ;;
             match cmp_words (N.land x (high_bitmask A)) (N.land y (high_bitmask A)) with
             | Some z => Ok (inr z)
             | None =>
                 for_ret 0 n (fun k _ =>
                   x <- aget a (n - 1 - k) ;; y <- aget b (n - 1 - k) ;;
                   match cmp_words x y with Some z => Ok (inr z) | None => Ok (inl tt) end) tt
             end) tt ;;
    match r with inr z => Ok z | inl _ => Ok 0%Z end.

(** mzd_equal, mzd.c lines 1601-1621, for different A and B *)
Definition mzd_equal (A B : mzd) : res bool :=
  if negb (Nat.eqb (mnrows A) (mnrows B)) then Ok false
  else if negb (Nat.eqb (mncols A) (mncols B)) then Ok false
  else
    let n := mwidth A - 1 in
    r <- for_ret 0 (mnrows A) (fun i _ =>
           for_ret 0 n (fun j _ =>
             x <- wget A i j ;; y <- wget B i j ;;
             if negb (N.eqb x y) then Ok (inr false) else Ok (inl tt)) tt) tt ;;
    match r with
    | inr b => Ok b
    | inl _ =>
        r <- for_ret 0 (mnrows A) (fun i _ =>
               if Nat.eqb (mwidth A) 0 then UB
               else
                 x <- wget A i n ;; y <- wget B i n ;;
                 if negb (N.eqb (N.land (N.lxor x y) (high_bitmask A)) 0) then Ok (inr false)
                 else Ok (inl tt)) tt ;;
        match r with inr b => Ok b | inl _ => Ok true end
    end.

(** mzd_is_zero, mzd.c lines 1997-2008 *)
Definition mzd_is_zero (A : mzd) : res bool :=
  let w := mwidth A in
  r <- for_ret 0 (mnrows A) (fun i status =>
         if Nat.eqb w 0 then UB
         else
           status <- for_up 0 (w - 1) (fun j s => x <- wget A i j ;; Ok (N.lor s x)) status ;;
           x <- wget A i (w - 1) ;;
           let status := N.lor status (N.land x (high_bitmask A)) in
           if negb (N.eqb status 0) then Ok (inr false) else Ok (inl status)) 0%N ;;
  match r with inr b => Ok b | inl status => Ok (N.eqb status 0) end.

(** mzd_concat(NULL, A, B), mzd.c lines 1676-1703 *)
Definition mzd_concat (A B : mzd) : res mzd :=
  if negb (Nat.eqb (mnrows A) (mnrows B)) then UB
  else
    let C := mzd_init (mnrows A) (mncols A + mncols B) in
    rs <- for_up 0 (mnrows A) (fun i rs =>
            a <- aget (mrows A) i ;; c <- aget rs i ;;
            c <- row_loop 0 (mwidth A) (fun k _ => aget a k) c ;; aset rs i c) (mrows C) ;;
    for_up 0 (mnrows B) (fun i C =>
      for_up 0 (mncols B) (fun j C =>
        b <- mzd_read_bit B i j ;; mzd_write_bit C i (j + mncols A) (if b then 1 else 0)%Z) C)
      (with_rows C rs).

(** mzd_stack(NULL, A, B), mzd.c lines 1705-1735 *)
Definition mzd_stack (A B : mzd) : res mzd :=
  if negb (Nat.eqb (mncols A) (mncols B)) then UB
  else
    let C := mzd_init (mnrows A + mnrows B) (mncols A) in
    rs <- for_up 0 (mnrows A) (fun i rs =>
            a <- aget (mrows A) i ;; c <- aget rs i ;;
            c <- row_loop 0 (mwidth A) (fun k _ => aget a k) c ;; aset rs i c) (mrows C) ;;
    rs <- for_up 0 (mnrows B) (fun i rs =>
            b <- aget (mrows B) i ;; c <- aget rs (mnrows A + i) ;;
            c <- row_loop 0 (mwidth B) (fun k _ => aget b k) c ;; aset rs (mnrows A + i) c) rs ;;
    Ok (with_rows C rs).

(** mzd_submatrix(NULL, M, startrow, startcol, endrow, endcol), mzd.c lines 1863-1903.  mzd_init
    with a negative size is the outcome UB. *)
Definition submatrix_row (M : mzd) (startcol ncols : nat) (mask : N) (x : nat) (row : list N)
  : res (list N) :=
  if Nat.eqb (startcol mod 64) 0 then
    let startword := startcol / 64 in
    row <- row_loop 0 (ncols / 64) (fun k _ => wget M x (startword + k)) row ;;
    if Nat.eqb (ncols mod 64) 0 then Ok row
    else
      temp <- wget M x (startword + ncols / 64) ;;
      aset row (ncols / 64) (N.land temp (left_bitmask (ncols mod 64)))
  else
    row <- row_loop 0 (ncols / 64) (fun k _ => mzd_read_bits M x (startcol + 64 * k) 64) row ;;
    let j := 64 * (ncols / 64) in
    w <- aget row (ncols / 64) ;;
    bits <- mzd_read_bits M x (startcol + j) (ncols - j) ;;
    aset row (ncols / 64) (N.lor (N.ldiff w mask) (N.land bits mask)).
Definition mzd_submatrix (M : mzd) (startrow startcol endrow endcol : nat) : res mzd :=
  if Nat.ltb endrow startrow || Nat.ltb endcol startcol then UB
  else
    let nrows := endrow - startrow in
    let ncols := endcol - startcol in
    let S := mzd_init nrows ncols in
    rs <- for_up 0 nrows (fun i rs =>
            row <- aget rs i ;;
            row <- submatrix_row M startcol ncols (high_bitmask S) (startrow + i) row ;;
            aset rs i row) (mrows S) ;;
    Ok (with_rows S rs).

(** mzd_invert_naive(NULL, A, I), mzd.c lines 1736-1753: None is NULL *)
Definition mzd_invert_naive (A I : mzd) : res (option mzd) :=
  H <- mzd_concat A I ;;
  ' (H, x) <- mzd_echelonize_naive H true ;;
  if Nat.eqb x 0 then Ok None
  else INV <- mzd_submatrix H 0 (mncols A) (mnrows A) (2 * mncols A) ;; Ok (Some INV).
