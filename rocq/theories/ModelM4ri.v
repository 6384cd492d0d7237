(** Model of the bit matrices of M4RI, as bundled in test/github1_M4RI, test/WBSM4/M4RI and
    test/WBAES/M4RI (src/m4ri and include/m4ri are the same files in the three directories).
    File names below are relative to test/github1_M4RI: mzd.h, misc.h and graycode.h are in
    include/m4ri, mzd.c, graycode.c, brilliantrussian.c and echelonform.c in src/m4ri.

    A matrix is its dimensions and its rows, each row a list of width = ceil(ncols / 64) 64-bit
    words; M->rows[i][j] outside that list is [UB].  Left out: the padding word at the end of
    wide rows, the division of the words into memory blocks (every row is a separate array
    here, so M->rows always points to the right words), the allocation caches and freeing.
    Windows are modelled by the functions that use them.  The code is the one compiled by the
    configuration of m4ri_config.h lines 104-131: no SSE2, no OpenMP, L2 and L3 caches of 262144.
    A row that is read while another one is written is loaded first: the two differ at every
    call. Loops that the source unrolls (by eight, Duff's device) are plain loops here. *)
From Coq Require Import Arith NArith ZArith List Bool.
From Verif Require Import Base.
Import ListNotations.
Local Open Scope nat_scope.

Record mzd := mkmzd { mnrows : nat; mncols : nat; mrows : list (list N) }.

Definition with_rows (M : mzd) (rs : list (list N)) : mzd := mkmzd (mnrows M) (mncols M) rs.

(** ** misc.h *)

(** m4ri_ffff, misc.h lines 149-153 *)
Definition ffff : N := N.ones 64.
(** x << n and x >> n on 64-bit words; a shift count of 64 or more is undefined *)
Definition shl (x : N) (n : nat) : res N :=
  if Nat.ltb n 64 then Ok (N.land (N.shiftl x (N.of_nat n)) ffff) else UB.
Definition shr (x : N) (n : nat) : res N :=
  if Nat.ltb n 64 then Ok (N.shiftr x (N.of_nat n)) else UB.

(** __M4RI_LEFT_BITMASK, misc.h line 271, for n <= 64 *)
Definition left_bitmask (n : nat) : N := N.shiftr ffff (N.of_nat ((64 - n) mod 64)).
(** __M4RI_RIGHT_BITMASK, misc.h line 296 *)
Definition right_bitmask (n : nat) : res N := shl ffff (64 - n).
(** __M4RI_GET_BIT, misc.h line 226 (spot < 64) *)
Definition get_bit (w : N) (spot : nat) : bool :=
  N.eqb (N.land (N.shiftr w (N.of_nat spot)) 1) 1.
(** __M4RI_WRITE_BIT, misc.h line 236 (spot < 64): value is an int, converted to a word and
    negated modulo 2^64 *)
Definition write_bit (w : N) (spot : nat) (value : Z) : N :=
  let one := N.shiftl 1 (N.of_nat spot) in
  N.lor (N.ldiff w one) (N.land (Z.to_N ((- value) mod 2 ^ 64)) one).

(** m4ri_lesser_LSB, misc.h lines 466-475; ia - 1 is taken modulo 2^64 *)
Definition lesser_LSB (a b : N) : bool :=
  negb (if N.eqb b 0 then N.eqb a 0
        else negb (N.eqb (N.land (N.lxor ((a + (2 ^ 64 - 1)) mod 2 ^ 64) a) b) 0)).

(** ** mzd.h and mzd.c: storage *)

(** M->width, mzd.c line 156 *)
Definition wwidth (c : nat) : nat := (c + 63) / 64.
Definition mwidth (M : mzd) : nat := wwidth (mncols M).
(** M->high_bitmask, mzd.c line 158 *)
Definition high_bitmask (M : mzd) : N := left_bitmask (mncols M mod 64).

(** mzd_init, mzd.c lines 149-194: the words are zero *)
Definition mzd_init (r c : nat) : mzd := mkmzd r c (repeat (repeat 0%N (wwidth c)) r).

(** M->rows[i][j] *)
Definition wget (M : mzd) (i j : nat) : res N := row <- aget (mrows M) i ;; aget row j.
Definition wset (M : mzd) (i j : nat) (x : N) : res mzd :=
  row <- aget (mrows M) i ;; row' <- aset row j x ;; rs <- aset (mrows M) i row' ;;
  Ok (with_rows M rs).

(** mzd_read_bit, mzd.h lines 568-570 *)
Definition mzd_read_bit (M : mzd) (row col : nat) : res bool :=
  w <- wget M row (col / 64) ;; Ok (get_bit w (col mod 64)).
(** mzd_write_bit, mzd.h lines 584-586 *)
Definition mzd_write_bit (M : mzd) (row col : nat) (value : Z) : res mzd :=
  w <- wget M row (col / 64) ;; wset M row (col / 64) (write_bit w (col mod 64) value).

(** mzd_read_bits, mzd.h lines 1021-1028: [n] bits of row x from column y; spill <= 0 iff spot + n
    <= 64 *)
Definition mzd_read_bits (M : mzd) (x y n : nat) : res N :=
  let spot := y mod 64 in
  let block := y / 64 in
  temp <- (if Nat.leb (spot + n) 64
           then w <- wget M x block ;; shl w (64 - (spot + n))
           else let spill := spot + n - 64 in
                hi <- wget M x (block + 1) ;; lo <- wget M x block ;;
                a <- shl hi (64 - spill) ;; b <- shr lo spill ;; Ok (N.lor a b)) ;;
  shr temp (64 - n).

(** The words of a row: row[i] = f i row[i] for lo <= i < hi *)
Definition row_loop (lo hi : nat) (f : nat -> N -> res N) (row : list N) : res (list N) :=
  for_up lo hi (fun i row => x <- aget row i ;; y <- f i x ;; aset row i y) row.

(** mzd_row_swap, mzd.h lines 381-413 (startblock = 0) *)
Definition mzd_row_swap (M : mzd) (rowa rowb : nat) : res mzd :=
  if Nat.eqb rowa rowb || Nat.eqb (mwidth M) 0 then Ok M
  else
    let w := mwidth M - 1 in
    a <- aget (mrows M) rowa ;; b <- aget (mrows M) rowb ;;
    a1 <- row_loop 0 w (fun i _ => aget b i) a ;;
    b1 <- row_loop 0 w (fun i _ => aget a i) b ;;
    x <- aget a1 w ;; y <- aget b1 w ;;
    let tmp := N.land (N.lxor x y) (high_bitmask M) in
    a2 <- aset a1 w (N.lxor x tmp) ;; b2 <- aset b1 w (N.lxor y tmp) ;;
    rs <- aset (mrows M) rowa a2 ;; rs <- aset rs rowb b2 ;; Ok (with_rows M rs).

(** mzd_row_add_offset, mzd.h lines 664-711 *)
Definition mzd_row_add_offset (M : mzd) (dstrow srcrow coloffset : nat) : res mzd :=
  let startblock := coloffset / 64 in
  let w := mwidth M in
  src <- aget (mrows M) srcrow ;; dst <- aget (mrows M) dstrow ;;
  mask_begin <- right_bitmask (64 - coloffset mod 64) ;;
  let mask_end := high_bitmask M in
  x <- aget dst startblock ;; y <- aget src startblock ;;
  dst <- aset dst startblock (N.lxor x (N.land y mask_begin)) ;;
  dst <- row_loop (startblock + 1) w (fun i x => y <- aget src i ;; Ok (N.lxor x y)) dst ;;
  x <- aget dst (w - 1) ;; y <- aget src (w - 1) ;;
  dst <- aset dst (w - 1) (N.lxor x (N.ldiff y mask_end)) ;;
  rs <- aset (mrows M) dstrow dst ;; Ok (with_rows M rs).

(** mzd_copy, mzd.c lines 1651-1673, of the words of P into the rows of N starting at word [off]
    (a window of N with 64 * off as first column; 0 for N itself).  The check of the sizes,
    lines 1658-1659, is left to the callers. *)
Definition mzd_copy_into (N0 : list (list N)) (off : nat) (pm : N) (nr w : nat) (P : list (list N))
  (poff : nat) : res (list (list N)) :=
  for_up 0 nr (fun i rs =>
    p <- aget P i ;; n <- aget rs i ;;
    n <- row_loop off (off + (w - 1)) (fun j _ => aget p (j - off + poff)) n ;;
    x <- aget n (off + (w - 1)) ;; y <- aget p (poff + (w - 1)) ;;
    n <- aset n (off + (w - 1)) (N.lor (N.ldiff x pm) (N.land y pm)) ;;
    aset rs i n) N0.
(** mzd_copy(NULL, P) *)
Definition mzd_copy (P : mzd) : res mzd :=
  let d := mzd_init (mnrows P) (mncols P) in
  rs <- mzd_copy_into (mrows d) 0 (high_bitmask P) (mnrows P) (mwidth P) (mrows P) 0 ;;
  Ok (with_rows d rs).

(** ** Gaussian elimination: mzd.c *)

(** mzd_gauss_delayed, mzd.c lines 308-333; the state is (M, startrow, pivots) *)
Definition gauss_step (full : bool) (i : nat) (st : mzd * nat * nat) : res (mzd * nat * nat) :=
  let '(M, startrow, pivots) := st in
  f <- find_up startrow (mnrows M) (fun j => mzd_read_bit M j i) ;;
  match f with
  | Some j =>
      M <- mzd_row_swap M startrow j ;;
      M <- for_up (if full then 0 else startrow + 1) (mnrows M) (fun ii M =>
             if Nat.eqb ii startrow then Ok M
             else b <- mzd_read_bit M ii i ;;
                  if b then mzd_row_add_offset M ii startrow i else Ok M) M ;;
      Ok (M, startrow + 1, pivots + 1)
  | None => Ok (M, startrow, pivots)
  end.
Definition mzd_gauss_delayed (M : mzd) (startcol : nat) (full : bool) : res (mzd * nat) :=
  ' (M', _, pivots) <- for_up startcol (mncols M) (gauss_step full) (M, startcol, 0) ;;
  Ok (M', pivots).
(** mzd_echelonize_naive, mzd.c lines 335-337 *)
Definition mzd_echelonize_naive (M : mzd) (full : bool) : res (mzd * nat) :=
  mzd_gauss_delayed M 0 full.

(** IsMatGf2Invertible, src/matrixlib/matrix_gf2.c lines 250-263; row and column nrows - 1 are
    out of range if nrows = 0 *)
Definition IsMatGf2Invertible (mat : mzd) : res bool :=
  if negb (Nat.eqb (mnrows mat) (mncols mat)) then Ok false
  else x <- mzd_copy mat ;;
       ' (x, _) <- mzd_echelonize_naive x false ;;
       if Nat.eqb (mnrows x) 0 then UB else mzd_read_bit x (mnrows x - 1) (mnrows x - 1).

(** ** graycode.c *)

(** m4ri_gray_code, graycode.c lines 31-40, for length <= 16 *)
Definition gray_code (number : N) (length : nat) : N :=
  match for_down length 0 (fun i '(lastbit, r) =>
          let bit := N.land number (N.shiftl 1 (N.of_nat i)) in
          Ok (bit, N.lor r (N.lxor (N.shiftr lastbit 1) bit))) (0%N, 0%N)
  with Ok (_, r) => r | UB => 0%N end.

(** m4ri_build_code, graycode.c lines 42-52, on arrays of 2^l ints (lines 62-63) *)
Definition build_code (l : nat) : res (list nat * list nat) :=
  ord <- for_up 0 (2 ^ l) (fun i ord => aset ord i (N.to_nat (gray_code (N.of_nat i) l)))
           (repeat 0 (2 ^ l)) ;;
  inc <- for_down (l + 1) 1 (fun i inc =>
           for_up 1 (2 ^ i + 1) (fun j inc => aset inc (j * 2 ^ (l - i) - 1) (l - i)) inc)
           (repeat 0 (2 ^ l)) ;;
  Ok (ord, inc).
(** m4ri_codebook[k], graycode.c lines 54-66: entries 1 to __M4RI_MAXKAY = 16 (graycode.h line 39)
    exist *)
Definition codebook (k : nat) : res (list nat * list nat) :=
  if Nat.leb 1 k && Nat.leb k 16 then build_code k else UB.

(** log2_floor, graycode.h lines 135-148, of a non-negative int: the position of the highest
    set bit, 0 for 0 *)
Definition log2_floor (v : nat) : nat := Nat.log2 v.
(** m4ri_opt_k, graycode.c lines 82-86: (int)(0.75 * x) for a small integer x is exact *)
Definition opt_k (a b : nat) : nat :=
  Nat.min 16 (Nat.max 1 (3 * (1 + log2_floor (Nat.min a b)) / 4)).

(** ** brilliantrussian.c *)

(** mzd_make_table, brilliantrussian.c lines 175-224: T and L are the rows of the table and the
    index array *)
Definition mzd_make_table (M : mzd) (r c k : nat) (TL : list (list N) * list nat)
  : res (list (list N) * list nat) :=
  let '(T, L) := TL in
  let homeblock := c / 64 in
  let mask_end := left_bitmask (mncols M mod 64) in
  pure_mask_begin <- right_bitmask (64 - c mod 64) ;;
  let w := mwidth M in
  let mask_begin := if Nat.eqb (w - homeblock) 1 then N.land pure_mask_begin mask_end
                    else pure_mask_begin in
  ' (ord, inc) <- codebook k ;;
  L <- aset L 0 0 ;;
  for_up 1 (2 ^ k) (fun i '(T, L) =>
    ti <- aget T i ;; ti1 <- aget T (i - 1) ;;
    d <- aget inc (i - 1) ;; id <- aget ord i ;;
    L <- aset L id i ;;
    if Nat.leb (mnrows M) (r + d) then Ok (T, L)
    else
      m <- aget (mrows M) (r + d) ;;
      x <- aget m homeblock ;; y <- aget ti1 homeblock ;;
      ti <- aset ti homeblock (N.land (N.lxor x y) mask_begin) ;;
      ti <- row_loop (homeblock + 1) (w - 1) (fun j _ =>
              x <- aget m j ;; y <- aget ti1 j ;; Ok (N.lxor x y)) ti ;;
      ti <- (if Nat.eqb (w - homeblock) 1 then Ok ti
             else x <- aget m (w - 1) ;; y <- aget ti1 (w - 1) ;;
                  aset ti (w - 1) (N.land (N.lxor x y) mask_end)) ;;
      T <- aset T i ti ;; Ok (T, L)) (T, L).

(** The number of bits each table covers: mzd_process_rows2, lines 362-363 and 777-778;
    mzd_process_rows3, lines 396-400 and 762-765; mzd_process_rows4, lines 438-443 and 745-749;
    mzd_process_rows5, lines 483-489 and 726-731; mzd_process_rows6, lines 535-542 and 704-710 *)
Definition splits (ntables k : nat) : list nat :=
  let part n rem := k / n + (if Nat.leb rem (k mod n) then 1 else 0) in
  match ntables with
  | 1 => [k]
  | 2 => [k / 2; k - k / 2]
  | 3 => [part 3 2; part 3 1; k / 3]
  | 4 => [part 4 3; part 4 2; part 4 1; k / 4]
  | 5 => [part 5 4; part 5 3; part 5 2; part 5 1; k / 5]
  | _ => [part 6 5; part 6 4; part 6 3; part 6 2; part 6 1; k / 6]
  end.

(** The rows x of the tables selected by [bits], in mzd_process_rows2 to mzd_process_rows6,
    e.g. lines 557-563, with the row index: x = L[bits & mask]; bits >>= k *)
Fixpoint table_rows (bits : N) (ks : list nat) (tables : list (list (list N) * list nat))
  : res (list (nat * list N)) :=
  match ks, tables with
  | k :: ks', (T, L) :: tables' =>
      x <- aget L (N.to_nat (N.land bits (left_bitmask k))) ;;
      t <- aget T x ;;
      bits' <- shr bits k ;;
      rest <- table_rows bits' ks' tables' ;;
      Ok ((x, t) :: rest)
  | _, _ => Ok []
  end.

(** _mzd_combine_N of xor_template.h, the loop without SSE2: m[i] ^= t0[i] ^ t1[i] ^ ... *)
Definition combine (lo hi : nat) (ts : list (list N)) (m : list N) : res (list N) :=
  row_loop lo hi (fun i x =>
    fold_left (fun acc t => a <- acc ;; y <- aget t i ;; Ok (N.lxor a y)) ts (Ok x)) m.

(** mzd_process_rows2 to mzd_process_rows6, lines 356-583, with 2 to 6 tables.  The rows of the
    tables are looked up before the test that all the indices are 0 here. *)
Definition process_rows_n (M : mzd) (startrow stoprow startcol k : nat)
  (tables : list (list (list N) * list nat)) : res mzd :=
  let blocknum := startcol / 64 in
  for_up startrow stoprow (fun r M =>
    bits <- mzd_read_bits M r startcol k ;;
    ts <- table_rows bits (splits (length tables) k) tables ;;
    if forallb (fun xt => Nat.eqb (fst xt) 0) ts then Ok M
    else m <- aget (mrows M) r ;;
         m <- combine blocknum (mwidth M) (map snd ts) m ;;
         rs <- aset (mrows M) r m ;; Ok (with_rows M rs)) M.

(** Lines 285-303, 309-351: row r ^= T->rows[L[bits]] *)
Definition process_row_1 (M : mzd) (r startcol k : nat) (T : list (list N)) (L : list nat) : res mzd :=
  bits <- mzd_read_bits M r startcol k ;;
  x <- aget L (N.to_nat bits) ;;
  m <- aget (mrows M) r ;; t <- aget T x ;;
  m <- combine (startcol / 64) (mwidth M) [t] m ;;
  rs <- aset (mrows M) r m ;; Ok (with_rows M rs).

(** mzd_process_rows, lines 226-354.  With k = 1 the rows are taken in pairs and tested with a
    bit mask, lines 236-282; a last single row uses the index array.  With k > 1 pairs and the
    last row are treated alike, lines 309-351. *)
Definition mzd_process_rows (M : mzd) (startrow stoprow startcol k : nat)
  (TL : list (list N) * list nat) : res mzd :=
  let '(T, L) := TL in
  let block := startcol / 64 in
  if Nat.eqb k 1 then
    bm <- shl 1 (startcol mod 64) ;;
    let mid := startrow + 2 * ((stoprow - startrow) / 2) in
    M <- for_up startrow mid (fun r M =>
           b <- wget M r block ;;
           if N.eqb (N.land b bm) 0 then Ok M
           else m <- aget (mrows M) r ;; t <- aget T 1 ;;
                m <- combine block (mwidth M) [t] m ;;
                rs <- aset (mrows M) r m ;; Ok (with_rows M rs)) M ;;
    for_up mid stoprow (fun r M => process_row_1 M r startcol k T L) M
  else for_up startrow stoprow (fun r M => process_row_1 M r startcol k T L) M.

(** _mzd_gauss_submatrix_full, lines 48-84.  The search for a pivot in column j among rows
    start_row to end_row - 1, lines 54-76; [inr] when one was found *)
Definition gauss_sub_col (r c j start_row end_row : nat) (M : mzd) : res (mzd + mzd) :=
  for_ret start_row end_row (fun i M =>
    tmp <- mzd_read_bits M i c (j - c + 1) ;;
    if N.eqb tmp 0 then Ok (inl M)
    else
      M <- for_up 0 (j - c) (fun l M =>
             if get_bit tmp l then mzd_row_add_offset M i (r + l) (c + l) else Ok M) M ;;
      b <- mzd_read_bit M i j ;;
      if b then
        M <- mzd_row_swap M i start_row ;;
        M <- for_up r start_row (fun l M =>
               b <- mzd_read_bit M l j ;;
               if b then mzd_row_add_offset M l start_row j else Ok M) M ;;
        Ok (inr M)
      else Ok (inl M)) M.
(** The loop over the columns, lines 52-80, with its early exit ([inr (M, j - c)]);
    start_row = r + (j - c) *)
Definition gauss_submatrix_full (M : mzd) (r c end_row k : nat) : res (mzd * nat) :=
  x <- for_ret c (c + k) (fun j M =>
         y <- gauss_sub_col r c j (r + (j - c)) end_row M ;;
         match y with inr M => Ok (inl M) | inl M => Ok (inr (M, j - c)) end) M ;;
  match x with inl M => Ok (M, k) | inr p => Ok p end.

(** mzd_find_pivot, mzd.c lines 2032-2148.  A loop over the rows that keeps the row whose data
    has the lowest set bit; [stop] is the test that ends it early *)
Definition pivot_scan (M : mzd) (start_row : nat) (read : nat -> res N) (stop : N -> bool)
  : res (nat * N) :=
  x <- for_ret start_row (mnrows M) (fun i '(cand, data) =>
         curr <- read i ;;
         if lesser_LSB curr data
         then if stop curr then Ok (inr (i, curr)) else Ok (inl (i, curr))
         else Ok (inl (cand, data))) (0, 0%N) ;;
  match x with inl p => Ok p | inr p => Ok p end.
(** for (l = 0; l < len; ++l) if (GET_BIT(data, l)) { *c = base + l; break; } -- if no bit is
    found *c keeps its value, which the caller has not initialised: [UB] *)
Definition pivot_col (data : N) (len base : nat) : res nat :=
  f <- find_up 0 len (fun l => Ok (get_bit data l)) ;;
  match f with Some l => Ok (base + l) | None => UB end.
Definition mzd_find_pivot (M : mzd) (start_row start_col : nat) : res (option (nat * nat)) :=
  let ncols := mncols M in
  if Nat.ltb (ncols - start_col) 64 then
    if Nat.ltb start_col ncols then
      let length := ncols - start_col in
      ' (i, data) <- pivot_scan M start_row (fun i => mzd_read_bits M i start_col length)
                       (fun _ => false) ;;
      if N.eqb data 0 then Ok None
      else c <- pivot_col data length start_col ;; Ok (Some (i, c))
    else Ok None
  else
    let bit_offset := start_col mod 64 in
    let word_offset := start_col / 64 in
    mask_begin <- right_bitmask (64 - bit_offset) ;;
    ' (i, data) <- pivot_scan M start_row (fun i =>
                     w <- wget M i word_offset ;; Ok (N.land w mask_begin))
                     (fun d => get_bit d bit_offset) ;;
    if negb (N.eqb data 0) then
      data <- shr data bit_offset ;;
      c <- pivot_col data (64 - bit_offset) start_col ;; Ok (Some (i, c))
    else
      x <- for_ret (word_offset + 1) (mwidth M - 1) (fun wi _ =>
             ' (i, data) <- pivot_scan M start_row (fun i => wget M i wi) (fun d => get_bit d 0) ;;
             if N.eqb data 0 then Ok (inl tt)
             else c <- pivot_col data 64 (wi * 64) ;; Ok (inr (i, c))) tt ;;
      match x with
      | inr p => Ok (Some p)
      | inl _ =>
          let end_offset := if Nat.eqb (ncols mod 64) 0 then 64 else ncols mod 64 in
          let mask_end := left_bitmask (end_offset mod 64) in
          let wi := mwidth M - 1 in
          ' (i, data) <- pivot_scan M start_row (fun i =>
                           w <- wget M i wi ;; Ok (N.land w mask_end)) (fun d => get_bit d 0) ;;
          if N.eqb data 0 then Ok None
          else c <- pivot_col data end_offset (wi * 64) ;; Ok (Some (i, c))
      end.

(** The tables of one iteration of _mzd_echelonize_m4ri, e.g. lines 712-719: table z covers the
    rows from r + the sizes of the earlier ones *)
Fixpoint make_tables (M : mzd) (r c : nat) (ks : list nat) (TLs : list (list (list N) * list nat))
  : res (list (list (list N) * list nat)) :=
  match ks, TLs with
  | k :: ks', TL :: TLs' =>
      TL <- mzd_make_table M r c k TL ;;
      rest <- make_tables M (r + k) c ks' TLs' ;;
      Ok (TL :: rest)
  | _, _ => Ok TLs
  end.

(** The number of tables: kbar > 5 * k, kbar > 4 * k, ..., lines 703, 725, 744, 761, 776 *)
Definition ntables (k kbar : nat) : nat :=
  if Nat.ltb (5 * k) kbar then 6 else if Nat.ltb (4 * k) kbar then 5
  else if Nat.ltb (3 * k) kbar then 4 else if Nat.ltb (2 * k) kbar then 3
  else if Nat.ltb k kbar then 2 else 1.

(** mzd_process_rows or mzd_process_rows2 to 6 *)
Definition process_rows (M : mzd) (startrow stoprow startcol k : nat)
  (tables : list (list (list N) * list nat)) : res mzd :=
  match tables with
  | [TL] => mzd_process_rows M startrow stoprow startcol k TL
  | _ => process_rows_n M startrow stoprow startcol k tables
  end.

(** k of _mzd_echelonize_m4ri, lines 624-630: 0.75 * 2^k * ncols > 262144 / 2.0 *)
Definition echelon_k (M : mzd) (k : nat) : nat :=
  if Nat.eqb k 0 then
    let k := opt_k (mnrows M) (mncols M) in
    let k := if Nat.leb 7 k then 7 else k in
    if N.ltb (4 * 131072) (3 * 2 ^ N.of_nat k * N.of_nat (mncols M)) then k - 1 else k
  else k.

(** The while loop of _mzd_echelonize_m4ri, lines 672-815, with full = TRUE and heuristic = 0.
    T0 to T5 and L0 to L5 are six pairs here.  [fuel] bounds the number of iterations; running
    out of it is reported as [UB]. *)
Fixpoint echelon_loop (fuel k : nat) (M : mzd) (TLs : list (list (list N) * list nat))
  (kk r c : nat) : res (mzd * nat) :=
  match fuel with
  | O => UB
  | S fuel' =>
      if negb (Nat.ltb c (mncols M)) then Ok (M, r)
      else
        let kk := if Nat.ltb (mncols M) (c + kk) then mncols M - c else kk in
        ' (M, kbar) <- gauss_submatrix_full M r c (mnrows M) kk ;;
        ' (M, TLs) <-
          (if Nat.eqb kbar 0 then Ok (M, TLs)
           else
             let nt := ntables k kbar in
             ts <- make_tables M r c (splits nt kbar) (firstn nt TLs) ;;
             M <- (if Nat.eqb kbar kk then process_rows M (r + kbar) (mnrows M) c kbar ts else Ok M) ;;
             M <- process_rows M 0 r c kbar ts ;;
             Ok (M, ts ++ skipn nt TLs)) ;;
        let r := r + kbar in
        let c := c + kbar in
        if Nat.eqb kk kbar then echelon_loop fuel' k M TLs kk r c
        else
          p <- mzd_find_pivot M r c ;;
          match p with
          | Some (rbar, cbar) => M <- mzd_row_swap M r rbar ;; echelon_loop fuel' k M TLs kk r cbar
          | None => Ok (M, r)
          end
  end.
(** mzd_echelonize_m4ri(A, TRUE, k), echelonform.c lines 34-36, and the start of
    _mzd_echelonize_m4ri, lines 622-659: six zero tables of 2^k rows *)
Definition mzd_echelonize_m4ri (M : mzd) (k : nat) : res (mzd * nat) :=
  let k := echelon_k M k in
  let TL := (mrows (mzd_init (2 ^ k) (mncols M)), repeat 0 (2 ^ k)) in
  echelon_loop (2 * mncols M + 2) k M (repeat TL 6) (6 * k) 0 0.

(** mzd_set_ui(A, 1) on the window of rows [rs] starting at word [off], [nr] x [nc], mzd.c lines
    1578-1599 *)
Definition set_ui_one (rs : list (list N)) (off nr nc : nat) : res (list (list N)) :=
  let w := wwidth nc in
  rs <- for_up 0 nr (fun i rs =>
          row <- aget rs i ;;
          row <- row_loop off (off + (w - 1)) (fun _ _ => Ok 0%N) row ;;
          x <- aget row (off + (w - 1)) ;;
          row <- aset row (off + (w - 1)) (N.ldiff x (left_bitmask (nc mod 64))) ;;
          aset rs i row) rs ;;
  for_up 0 (Nat.min nr nc) (fun i rs =>
    row <- aget rs i ;; x <- aget row (off + i / 64) ;;
    row <- aset row (off + i / 64) (write_bit x (i mod 64) 1) ;; aset rs i row) rs.

(** mzd_inv_m4ri(NULL, A, k), brilliantrussian.c lines 969-995; assert is taken to be active
    (lines 970): a matrix that is not square is [UB].  k is not used. *)
Definition mzd_inv_m4ri (A : mzd) : res mzd :=
  if negb (Nat.eqb (mnrows A) (mncols A)) then UB
  else
    let n := mnrows A in
    let nr := 64 * mwidth A in
    let C := mzd_init n (2 * nr) in
    rs <- mzd_copy_into (mrows C) 0 (high_bitmask A) n (mwidth A) (mrows A) 0 ;;
    rs <- set_ui_one rs (mwidth A) n n ;;
    ' (C, _) <- mzd_echelonize_m4ri (with_rows C rs) 0 ;;
    let B := mzd_init n n in
    rs <- mzd_copy_into (mrows B) 0 (high_bitmask A) n (mwidth A) (mrows C) (mwidth A) ;;
    Ok (with_rows B rs).
