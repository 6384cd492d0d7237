(** Memory management of M4RI: the cache of memory blocks, the cache of matrix headers, and the
    layout of matrices and windows.  File names are relative to /repo/test/github1_M4RI; the same
    files are in WBSM4/M4RI and WBAES/M4RI.

    Common simplifications.
    - Addresses and sizes are integers (bytes), the null pointer is 0.  A pointer to an element of
      another array is computed and compared like an address.
    - The system's allocator is a function that gives an address for the n-th request, depending
      on the regions that are in use; it does not fail.  What it must satisfy is a hypothesis of
      the theorems (SpecMem.v).
    - One thread (the OpenMP directives are not modelled). *)
From Coq Require Import Arith ZArith List Bool.
From Verif Require Import Base.
Import ListNotations.
Open Scope Z_scope.

(** a value of type int; overflow is undefined *)
Definition cint (z : Z) : res Z := if ((- 2 ^ 31 <=? z) && (z <? 2 ^ 31))%bool then Ok z else UB.

(** ** The system's memory *)

(** the regions in use (address, size) and the number of requests so far *)
Record heap := mkheap { hreg : list (Z * Z); hcnt : nat }.
Definition allocator := nat -> list (Z * Z) -> Z -> Z.

(** m4ri_mm_malloc and m4ri_mm_malloc_aligned, include/m4ri/misc.h lines 653-670 and 682-699 *)
Definition mm_malloc (al : allocator) (size : Z) (h : heap) : Z * heap :=
  let p := al (hcnt h) (hreg h) size in (p, mkheap ((p, size) :: hreg h) (S (hcnt h))).
(** m4ri_mm_free, misc.h lines 709-719: undefined unless the address is null or that of a region in use *)
Fixpoint reg_remove (p : Z) (l : list (Z * Z)) : option (list (Z * Z)) :=
  match l with
  | [] => None
  | (q, s) :: l => if q =? p then Some l else
      match reg_remove p l with Some l' => Some ((q, s) :: l') | None => None end
  end.
Definition mm_free (p : Z) (h : heap) : res heap :=
  if p =? 0 then Ok h else
  match reg_remove p (hreg h) with Some l => Ok (mkheap l (hcnt h)) | None => UB end.

(** ** The cache of memory blocks, src/m4ri/mmc.c *)

(** mmb_t, include/m4ri/mmc.h lines 52-63 *)
Record mmb := mkmmb { bsize : Z; bdata : Z }.
(** m4ri_mmc_cache (line 33), the static j of m4ri_mmc_free (line 92), and the system's memory *)
Record mmst := mkmmst { mslots : list mmb; mj : nat; mheap : heap }.
(** __M4RI_MMC_NBLOCKS, mmc.h line 42 *)
Definition NBLOCKS : nat := 16.
(** the state at the start: static variables are zero *)
Definition mm_start (h : heap) : mmst := mkmmst (repeat (mkmmb 0 0) NBLOCKS) 0 h.

(** the first of n slots, from i, whose size is the given one: the loops of lines 55-62 and 95-101 *)
Fixpoint find_slot (n i : nat) (slots : list mmb) (size : Z) : res (option nat) :=
  match n with
  | O => Ok None
  | S n => b <- aget slots i ;; if bsize b =? size then Ok (Some i) else find_slot n (S i) slots size
  end.

(** m4ri_mmc_malloc, lines 44-77; thr is __M4RI_MMC_THRESHOLD, the size of the processor's L3 cache *)
Definition mmc_malloc (al : allocator) (thr size : Z) (st : mmst) : res (Z * mmst) :=
  ' (ret, slots) <-
    (if size <=? thr then
       o <- find_slot NBLOCKS 0 (mslots st) size ;;
       match o with
       | Some i => b <- aget (mslots st) i ;; slots <- aset (mslots st) i (mkmmb 0 0) ;; Ok (bdata b, slots)
       | None => Ok (0, mslots st)
       end
     else Ok (0, mslots st)) ;;
  if ret =? 0 then
    let '(p, h) := mm_malloc al size (mheap st) in Ok (p, mkmmst slots (mj st) h)
  else Ok (ret, mkmmst slots (mj st) (mheap st)).

(** m4ri_mmc_free, lines 85-117 *)
Definition mmc_free (thr condemned size : Z) (st : mmst) : res mmst :=
  if size <? thr then
    o <- find_slot NBLOCKS 0 (mslots st) 0 ;;
    match o with
    | Some i => slots <- aset (mslots st) i (mkmmb size condemned) ;; Ok (mkmmst slots (mj st) (mheap st))
    | None =>
        b <- aget (mslots st) (mj st) ;; h <- mm_free (bdata b) (mheap st) ;;
        slots <- aset (mslots st) (mj st) (mkmmb size condemned) ;;
        Ok (mkmmst slots ((mj st + 1) mod NBLOCKS)%nat h)
    end
  else h <- mm_free condemned (mheap st) ;; Ok (mkmmst (mslots st) (mj st) h).

(** m4ri_mmc_cleanup, lines 127-144 *)
Definition mmc_cleanup (st : mmst) : res mmst :=
  for_up 0 NBLOCKS (fun i st =>
    b <- aget (mslots st) i ;;
    h <- (if bsize b =? 0 then Ok (mheap st) else mm_free (bdata b) (mheap st)) ;;
    slots <- aset (mslots st) i (mkmmb 0 (bdata b)) ;;
    Ok (mkmmst slots (mj st) h)) st.

(** m4ri_mmc_calloc, mmc.h lines 73-78; the contents are not part of this model *)
Definition mmc_calloc (al : allocator) (thr count size : Z) (st : mmst) : res (Z * mmst) :=
  mmc_malloc al thr (count * size) st.

(** ** The cache of matrix headers, src/m4ri/mzd.c *)

(** mzd_t_cache_t, lines 41-51, without the 64 headers it begins with: prev, next, used *)
Record cblk := mkcblk { cprev : Z; cnext : Z; cused : N }.
(** the cache blocks in use by their addresses, current_cache (line 55), and the system's memory *)
Record hst := mkhst { hblk : list (Z * cblk); hcur : Z; hheap : heap }.
(** sizeof(mzd_t) and sizeof(mzd_t_cache_t) *)
Definition HSIZE : Z := 64.
Definition CSIZE : Z := 4160.
(** __M4RI_MZD_T_CACHE_MAX, line 53 *)
Definition CMAX : nat := 16.
(** the state at the start: mzd_cache (line 54) at the address s0, and no others *)
Definition h_start (s0 : Z) (h : heap) : hst := mkhst [(s0, mkcblk 0 0 0)] s0 h.

(** access to a cache block; undefined if there is none at the address *)
Fixpoint cget (l : list (Z * cblk)) (p : Z) : res cblk :=
  match l with
  | [] => UB
  | (q, b) :: l => if q =? p then Ok b else cget l p
  end.
Fixpoint cset (l : list (Z * cblk)) (p : Z) (b : cblk) : res (list (Z * cblk)) :=
  match l with
  | [] => UB
  | (q, b0) :: l => if q =? p then Ok ((q, b) :: l) else l' <- cset l p b ;; Ok ((q, b0) :: l')
  end.
Fixpoint cremove (l : list (Z * cblk)) (p : Z) : list (Z * cblk) :=
  match l with
  | [] => []
  | (q, b) :: l => if q =? p then l else (q, b) :: cremove l p
  end.

(** log2_floor, lines 57-70 *)
Definition lf_b : list N := [2; 12; 240; 65280; 4294901760; 18446744069414584320]%N.
Definition lf_S : list N := [1; 2; 4; 8; 16; 32]%N.
Definition log2_floor (v : N) : res N :=
  ' (_, r) <- for_down 6 0 (fun i st => let '(v, r) := st in
    b <- aget lf_b i ;; s <- aget lf_S i ;;
    Ok (if N.eqb (N.land v b) 0 then (v, r) else (N.shiftr v s, N.lor r s))) (v, 0%N) ;;
  Ok r.

Definition ones64 : N := N.ones 64.
(** the loop of lines 87-91: current_cache, cache and i afterwards.  It is left after at most as many rounds
    as there are cache blocks; more mean that the list of blocks is circular, which is UB here. *)
Fixpoint walk_full (fuel : nat) (l : list (Z * cblk)) (cur cache : Z) (i : nat) : res (Z * Z * nat) :=
  match fuel with
  | O => UB
  | S fuel =>
      if cache =? 0 then Ok (cur, cache, i) else
      b <- cget l cache ;;
      if N.eqb (cused b) ones64 then walk_full fuel l cache (cnext b) (S i) else Ok (cur, cache, i)
  end.

(** mzd_t_malloc, lines 78-113; s0 is the address of mzd_cache *)
Definition mzd_t_malloc (al : allocator) (s0 : Z) (st : hst) : res (Z * hst) :=
  c <- cget (hblk st) (hcur st) ;;
  ' (ret, st) <-
    (if N.eqb (cused c) ones64 then
       ' (cur, cache, i) <- walk_full (S (length (hblk st))) (hblk st) (hcur st) s0 0 ;;
       if cache =? 0 then
         if (i <? CMAX)%nat then
           let '(p, h) := mm_malloc al CSIZE (hheap st) in
           c <- cget (hblk st) cur ;;
           l <- cset (hblk st) cur (mkcblk (cprev c) p (cused c)) ;;
           Ok (0, mkhst ((p, mkcblk cur 0 0) :: l) p h)
         else
           let '(p, h) := mm_malloc al HSIZE (hheap st) in Ok (p, mkhst (hblk st) cur h)
       else Ok (0, mkhst (hblk st) cache (hheap st))
     else Ok (0, st)) ;;
  if ret =? 0 then
    c <- cget (hblk st) (hcur st) ;;
    free_entry <- log2_floor (N.lxor (cused c) ones64) ;;
    l <- cset (hblk st) (hcur st) (mkcblk (cprev c) (cnext c) (N.lor (cused c) (N.shiftl 1 free_entry))) ;;
    Ok (hcur st + HSIZE * Z.of_N free_entry, mkhst l (hcur st) (hheap st))
  else Ok (ret, st).

(** mzd_t_free, lines 115-147; entry is the difference of two pointers, converted to size_t, which makes
    a negative one more than 2^63: the comparison of line 123 is also false then.  The loop has at most as
    many rounds as there are cache blocks, see walk_full. *)
Fixpoint free_walk (fuel : nat) (s0 M : Z) (cache : Z) (st : hst) : res hst :=
  match fuel with
  | O => UB
  | S fuel =>
      if cache =? 0 then h <- mm_free M (hheap st) ;; Ok (mkhst (hblk st) (hcur st) h) else
      b <- cget (hblk st) cache ;;
      let entry := (M - cache) / HSIZE in
      if ((0 <=? entry) && (entry <? 64))%bool then
        let used := N.ldiff (cused b) (N.shiftl 1 (Z.to_N entry)) in
        l <- cset (hblk st) cache (mkcblk (cprev b) (cnext b) used) ;;
        if N.eqb used 0 then
          if cache =? s0 then Ok (mkhst l cache (hheap st)) else
          let cur := if cache =? hcur st then cprev b else hcur st in
          p <- cget l (cprev b) ;;
          l <- cset l (cprev b) (mkcblk (cprev p) (cnext b) (cused p)) ;;
          l <- (if cnext b =? 0 then Ok l else
                n <- cget l (cnext b) ;; cset l (cnext b) (mkcblk (cprev b) (cnext n) (cused n))) ;;
          h <- mm_free cache (hheap st) ;;
          Ok (mkhst (cremove l cache) cur h)
        else Ok (mkhst l (hcur st) (hheap st))
      else free_walk fuel s0 M (cnext b) st
  end.
Definition mzd_t_free (s0 M : Z) (st : hst) : res hst := free_walk (S (length (hblk st))) s0 M s0 st.

(** ** Matrices: mzd_init, mzd_free, mzd_init_window, and the layout *)

(** both caches share the system's memory *)
Record gst := mkgst { gslots : list mmb; gj : nat; gblk : list (Z * cblk); gcur : Z; gheap : heap }.
Definition g_start (s0 : Z) (h : heap) : gst := mkgst (repeat (mkmmb 0 0) NBLOCKS) 0 [(s0, mkcblk 0 0 0)] s0 h.
Definition on_mm {A} (f : mmst -> res (A * mmst)) (g : gst) : res (A * gst) :=
  ' (a, m) <- f (mkmmst (gslots g) (gj g) (gheap g)) ;; Ok (a, mkgst (mslots m) (mj m) (gblk g) (gcur g) (mheap m)).
Definition on_mm_free (f : mmst -> res mmst) (g : gst) : res gst :=
  m <- f (mkmmst (gslots g) (gj g) (gheap g)) ;; Ok (mkgst (mslots m) (mj m) (gblk g) (gcur g) (mheap m)).
Definition on_h {A} (f : hst -> res (A * hst)) (g : gst) : res (A * gst) :=
  ' (a, m) <- f (mkhst (gblk g) (gcur g) (gheap g)) ;; Ok (a, mkgst (gslots g) (gj g) (hblk m) (hcur m) (hheap m)).
Definition on_h_free (f : hst -> res hst) (g : gst) : res gst :=
  m <- f (mkhst (gblk g) (gcur g) (gheap g)) ;; Ok (mkgst (gslots g) (gj g) (hblk m) (hcur m) (hheap m)).

(** mzd_t, include/m4ri/mzd.h lines 86-139, with its own address.  The arrays blocks and rows are kept with
    their contents; as the contents are not changed after creation, a window can keep a copy of them.
    high_bitmask is part of ModelM4ri.v. *)
Record mblk := mkmblk { ksize : Z; kbegin : Z }.
Record mhdr := mkmhdr {
  m_addr : Z; m_nrows : Z; m_ncols : Z; m_width : Z; m_rowstride : Z; m_offset : Z; m_rowoff : Z;
  m_flags : N; m_blog : nat;
  m_blocks : Z; m_blocksv : list mblk; m_rows : Z; m_rowsv : list Z }.
(** the flags, mzd.h lines 150-174 *)
Definition fl_nonzero_excess : N := 2.
Definition fl_zerooffset : N := 4.
Definition fl_zeroexcess : N := 8.
Definition fl_ownsblocks : N := 16.
Definition fl_multiple : N := 32.
(** __M4RI_MAX_MZD_BLOCKSIZE, mzd.h line 58, in words *)
Definition MAXBLOCK : Z := 2 ^ 27.
(** sizeof(word), sizeof(word* ) and sizeof(mzd_block_t) *)
Definition WSIZE : Z := 8.
Definition BSIZE : Z := 24.

(** lines 166-169: the loop of line 168 ends because blockrows, less than 2^28, gets smaller *)
Fixpoint halvings (fuel : nat) (b : Z) (log : nat) : nat :=
  match fuel with
  | O => log
  | S fuel => if (b / 2 =? 0) then log else halvings fuel (b / 2) (S log)
  end.

(** lines 178-183, from the last block to the first *)
Fixpoint alloc_blocks (al : allocator) (thr : Z) (n : nat) (block_words full : Z) (acc : list mblk) (g : gst)
  : res (list mblk * gst) :=
  match n with
  | O => Ok (acc, g)
  | S n =>
      ' (p, g) <- on_mm (mmc_calloc al thr 1 (block_words * WSIZE)) g ;;
      alloc_blocks al thr n full full (mkmblk (block_words * WSIZE) p :: acc) g
  end.

(** mzd_init, lines 149-194 *)
Definition mzd_init (al : allocator) (thr s0 r c : Z) (g : gst) : res (mhdr * gst) :=
  ' (a, g) <- on_h (mzd_t_malloc al s0) g ;;
  c63 <- cint (c + 63) ;;
  let width := c63 / 64 in
  let rowstride := if ((width <? 1) || (width mod 2 =? 0))%bool then width else width + 1 in
  let flags := if (c mod 64 =? 0) then 0%N else fl_nonzero_excess in
  r1 <- cint (r + 1) ;;
  ' (rows, g) <- on_mm (mmc_calloc al thr r1 WSIZE) g ;;
  if ((r =? 0) || (c =? 0))%bool then
    Ok (mkmhdr a r c width rowstride 0 0 flags 0 0 [] rows (repeat 0 (Z.to_nat r)), g)
  else
    let log := halvings 28 (MAXBLOCK / rowstride) 0 in
    let blockrows := 2 ^ Z.of_nat log in
    s <- cint (r + blockrows) ;; s <- cint (s - 1) ;;
    let nblocks := s / blockrows in
    let flags := if 1 <? nblocks then N.lor flags fl_multiple else flags in
    ' (blocks, g) <- on_mm (mmc_calloc al thr (nblocks + 1) BSIZE) g ;;
    lastw <- cint ((r - (nblocks - 1) * blockrows) * rowstride) ;;
    full <- cint (blockrows * rowstride) ;;
    ' (bv, g) <- alloc_blocks al thr (Z.to_nat nblocks) lastw full [] g ;;
    let bv := bv ++ [mkmblk 0 0] in
    rv <- for_up 0 (Z.to_nat r) (fun i rv =>
      b <- aget bv (Z.to_nat (Z.of_nat i / blockrows)) ;;
      Ok (rv ++ [kbegin b + WSIZE * ((Z.of_nat i mod blockrows) * rowstride)])) [] ;;
    Ok (mkmhdr a r c width rowstride 0 0 flags log blocks bv rows rv, g).

(** mzd_owns_blocks, mzd.h lines 183 and 192-194 *)
Definition owns_blocks (M : mhdr) : bool :=
  (negb (m_blocks M =? 0) && (N.eqb (N.land (m_flags M) fl_zerooffset) 0 || negb (N.eqb (N.land (m_flags M) fl_ownsblocks) 0)))%bool.

(** the loop of lines 276-278: i, and the state.  The array ends with an element of size 0. *)
Fixpoint free_blocks (thr : Z) (l : list mblk) (i : Z) (g : gst) : res (Z * gst) :=
  match l with
  | [] => UB
  | b :: l => if ksize b =? 0 then Ok (i, g) else
      g <- on_mm_free (mmc_free thr (kbegin b) (ksize b)) g ;; free_blocks thr l (i + 1) g
  end.
(** mzd_free, lines 271-282 *)
Definition mzd_free (thr s0 : Z) (M : mhdr) (g : gst) : res gst :=
  g <- (if m_rows M =? 0 then Ok g else on_mm_free (mmc_free thr (m_rows M) ((m_nrows M + 1) * WSIZE)) g) ;;
  g <- (if owns_blocks M then
          ' (i, g) <- free_blocks thr (m_blocksv M) 0 g ;;
          on_mm_free (mmc_free thr (m_blocks M) ((i + 1) * BSIZE)) g
        else Ok g) ;;
  on_h_free (mzd_t_free s0 (m_addr M)) g.

(** blockrows_log is not set in a matrix without rows or columns (mzd.c line 165), where blocks is null;
    reading it is undefined *)
Definition blog (M : mhdr) : res nat := if m_blocks M =? 0 then UB else Ok (m_blog M).
(** mzd_row_to_block, mzd.h line 234: >> of a negative number rounds down *)
Definition row_to_block (M : mhdr) (row : Z) : res Z :=
  s <- cint (m_rowoff M + row) ;; log <- blog M ;; Ok (s / 2 ^ Z.of_nat log).

(** mzd_init_window, lines 229-269.  The assertions are not modelled. *)
Definition mzd_init_window (al : allocator) (thr s0 : Z) (M : mhdr) (lowr lowc highr highc : Z) (g : gst)
  : res (mhdr * gst) :=
  ' (a, g) <- on_h (mzd_t_malloc al s0) g ;;
  let nrows := Z.min (highr - lowr) (m_nrows M - lowr) in
  let ncols := highc - lowc in
  c63 <- cint (ncols + 63) ;;
  let width := c63 / 64 in
  let flags := N.lor fl_zerooffset (if ncols mod 64 =? 0 then fl_zeroexcess else fl_nonzero_excess) in
  log <- blog M ;;
  let br := 2 ^ Z.of_nat log in
  s <- cint (m_rowoff M + lowr) ;;
  let skipped := s / br in
  let row_offset := s mod br in
  let wrd_offset := lowc / 64 in
  d <- cint ((row_offset - m_rowoff M) * m_rowstride M) ;;
  o <- cint (m_offset M + wrd_offset) ;; offset <- cint (o + d) ;;
  ' (rows, g) <- (if nrows =? 0 then Ok (0, g) else
                  n1 <- cint (nrows + 1) ;; on_mm (mmc_calloc al thr n1 WSIZE) g) ;;
  rv <- for_up 0 (Z.to_nat nrows) (fun i rv =>
    p <- aget (m_rowsv M) (Z.to_nat lowr + i) ;; Ok (rv ++ [p + WSIZE * wrd_offset])) [] ;;
  let W := mkmhdr a nrows ncols width (m_rowstride M) offset row_offset flags log
             (m_blocks M + BSIZE * skipped) (skipn (Z.to_nat skipped) (m_blocksv M)) rows rv in
  k <- row_to_block W (nrows - 1) ;;
  Ok (mkmhdr a nrows ncols width (m_rowstride M) offset row_offset
        (if 0 <? k then N.lor flags (N.land (m_flags M) fl_multiple) else flags) log
        (m_blocks M + BSIZE * skipped) (skipn (Z.to_nat skipped) (m_blocksv M)) rows rv, g).

(** mzd_first_row, mzd.h lines 204-208 *)
Definition first_row (M : mhdr) : res Z :=
  b <- aget (m_blocksv M) 0 ;; Ok (kbegin b + WSIZE * m_offset M).
(** mzd_first_row_next_block, mzd.h lines 220-223 *)
Definition first_row_next_block (M : mhdr) (n : Z) : res Z :=
  b <- aget (m_blocksv M) (Z.to_nat n) ;;
  d <- cint (m_rowoff M * m_rowstride M) ;; Ok (kbegin b + WSIZE * m_offset M - WSIZE * d).
(** mzd_row, mzd.h lines 299-308 *)
Definition mzd_row (M : mhdr) (row : Z) : res Z :=
  d <- cint (row * m_rowstride M) ;; big <- cint (m_offset M + d) ;;
  b0 <- aget (m_blocksv M) 0 ;;
  if N.eqb (N.land (m_flags M) fl_multiple) 0 then Ok (kbegin b0 + WSIZE * big)
  else
    n <- row_to_block M row ;; b <- aget (m_blocksv M) (Z.to_nat n) ;;
    Ok (kbegin b + WSIZE * big - WSIZE * (n * (ksize b0 / WSIZE))).
(** mzd_rows_in_block, mzd.h lines 249-262 *)
Definition rows_in_block (M : mhdr) (n : Z) : res Z :=
  let br := 2 ^ Z.of_nat (m_blog M) in
  if negb (N.eqb (N.land (m_flags M) fl_multiple) 0) then
    if n =? 0 then cint (br - m_rowoff M)
    else
      last <- row_to_block M (m_nrows M - 1) ;;
      if n <? last then Ok br
      else s <- cint (m_nrows M + m_rowoff M) ;; t <- cint (n * br) ;; cint (s - t)
  else Ok (if n =? 0 then m_nrows M else 0).
(** mzd_remaining_rows_in_block, mzd.h lines 273-288 *)
Definition remaining_rows_in_block (M : mhdr) (r : Z) : res Z :=
  let br := 2 ^ Z.of_nat (m_blog M) in
  n <- row_to_block M r ;;
  t <- cint (n * br) ;; r <- cint (r - t) ;;
  if negb (N.eqb (N.land (m_flags M) fl_multiple) 0) then
    if n =? 0 then s <- cint (br - m_rowoff M) ;; cint (s - r)
    else
      last <- row_to_block M (m_nrows M - 1) ;;
      if n <? last then cint (br - r)
      else s <- cint (m_nrows M + m_rowoff M) ;; s <- cint (s - t) ;; cint (s - r)
  else if n =? 0 then cint (m_nrows M - r) else Ok 0.
