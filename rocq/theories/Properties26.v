(** Generated by tools/gen_props.py from Main26.v: statements of the properties.
    Every theorem is closed by [exact]; its assumptions are printed beneath it. *)
From Coq Require Import Arith ZArith NArith List Bool Lia Permutation.
From Verif Require Import Base ModelMem SpecMem SpecMemRun Mem1 Mem2 Mem3 Mem4 Mem5 Main26.
Import ListNotations.
Open Scope Z_scope.

(** C114: the cache of memory blocks.  Whatever a program asks for and gives back, in any order and with
    cleanups in between: nothing undefined happens (no double free), its blocks are regions the system has
    given out with exactly the size asked for, separate from each other and from all else; at most 16
    regions are kept beyond those, and a cleanup gives all of these back. *)
Theorem C114_cache : forall static al thr h ops, alloc_ok static al -> regions_ok static (hreg h) -> Forall mmop_ok ops ->
  exists live st, mm_run al thr ops [] (mm_start h) = Ok (live, st) /\
    apart (static ++ live ++ hreg h) /\
    (exists kept, Permutation (live ++ kept ++ hreg h) (hreg (mheap st)) /\ (length kept <= 16)%nat) /\
    (exists st', mmc_cleanup st = Ok st' /\ Permutation (live ++ hreg h) (hreg (mheap st'))).
Proof. exact C114_cache_main. Qed.
Print Assumptions C114_cache.

(** asking for 0 bytes is not covered: after a cleanup it returns the address of a block given back before *)
Theorem C114_zero_refuted : exists static al h ops live st, alloc_ok static al /\ regions_ok static (hreg h) /\
  mm_run al 4194304 ops [] (mm_start h) = Ok (live, st) /\
  exists p, live = [(p, 0)] /\ p <> 0 /\ ~ In p (map fst (hreg (mheap st))).
Proof. exact C114_zero_refuted_main. Qed.
Print Assumptions C114_zero_refuted.

(** twenty blocks, eighteen of them given back: two go back to the system *)
Example C114_ex : exists live st, mm_run (bump []) 4194304 (repeat (OMalloc 8) 20 ++ repeat (OFree 1) 18) [] (mm_start (mkheap [] 0)) = Ok (live, st) /\
  length live = 2%nat /\ length (hreg (mheap st)) = 18%nat.
Proof. exact C114_ex_main. Qed.

(** C115: the cache of matrix headers.  log2_floor is the logarithm. *)
Theorem C115_log2 : forall v, (v <> 0)%N -> (v < 2 ^ 64)%N -> log2_floor v = Ok (N.log2 v).
Proof. exact C115_log2_main. Qed.
Print Assumptions C115_log2.

(** Whatever headers a program asks for and gives back: nothing undefined happens, its headers of 64 bytes are
    separate from each other and from all else, each is inside the first cache block or a region the system has
    given out, there are at most 16 cache blocks, and when all headers are given back so is all memory. *)
Theorem C115_headers : forall static al s0 h ops, alloc_ok static al -> In (s0, 4160) static -> regions_ok static (hreg h) ->
  exists live st, h_run al s0 ops [] (h_start s0 h) = Ok (live, st) /\
    apart (sregs live ++ hreg h) /\
    (forall p, In p live -> exists r, In r ((s0, 4160) :: hreg (hheap st)) /\ inside (p, 64) r) /\
    (length (hblk st) <= 16)%nat /\
    (live = [] -> Permutation (hreg h) (hreg (hheap st))).
Proof. exact C115_headers_main. Qed.
Print Assumptions C115_headers.

(** 65 headers: the 65th is in a second cache block, which is given back with it; the first block is used again *)
Example C115_ex : alloc_ok [(4096, 4160)] (bump [(4096, 4160)]) /\ regions_ok [(4096, 4160)] [] /\
  (exists live st, h_run (bump [(4096, 4160)]) 4096 (repeat HNew 65) [] (h_start 4096 (mkheap [] 0)) = Ok (live, st) /\ hreg (hheap st) = [(8256, 4160)]) /\
  (exists live st, h_run (bump [(4096, 4160)]) 4096 (repeat HNew 65 ++ [HFree 3; HFree 0; HNew]) [] (h_start 4096 (mkheap [] 0)) = Ok (live, st) /\
     hreg (hheap st) = [] /\ length live = 64%nat).
Proof. exact C115_ex_main. Qed.

(** C116: matrices.  A program makes matrices (of any number of rows below 2^31 - 2^27 and of columns below
    2^31 - 63) and windows on them, frees them in any order and cleans up the cache: nothing undefined happens,
    no memory is freed twice, headers and memory of all its matrices are separate and in use by it. *)
Theorem C116_memory : forall static al thr s0 h ops, alloc_ok static al -> In (s0, 4160) static -> regions_ok static (hreg h) ->
  exists live g, g_run al thr s0 ops [] (g_start s0 h) = Ok (live, g) /\
    apart (sregs (map m_addr live) ++ concat (map owned live) ++ hreg h) /\
    (forall M r, In M live -> In r (owned M) -> In r (hreg (gheap g))) /\
    (live = [] -> exists g', on_mm_free mmc_cleanup g = Ok g' /\ Permutation (hreg h) (hreg (gheap g'))).
Proof. exact C116_memory_main. Qed.
Print Assumptions C116_memory.

(** mzd_init: the matrix has the dimensions asked for, its rows are in its own memory and separate. *)
Theorem C116_layout : forall static al thr s0 h ops live g r c, alloc_ok static al -> In (s0, 4160) static -> regions_ok static (hreg h) ->
  g_run al thr s0 ops [] (g_start s0 h) = Ok (live, g) -> init_okb r c = true ->
  exists M g', mzd_init al thr s0 r c g = Ok (M, g') /\ m_nrows M = r /\ m_ncols M = c /\
    (0 < r -> 0 < c -> m_width M = (c + 63) / 64) /\
    (0 < c -> forall i, 0 <= i < r -> exists b, In b (owned M) /\ inside (row_region M i) b) /\
    (0 < c -> forall i j, 0 <= i < r -> 0 <= j < r -> i <> j -> separate (row_region M i) (row_region M j)) /\
    (0 < c -> forall i, 0 <= i < r -> i * m_rowstride M < 2 ^ 31 -> mzd_row M i = Ok (row_at M i)).
Proof. exact C116_layout_main. Qed.
Print Assumptions C116_layout.

(** in a matrix of 2^31 words or more mzd_row overflows: it multiplies ints (rows is not affected) *)
Theorem C116_row_refuted : exists static al thr s0 h r c i M g', alloc_ok static al /\ In (s0, 4160) static /\ regions_ok static (hreg h) /\
  init_okb r c = true /\ mzd_init al thr s0 r c (g_start s0 h) = Ok (M, g') /\ 0 <= i < r /\ mzd_row M i = UB.
Proof. exact C116_row_refuted_main. Qed.
Print Assumptions C116_row_refuted.

(** two matrices, one of 9 rows of 256 MB in three blocks; one is freed, a third uses its memory again *)
Example C116_ex : exists live g, g_run (bump [(4096, 4160)]) 4194304 4096
    [GInit 9 (2 ^ 31 - 64); GInit 100 200; GFree 0; GInit 100 190] [] (g_start 4096 (mkheap [] 0)) = Ok (live, g) /\
  map m_nrows live = [100; 9] /\ map (fun M => length (m_blocksv M)) live = [2; 4]%nat /\ map m_rowstride live = [4; 33554432].
Proof. exact C116_ex_main. Qed.

(** C117: windows.  In every program, a window on a matrix (or window) that has rows and columns has the
    rows lowr to highr - 1, as far as there are any, and the columns from lowc on; each of its rows is inside
    the row of the matrix it is taken from, and it owns none of the blocks. *)
Theorem C117_window : forall static al thr s0 h ops live g M lowr lowc highr highc, alloc_ok static al -> In (s0, 4160) static -> regions_ok static (hreg h) ->
  g_run al thr s0 ops [] (g_start s0 h) = Ok (live, g) -> In M live -> win_okb M lowr lowc highr highc = true ->
  exists W g', mzd_init_window al thr s0 M lowr lowc highr highc g = Ok (W, g') /\
    m_nrows W = Z.min (highr - lowr) (m_nrows M - lowr) /\ m_ncols W = highc - lowc /\ owns_blocks W = false /\
    (forall i, 0 <= i < m_nrows W -> row_at W i = row_at M (lowr + i) + 8 * (lowc / 64) /\ inside (row_region W i) (row_region M (lowr + i))).
Proof. exact C117_window_main. Qed.
Print Assumptions C117_window.

(** the addresses computed from the blocks: of every matrix and window with rows and columns, mzd_first_row is
    the first row, mzd_row any row (below 2^31 words), mzd_first_row_next_block the first row of a later block,
    and mzd_rows_in_block counts the rows of a block, or is not positive after the last one *)
Theorem C117_blocks : forall static al thr s0 h ops live g M, alloc_ok static al -> In (s0, 4160) static -> regions_ok static (hreg h) ->
  g_run al thr s0 ops [] (g_start s0 h) = Ok (live, g) -> In M live -> 0 < m_nrows M -> 0 < m_ncols M ->
  first_row M = Ok (row_at M 0) /\
  (forall i, 0 <= i < m_nrows M -> m_offset M + i * m_rowstride M < 2 ^ 31 -> mzd_row M i = Ok (row_at M i)) /\
  (forall n, 0 < n <= (m_rowoff M + m_nrows M - 1) / 2 ^ Z.of_nat (m_blog M) ->
     first_row_next_block M n = Ok (row_at M (n * 2 ^ Z.of_nat (m_blog M) - m_rowoff M))) /\
  (forall n, 0 <= n <= (m_rowoff M + m_nrows M - 1) / 2 ^ Z.of_nat (m_blog M) + 1 -> (n + 1) * 2 ^ Z.of_nat (m_blog M) < 2 ^ 31 ->
     exists z, rows_in_block M n = Ok z /\ Z.max 0 z = rows_from M n 0) /\
  (m_rowoff M = 0 -> m_nrows M + 2 ^ Z.of_nat (m_blog M) < 2 ^ 31 -> forall r, 0 <= r < m_nrows M ->
     remaining_rows_in_block M r = Ok (rows_from M (r / 2 ^ Z.of_nat (m_blog M)) r)).
Proof. exact C117_blocks_main. Qed.
Print Assumptions C117_blocks.

(** mzd_remaining_rows_in_block counts too many rows in a window that does not begin at the start of a block *)
Theorem C117_remaining_refuted : exists static al thr s0 h ops live g M r, alloc_ok static al /\ In (s0, 4160) static /\ regions_ok static (hreg h) /\
  g_run al thr s0 ops [] (g_start s0 h) = Ok (live, g) /\ In M live /\ 0 < m_ncols M /\ 0 <= r < m_nrows M /\
  remaining_rows_in_block M r = Ok 5 /\ rows_from M ((m_rowoff M + r) / 2 ^ Z.of_nat (m_blog M)) r = 4.
Proof. exact C117_remaining_refuted_main. Qed.
Print Assumptions C117_remaining_refuted.

(** a window on a matrix without columns reads blockrows_log, which has not been set *)
Theorem C117_empty_refuted : forall static al thr s0 h r lowr highr, alloc_ok static al -> In (s0, 4160) static -> regions_ok static (hreg h) ->
  init_okb r 0 = true -> 0 <= lowr <= highr -> highr <= r ->
  exists M g', mzd_init al thr s0 r 0 (g_start s0 h) = Ok (M, g') /\ m_nrows M = r /\ m_ncols M = 0 /\
    mzd_init_window al thr s0 M lowr 0 highr 0 g' = UB.
Proof. exact C117_empty_refuted_main. Qed.
Print Assumptions C117_empty_refuted.

(** a window over two blocks, and a window on it *)
Example C117_ex : exists live g, g_run (bump [(4096, 4160)]) 0 4096 [GInit 9 (2 ^ 31 - 64); GWin 0 1 128 8 704; GWin 0 2 64 6 300] [] (g_start 4096 (mkheap [] 0)) = Ok (live, g) /\
  map m_nrows live = [4; 7; 9] /\ map m_rowoff live = [3; 1; 0] /\ map m_ncols live = [236; 576; 2147483584].
Proof. exact C117_ex_main. Qed.
