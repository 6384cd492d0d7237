(** C114 to C117: memory management of M4RI: the caches, the layout of matrices, windows. *)
From Coq Require Import Arith ZArith NArith List Bool Lia Permutation.
From Verif Require Import Base ModelMem SpecMem SpecMemRun Mem1 Mem2 Mem3 Mem4 Mem5.
Import ListNotations.
Open Scope Z_scope.

(** C114: the cache of memory blocks.  Whatever a program asks for and gives back, in any order and with
    cleanups in between: nothing undefined happens (no double free), its blocks are regions the system has
    given out with exactly the size asked for, separate from each other and from all else; at most 16
    regions are kept beyond those, and a cleanup gives all of these back. *)
Lemma C114_cache_main : forall static al thr h ops, alloc_ok static al -> regions_ok static (hreg h) -> Forall mmop_ok ops ->
  exists live st, mm_run al thr ops [] (mm_start h) = Ok (live, st) /\
    apart (static ++ live ++ hreg h) /\
    (exists kept, Permutation (live ++ kept ++ hreg h) (hreg (mheap st)) /\ (length kept <= 16)%nat) /\
    (exists st', mmc_cleanup st = Ok st' /\ Permutation (live ++ hreg h) (hreg (mheap st'))).
Proof.
  intros static al thr h ops HA HR HO.
  pose proof (mm_run_wp static al thr ops [] (hreg h) (mm_start h) HA HO ltac:(intros r []) (minv_start static h HR)) as W.
  destruct (wp_exists _ _ _ W) as ([live st] & E & HI & HP). clear W.
  exists live, st. split; [exact E|]. pose proof HI as (L & J & P & RO).
  assert (P' : Permutation (live ++ cached (mslots st) ++ hreg h) (hreg (mheap st))).
  { apply perm_trans with (2 := P). rewrite !app_assoc. apply Permutation_app_tail. apply Permutation_app_comm. }
  split; [|split].
  - destruct RO as [RA _]. apply apart_perm with (l' := static ++ cached (mslots st) ++ live ++ hreg h) in RA; [|apply Permutation_app_head, Permutation_sym; auto].
    apply apart_app in RA. destruct RA as (R1 & R2 & R3). apply apart_app in R2. destruct R2 as (_ & R2 & _).
    apply apart_app_intro; auto. intros a b Ha Hb. apply R3; auto. apply in_or_app; auto.
  - exists (cached (mslots st)). split; auto. pose proof (cached_len (mslots st)) as CL. rewrite L in CL. exact CL.
  - pose proof (mmc_cleanup_wp static (live ++ hreg h) st (fun st' => Permutation (live ++ hreg h) (hreg (mheap st'))) HI) as W.
    assert (W' : wp (mmc_cleanup st) (fun st' => Permutation (live ++ hreg h) (hreg (mheap st')))).
    { apply W. intros st' (_ & _ & P2 & _) EC. rewrite EC in P2. exact P2. }
    apply wp_exists in W'. exact W'.
Qed.
(** asking for 0 bytes is not covered: after a cleanup it returns the address of a block given back before *)
Lemma C114_zero_refuted_main : exists static al h ops live st, alloc_ok static al /\ regions_ok static (hreg h) /\
  mm_run al 4194304 ops [] (mm_start h) = Ok (live, st) /\
  exists p, live = [(p, 0)] /\ p <> 0 /\ ~ In p (map fst (hreg (mheap st))).
Proof.
  exists [], (bump []), (mkheap [] 0), [OMalloc 8; OFree 0; OCleanup; OMalloc 0]. do 2 eexists. split; [apply bump_ok|]. split.
  { split; [constructor|intros r []]. }
  split; [vm_compute; reflexivity|]. eexists. split; [reflexivity|]. split; [discriminate|]. intros [].
Qed.
(** twenty blocks, eighteen of them given back: two go back to the system *)
Example C114_ex_main : exists live st, mm_run (bump []) 4194304 (repeat (OMalloc 8) 20 ++ repeat (OFree 1) 18) [] (mm_start (mkheap [] 0)) = Ok (live, st) /\
  length live = 2%nat /\ length (hreg (mheap st)) = 18%nat.
Proof. do 2 eexists. split; [vm_compute; reflexivity|split; reflexivity]. Qed.

(** C115: the cache of matrix headers.  log2_floor is the logarithm. *)
Lemma C115_log2_main : forall v, (v <> 0)%N -> (v < 2 ^ 64)%N -> log2_floor v = Ok (N.log2 v).
Proof. exact log2_floor_ok. Qed.
(** Whatever headers a program asks for and gives back: nothing undefined happens, its headers of 64 bytes are
    separate from each other and from all else, each is inside the first cache block or a region the system has
    given out, there are at most 16 cache blocks, and when all headers are given back so is all memory. *)
Lemma C115_headers_main : forall static al s0 h ops, alloc_ok static al -> In (s0, 4160) static -> regions_ok static (hreg h) ->
  exists live st, h_run al s0 ops [] (h_start s0 h) = Ok (live, st) /\
    apart (sregs live ++ hreg h) /\
    (forall p, In p live -> exists r, In r ((s0, 4160) :: hreg (hheap st)) /\ inside (p, 64) r) /\
    (length (hblk st) <= 16)%nat /\
    (live = [] -> Permutation (hreg h) (hreg (hheap st))).
Proof.
  intros static al s0 h ops HA Hs HR. pose proof (h_run_wp static al s0 ops [] (hreg h) (h_start s0 h) HA Hs (hinv_start static s0 h HR)) as W.
  apply wp_exists in W. destruct W as ([live st] & E & W). exists live, st. split; [exact E|].
  split; [apply hinv_apart with (1 := Hs) (2 := W)|]. split; [|split; [apply hinv_bound with (1 := W)|]].
  - intros p Hp. destruct W as (u0 & cs & sep & _ & _ & _ & _ & _ & _ & P & _ & PL).
    apply Permutation_in with (1 := Permutation_sym PL) in Hp. apply in_app_or in Hp. destruct Hp as [Hp|Hp].
    + apply in_ents in Hp. destruct Hp as (a & u & Ha & Hp). exists (a, 4160). split.
      * destruct Ha as [EA|Ha]; [injection EA as -> ->; left; auto|]. right. apply Permutation_in with (1 := P). apply in_or_app. left.
        apply in_map_iff. exists (a, u). auto.
      * apply ent_in in Hp. destruct Hp as (i & Hi & _ & ->). unfold inside. cbn [fst snd]. unfold HSIZE. lia.
    + exists (p, 64). split; [|unfold inside; cbn [fst snd]; lia]. right. apply Permutation_in with (1 := P). apply in_or_app. right. apply in_or_app. left.
      apply in_map_iff. exists p. auto.
  - intros ->. apply hinv_empty with (1 := W).
Qed.
(** 65 headers: the 65th is in a second cache block, which is given back with it; the first block is used again *)
Example C115_ex_main : alloc_ok [(4096, 4160)] (bump [(4096, 4160)]) /\ regions_ok [(4096, 4160)] [] /\
  (exists live st, h_run (bump [(4096, 4160)]) 4096 (repeat HNew 65) [] (h_start 4096 (mkheap [] 0)) = Ok (live, st) /\ hreg (hheap st) = [(8256, 4160)]) /\
  (exists live st, h_run (bump [(4096, 4160)]) 4096 (repeat HNew 65 ++ [HFree 3; HFree 0; HNew]) [] (h_start 4096 (mkheap [] 0)) = Ok (live, st) /\
     hreg (hheap st) = [] /\ length live = 64%nat).
Proof.
  split; [apply bump_ok|]. split.
  { split; [constructor; [intros b []|constructor]|]. intros r [<-|[]]. cbn. lia. }
  split; do 2 eexists; split; [vm_compute; reflexivity|reflexivity|vm_compute; reflexivity|split; reflexivity].
Qed.

(** C116: matrices.  A program makes matrices (of any number of rows below 2^31 - 2^27 and of columns below
    2^31 - 63) and windows on them, frees them in any order and cleans up the cache: nothing undefined happens,
    no memory is freed twice, headers and memory of all its matrices are separate and in use by it. *)
Lemma C116_memory_main : forall static al thr s0 h ops, alloc_ok static al -> In (s0, 4160) static -> regions_ok static (hreg h) ->
  exists live g, g_run al thr s0 ops [] (g_start s0 h) = Ok (live, g) /\
    apart (sregs (map m_addr live) ++ concat (map owned live) ++ hreg h) /\
    (forall M r, In M live -> In r (owned M) -> In r (hreg (gheap g))) /\
    (live = [] -> exists g', on_mm_free mmc_cleanup g = Ok g' /\ Permutation (hreg h) (hreg (gheap g'))).
Proof.
  intros static al thr s0 h ops HA Hs HR. pose proof (g_run_wp static al thr s0 ops [] (hreg h) (g_start s0 h) Hs HA (gok_start static s0 h HR)) as W.
  apply wp_exists in W. destruct W as ([live g] & E & W). exists live, g. split; [exact E|].
  split; [apply gok_apart with (1 := Hs) (2 := W)|]. destruct W as [HI HF]. split.
  - intros M r HM Hr. destruct (ginv_used _ _ _ _ _ HI) as [X P]. apply Permutation_in with (1 := P). apply in_or_app. left. apply in_or_app. left.
    apply in_concat. exists (owned M). split; auto. apply in_map. auto.
  - intros ->. pose proof (ginv_end _ _ _ _ HI) as W. apply wp_exists in W. exact W.
Qed.
(** mzd_init: the matrix has the dimensions asked for, its rows are in its own memory and separate. *)
Lemma C116_layout_main : forall static al thr s0 h ops live g r c, alloc_ok static al -> In (s0, 4160) static -> regions_ok static (hreg h) ->
  g_run al thr s0 ops [] (g_start s0 h) = Ok (live, g) -> init_okb r c = true ->
  exists M g', mzd_init al thr s0 r c g = Ok (M, g') /\ m_nrows M = r /\ m_ncols M = c /\
    (0 < r -> 0 < c -> m_width M = (c + 63) / 64) /\
    (0 < c -> forall i, 0 <= i < r -> exists b, In b (owned M) /\ inside (row_region M i) b) /\
    (0 < c -> forall i j, 0 <= i < r -> 0 <= j < r -> i <> j -> separate (row_region M i) (row_region M j)) /\
    (0 < c -> forall i, 0 <= i < r -> i * m_rowstride M < 2 ^ 31 -> mzd_row M i = Ok (row_at M i)).
Proof.
  intros static al thr s0 h ops live g r c HA Hs HR ER HO. pose proof (g_run_wp static al thr s0 ops [] (hreg h) (g_start s0 h) Hs HA (gok_start static s0 h HR)) as W.
  rewrite ER in W. cbn [wp] in W. apply init_okb_ok in HO. pose proof HO as (R0 & _ & C0 & _).
  assert (X : wp (mzd_init al thr s0 r c g) (fun o => let '(M, g') := o in gok static s0 (M :: live) (hreg h) g' /\ m_nrows M = r /\ m_ncols M = c /\
    (0 < r -> 0 < c -> owns_blocks M = true /\ lay M 0 /\ m_rowoff M = 0))).
  { apply gok_init with (static := static) (live := live) (bl := hreg h); auto. }
  destruct (mzd_init al thr s0 r c g) as [[M g']|]; [|destruct X]. cbn [wp] in X. destruct X as (HG & E1 & E2 & HL).
  exists M, g'. split; [reflexivity|]. split; [auto|]. split; [auto|].
  assert (AP : apart (owned M)) by (apply owned_apart with (1 := Hs) (2 := HG); left; auto).
  assert (MK : mok M) by (destruct HG as [_ HF]; inversion HF; auto).
  split; [|split; [|split]].
  - intros K Hc. destruct (HL K Hc) as (_ & ((_ & _ & _ & _ & _ & _ & EW) & _) & _). rewrite EW, E2. reflexivity.
  - intros Hc i Hi. destruct (HL ltac:(lia) Hc) as (OB & _). destruct (own_rows M MK OB AP) as [O1 _]. apply O1. lia.
  - intros Hc i j Hi Hj N. destruct (HL ltac:(lia) Hc) as (OB & _). destruct (own_rows M MK OB AP) as [_ O2]. apply O2; auto; lia.
  - intros Hc i Hi Hs31. destruct (HL ltac:(lia) Hc) as (_ & L & ER0). unfold row_at. apply lay_row with (wo := 0); auto; [lia|].
    destruct L as (_ & (_ & _ & _ & B4 & _) & _). rewrite B4, ER0. lia.
Qed.
(** in a matrix of 2^31 words or more mzd_row overflows: it multiplies ints (rows is not affected) *)
Lemma C116_row_refuted_main : exists static al thr s0 h r c i M g', alloc_ok static al /\ In (s0, 4160) static /\ regions_ok static (hreg h) /\
  init_okb r c = true /\ mzd_init al thr s0 r c (g_start s0 h) = Ok (M, g') /\ 0 <= i < r /\ mzd_row M i = UB.
Proof.
  exists [(4096, 4160)], (bump [(4096, 4160)]), 0, 4096, (mkheap [] 0), 65, (2 ^ 31 - 64), 64. do 2 eexists. split; [apply bump_ok|].
  split; [left; auto|]. split.
  { split; [constructor; [intros b []|constructor]|]. intros r [<-|[]]. cbn. lia. }
  split; [reflexivity|]. split; [vm_compute; reflexivity|]. split; [lia|]. vm_compute. reflexivity.
Qed.
(** two matrices, one of 9 rows of 256 MB in three blocks; one is freed, a third uses its memory again *)
Example C116_ex_main : exists live g, g_run (bump [(4096, 4160)]) 4194304 4096
    [GInit 9 (2 ^ 31 - 64); GInit 100 200; GFree 0; GInit 100 190] [] (g_start 4096 (mkheap [] 0)) = Ok (live, g) /\
  map m_nrows live = [100; 9] /\ map (fun M => length (m_blocksv M)) live = [2; 4]%nat /\ map m_rowstride live = [4; 33554432].
Proof. do 2 eexists. split; [vm_compute; reflexivity|repeat split; reflexivity]. Qed.

(** C117: windows.  In every program, a window on a matrix (or window) that has rows and columns has the
    rows lowr to highr - 1, as far as there are any, and the columns from lowc on; each of its rows is inside
    the row of the matrix it is taken from, and it owns none of the blocks. *)
Lemma C117_window_main : forall static al thr s0 h ops live g M lowr lowc highr highc, alloc_ok static al -> In (s0, 4160) static -> regions_ok static (hreg h) ->
  g_run al thr s0 ops [] (g_start s0 h) = Ok (live, g) -> In M live -> win_okb M lowr lowc highr highc = true ->
  exists W g', mzd_init_window al thr s0 M lowr lowc highr highc g = Ok (W, g') /\
    m_nrows W = Z.min (highr - lowr) (m_nrows M - lowr) /\ m_ncols W = highc - lowc /\ owns_blocks W = false /\
    (forall i, 0 <= i < m_nrows W -> row_at W i = row_at M (lowr + i) + 8 * (lowc / 64) /\ inside (row_region W i) (row_region M (lowr + i))).
Proof.
  intros static al thr s0 h ops live g M lowr lowc highr highc HA Hs HR ER HM HO.
  pose proof (g_run_wp static al thr s0 ops [] (hreg h) (g_start s0 h) Hs HA (gok_start static s0 h HR)) as W. rewrite ER in W. cbn [wp] in W.
  assert (X : wp (mzd_init_window al thr s0 M lowr lowc highr highc g) (fun o => let '(W, g') := o in
    m_nrows W = Z.min (highr - lowr) (m_nrows M - lowr) /\ m_ncols W = highc - lowc /\ owns_blocks W = false /\
    (exists wo, lay M wo /\ lay W (wo + lowc / 64)) /\ (forall i, 0 <= i < m_nrows W -> row_at W i = row_at M (lowr + i) + 8 * (lowc / 64)))).
  { apply gok_window with (static := static) (live := live) (bl := hreg h); auto. }
  destruct (mzd_init_window al thr s0 M lowr lowc highr highc g) as [[V g']|]; [|destruct X]. cbn [wp] in X. destruct X as (E1 & E2 & EO & (wo & LM & LW) & HRW).
  exists V, g'. split; [reflexivity|]. split; [auto|]. split; [auto|]. split; [auto|]. intros i Hi. split; [auto|].
  unfold inside, row_region. cbn [fst snd]. rewrite HRW by auto.
  destruct LM as ((_ & _ & _ & _ & _ & _ & WM) & _). destruct LW as ((_ & _ & _ & _ & _ & _ & WW) & _). rewrite WM, WW, E2.
  apply win_okb_ok in HO. destruct HO as (_ & _ & O1 & O2 & O3 & O4 & O5 & O6).
  assert (D0 : 0 <= lowc / 64) by (apply Z.div_pos; lia). pose proof (Z.div_mod lowc 64 ltac:(lia)) as DC. rewrite O6 in DC.
  assert (K : lowc / 64 + (highc - lowc + 63) / 64 <= (m_ncols M + 63) / 64).
  { rewrite Z.add_comm, <- Z.div_add by lia. apply Z.div_le_mono; lia. }
  lia.
Qed.
(** the addresses computed from the blocks: of every matrix and window with rows and columns, mzd_first_row is
    the first row, mzd_row any row (below 2^31 words), mzd_first_row_next_block the first row of a later block,
    and mzd_rows_in_block counts the rows of a block, or is not positive after the last one *)
Lemma C117_blocks_main : forall static al thr s0 h ops live g M, alloc_ok static al -> In (s0, 4160) static -> regions_ok static (hreg h) ->
  g_run al thr s0 ops [] (g_start s0 h) = Ok (live, g) -> In M live -> 0 < m_nrows M -> 0 < m_ncols M ->
  first_row M = Ok (row_at M 0) /\
  (forall i, 0 <= i < m_nrows M -> m_offset M + i * m_rowstride M < 2 ^ 31 -> mzd_row M i = Ok (row_at M i)) /\
  (forall n, 0 < n <= (m_rowoff M + m_nrows M - 1) / 2 ^ Z.of_nat (m_blog M) ->
     first_row_next_block M n = Ok (row_at M (n * 2 ^ Z.of_nat (m_blog M) - m_rowoff M))) /\
  (forall n, 0 <= n <= (m_rowoff M + m_nrows M - 1) / 2 ^ Z.of_nat (m_blog M) + 1 -> (n + 1) * 2 ^ Z.of_nat (m_blog M) < 2 ^ 31 ->
     exists z, rows_in_block M n = Ok z /\ Z.max 0 z = rows_from M n 0) /\
  (m_rowoff M = 0 -> m_nrows M + 2 ^ Z.of_nat (m_blog M) < 2 ^ 31 -> forall r, 0 <= r < m_nrows M ->
     remaining_rows_in_block M r = Ok (rows_from M (r / 2 ^ Z.of_nat (m_blog M)) r)).
Proof.
  intros static al thr s0 h ops live g M HA Hs HR ER HM N1 N2.
  pose proof (g_run_wp static al thr s0 ops [] (hreg h) (g_start s0 h) Hs HA (gok_start static s0 h HR)) as W. rewrite ER in W. cbn [wp] in W.
  destruct W as [_ HF]. rewrite Forall_forall in HF. destruct (HF M HM) as (_ & HL & _). destruct (HL N1 N2) as [wo L].
  split; [apply lay_first_row with (1 := L); auto|]. split; [intros i Hi Ho; apply lay_row with (1 := L); auto|].
  split; [intros n Hn; apply lay_next_block with (1 := L); auto|]. split; [intros n Hn Hb; apply lay_rows_in_block with (1 := L); auto|].
  intros E0 Hb r Hr. apply lay_remaining with (1 := L); auto.
Qed.
(** mzd_remaining_rows_in_block counts too many rows in a window that does not begin at the start of a block *)
Lemma C117_remaining_refuted_main : exists static al thr s0 h ops live g M r, alloc_ok static al /\ In (s0, 4160) static /\ regions_ok static (hreg h) /\
  g_run al thr s0 ops [] (g_start s0 h) = Ok (live, g) /\ In M live /\ 0 < m_ncols M /\ 0 <= r < m_nrows M /\
  remaining_rows_in_block M r = Ok 5 /\ rows_from M ((m_rowoff M + r) / 2 ^ Z.of_nat (m_blog M)) r = 4.
Proof.
  exists [(4096, 4160)], (bump [(4096, 4160)]), 0, 4096, (mkheap [] 0), [GInit 9 (2 ^ 31 - 64); GWin 0 1 0 9 64]. do 4 eexists. split; [apply bump_ok|].
  split; [left; auto|]. split.
  { split; [constructor; [intros b []|constructor]|]. intros r [<-|[]]. cbn. lia. }
  split; [vm_compute; reflexivity|]. split; [left; reflexivity|]. instantiate (1 := 3). split; [vm_compute; reflexivity|]. split; [vm_compute; split; congruence|]. split; vm_compute; reflexivity.
Qed.
(** a window on a matrix without columns reads blockrows_log, which has not been set *)
Lemma C117_empty_refuted_main : forall static al thr s0 h r lowr highr, alloc_ok static al -> In (s0, 4160) static -> regions_ok static (hreg h) ->
  init_okb r 0 = true -> 0 <= lowr <= highr -> highr <= r ->
  exists M g', mzd_init al thr s0 r 0 (g_start s0 h) = Ok (M, g') /\ m_nrows M = r /\ m_ncols M = 0 /\
    mzd_init_window al thr s0 M lowr 0 highr 0 g' = UB.
Proof.
  intros static al thr s0 h r lowr highr HA Hs HR HO H1 H2. apply init_okb_ok in HO.
  assert (X : wp (mzd_init al thr s0 r 0 (g_start s0 h)) (fun o => let '(M, g') := o in m_nrows M = r /\ m_ncols M = 0 /\ m_blocks M = 0 /\ gok static s0 (M :: []) (hreg h) g')).
  { apply gok_init with (static := static) (live := []) (bl := hreg h); auto; [apply gok_start; auto|].
    intros M g' HG E1 E2 _ EB. split; [exact E1|]. split; [exact E2|]. split; [apply EB; right; reflexivity|exact HG]. }
  destruct (mzd_init al thr s0 r 0 (g_start s0 h)) as [[M g']|]; [|destruct X]. cbn [wp] in X. destruct X as (E1 & E2 & EB & _).
  exists M, g'. split; [reflexivity|]. split; [auto|]. split; [auto|]. unfold mzd_init_window.
  destruct (on_h (mzd_t_malloc al s0) g') as [[a g2]|]; [|reflexivity]. cbn [bind]. change (cint (0 - 0 + 63)) with (@Ok Z 63). cbn [bind].
  unfold blog. rewrite EB. reflexivity.
Qed.
(** a window over two blocks, and a window on it *)
Example C117_ex_main : exists live g, g_run (bump [(4096, 4160)]) 0 4096 [GInit 9 (2 ^ 31 - 64); GWin 0 1 128 8 704; GWin 0 2 64 6 300] [] (g_start 4096 (mkheap [] 0)) = Ok (live, g) /\
  map m_nrows live = [4; 7; 9] /\ map m_rowoff live = [3; 1; 0] /\ map m_ncols live = [236; 576; 2147483584].
Proof. do 2 eexists. split; [vm_compute; reflexivity|repeat split; reflexivity]. Qed.
