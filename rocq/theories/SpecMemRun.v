(** Specification side for the memory management of M4RI: programs that use it, and what the theorems say
    about the blocks, headers, matrices and windows that a program has. *)
From Coq Require Import Arith ZArith List Bool.
From Verif Require Import Base ModelMem SpecMem.
Import ListNotations.
Open Scope Z_scope.

Definition inside (a r : region) : Prop := fst r <= fst a /\ fst a + snd a <= fst r + snd r.

(** ** Programs that use the cache of memory blocks
    The program has a list of blocks; OFree k frees the k-th of them, with the size it was asked for with. *)
Inductive mmop := OMalloc (size : Z) | OFree (k : nat) | OCleanup.
Fixpoint mm_run (al : allocator) (thr : Z) (ops : list mmop) (live : list region) (st : mmst) : res (list region * mmst) :=
  match ops with
  | [] => Ok (live, st)
  | OMalloc size :: ops => ' (p, st) <- mmc_malloc al thr size st ;; mm_run al thr ops ((p, size) :: live) st
  | OFree k :: ops =>
      match nth_error live k with
      | Some (p, size) => st <- mmc_free thr p size st ;; mm_run al thr ops (firstn k live ++ skipn (S k) live) st
      | None => mm_run al thr ops live st
      end
  | OCleanup :: ops => st <- mmc_cleanup st ;; mm_run al thr ops live st
  end.
Definition mmop_ok (o : mmop) : Prop := match o with OMalloc size => 0 < size | _ => True end.

(** ** Programs that use headers *)
Inductive hop := HNew | HFree (k : nat).
Fixpoint h_run (al : allocator) (s0 : Z) (ops : list hop) (live : list Z) (st : hst) : res (list Z * hst) :=
  match ops with
  | [] => Ok (live, st)
  | HNew :: ops => ' (p, st) <- mzd_t_malloc al s0 st ;; h_run al s0 ops (p :: live) st
  | HFree k :: ops =>
      match nth_error live k with
      | Some p => st <- mzd_t_free s0 p st ;; h_run al s0 ops (firstn k live ++ skipn (S k) live) st
      | None => h_run al s0 ops live st
      end
  end.
(** the regions of headers, 64 bytes each *)
Definition sregs (l : list Z) : list region := map (fun h => (h, 64)) l.

(** ** Programs that use matrices and windows
    A program has a list of matrices; a matrix or window with arguments that are not allowed is not made. *)
Definition init_okb (r c : Z) : bool := ((0 <=? r) && (r + 2 ^ 27 <? 2 ^ 31) && (0 <=? c) && (c + 63 <? 2 ^ 31))%bool.
Definition win_okb (M : mhdr) (lowr lowc highr highc : Z) : bool :=
  ((0 <? m_nrows M) && (0 <? m_ncols M) && (0 <=? lowr) && (lowr <=? highr) && (lowr <=? m_nrows M) && (highr <? 2 ^ 31) &&
   (0 <=? lowc) && (lowc <=? highc) && (highc <=? m_ncols M) && (lowc mod 64 =? 0))%bool.
Inductive gop := GInit (r c : Z) | GWin (k : nat) (lowr lowc highr highc : Z) | GFree (k : nat) | GCleanup.
Fixpoint g_run (al : allocator) (thr s0 : Z) (ops : list gop) (live : list mhdr) (g : gst) : res (list mhdr * gst) :=
  match ops with
  | [] => Ok (live, g)
  | GInit r c :: ops =>
      if init_okb r c then ' (M, g) <- mzd_init al thr s0 r c g ;; g_run al thr s0 ops (M :: live) g
      else g_run al thr s0 ops live g
  | GWin k lowr lowc highr highc :: ops =>
      match nth_error live k with
      | Some M =>
          if win_okb M lowr lowc highr highc then
            ' (W, g) <- mzd_init_window al thr s0 M lowr lowc highr highc g ;; g_run al thr s0 ops (W :: live) g
          else g_run al thr s0 ops live g
      | None => g_run al thr s0 ops live g
      end
  | GFree k :: ops =>
      match nth_error live k with
      | Some M => g <- mzd_free thr s0 M g ;; g_run al thr s0 ops (firstn k live ++ skipn (S k) live) g
      | None => g_run al thr s0 ops live g
      end
  | GCleanup :: ops => g <- on_mm_free mmc_cleanup g ;; g_run al thr s0 ops live g
  end.

(** the regions of a matrix besides its header: the array of rows, the array of blocks, the blocks *)
Definition breg (b : mblk) : region := (kbegin b, ksize b).
Definition owned (M : mhdr) : list region :=
  (if m_rows M =? 0 then [] else [(m_rows M, 8 * (m_nrows M + 1))]) ++
  (if owns_blocks M then (m_blocks M, 24 * Z.of_nat (length (m_blocksv M))) :: map breg (removelast (m_blocksv M)) else []).
(** row i: its address, and its region (width words) *)
Definition row_at (M : mhdr) (i : Z) : Z := nth (Z.to_nat i) (m_rowsv M) 0.
Definition row_region (M : mhdr) (i : Z) : region := (row_at M i, 8 * m_width M).
(** the rows from row r0 on that are in block n *)
Definition rows_from (M : mhdr) (n r0 : Z) : Z :=
  count (fun i => (r0 <=? Z.of_nat i) && ((m_rowoff M + Z.of_nat i) / 2 ^ Z.of_nat (m_blog M) =? n))%bool (Z.to_nat (m_nrows M)).

(** ** An allocator: above all that is in use *)
Definition top (l : list region) : Z := fold_right (fun r z => Z.max (fst r + Z.max 1 (snd r)) z) 1 l.
Definition bump (static : list region) : nat -> list region -> Z -> Z := fun _ l _ => top (static ++ l).
