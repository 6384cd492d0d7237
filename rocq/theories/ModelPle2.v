(** Model of the PLE factorisation of M4RI, test/github1_M4RI/src/m4ri/ple.c, and of solve.c.  The
    conventions are those of ModelPle.v. *)
From Coq Require Import Arith NArith ZArith List Bool.
From Verif Require Import Base ModelM4ri ModelM4ri2 ModelStrassen ModelTri ModelPle.
Import ListNotations.
Local Open Scope nat_scope.

(** ** Cubic factorisation *)

(** The loop of _mzd_ple_naive, ple.c lines 242-276; at most A->nrows rounds.  State: A, P, Q, row_pos,
    col_pos. *)
Definition ple_pivots (A : mzd) (P Q : list nat) : res (mzd * list nat * list nat * nat) :=
  r <- for_ret 0 (mnrows A) (fun row st =>
         let '(A, P, Q, col) := st in
         p <- first_pivot A row col ;;
         match p with
         | None => Ok (inr (A, P, Q, row))
         | Some (i, j) =>
             P <- aset P row i ;; Q <- aset Q row j ;; A <- mzd_row_swap A row i ;;
             A <- (if Nat.ltb (j + 1) (mncols A) then
                     for_up (row + 1) (mnrows A) (fun l A =>
                       b <- mzd_read_bit A l j ;; if b : bool then mzd_row_add_offset A l row (j + 1) else Ok A) A
                   else Ok A) ;;
             Ok (inl (A, P, Q, j + 1))
         end) (A, P, Q, 0) ;;
  Ok (match r with inr st => st | inl (A, P, Q, _) => (A, P, Q, mnrows A) end).
(** _mzd_ple_naive, ple.c lines 238-293 *)
Definition ple_naive (A : mzd) (P Q : list nat) : res (mzd * list nat * list nat * nat) :=
  ' (A, P, Q, r) <- ple_pivots A P Q ;;
  P <- rest_id P r (mnrows A) ;; Q <- rest_id Q r (mncols A) ;;
  A <- for_up 0 r (fun j A =>
         q <- aget Q j ;; if Nat.ltb j q then mzd_col_swap_in_rows A q j j (mnrows A) else Ok A) A ;;
  Ok (A, P, Q, r).

(** ** Block recursion *)

(** mzd_first_zero_row, mzd.c lines 2207-2225 *)
Definition mzd_first_zero_row (A : mzd) : res nat :=
  let mask_end := left_bitmask (mncols A mod 64) in
  r <- for_ret 0 (mnrows A) (fun i _ =>
         let i := mnrows A - 1 - i in
         if Nat.eqb (mwidth A) 0 then UB
         else
           let last := mwidth A - 1 in
           tmp <- wget A i 0 ;;
           tmp <- for_up 1 (Nat.max 1 last) (fun j tmp => x <- wget A i j ;; Ok (N.lor tmp x)) tmp ;;
           x <- wget A i last ;;
           Ok (if N.eqb (N.lor tmp (N.land x mask_end)) 0 then inl tt else inr (i + 1))) tt ;;
  Ok (match r with inr n => n | inl _ => 0 end).

(** One row of the second part of _mzd_compress_l, mzp.c lines 404-456 *)
Definition compress_row (A : mzd) (i r1 n1 r2 : nat) : res mzd :=
  let rest := 64 - r1 mod 64 in
  tmp <- mzd_read_bits A i n1 rest ;;
  A <- mzd_clear_bits A i r1 rest ;; A <- mzd_xor_bits A i r1 rest tmp ;;
  let j := r1 + rest in
  let block := (n1 + j - r1) / 64 in
  let words := (r1 + r2 - j) / 64 in
  A <- for_up 0 words (fun t A =>
         tmp <- (if Nat.eqb (rest mod 64) 0 then wget A i (block + t)
                 else
                   x <- wget A i (block + t) ;; y <- wget A i (block + t + 1) ;;
                   x <- shr x rest ;; y <- shl y (64 - rest) ;; Ok (N.lor x y)) ;;
         wset A i ((j + 64 * t) / 64) tmp) A ;;
  let j := j + 64 * words in
  A <- (if Nat.ltb j (r1 + r2) then tmp <- mzd_read_bits A i (n1 + j - r1) (r1 + r2 - j) ;; wset A i (j / 64) tmp
        else Ok A) ;;
  let j := r1 + r2 in
  A <- mzd_clear_bits A i j (64 - j mod 64) ;;
  let j := j + (64 - j mod 64) in
  for_up 0 ((n1 + r2 - j + 63) / 64) (fun t A => wset A i ((j + 64 * t) / 64) 0%N) A.
(** _mzd_compress_l, mzp.c lines 351-461 *)
Definition compress_l (A : mzd) (r1 n1 r2 : nat) : res mzd :=
  if Nat.eqb r1 n1 then Ok A
  else
    A <- for_up 0 r2 (fun t A => mzd_col_swap_in_rows A (r1 + t) (n1 + t) (r1 + t) (r1 + r2)) A ;;
    for_up (r1 + r2) (mnrows A) (fun i A => compress_row A i r1 n1 r2) A.

(** A window into a permutation, mzp_init_window (mzp.c lines 42-48), and what the permutation is after it
    has become W *)
Definition pwin (P : list nat) (lo hi : nat) : list nat := firstn (hi - lo) (skipn lo P).
Definition pput (P W : list nat) (lo : nat) : list nat := firstn lo P ++ W ++ skipn (lo + length W) P.

Section Ple.
(** kcache and junk as in ModelTri.v; [ple_cutoff] is __M4RI_PLE_CUTOFF (ple.h line 40); [russian] is
    _mzd_ple_russian(A, P, Q, 0), which is not modelled *)
Variables (kcache : nat) (junk : nat -> list N) (ple_cutoff : nat).
Variable russian : mzd -> list nat -> list nat -> res (mzd * list nat * list nat * nat).

(** _mzd_ple, ple.c lines 64-188.  [fuel] bounds the recursion; A->ncols + 1 is enough. *)
Fixpoint mzd_ple_rec (fuel cutoff : nat) (A : mzd) (P Q : list nat) : res (mzd * list nat * list nat * nat) :=
  match fuel with
  | O => UB
  | S fuel =>
      let ncols := mncols A in
      nrows <- mzd_first_zero_row A ;;
      P <- rest_id P nrows (mnrows A) ;; Q <- rest_id Q 0 ncols ;;
      if Nat.eqb nrows 0 then Ok (A, P, Q, 0)
      else if Nat.leb ncols 64 || Nat.leb (mwidth A * mnrows A) ple_cutoff then
        Abar <- copy_onto (mzd_init (mnrows A) ncols) A ;;
        ' (Abar, P, Q, r) <- russian Abar P Q ;;
        A <- copy_onto A Abar ;; Ok (A, P, Q, r)
      else
        let n1 := ((ncols - 1) / 64 + 1) / 2 * 64 in
        A0 <- win A 0 0 nrows n1 ;;
        ' (A0, P1, Q1, r1) <- mzd_ple_rec fuel cutoff A0 (pwin P 0 nrows) (pwin Q 0 n1) ;;
        let A := put A A0 0 0 in
        let P := pput P P1 0 in
        let Q := pput Q Q1 0 in
        A <- (if Nat.eqb r1 0 then Ok A
              else
                A1 <- win A 0 n1 nrows ncols ;; A1 <- mzd_apply_p_left A1 P1 ;;
                let A := put A A1 0 n1 in
                A00 <- win A 0 0 r1 r1 ;; A01 <- win A 0 n1 r1 ncols ;;
                A01 <- trsm_lower kcache junk (S r1) cutoff A00 A01 ;;
                let A := put A A01 0 n1 in
                A10 <- win A r1 0 nrows r1 ;; A11 <- win A r1 n1 nrows ncols ;;
                A11 <- mzd_addmul kcache junk true (Some A11) A10 A01 cutoff ;;
                Ok (put A A11 r1 n1)) ;;
        A11 <- win A r1 n1 nrows ncols ;;
        ' (A11, P2, Q2, r2) <- mzd_ple_rec fuel cutoff A11 (pwin P r1 nrows) (pwin Q n1 ncols) ;;
        let A := put A A11 r1 n1 in
        A10 <- win A r1 0 nrows r1 ;; A10 <- mzd_apply_p_left A10 P2 ;;
        let A := put A A10 r1 0 in
        let P := pput P (map (Nat.add r1) P2) r1 in
        let Q := pput Q (map (Nat.add n1) Q2) n1 in
        Q <- for_up 0 r2 (fun t Q => x <- aget Q (n1 + t) ;; aset Q (r1 + t) x) Q ;;
        A <- compress_l A r1 n1 r2 ;; Ok (A, P, Q, r1 + r2)
  end.
(** mzd_ple, ple.c lines 33-39 *)
Definition mzd_ple (A : mzd) (P Q : list nat) (cutoff : nat) : res (mzd * list nat * list nat * nat) :=
  if negb (Nat.eqb (length P) (mnrows A)) || negb (Nat.eqb (length Q) (mncols A)) then UB
  else mzd_ple_rec (S (mncols A)) cutoff A P Q.
(** _mzd_pluq, ple.c lines 52-62; [step] as in mzd_apply_p_right_trans_tri *)
Definition mzd_pluq_ (step : nat) (A : mzd) (P Q : list nat) (cutoff : nat) : res (mzd * list nat * list nat * nat) :=
  ' (A, P, Q, r) <- mzd_ple_rec (S (mncols A)) cutoff A P Q ;;
  A <- (if negb (Nat.eqb r 0) && Nat.ltb r (mnrows A) then
          A0 <- win A 0 0 r (mncols A) ;; A0 <- mzd_apply_p_right_trans_tri step A0 Q ;; Ok (put A A0 0 0)
        else mzd_apply_p_right_trans_tri step A Q) ;;
  Ok (A, P, Q, r).
(** mzd_pluq, ple.c lines 42-49 *)
Definition mzd_pluq (step : nat) (A : mzd) (P Q : list nat) (cutoff : nat) : res (mzd * list nat * list nat * nat) :=
  if negb (Nat.eqb (length P) (mnrows A)) || negb (Nat.eqb (length Q) (mncols A)) then UB
  else mzd_pluq_ step A P Q cutoff.

(** mzd_solve_left and _mzd_solve_left, solve.c lines 30-35 and 120-144: A, B, and whether 0 is returned *)
Definition mzd_solve_left (step : nat) (A B : mzd) (cutoff : nat) (check : bool) : res (mzd * mzd * bool) :=
  if Nat.ltb (mnrows B) (mncols A) then UB
  else
    ' (A, P, Q, r) <- mzd_pluq_ step A (mzp_init (mnrows A)) (mzp_init (mncols A)) cutoff ;;
    ' (B, ok) <- mzd_pluq_solve_left kcache junk A r P Q B cutoff check ;; Ok (A, B, ok).
(** mzd_kernel_left_pluq, solve.c lines 146-185 *)
Definition mzd_kernel_left_pluq (step : nat) (A : mzd) (cutoff : nat) : res (mzd * option mzd) :=
  ' (A, P, Q, r) <- mzd_pluq step A (mzp_init (mnrows A)) (mzp_init (mncols A)) cutoff ;;
  K <- kernel_of_pluq kcache junk A r Q cutoff ;; Ok (A, K).
End Ple.
