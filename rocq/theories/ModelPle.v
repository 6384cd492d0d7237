(** Model of the permutations of M4RI, test/github1_M4RI/src/m4ri/mzp.c, of the cubic factorisations in
    ple.c and of solve.c after the factorisation.  Other functions of M4RI are as in ModelM4ri.v,
    ModelM4ri2.v, ModelStrassen.v and ModelTri.v; windows are copies of their words that are written
    back, as there; a failed assert and m4ri_die are [UB]; matrices consist of one block of memory.
    A permutation mzp_t is the list of its values. *)
From Coq Require Import Arith NArith ZArith List Bool.
From Verif Require Import Base ModelM4ri ModelM4ri2 ModelStrassen ModelTri.
Import ListNotations.
Local Open Scope nat_scope.

(** ** Rows *)

(** mzp_init, mzp.c lines 27-35 *)
Definition mzp_init (length : nat) : list nat := seq 0 length.

(** mzd_apply_p_left, mzp.c lines 69-77 *)
Definition mzd_apply_p_left (A : mzd) (P : list nat) : res mzd :=
  if Nat.eqb (mncols A) 0 then Ok A
  else
    for_up 0 (Nat.min (length P) (mnrows A)) (fun i A =>
      p <- aget P i ;; if Nat.ltb p i then UB else mzd_row_swap A i p) A.
(** mzd_apply_p_left_trans, mzp.c lines 79-87 *)
Definition mzd_apply_p_left_trans (A : mzd) (P : list nat) : res mzd :=
  if Nat.eqb (mncols A) 0 then Ok A
  else
    for_down (Nat.min (length P) (mnrows A)) 0 (fun i A =>
      p <- aget P i ;; if Nat.ltb p i then UB else mzd_row_swap A i p) A.

(** ** Columns *)

(** What mzd_col_swap (mzd.c lines 1903-1995) and mzd_col_swap_in_rows (mzd.h lines 449-555) do in a
    row.  mzd_col_swap treats four rows together in the first case. *)
Definition row_col_swap (cola colb : nat) (row : list N) : res (list N) :=
  let a_word := cola / 64 in
  let b_word := colb / 64 in
  let a_bit := cola mod 64 in
  let b_bit := colb mod 64 in
  let max_bit := Nat.max a_bit b_bit in
  let min_bit := a_bit + b_bit - max_bit in
  let offset := max_bit - min_bit in
  mask <- shl 1 min_bit ;;
  if Nat.eqb a_word b_word then
    x <- aget row a_word ;; s <- shr x offset ;;
    let v := N.land (N.lxor x s) mask in
    t <- shl v offset ;; aset row a_word (N.lxor x (N.lor v t))
  else
    let mn := if Nat.eqb min_bit a_bit then a_word else b_word in
    let mx := if Nat.eqb min_bit a_bit then b_word else a_word in
    x <- aget row mn ;; y <- aget row mx ;; s <- shr y offset ;;
    let v := N.land (N.lxor x s) mask in
    row <- aset row mn (N.lxor x v) ;; t <- shl v offset ;; aset row mx (N.lxor y t).
(** mzd_col_swap_in_rows, mzd.h lines 449-555, for stop <= M->nrows (otherwise the rows end with the
    block; all callers keep to this) *)
Definition mzd_col_swap_in_rows (M : mzd) (cola colb start stop : nat) : res mzd :=
  if Nat.eqb cola colb then Ok M
  else
    for_up start stop (fun i M =>
      row <- aget (mrows M) i ;; row <- row_col_swap cola colb row ;;
      rs <- aset (mrows M) i row ;; Ok (with_rows M rs)) M.
(** mzd_col_swap, mzd.c lines 1903-1995; assert(count > 0) in line 1919 *)
Definition mzd_col_swap (M : mzd) (cola colb : nat) : res mzd :=
  if Nat.eqb cola colb then Ok M
  else if Nat.eqb (mnrows M) 0 then UB
  else mzd_col_swap_in_rows M cola colb 0 (mnrows M).

(** mzd_apply_p_right_trans_tri, mzp.c lines 336-349; the blocks of [step] rows of line 338 ([step] is
    at least 1).  A matrix with rows and without columns divides by its width 0; without rows too. *)
Definition mzd_apply_p_right_trans_tri (step : nat) (A : mzd) (P : list nat) : res mzd :=
  if negb (Nat.eqb (length P) (mncols A)) || Nat.eqb (mwidth A) 0 || Nat.eqb step 0 then UB
  else
    for_up 0 ((mnrows A + step - 1) / step) (fun b A =>
      let r := step * b in
      let row_bound := Nat.min (r + step) (mnrows A) in
      for_up 0 (mncols A) (fun i A =>
        p <- aget P i ;;
        if Nat.ltb p i then UB else mzd_col_swap_in_rows A i p r (Nat.min row_bound i)) A) A.

(** The array permutation, mzp.c lines 210-226 *)
Definition col_permutation (P : list nat) (ncols len start_col : nat) (notrans : bool) : res (list nat) :=
  for_up start_col len (fun i p =>
    let i := if notrans then len - i - 1 else i in
    v <- aget P i ;; t <- aget p i ;; u <- aget p v ;; p <- aset p i u ;; aset p v t) (seq 0 ncols).
(** The array write_mask, mzp.c lines 229-238 *)
Definition write_masks (A : mzd) (perm : list nat) : res (list N) :=
  let width := mwidth A in
  m <- for_up 0 (mncols A) (fun c m =>
         p <- aget perm c ;;
         if Nat.eqb p c then x <- aget m (c / 64) ;; aset m (c / 64) (N.lor x (N.shiftl 1 (N.of_nat (c mod 64)))) else Ok m)
         (repeat 0%N width) ;;
  if Nat.eqb width 0 then UB
  else x <- aget m (width - 1) ;; aset m (width - 1) (N.lor x (N.ldiff ffff (high_bitmask A))).
(** value, mzp.c lines 117-185: bit k is the bit of column permutation[i + k] *)
Definition gather (brow : list N) (perm : list nat) (i todo : nat) : res N :=
  for_up 0 todo (fun k value =>
    c <- aget perm (i + k) ;; x <- aget brow (c / 64) ;;
    let one := N.shiftl 1 (N.of_nat (c mod 64)) in
    y <- shr (N.land x one) (c mod 64) ;; z <- shl y k ;; Ok (N.lor value z)) 0%N.
(** _mzd_apply_p_right_even, mzp.c lines 198-261 with mzd_write_col_to_rows_blockd, lines 91-193: rows
    are independent of each other, so that the blocks of step_size rows are left out *)
Definition apply_p_right_even (A : mzd) (P : list nat) (start_row start_col : nat) (notrans : bool) : res mzd :=
  if Nat.eqb (mnrows A - start_row) 0 then Ok A
  else if Nat.eqb (mwidth A) 0 then UB
  else
    let len := Nat.min (length P) (mncols A) in
    perm <- col_permutation P (mncols A) len start_col notrans ;;
    masks <- write_masks A perm ;;
    for_up start_row (mnrows A) (fun r A =>
      brow <- aget (mrows A) r ;;
      arow <- row_loop 0 (mwidth A) (fun j x => m <- aget masks j ;; Ok (N.land x m)) brow ;;
      arow <- for_up 0 ((len + 63) / 64) (fun w arow =>
                m <- aget masks w ;;
                if N.eqb m ffff then Ok arow
                else
                  v <- gather brow perm (64 * w) (Nat.min 64 (len - 64 * w)) ;;
                  x <- aget arow w ;; aset arow w (N.lor x v)) arow ;;
      rs <- aset (mrows A) r arow ;; Ok (with_rows A rs)) A.
(** mzd_apply_p_right_trans and mzd_apply_p_right, mzp.c lines 304-314 *)
Definition mzd_apply_p_right_trans (A : mzd) (P : list nat) : res mzd :=
  if Nat.eqb (mnrows A) 0 then Ok A else apply_p_right_even A P 0 0 false.
Definition mzd_apply_p_right (A : mzd) (P : list nat) : res mzd :=
  if Nat.eqb (mnrows A) 0 then Ok A else apply_p_right_even A P 0 0 true.

(** ** Cubic factorisations *)

(** The search for a pivot, ple.c lines 193-206 and 243-256 *)
Definition first_pivot (A : mzd) (row col : nat) : res (option (nat * nat)) :=
  r <- for_ret col (mncols A) (fun j _ =>
         r <- for_ret row (mnrows A) (fun i _ => b <- mzd_read_bit A i j ;; Ok (if b : bool then inr (i, j) else inl tt)) tt ;;
         Ok (match r with inr p => inr p | inl _ => inl tt end)) tt ;;
  Ok (match r with inr p => Some p | inl _ => None end).
(** The rest of a permutation, ple.c lines 226-229 *)
Definition rest_id (P : list nat) (from n : nat) : res (list nat) := for_up from n (fun i P => aset P i i) P.
(** Lines 215-221: the rows below the pivot *)
Definition clear_below (A : mzd) (row col : nat) : res mzd :=
  if Nat.ltb (col + 1) (mncols A) then
    for_up (row + 1) (mnrows A) (fun l A =>
      b <- mzd_read_bit A l col ;; if b : bool then mzd_row_add_offset A l row (col + 1) else Ok A) A
  else Ok A.

(** _mzd_pluq_naive, ple.c lines 190-236 *)
Definition pluq_naive (A : mzd) (P Q : list nat) : res (mzd * list nat * list nat * nat) :=
  r <- for_ret 0 (mncols A) (fun c st =>
         let '(A, P, Q) := st in
         p <- first_pivot A c c ;;
         match p with
         | None => Ok (inr (A, P, Q, c))
         | Some (i, j) =>
             P <- aset P c i ;; Q <- aset Q c j ;;
             A <- mzd_row_swap A c i ;; A <- mzd_col_swap A c j ;;
             A <- clear_below A c c ;; Ok (inl (A, P, Q))
         end) (A, P, Q) ;;
  let '(A, P, Q, c) := match r with inr st => st | inl st => (st, mncols A) end in
  P <- rest_id P c (mnrows A) ;; Q <- rest_id Q c (mncols A) ;; Ok (A, P, Q, c).

(** ** Solving, kernel *)

(** mzd_clear_bits, mzd.h lines 640-650 *)
Definition mzd_clear_bits (M : mzd) (x y n : nat) : res mzd :=
  if Nat.eqb n 0 || Nat.ltb 64 n then UB
  else
    let values := N.shiftr ffff (N.of_nat (64 - n)) in
    let spot := y mod 64 in
    let block := y / 64 in
    w <- wget M x block ;; s <- shl values spot ;; M <- wset M x block (N.ldiff w s) ;;
    let space := 64 - spot in
    if Nat.ltb space n
    then w <- wget M x (block + 1) ;; wset M x (block + 1) (N.ldiff w (N.shiftr values (N.of_nat space)))
    else Ok M.
(** mzd_xor_bits, mzd.h lines 598-606 *)
Definition mzd_xor_bits (M : mzd) (x y n : nat) (values : N) : res mzd :=
  let spot := y mod 64 in
  let block := y / 64 in
  w <- wget M x block ;; s <- shl values spot ;; M <- wset M x block (N.lxor w s) ;;
  let space := 64 - spot in
  if Nat.ltb space n
  then w <- wget M x (block + 1) ;; s <- shr values space ;; wset M x (block + 1) (N.lxor w s)
  else Ok M.

Section Solve.
(** As in ModelTri.v *)
Variables (kcache : nat) (junk : nat -> list N).

(** mzd_pluq_solve_left, solve.c lines 37-118: B, and whether 0 is returned (otherwise -1) *)
Definition mzd_pluq_solve_left (A : mzd) (rank : nat) (P Q : list nat) (B : mzd) (cutoff : nat) (check : bool)
  : res (mzd * bool) :=
  if Nat.ltb (mnrows B) (mncols A) || negb (Nat.eqb (length P) (mnrows A)) || negb (Nat.eqb (length Q) (mncols A)) then UB
  else
    let nb := mncols B in
    B <- mzd_apply_p_left B P ;;
    LU <- win A 0 0 rank rank ;; Y1 <- win B 0 0 rank nb ;;
    Y1 <- mzd_trsm_lower_left kcache junk LU Y1 cutoff ;;
    let B := put B Y1 0 0 in
    ' (B, ok) <- (if check then
        H <- win A rank 0 (mnrows A) rank ;;
        B <- (if Nat.ltb (mnrows A) (mnrows B) then
                Y3 <- win B (mnrows A) 0 (mnrows B) nb ;; Y3 <- mzd_set_zero Y3 ;; Ok (put B Y3 (mnrows A) 0)
              else Ok B) ;;
        Y2 <- win B rank 0 (mnrows A) nb ;;
        Y2 <- mzd_addmul kcache junk true (Some Y2) H Y1 cutoff ;;
        z <- mzd_is_zero Y2 ;; Ok (put B Y2 rank 0, z)
      else Ok (B, true)) ;;
    Y1 <- mzd_trsm_upper_left kcache junk LU Y1 cutoff ;;
    let B := put B Y1 0 0 in
    B <- (if check then Ok B
          else for_up rank (mnrows B) (fun i B =>
                 for_up 0 ((nb + 63) / 64) (fun w B => mzd_clear_bits B i (64 * w) (Nat.min 64 (nb - 64 * w))) B) B) ;;
    B <- mzd_apply_p_left_trans B Q ;; Ok (B, ok).

(** mzd_kernel_left_pluq after the factorisation, solve.c lines 152-185 *)
Definition kernel_of_pluq (A : mzd) (r : nat) (Q : list nat) (cutoff : nat) : res (option mzd) :=
  if Nat.eqb r (mncols A) then Ok None
  else
    U <- win A 0 0 r r ;;
    let R := mzd_init (mncols A) (mncols A - r) in
    let nc := mncols R in
    RU <- win R 0 0 r nc ;;
    RU <- for_up 0 r (fun i RU =>
            for_up 0 ((nc + 63) / 64) (fun w RU =>
              let workload := Nat.min 64 (nc - 64 * w) in
              v <- mzd_read_bits A i (r + 64 * w) workload ;; mzd_xor_bits RU i (64 * w) workload v) RU) RU ;;
    RU <- mzd_trsm_upper_left kcache junk U RU cutoff ;;
    let R := put R RU 0 0 in
    R <- for_up 0 nc (fun i R => mzd_write_bit R (r + i) i 1) R ;;
    R <- mzd_apply_p_left_trans R Q ;; Ok (Some R).
End Solve.
