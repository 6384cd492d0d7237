(** Model of the rank computations of the randomness tests, written in Python:
    test/randomness/gf2matrix.py, test/randomness/sp800_22_binary_matrix_rank_test.py and
    read_bits_from_file in test/randomness/sp800_22_tests.py.

    Python integers are unbounded ([N], [nat]); [UB] stands for an exception (IndexError).  Lists of
    lists are values here: the rows of a matrix are assumed to be distinct objects, as they are
    when matrix_from_bits made them.  M and blknum are parameters of the functions as in the
    source even where they are not used (blknum is left out). *)
From Coq Require Import Arith NArith ZArith QArith List Bool.
From Verif Require Import Base Model ModelSM4.
Import ListNotations.
Local Open Scope nat_scope.

(** ** gf2matrix.py *)

(** [x ^ y for x,y in zip(a, b)], line 74 *)
Fixpoint zip_xor (a b : list N) : list N :=
  match a, b with
  | x :: a', y :: b' => N.lxor x y :: zip_xor a' b'
  | _, _ => []
  end.

(** lm[j][c] == 1 *)
Definition is_one (lm : mat) (j c : nat) : res bool := x <- get2 lm j c ;; Ok (N.eqb x 1).

(** lm[a],lm[b] = lm[b],lm[a], line 69; swap_rows, lines 169-175 *)
Definition py_swap (lm : mat) (a b : nat) : res mat :=
  x <- aget lm a ;; y <- aget lm b ;; lm1 <- aset lm a y ;; aset lm1 b x.

(** One iteration of the loop in row_echelon, lines 58-79; the state is (lm, pivotstartrow,
    pivotstartcol) *)
Definition echelon_step (Q : nat) (st : mat * nat * nat) : res (mat * nat * nat) :=
  let '(lm, r, c) := st in
  f <- find_up r Q (fun k => is_one lm k c) ;;
  match f with
  | Some p =>
      lm1 <- (if Nat.eqb p r then Ok lm else py_swap lm p r) ;;
      lm2 <- for_up (r + 1) Q (fun j lm =>
               t <- is_one lm j c ;;
               if t then x <- aget lm r ;; y <- aget lm j ;; aset lm j (zip_xor x y)
               else Ok lm) lm1 ;;
      Ok (lm2, r + 1, c + 1)
  | None => Ok (lm, r, c + 1)
  end.
(** row_echelon, lines 52-81 *)
Definition row_echelon (M Q : nat) (matrix : mat) : res mat :=
  ' (lm, _, _) <- for_up 0 Q (fun _ st => echelon_step Q st) (matrix, 0, 0) ;; Ok lm.

(** rank, lines 83-93 *)
Definition rank (M Q : nat) (matrix : mat) : res nat :=
  lm <- row_echelon M Q matrix ;;
  for_up 0 Q (fun i rank =>
    row <- aget lm i ;;
    Ok (if existsb (fun bit => N.eqb bit 1) row then rank + 1 else rank)) 0.

(** perform_elementary_row_operations, lines 128-147; [fwd]: flag is
    MATRIX_FORWARD_ELIMINATION *)
Definition row_operations (fwd : bool) (i M Q : nat) (A : mat) : res mat :=
  let add lo j (A : mat) :=
    t <- is_one A j i ;;
    if t then
      for_up lo Q (fun k A => x <- get2 A j k ;; y <- get2 A i k ;; set2 A j k ((x + y) mod 2)%N) A
    else Ok A in
  if fwd then for_up (i + 1) M (fun j A => add i j A) A
  else for_down i 0 (fun j A => add 0 j A) A.

(** The while loops of find_unit_element_and_swap, lines 153-167: upwards from [index] with [k]
    = M - index rows left, and downwards from row k - 1 *)
Fixpoint find_fwd (i M k index : nat) (row_op : bool) (A : mat) : res (bool * mat) :=
  match k with
  | O => Ok (row_op, A)
  | S k' =>
      x <- get2 A index i ;;
      if N.eqb x 0 then
        if Nat.ltb (index + 1) M
        then A' <- py_swap A i (index + 1) ;; find_fwd i M k' (index + 1) true A'
        else find_fwd i M k' (index + 1) row_op A
      else Ok (row_op, A)
  end.
Fixpoint find_bwd (i k : nat) (row_op : bool) (A : mat) : res (bool * mat) :=
  match k with
  | O => Ok (row_op, A)
  | S k' =>
      x <- get2 A k' i ;;
      if N.eqb x 0 then
        match k' with
        | O => Ok (row_op, A)
        | S k'' => A' <- py_swap A i k'' ;; find_bwd i k' true A'
        end
      else Ok (row_op, A)
  end.
(** find_unit_element_and_swap, lines 149-167 *)
Definition find_unit_element_and_swap (fwd : bool) (i M : nat) (A : mat) : res (bool * mat) :=
  if fwd then find_fwd i M (M - (i + 1)) (i + 1) false A else find_bwd i i false A.

(** determine_rank, lines 177-196 *)
Definition determine_rank (m M Q : nat) (A : mat) : res Z :=
  for_up 0 M (fun i rank =>
    z <- for_up 0 Q (fun j z => t <- is_one A i j ;; Ok (if t then false else z)) true ;;
    Ok (if z : bool then rank - 1 else rank)%Z) (Z.of_nat m).

(** the body common to the two loops of computeRank, lines 101-106 and 113-118 *)
Definition compute_step (fwd : bool) (M Q i : nat) (A : mat) : res mat :=
  t <- is_one A i i ;;
  if t : bool then row_operations fwd i M Q A
  else
    ' (op, A) <- find_unit_element_and_swap fwd i M A ;;
    if op : bool then row_operations fwd i M Q A else Ok A.
(** computeRank, lines 95-126 *)
Definition computeRank (M Q : nat) (matrix : mat) : res Z :=
  let m := Nat.min M Q in
  A <- for_up 0 (m - 1) (compute_step true M Q) matrix ;;
  A <- for_down m 1 (compute_step false M Q) A ;;
  determine_rank m M Q A.

(** bits[a:b] *)
Definition pyslice {A} (l : list A) (a b : nat) : list A := firstn (b - a) (skipn a l).

(** matrix_from_bits, lines 206-211 *)
Definition matrix_from_bits (M Q : nat) (bits : list N) : mat :=
  map (fun rownum => pyslice bits (rownum * M) ((rownum + 1) * M)) (seq 0 Q).

(** ** sp800_22_binary_matrix_rank_test.py *)

(** The counting loop, lines 62-77: (FM, FMM, remainder).  N is floor(n/(M*Q)), line 31, here
    computed exactly (Python divides in floating point). *)
Definition rank_counts (M Q : nat) (bits : list N) : res (nat * nat * nat) :=
  for_up 0 (length bits / (M * Q)) (fun blknum st =>
    let '(FM, FMM, remainder) := st : nat * nat * nat in
    let block := pyslice bits (blknum * (M * Q)) ((blknum + 1) * (M * Q)) in
    r <- rank M Q (matrix_from_bits M Q block) ;;
    Ok (if Nat.eqb r M then (FM + 1, FMM, remainder)
        else if Nat.eqb r (M - 1) then (FM, FMM + 1, remainder)
        else (FM, FMM, remainder + 1))) (0, 0, 0).

(** The reference probabilities, lines 41-60, with rational numbers in place of floating
    point: the product for rank r and its factor *)
Definition pow2 (z : Z) : Q := Qpower 2 z.
Definition rank_prob (M Q r : nat) : QArith_base.Q :=
  (fold_left (fun product i =>
     let upper1 := 1 - pow2 (Z.of_nat i - Z.of_nat Q) in
     let upper2 := 1 - pow2 (Z.of_nat i - Z.of_nat M) in
     let lower := 1 - pow2 (Z.of_nat i - Z.of_nat r) in
     product * ((upper1 * upper2) / lower)) (seq 0 r) 1
   * pow2 (Z.of_nat r * (Z.of_nat Q + Z.of_nat M - Z.of_nat r) - Z.of_nat M * Z.of_nat Q))%Q.
(** lines 79-81, rational *)
Definition rank_chisq (M Q N : nat) (c : nat * nat * nat) : QArith_base.Q :=
  let '(FM, FMM, remainder) := c in
  let q n := inject_Z (Z.of_nat n) in
  let FR := rank_prob M Q M in
  let FRM1 := rank_prob M Q (M - 1) in
  let LR := (1 - (FR + FRM1))%Q in
  let term n p := ((q n - p * q N) * (q n - p * q N) / (p * q N))%Q in
  (term FM FR + term FMM FRM1 + term remainder LR)%Q.
(** binary_matrix_rank_test, lines 29-90, up to the chi-square value: None if there are fewer
    than 38 blocks (the function then returns False) *)
Definition binary_matrix_rank_test (M Q : nat) (bits : list N) : res (option QArith_base.Q) :=
  let N := length bits / (M * Q) in
  if Nat.ltb N 38 then Ok None
  else c <- rank_counts M Q bits ;; Ok (Some (rank_chisq M Q N c)).

(** ** sp800_22_tests.py *)

(** The bits of one byte in read_bits_from_file, lines 46-52 *)
Definition byte_bits (bigendian : bool) (byte : N) : list N :=
  snd (fold_left (fun st i =>
    let (byte, l) := st : N * list N in
    if bigendian then (N.shiftl byte 1, l ++ [N.shiftr (N.land byte 0x80) 7])
    else (byte, l ++ [N.land (N.shiftr byte (N.of_nat i)) 1])) (seq 0 8) (byte, [])).
(** read_bits_from_file, lines 32-56: the bits of the contents of the file *)
Definition read_bits (bigendian : bool) (bytes : list N) : list N :=
  concat (map (byte_bits bigendian) bytes).
