(** Model of the generators of invertible matrices in the test programs
    test/RGEMethod_test.c, test/WBGEMethod_test.c and test/RLUDMethod_test.c. *)
From Coq Require Import Arith NArith List Bool.
From Verif Require Import Base Tables Model.
Import ListNotations.

(** InitRandom((randseed++) ^ time(NULL)) in RGEMethod_test.c and RLUDMethod_test.c, where
    randseed is declared int (RGE line 17, RLUD line 13): the increment of INT_MAX is
    undefined; otherwise the value has the same 32 bits as in the library.  The variable is
    taken to be the library's randseed (linkers merge the two tentative definitions; if they
    were separate variables the statements hold with w_seed read as the local one). *)
Definition reseed_int (s : world) : res world :=
  if N.eqb (w_seed s) (2 ^ 31 - 1) then UB else Ok (reseed s).

(** cus_random()%2 as a truth value *)
Definition coin (s : world) : bool * world :=
  let (a, s') := cus_random s in (negb (N.eqb (a mod 2) 0), s').

(** ** Reverse Gaussian elimination *)

(** p = i + 1 + cus_random()%(n - 1 - i); exchange rows i and p (RGE lines 48-54 and copies;
    RLUD lines 363-366 and copies) *)
Definition rand_exchange (w : width) (i : nat) (st : mat * world) : res (mat * world) :=
  let (m, s) := st in
  let (a, s') := cus_random s in
  r <- urem a (N.of_nat (dim w - 1 - i)) ;;
  m' <- swap_row m i (i + 1 + N.to_nat r) 0 (nw w) ;; Ok (m', s').

(** InvTMatM4..M256 of test/RGEMethod_test.c, lines 31-241 *)
Definition InvT_rge (w : width) (m : mat) (s : world) : res (mat * world) :=
  m0 <- identityM w m ;;
  s0 <- reseed_int s ;;
  for_down (dim w) 0 (fun i st =>
    st1 <- for_up 0 (dim w) (fun j st =>
      let (m, s) := st : mat * world in
      if Nat.eqb j i then Ok (m, s)
      else
        let (c, s') := coin s in
        if c then m' <- xor_row m j i 0 (nw w) ;; Ok (m', s') else Ok (m, s')) st ;;
    if Nat.ltb i (dim w - 1) then rand_exchange w i st1 else Ok st1) (m0, s0).

(** ** Rejection *)

(** the while loop; [None]: still running after [fuel] rounds *)
Fixpoint reject (e : endian) (w : width) (fuel : nat) (temp : mat) (s : world)
  : res (option (mat * world)) :=
  r <- isinvert w temp ;;
  if negb (N.eqb r 0) then Ok (Some (temp, s))
  else
    match fuel with
    | O => Ok None
    | S f => ' (temp', s') <- randM e w temp s ;; reject e w f temp' s'
    end.
(** InvTMatM4..M256 of test/WBGEMethod_test.c, lines 26-95; temp0 is the content of the
    uninitialised local temp *)
Definition InvT_wbge (e : endian) (w : width) (fuel : nat) (temp0 m : mat) (s : world)
  : res (option (mat * world)) :=
  ' (temp, s1) <- randM e w temp0 s ;;
  r <- reject e w fuel temp s1 ;;
  match r with
  | None => Ok None
  | Some (temp', s2) => m' <- copyM w temp' m ;; Ok (Some (m', s2))
  end.
(** MatrixpairM4..M256 of test/WBGEMethod_test.c, lines 97-131 *)
Definition Matrixpair (e : endian) (w : width) (fuel : nat) (temp0 m v : mat) (s : world)
  : res (option (mat * mat * world)) :=
  r <- InvT_wbge e w fuel temp0 m s ;;
  match r with
  | None => Ok None
  | Some (m', s') => v' <- invs w m' v ;; Ok (Some (m', v', s'))
  end.

(** ** Reverse LU decomposition *)

(** Local matrices of RLUDMethod_test.c before they are complete: [None] is an element that
    has not been written; combining it with ^= is an error (UB).  An execution which finds
    particular values in the uninitialised memory is the case of [Some] everywhere. *)
Definition cells := list (list (option N)).
Definition cset (m : cells) (i k : nat) (x : option N) : res cells :=
  r <- aget m i ;; r' <- aset r k x ;; aset m i r'.
(** M[i][k] ^= x.  k beyond the row: with [flat] the next row is reached as the row-major
    layout suggests, without it the access is undefined (C11 6.5.6p8). *)
Definition cxor (w : width) (flat : bool) (m : cells) (i k : nat) (x : N) : res cells :=
  if (negb flat && Nat.leb (nw w) k)%bool then UB
  else
    let i' := i + k / nw w in let k' := k mod nw w in
    r <- aget m i' ;; c <- aget r k' ;;
    match c with Some y => cset m i' k' (Some (N.lxor y x)) | None => UB end.

(** for (j = a; j < b; j++) if (cus_random()%2) M[i][k] ^= ident[j - ...]; a and b relative
    to the block *)
Definition coins (w : width) (flat : bool) (i k a b : nat) (st : cells * world)
  : res (cells * world) :=
  for_up a b (fun j st =>
    let (m, s) := st : cells * world in
    let (c, s') := coin s in
    if c then x <- aget (idt w) j ;; m' <- cxor w flat m i k x ;; Ok (m', s')
    else Ok (m, s')) st.

(** M[i][k] = 0 for k = a .. b-1 *)
Definition zeroes (i a b : nat) (m : cells) : res cells :=
  for_up a b (fun k m => cset m i k (Some 0%N)) m.

(** lowM4..lowM256, RLUD lines 34-191.  The tables identM4..identM64 (lines 26-31) are
    those of the library. *)
Definition low (w : width) (flat : bool) (m : cells) (s : world) : res (cells * world) :=
  s0 <- reseed_int s ;;
  for_up 0 (nw w) (fun b st =>
    for_up (wb w * b) (wb w * (b + 1)) (fun i st =>
      let (m, s) := st : cells * world in
      d <- aget (idt w) (i - wb w * b) ;;
      m1 <- cset m i b (Some d) ;;
      st1 <- coins w flat i b 0 (i - wb w * b) (m1, s) ;;
      ' (m2, s2) <- for_down b 0 (fun c st => coins w flat i c 0 (wb w) st) st1 ;;
      m3 <- zeroes i (b + 1) (nw w) m2 ;; Ok (m3, s2)) st) (m, s0).

(** upM4..upM256, RLUD lines 193-350.  upM128 clears M[i][0] at the end of the round
    (line 281) instead of the beginning; no statement in between touches M[i][0].  The last
    block of upM256 uses M[i][4] (line 347). *)
Definition up_target (w : width) (b : nat) : nat :=
  match w with W256 => if Nat.eqb b 3 then 4 else b | _ => b end.
Definition up (w : width) (flat : bool) (m : cells) (s : world) : res (cells * world) :=
  s0 <- reseed_int s ;;
  for_up 0 (nw w) (fun b st =>
    for_up (wb w * b) (wb w * (b + 1)) (fun i st =>
      let (m, s) := st : cells * world in
      m0 <- zeroes i 0 b m ;;
      d <- aget (idt w) (i - wb w * b) ;;
      m1 <- cset m0 i b (Some d) ;;
      st1 <- coins w flat i (up_target w b) (i - wb w * b + 1) (wb w) (m1, s) ;;
      for_up (b + 1) (nw w) (fun c st => coins w flat i c 0 (wb w) st) st1) st) (m, s0).

(** reading a complete matrix *)
Fixpoint load_row (r : list (option N)) : res (list N) :=
  match r with
  | [] => Ok []
  | Some x :: r' => l <- load_row r' ;; Ok (x :: l)
  | None :: _ => UB
  end.
Fixpoint load (m : cells) : res mat :=
  match m with
  | [] => Ok []
  | r :: m' => x <- load_row r ;; l <- load m' ;; Ok (x :: l)
  end.

(** InvTMatM4..M256 of test/RLUDMethod_test.c, lines 352-500; c1 and c2 are the initial
    contents of mat1 and mat2 *)
Definition InvT_rlud (e : endian) (w : width) (flat : bool) (c1 c2 : cells) (m : mat) (s : world)
  : res (mat * world) :=
  s0 <- reseed_int s ;;
  ' (c1', s1) <- low w flat c1 s0 ;;
  ' (c2', s2) <- up w flat c2 s1 ;;
  m1 <- load c1' ;;
  m2 <- load c2' ;;
  m3 <- MatMulMat e w m1 m2 (fresh_m w) ;;
  ' (m4, s4) <- for_up 0 (dim w - 1) (rand_exchange w) (m3, s2) ;;
  m' <- copyM w m4 m ;; Ok (m', s4).
