(** Model of the white-box AES example over NTL, test/WBAES/NTL: int2vec, vec2int and computeTables in
    src/genTables.cpp.  Line numbers are those of that file.

    src/aes.cpp, include/aes.h and, of genTables.cpp, mixColumns_table and aes_128_table_encrypt
    (lines 1-99), the tables TyiTables (lines 133-143) and xorTable (lines 263-275) are the same text as in
    test/WBAES/WBMatrix, except for one include directive and white space; they are those of
    ModelAES.v.  Matrices and vectors are values as in ModelNtl.v.

    In a shift of a non-negative int into the sign bit (lines 138-141 and 232) the result is the wrapped one, as
    in C++14 and later; C++11 as first published and ISO C leave it undefined.

    Not modelled: printTables and test/main.cpp. *)
From Coq Require Import Arith NArith ZArith List Bool.
From Verif Require Import Base ModelSM4 ModelAES ModelNtl.
Import ListNotations.
Local Open Scope nat_scope.

(** int2vec, lines 101-117.  The argument is a u32; a shift by 32 or more is undefined. *)
Definition int2vec (iIn : N) (size : nat) : res gvec :=
  for_up 0 size (fun i v =>
    if Nat.ltb i 32
    then vput v (size - 1 - i) (N.eqb (N.modulo (N.shiftr iIn (N.of_nat i)) 2) 1)
    else UB) (gzero size).
(** vec2int, lines 119-129 *)
Definition vec2int (vIn : gvec) (size : nat) : res N :=
  for_up 0 size (fun i o =>
    let o := N.modulo (o * 2) (2 ^ 32) in
    b <- vget vIn i ;; Ok (if b then N.modulo (o + 1) (2 ^ 32) else o)) 0%N.

(** mb_32x32[i][k].init(32) and mb_8x8[i][k].init(8), lines 152-158, with n = 32 and n = 8.  A RandMat is
    the list of its mat and its invMat.  The result is None if [fuel] is not enough. *)
Definition ax_pair (fuel : nat) (nt : ntl) (n i k : nat) (st : option (list (list (list gmat)) * nat))
  : res (option (list (list (list gmat)) * nat)) :=
  match st with
  | None => Ok None
  | Some (mb, s) =>
      o <- RandMat_init fuel nt n true s ;;
      match o with
      | None => Ok None
      | Some (A, B, s) =>
          mb <- set3 mb i k 0 A ;;
          mb <- (match B with Some B => set3 mb i k 1 B | None => Ok mb end) ;;
          Ok (Some (mb, s))
      end
  end.
(** Lines 150-159 *)
Definition ax_bijections (fuel : nat) (nt : ntl) (mb32 mb8 : list (list (list gmat))) (s : nat)
  : res (option (list (list (list gmat)) * list (list (list gmat)) * nat)) :=
  for_up 0 10 (fun i st =>
    match st with
    | None => Ok None
    | Some (mb32, mb8, s) =>
        o <- for_up 0 4 (fun k st => ax_pair fuel nt 32 i k st) (Some (mb32, s)) ;;
        match o with
        | None => Ok None
        | Some (mb32, s) =>
            o <- for_up 0 16 (fun k st => ax_pair fuel nt 8 i k st) (Some (mb8, s)) ;;
            match o with None => Ok None | Some (mb8, s) => Ok (Some (mb32, mb8, s)) end
        end
    end) (Some (mb32, mb8, s)).

(** vec2int(M * int2vec(x, n), n), for example line 169 *)
Definition ax_mul (n : nat) (M : gmat) (x : N) : res N :=
  v <- int2vec x n ;; y <- gmulv M v ;; vec2int y n.

(** One entry of the loop over x in lines 171-194 *)
Definition ax_tbox_entry (mb8 : list (list (list gmat))) (ek : list N) (i j x : nat)
  (t : aestab) : res aestab :=
  tmp <- (if (Nat.ltb 0 i && Nat.ltb i 9)%bool then
            m <- get3 mb8 (i - 1) j 1 ;; ax_mul 8 m (N.of_nat x)
          else Ok (N.of_nat x)) ;;
  tmp <- (if (Nat.ltb 0 i && Nat.ltb i 9)%bool then get3 (tMixIn t) (i - 1) j (N.to_nat tmp) else Ok tmp) ;;
  k <- aget ek (16 * i + j) ;;
  tmp <- aget aes_SBox (N.to_nat (N.lxor tmp k)) ;;
  TB <- set3 (tTBoxes t) i j x (uchar tmp) ;;
  if Nat.eqb i 9 then
    y <- get3 TB i j x ;; k <- aget ek (160 + j) ;;
    TB <- set3 TB i j x (N.lxor y k) ;;
    Ok (mkaes TB (tTyiTables t) (tTyiBoxes t) (tMixIn t) (tMixOut t) (tXor t))
  else
    y <- get2 (tTyiTables t) (j mod 4) (N.to_nat tmp) ;;
    TY <- set3 (tTyiBoxes t) i j x y ;;
    Ok (mkaes TB (tTyiTables t) TY (tMixIn t) (tMixOut t) (tXor t)).

(** Lines 161-196: the T-boxes; also the expanded key, whose rows are shifted in place *)
Definition ax_TBoxes (mb8 : list (list (list gmat))) (ek : list N) (t : aestab)
  : res (list N * aestab) :=
  for_up 0 10 (fun i st =>
    let (ek, t) := st : list N * aestab in
    ek <- shiftRows ek (16 * i) ;;
    t <- for_up 0 16 (fun j t =>
      MI <- for_up 0 256 (fun x MI =>
              m <- get3 mb8 i j 0 ;; y <- ax_mul 8 m (N.of_nat x) ;; set3 MI i j x y) (tMixIn t) ;;
      for_up 0 256 (fun x t => ax_tbox_entry mb8 ek i j x t)
        (mkaes (tTBoxes t) (tTyiTables t) (tTyiBoxes t) MI (tMixOut t) (tXor t))) t ;;
    Ok (ek, t)) (ek, t).

(** Lines 202-216: mixBijIn gets the product and then, in the same iteration, the identity *)
Definition ax_reset (mb8 : list (list (list gmat))) (i j : nat)
  (MI : list (list (list N))) : res (list (list (list N))) :=
  for_up 0 256 (fun x MI =>
    if Nat.ltb i 9 then
      MI <- for_up 0 4 (fun q MI =>
              m <- get3 mb8 i (4 * j + q) 0 ;; y <- ax_mul 8 m (N.of_nat x) ;;
              set3 MI i (4 * j + q) x y) MI ;;
      for_up 0 4 (fun q MI => set3 MI i (4 * j + q) x (N.of_nat x)) MI
    else Ok MI) MI.

(** Lines 218-259: TyiBoxes composed with mb_32x32[i][j].mat, mixBijOut from mb_32x32[i][j].invMat; the
    four groups of statements are loops here.  x << 24 - 8*q is converted to u32. *)
Definition ax_tables (mb32 : list (list (list gmat))) (i j : nat) (t : aestab)
  : res aestab :=
  for_up 0 256 (fun x t =>
    if Nat.ltb i 9 then
      m0 <- get3 mb32 i j 0 ;; m1 <- get3 mb32 i j 1 ;;
      TY <- for_up 0 4 (fun q TY =>
              v <- get3 (tTyiBoxes t) i (4 * j + q) x ;; y <- ax_mul 32 m0 v ;;
              set3 TY i (4 * j + q) x y) (tTyiBoxes t) ;;
      MO <- for_up 0 4 (fun q MO =>
              aa <- ax_mul 32 m1 (N.shiftl (N.of_nat x) (N.of_nat (24 - 8 * q))) ;;
              y <- mix_word (tMixIn t) i j aa ;; set3 MO i (4 * j + q) x y) (tMixOut t) ;;
      Ok (mkaes (tTBoxes t) (tTyiTables t) TY (tMixIn t) MO (tXor t))
    else Ok t) t.

(** Lines 198-262 *)
Definition ax_mix (mb32 mb8 : list (list (list gmat))) (t : aestab) : res aestab :=
  for_up 0 10 (fun i t =>
    for_up 0 4 (fun j t =>
      MI <- ax_reset mb8 i j (tMixIn t) ;;
      ax_tables mb32 i j (mkaes (tTBoxes t) (tTyiTables t) (tTyiBoxes t) MI (tMixOut t) (tXor t))) t) t.

(** computeTables, lines 131-276: the expanded key, the tables and the number of random bits used.  The
    result is None if [fuel] is not enough for one of the random matrices. *)
Definition ax_computeTables (fuel : nat) (nt : ntl) (expandedKey : list N) (t : aestab) (s : nat)
  : res (option (list N * aestab * nat)) :=
  TT <- gen_TyiTables false (tTyiTables t) ;;
  o <- ax_bijections fuel nt (repeat (repeat (repeat (gdims 0 0) 2) 4) 10)
         (repeat (repeat (repeat (gdims 0 0) 2) 16) 10) s ;;
  match o with
  | None => Ok None
  | Some (mb32, mb8, s) =>
      ' (ek, t) <- ax_TBoxes mb8 expandedKey
                     (mkaes (tTBoxes t) TT (tTyiBoxes t) (tMixIn t) (tMixOut t) (tXor t)) ;;
      t <- ax_mix mb32 mb8 t ;;
      X <- gen_xorTable (tXor t) ;;
      Ok (Some (ek, mkaes (tTBoxes t) (tTyiTables t) (tTyiBoxes t) (tMixIn t) (tMixOut t) X, s))
  end.
