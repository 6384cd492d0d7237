(** Model of the white-box AES example over M4RI, test/WBAES/M4RI: computeTables in
    src/matrixlib/genTables.c.  Line numbers are those of that file.

    src/matrixlib/aes.c, include/matrixlib/aes.h and, of genTables.c, mixColumns_table (lines 8-22),
    aes_128_table_encrypt (lines 24-99), the tables TyiTables (lines 103-112) and xorTable (lines
    247-259) are the same text as in test/WBAES/WBMatrix, except for one include directive and white
    space; they are those of ModelAES.v.  Matrices are values as in ModelGf2.v; freeing (and what is
    never freed: the vectors xx and the products) is left out.  The vectors vAA to vDD are written
    completely by InitVecFromBit before they are read, so they are new vectors here.

    Not modelled: printTables and the functions of test/main.c. *)
From Coq Require Import Arith NArith ZArith List Bool.
From Verif Require Import Base ModelSM4 ModelAES ModelM4ri ModelM4ri2 ModelGf2.
Import ListNotations.
Local Open Scope nat_scope.

(** mb_32x32[i][k] and mb_8x8[i][k], lines 126-127 and 131-132, with n = 32 and n = 8.  The result is
    None if [fuel] is not enough. *)
Definition am_pair (fuel : nat) (e : menv) (n i k : nat) (st : option (list (list (list mzd)) * nat))
  : res (option (list (list (list mzd)) * nat)) :=
  match st with
  | None => Ok None
  | Some (mb, s) =>
      o <- GenInvertibleMatGf2 fuel e n n s ;;
      match o with
      | None => Ok None
      | Some (A, s) =>
          mb <- set3 mb i k 0 A ;;
          A' <- get3 mb i k 0 ;; B <- GenMatGf2Inv A' ;; mb <- set3 mb i k 1 B ;;
          Ok (Some (mb, s))
      end
  end.
(** Lines 122-134 *)
Definition am_bijections (fuel : nat) (e : menv) (mb32 mb8 : list (list (list mzd))) (s : nat)
  : res (option (list (list (list mzd)) * list (list (list mzd)) * nat)) :=
  for_up 0 10 (fun i st =>
    match st with
    | None => Ok None
    | Some (mb32, mb8, s) =>
        o <- for_up 0 4 (fun k st => am_pair fuel e 32 i k st) (Some (mb32, s)) ;;
        match o with
        | None => Ok None
        | Some (mb32, s) =>
            o <- for_up 0 16 (fun k st => am_pair fuel e 8 i k st) (Some (mb8, s)) ;;
            match o with None => Ok None | Some (mb8, s) => Ok (Some (mb32, mb8, s)) end
        end
    end) (Some (mb32, mb8, s)).

(** Lines 145-147: the product of a matrix and the bits of a number, as a number; n is the number of
    rows of the vector *)
Definition am_mul (e : menv) (n : nat) (M : mzd) (x : N) : res N :=
  xx <- InitVecFromBit e x (mzd_init n 1) ;; y <- GenMatGf2Mul e M xx ;; getDigitalFromVec y.

(** One entry of the loop over x in lines 149-175 *)
Definition am_tbox_entry (e : menv) (mb8 : list (list (list mzd))) (ek : list N) (i j x : nat)
  (t : aestab) : res aestab :=
  xx <- InitVecFromBit e (N.of_nat x) (mzd_init 8 1) ;;
  tmp <- (if (Nat.ltb 0 i && Nat.ltb i 9)%bool then
            m <- get3 mb8 (i - 1) j 1 ;; y <- GenMatGf2Mul e m xx ;; getDigitalFromVec y
          else Ok (N.of_nat x)) ;;
  tmp <- (if (Nat.ltb 0 i && Nat.ltb i 9)%bool then get3 (tMixIn t) (i - 1) j (N.to_nat tmp) else Ok tmp) ;;
  k <- aget ek (16 * i + j) ;;
  tmp <- aget aes_SBox (N.to_nat (N.lxor tmp k)) ;;
  TB <- set3 (tTBoxes t) i j x (uchar tmp) ;;
  if Nat.eqb i 9 then
    y <- get3 TB i j x ;; k <- aget ek (160 + j) ;;
    TB <- set3 TB i j x (N.lxor y k) ;;
    Ok (mkaes TB (tTyiTables t) (tTyiBoxes t) (tMixIn t) (tMixOut t) (tXor t))
  else
    y <- get2 (tTyiTables t) (j mod 4) (N.to_nat tmp) ;;
    TY <- set3 (tTyiBoxes t) i j x y ;;
    Ok (mkaes TB (tTyiTables t) TY (tMixIn t) (tMixOut t) (tXor t)).

(** Lines 136-177: the T-boxes; also the expanded key, whose rows are shifted in place *)
Definition am_TBoxes (e : menv) (mb8 : list (list (list mzd))) (ek : list N) (t : aestab)
  : res (list N * aestab) :=
  for_up 0 10 (fun i st =>
    let (ek, t) := st : list N * aestab in
    ek <- shiftRows ek (16 * i) ;;
    t <- for_up 0 16 (fun j t =>
      MI <- for_up 0 256 (fun x MI =>
              m <- get3 mb8 i j 0 ;; y <- am_mul e 8 m (N.of_nat x) ;; set3 MI i j x y) (tMixIn t) ;;
      for_up 0 256 (fun x t => am_tbox_entry e mb8 ek i j x t)
        (mkaes (tTBoxes t) (tTyiTables t) (tTyiBoxes t) MI (tMixOut t) (tXor t))) t ;;
    Ok (ek, t)) (ek, t).

(** Lines 183-200: mixBijIn gets the product and then, in the same iteration, the identity *)
Definition am_reset (e : menv) (mb8 : list (list (list mzd))) (i j : nat)
  (MI : list (list (list N))) : res (list (list (list N))) :=
  for_up 0 256 (fun x MI =>
    if Nat.ltb i 9 then
      xx <- InitVecFromBit e (N.of_nat x) (mzd_init 8 1) ;;
      MI <- for_up 0 4 (fun q MI =>
              m <- get3 mb8 i (4 * j + q) 0 ;; v <- GenMatGf2Mul e m xx ;; y <- getDigitalFromVec v ;;
              set3 MI i (4 * j + q) x y) MI ;;
      for_up 0 4 (fun q MI => set3 MI i (4 * j + q) x (N.of_nat x)) MI
    else Ok MI) MI.

(** x << 24 - 8*q as an argument of type unsigned long, lines 216-219, for an int x with 0 <= x < 256:
    for q = 0 and x >= 128 undefined in ISO C ([strict]); usually the wrapped, negative value, which
    is converted to unsigned long by adding 2^32 or 2^64 *)
Definition am_shl (strict : bool) (e : menv) (x : N) (q : nat) : res N :=
  if (Nat.eqb q 0 && N.leb 128 x)%bool then
    if strict then UB
    else Ok (2 ^ ulbits (elong e) - 2 ^ 32 + N.shiftl x 24)%N
  else Ok (N.shiftl x (N.of_nat (24 - 8 * q))).

(** Lines 202-243: TyiBoxes composed with mb_32x32[i][j][0], mixBijOut from mb_32x32[i][j][1]; the
    four groups of statements are loops here *)
Definition am_tables (strict : bool) (e : menv) (mb32 : list (list (list mzd))) (i j : nat) (t : aestab)
  : res aestab :=
  for_up 0 256 (fun x t =>
    if Nat.ltb i 9 then
      m0 <- get3 mb32 i j 0 ;; m1 <- get3 mb32 i j 1 ;;
      TY <- for_up 0 4 (fun q TY =>
              v <- get3 (tTyiBoxes t) i (4 * j + q) x ;; y <- am_mul e 32 m0 v ;;
              set3 TY i (4 * j + q) x y) (tTyiBoxes t) ;;
      MO <- for_up 0 4 (fun q MO =>
              d <- am_shl strict e (N.of_nat x) q ;;
              v <- InitVecFromBit e d (mzd_init 32 1) ;; v <- GenMatGf2Mul e m1 v ;; aa <- get32FromVec v ;;
              y <- mix_word (tMixIn t) i j aa ;; set3 MO i (4 * j + q) x y) (tMixOut t) ;;
      Ok (mkaes (tTBoxes t) (tTyiTables t) TY (tMixIn t) MO (tXor t))
    else Ok t) t.

(** Lines 179-246 *)
Definition am_mix (strict : bool) (e : menv) (mb32 mb8 : list (list (list mzd))) (t : aestab) : res aestab :=
  for_up 0 10 (fun i t =>
    for_up 0 4 (fun j t =>
      MI <- am_reset e mb8 i j (tMixIn t) ;;
      am_tables strict e mb32 i j (mkaes (tTBoxes t) (tTyiTables t) (tTyiBoxes t) MI (tMixOut t) (tXor t))) t) t.

(** computeTables, lines 100-281: the expanded key, the tables and the state of random() afterwards.
    The local arrays mb_32x32 and mb_8x8 of pointers are uninitialised in C; they are completely
    written.  The result is None if [fuel] is not enough for one of the random matrices. *)
Definition am_computeTables (strict : bool) (fuel : nat) (e : menv) (expandedKey : list N) (t : aestab) (s : nat)
  : res (option (list N * aestab * nat)) :=
  TT <- gen_TyiTables strict (tTyiTables t) ;;
  o <- am_bijections fuel e (repeat (repeat (repeat (mzd_init 0 0) 2) 4) 10)
         (repeat (repeat (repeat (mzd_init 0 0) 2) 16) 10) s ;;
  match o with
  | None => Ok None
  | Some (mb32, mb8, s) =>
      ' (ek, t) <- am_TBoxes e mb8 expandedKey
                     (mkaes (tTBoxes t) TT (tTyiBoxes t) (tMixIn t) (tMixOut t) (tXor t)) ;;
      t <- am_mix strict e mb32 mb8 t ;;
      X <- gen_xorTable (tXor t) ;;
      Ok (Some (ek, mkaes (tTBoxes t) (tTyiTables t) (tTyiBoxes t) (tMixIn t) (tMixOut t) X, s))
  end.
