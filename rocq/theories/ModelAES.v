(** Model of the white-box AES example test/WBAES/WBMatrix (src/aes.c, src/genTables.c,
    include/aes.h).  File names below are relative to that directory.

    The example contains a copy of the library; the functions it uses (genMatpairM8,
    genMatpairM32, MatMulNumM8, MatMulNumM32) agree with those of src/WBMatrix/WBMatrix.c up to
    the place of the variable declarations and of the call of InitRandom in randM and are taken
    from Model.v.

    Not modelled: printState, printTables and the functions of test/main.c (output,
    conversion of hexadecimal strings, timing). *)
From Coq Require Import Arith NArith List Bool.
From Verif Require Import Base Tables Model ModelSM4.
Import ListNotations.

(** Accesses t[i][j][k][l] *)
Definition get4 {A} (t : list (list (list (list A)))) (i j k l : nat) : res A :=
  r <- aget t i ;; get3 r j k l.
Definition set4 {A} (t : list (list (list (list A)))) (i j k l : nat) (x : A)
  : res (list (list (list (list A)))) :=
  r <- aget t i ;; r' <- set3 r j k l x ;; aset t i r'.

(** SBox, include/aes.h lines 14-32 *)
Definition aes_SBox : list N :=
  [99; 124; 119; 123; 242; 107; 111; 197; 48; 1; 103; 43; 254; 215; 171; 118;
   202; 130; 201; 125; 250; 89; 71; 240; 173; 212; 162; 175; 156; 164; 114; 192;
   183; 253; 147; 38; 54; 63; 247; 204; 52; 165; 229; 241; 113; 216; 49; 21;
   4; 199; 35; 195; 24; 150; 5; 154; 7; 18; 128; 226; 235; 39; 178; 117;
   9; 131; 44; 26; 27; 110; 90; 160; 82; 59; 214; 179; 41; 227; 47; 132;
   83; 209; 0; 237; 32; 252; 177; 91; 106; 203; 190; 57; 74; 76; 88; 207;
   208; 239; 170; 251; 67; 77; 51; 133; 69; 249; 2; 127; 80; 60; 159; 168;
   81; 163; 64; 143; 146; 157; 56; 245; 188; 182; 218; 33; 16; 255; 243; 210;
   205; 12; 19; 236; 95; 151; 68; 23; 196; 167; 126; 61; 100; 93; 25; 115;
   96; 129; 79; 220; 34; 42; 144; 136; 70; 238; 184; 20; 222; 94; 11; 219;
   224; 50; 58; 10; 73; 6; 36; 92; 194; 211; 172; 98; 145; 149; 228; 121;
   231; 200; 55; 109; 141; 213; 78; 169; 108; 86; 244; 234; 101; 122; 174; 8;
   186; 120; 37; 46; 28; 166; 180; 198; 232; 221; 116; 31; 75; 189; 139; 138;
   112; 62; 181; 102; 72; 3; 246; 14; 97; 53; 87; 185; 134; 193; 29; 158;
   225; 248; 152; 17; 105; 217; 142; 148; 155; 30; 135; 233; 206; 85; 40; 223;
   140; 161; 137; 13; 191; 230; 66; 104; 65; 153; 45; 15; 176; 84; 187; 22]%N.

(** rCon, include/aes.h lines 34-37 *)
Definition aes_rCon : list N := [0x8d; 0x01; 0x02; 0x04; 0x08; 0x10; 0x20; 0x40; 0x80; 0x1b; 0x36]%N.

(** ** src/aes.c *)

(** ROTL8(x, shift), include/aes.h line 9: ((u8)(x << shift)) | (x >> (8 - shift)) *)
Definition ROTL8 (x shift : N) : N := N.lor (uchar (N.shiftl x shift)) (N.shiftr x (8 - shift)).

(** One iteration of the loop in initialize_aes_sbox, lines 8-20: new p and q, and the value
    written to sbox[p] *)
Definition sbox_step (p q : N) : N * N * N :=
  let p := uchar (N.lxor (N.lxor p (N.shiftl p 1)) (if N.eqb (N.land p 0x80) 0 then 0 else 0x1b)) in
  let q := uchar (N.lxor q (N.shiftl q 1)) in
  let q := uchar (N.lxor q (N.shiftl q 2)) in
  let q := uchar (N.lxor q (N.shiftl q 4)) in
  let q := N.lxor q (if N.eqb (N.land q 0x80) 0 then 0 else 0x09) in
  let xformed := N.lxor (N.lxor (N.lxor (N.lxor q (ROTL8 q 1)) (ROTL8 q 2)) (ROTL8 q 3)) (ROTL8 q 4) in
  (p, q, N.lxor xformed 0x63).
(** The do-while loop, lines 7-21.  It may run for ever; [None] says that it did not end within
    [fuel] iterations. *)
Fixpoint sbox_loop (fuel : nat) (p q : N) (sbox : list N) : option (res (list N)) :=
  match fuel with
  | O => None
  | S fuel' =>
      let '(p', q', v) := sbox_step p q in
      match aset sbox (N.to_nat p') v with
      | Ok sbox' => if N.eqb p' 1 then Some (Ok sbox') else sbox_loop fuel' p' q' sbox'
      | UB => Some UB
      end
  end.
(** initialize_aes_sbox, lines 3-25 *)
Definition initialize_aes_sbox (fuel : nat) (sbox : list N) : option (res (list N)) :=
  match sbox_loop fuel 1 1 sbox with
  | Some r => Some (s <- r ;; aset s 0 0x63%N)
  | None => None
  end.

(** subBytes, lines 34-37 *)
Definition subBytes (state : list N) : res (list N) :=
  for_up 0 16 (fun i s => x <- aget s i ;; y <- aget aes_SBox (N.to_nat x) ;; aset s i y) state.

(** shiftTab, line 42 *)
Definition shiftTab : list nat := [0; 5; 10; 15; 4; 9; 14; 3; 8; 13; 2; 7; 12; 1; 6; 11].
(** memcpy(state + p, out, 16), lines 46 and 78 *)
Definition put16 (state : list N) (p : nat) (out : list N) : res (list N) :=
  for_up 0 16 (fun i s => x <- aget out i ;; aset s (p + i) x) state.
(** shiftRows(state + p), lines 40-47; the local array out is uninitialised in C and completely
    written *)
Definition shiftRows (state : list N) (p : nat) : res (list N) :=
  out <- for_up 0 16 (fun i o => k <- aget shiftTab i ;; x <- aget state (p + k) ;; aset o i x)
           (repeat 0%N 16) ;;
  put16 state p out.

(** addRoundKey(state, roundKey + p), lines 49-52 *)
Definition addRoundKey (state roundKey : list N) (p : nat) : res (list N) :=
  for_up 0 16 (fun i s => x <- aget s i ;; k <- aget roundKey (p + i) ;; aset s i (N.lxor x k)) state.

(** gMul, lines 54-68 *)
Definition gMul (a b : N) : res N :=
  r <- for_up 0 8 (fun _ st =>
         let '(p, a, b) := st : N * N * N in
         let p := if N.eqb (N.land b 1) 1 then N.lxor p a else p in
         let hi_bit_set := N.land a 0x80 in
         let a := uchar (N.shiftl a 1) in
         let a := if N.eqb hi_bit_set 0x80 then N.lxor a 0x1b else a in
         Ok (p, a, N.shiftr b 1)) (0%N, a, b) ;;
  let '(p, _, _) := r in Ok p.

(** mixColumns, lines 69-79; the local array out is completely written *)
Definition mixColumns (state : list N) : res (list N) :=
  out <- for_up 0 4 (fun i o =>
           s0 <- aget state (4 * i) ;; s1 <- aget state (4 * i + 1) ;;
           s2 <- aget state (4 * i + 2) ;; s3 <- aget state (4 * i + 3) ;;
           a <- gMul 2 s0 ;; b <- gMul 3 s1 ;;
           o <- aset o (4 * i) (N.lxor (N.lxor (N.lxor a b) s2) s3) ;;
           a <- gMul 2 s1 ;; b <- gMul 3 s2 ;;
           o <- aset o (4 * i + 1) (N.lxor (N.lxor (N.lxor s0 a) b) s3) ;;
           a <- gMul 2 s2 ;; b <- gMul 3 s3 ;;
           o <- aset o (4 * i + 2) (N.lxor (N.lxor (N.lxor s0 s1) a) b) ;;
           a <- gMul 3 s0 ;; b <- gMul 2 s3 ;;
           aset o (4 * i + 3) (N.lxor (N.lxor (N.lxor a s1) s2) b)) (repeat 0%N 16) ;;
  put16 state 0 out.

(** expandKey, lines 81-111; tmp is a local array, a list of four here *)
Definition expandKey (key expandedKey : list N) : res (list N) :=
  ek <- for_up 0 4 (fun i ek =>
    for_up 0 4 (fun q ek => x <- aget key (4 * i + q) ;; aset ek (4 * i + q) x) ek) expandedKey ;;
  for_up 4 44 (fun i ek =>
    t0 <- aget ek (4 * (i - 1)) ;; t1 <- aget ek (4 * (i - 1) + 1) ;;
    t2 <- aget ek (4 * (i - 1) + 2) ;; t3 <- aget ek (4 * (i - 1) + 3) ;;
    tmp <- (if Nat.eqb (i mod 4) 0 then
              a <- aget aes_SBox (N.to_nat t1) ;; r <- aget aes_rCon (i / 4) ;;
              b <- aget aes_SBox (N.to_nat t2) ;; c <- aget aes_SBox (N.to_nat t3) ;;
              d <- aget aes_SBox (N.to_nat t0) ;;
              Ok [N.lxor a r; b; c; d]
            else Ok [t0; t1; t2; t3]) ;;
    for_up 0 4 (fun q ek =>
      x <- aget ek (4 * (i - 4) + q) ;; t <- aget tmp q ;; aset ek (4 * i + q) (N.lxor x t)) ek) ek.

(** aes_128_encrypt, lines 114-139: the contents of input and output afterwards.  The local
    array expandedKey is completely written by expandKey. *)
Definition aes_128_encrypt (input output : list N) : res (list N * list N) :=
  ek <- expandKey (repeat 0%N 16) (repeat 0%N 176) ;;
  ' (input, ek) <- for_up 0 9 (fun i st =>
    let (input, ek) := st : list N * list N in
    input <- shiftRows input 0 ;; ek <- shiftRows ek (16 * i) ;;
    input <- addRoundKey input ek (16 * i) ;; input <- subBytes input ;;
    input <- mixColumns input ;; Ok (input, ek)) (input, ek) ;;
  input <- shiftRows input 0 ;; ek <- shiftRows ek 144 ;;
  input <- addRoundKey input ek 144 ;; input <- subBytes input ;;
  input <- addRoundKey input ek 160 ;;
  output <- for_up 0 16 (fun i o => x <- aget input i ;; aset o i x) output ;;
  Ok (input, output).

(** ** src/genTables.c *)

(** The global tables, lines 2-7 *)
Record aestab := mkaes
  { tTBoxes : list (list (list N)); tTyiTables : list (list N); tTyiBoxes : list (list (list N));
    tMixIn : list (list (list N)); tMixOut : list (list (list N));
    tXor : list (list (list (list N))) }.

(** mixColumns_table, lines 8-22 *)
Definition mixColumns_table (T : list (list N)) (state : list N) : res (list N) :=
  out <- for_up 0 4 (fun j o =>
           s0 <- aget state (4 * j) ;; s1 <- aget state (4 * j + 1) ;;
           s2 <- aget state (4 * j + 2) ;; s3 <- aget state (4 * j + 3) ;;
           a <- get2 T 0 (N.to_nat s0) ;; b <- get2 T 1 (N.to_nat s1) ;;
           c <- get2 T 2 (N.to_nat s2) ;; d <- get2 T 3 (N.to_nat s3) ;;
           let tmp := N.lxor (N.lxor (N.lxor a b) c) d in
           o <- aset o (4 * j) (uchar (N.shiftr tmp 24)) ;;
           o <- aset o (4 * j + 1) (uchar (N.shiftr tmp 16)) ;;
           o <- aset o (4 * j + 2) (uchar (N.shiftr tmp 8)) ;;
           aset o (4 * j + 3) (uchar tmp)) (repeat 0%N 16) ;;
  put16 state 0 out.

(** The xor of four words by tables of nibbles, lines 36-58 and lines 66-88 (the same text):
    byte q (from the left) of the word for column j goes to input[4*j + q] *)
Definition xor_nibbles (X : list (list (list (list N)))) (i j : nat) (a b c d : N) (input : list N)
  : res (list N) :=
  for_up 0 4 (fun q input =>
    let hi := N.of_nat (28 - 8 * q) in let lo := N.of_nat (24 - 8 * q) in
    let nib x s := N.to_nat (N.land (N.shiftr x s) 15) in
    aa <- get4 X i (24 * j + (6 * q)) (nib a hi) (nib b hi) ;;
    bb <- get4 X i (24 * j + (6 * q + 1)) (nib c hi) (nib d hi) ;;
    cc <- get4 X i (24 * j + (6 * q + 2)) (nib a lo) (nib b lo) ;;
    dd <- get4 X i (24 * j + (6 * q + 3)) (nib c lo) (nib d lo) ;;
    h <- get4 X i (24 * j + (6 * q + 4)) (N.to_nat aa) (N.to_nat bb) ;;
    l <- get4 X i (24 * j + (6 * q + 5)) (N.to_nat cc) (N.to_nat dd) ;;
    aset input (4 * j + q) (uchar (N.lor (N.shiftl h 4) l))) input.

(** One round of aes_128_table_encrypt, lines 27-89 *)
Definition table_round (t : aestab) (i : nat) (input : list N) : res (list N) :=
  input <- shiftRows input 0 ;;
  for_up 0 4 (fun j input =>
    let look (T : list (list (list N))) (q : nat) (input : list N) :=
      x <- aget input (4 * j + q) ;; get3 T i (4 * j + q) (N.to_nat x) in
    a <- look (tTyiBoxes t) 0 input ;; b <- look (tTyiBoxes t) 1 input ;;
    c <- look (tTyiBoxes t) 2 input ;; d <- look (tTyiBoxes t) 3 input ;;
    input <- xor_nibbles (tXor t) i j a b c d input ;;
    a <- look (tMixOut t) 0 input ;; b <- look (tMixOut t) 1 input ;;
    c <- look (tMixOut t) 2 input ;; d <- look (tMixOut t) 3 input ;;
    xor_nibbles (tXor t) i j a b c d input) input.

(** aes_128_table_encrypt, lines 24-99: the contents of input and output afterwards *)
Definition aes_128_table_encrypt (t : aestab) (input output : list N) : res (list N * list N) :=
  input <- for_up 0 9 (table_round t) input ;;
  input <- shiftRows input 0 ;;
  input <- for_up 0 16 (fun j s =>
    x <- aget s j ;; y <- get3 (tTBoxes t) 9 j (N.to_nat x) ;; aset s j y) input ;;
  output <- for_up 0 16 (fun i o => x <- aget input i ;; aset o i x) output ;;
  Ok (input, output).

(** (x << 24) for an int x with 0 <= x < 256: undefined in ISO C when the result exceeds INT_MAX
    ([strict]), the wrapped value with the usual compilers.  The result is converted to u32. *)
Definition int_shl24 (strict : bool) (x : N) : res N :=
  if (strict && N.leb 128 x)%bool then UB else Ok (N.shiftl x 24).

(** The tables TyiTables, lines 134-143 *)
Definition gen_TyiTables (strict : bool) (T : list (list N)) : res (list (list N)) :=
  for_up 0 4 (fun _ T =>
    for_up 0 256 (fun x T =>
      let n := N.of_nat x in
      m2 <- gMul 2 n ;; m3 <- gMul 3 n ;;
      let or4 a b c d := N.lor (N.lor (N.lor a (N.shiftl b 16)) (N.shiftl c 8)) d in
      a <- int_shl24 strict m2 ;; T <- set2 T 0 x (or4 a n n m3) ;;
      a <- int_shl24 strict m3 ;; T <- set2 T 1 x (or4 a m2 n n) ;;
      a <- int_shl24 strict n ;; T <- set2 T 2 x (or4 a m3 m2 n) ;;
      a <- int_shl24 strict n ;; set2 T 3 x (or4 a n m3 m2)) T) T.

(** The mixing bijections, lines 151-160: mb_32x32 and mb_8x8 *)
Definition gen_bijections (e : endian) (mb32 mb8 : list (list (list mat))) (s : world)
  : res (list (list (list mat)) * list (list (list mat)) * world) :=
  for_up 0 10 (fun i st =>
    let '(mb32, mb8, s) := st : list (list (list mat)) * list (list (list mat)) * world in
    let fill w (st : list (list (list mat)) * world) k :=
      let (mb, s) := st in
      m0 <- get3 mb i k 0 ;; m1 <- get3 mb i k 1 ;;
      ' (a, b, s) <- genMatpair e w m0 m1 s ;;
      mb <- set3 mb i k 0 a ;; mb <- set3 mb i k 1 b ;; Ok (mb, s) in
    ' (mb32, s) <- for_up 0 4 (fun k st => fill W32 st k) (mb32, s) ;;
    ' (mb8, s) <- for_up 0 16 (fun k st => fill W8 st k) (mb8, s) ;;
    Ok (mb32, mb8, s)) (mb32, mb8, s).

(** One entry of the loop over x in lines 172-195 *)
Definition tbox_entry (e : endian) (mb8 : list (list (list mat))) (ek : list N) (i j x : nat)
  (t : aestab) : res aestab :=
  tmp <- (if (Nat.ltb 0 i && Nat.ltb i 9)%bool then
            m <- get3 mb8 (i - 1) j 1 ;; y <- MatMulNum e W8 m (N.of_nat x) ;;
            get3 (tMixIn t) (i - 1) j (N.to_nat y)
          else Ok (N.of_nat x)) ;;
  k <- aget ek (16 * i + j) ;;
  tmp <- aget aes_SBox (N.to_nat (N.lxor tmp k)) ;;
  TB <- set3 (tTBoxes t) i j x (uchar tmp) ;;
  if Nat.eqb i 9 then
    y <- get3 TB i j x ;; k <- aget ek (160 + j) ;;
    TB <- set3 TB i j x (N.lxor y k) ;;
    Ok (mkaes TB (tTyiTables t) (tTyiBoxes t) (tMixIn t) (tMixOut t) (tXor t))
  else
    y <- get2 (tTyiTables t) (j mod 4) (N.to_nat tmp) ;;
    TY <- set3 (tTyiBoxes t) i j x y ;;
    Ok (mkaes TB (tTyiTables t) TY (tMixIn t) (tMixOut t) (tXor t)).

(** Lines 162-197: the T-boxes; also the expanded key, whose rows are shifted in place *)
Definition gen_TBoxes (e : endian) (mb8 : list (list (list mat))) (ek : list N) (t : aestab)
  : res (list N * aestab) :=
  for_up 0 10 (fun i st =>
    let (ek, t) := st : list N * aestab in
    ek <- shiftRows ek (16 * i) ;;
    t <- for_up 0 16 (fun j t =>
      MI <- for_up 0 256 (fun x MI =>
              m <- get3 mb8 i j 0 ;; y <- MatMulNum e W8 m (N.of_nat x) ;; set3 MI i j x y) (tMixIn t) ;;
      for_up 0 256 (fun x t => tbox_entry e mb8 ek i j x t)
        (mkaes (tTBoxes t) (tTyiTables t) (tTyiBoxes t) MI (tMixOut t) (tXor t))) t ;;
    Ok (ek, t)) (ek, t).

(** Lines 203-217: mixBijIn gets the product and then, in the same iteration, the identity *)
Definition reset_mixBijIn (e : endian) (mb8 : list (list (list mat))) (i j : nat)
  (MI : list (list (list N))) : res (list (list (list N))) :=
  for_up 0 256 (fun x MI =>
    if Nat.ltb i 9 then
      MI <- for_up 0 4 (fun q MI =>
              m <- get3 mb8 i (4 * j + q) 0 ;; y <- MatMulNum e W8 m (N.of_nat x) ;;
              set3 MI i (4 * j + q) x y) MI ;;
      for_up 0 4 (fun q MI => set3 MI i (4 * j + q) x (N.of_nat x)) MI
    else Ok MI) MI.

(** Lines 244-259: the word composed of the four bytes of aa through mixBijIn *)
Definition mix_word (MI : list (list (list N))) (i j : nat) (aa : N) : res N :=
  a <- get3 MI i (4 * j) (N.to_nat (N.land (N.shiftr aa 24) 255)) ;;
  b <- get3 MI i (4 * j + 1) (N.to_nat (N.land (N.shiftr aa 16) 255)) ;;
  c <- get3 MI i (4 * j + 2) (N.to_nat (N.land (N.shiftr aa 8) 255)) ;;
  d <- get3 MI i (4 * j + 3) (N.to_nat (N.land (N.shiftr aa 0) 255)) ;;
  Ok (N.lor (N.lor (N.lor (u32 (N.shiftl a 24)) (u32 (N.shiftl b 16))) (u32 (N.shiftl c 8))) d).

(** Lines 219-261: TyiBoxes composed with mb_32x32[i][j][0], mixBijOut from mb_32x32[i][j][1] *)
Definition mix_tables (e : endian) (mb32 : list (list (list mat))) (i j : nat) (t : aestab)
  : res aestab :=
  for_up 0 256 (fun x t =>
    if Nat.ltb i 9 then
      m0 <- get3 mb32 i j 0 ;; m1 <- get3 mb32 i j 1 ;;
      TY <- for_up 0 4 (fun q TY =>
              v <- get3 (tTyiBoxes t) i (4 * j + q) x ;; y <- MatMulNum e W32 m0 v ;;
              set3 TY i (4 * j + q) x y) (tTyiBoxes t) ;;
      MO <- for_up 0 4 (fun q MO =>
              aa <- MatMulNum e W32 m1 (N.shiftl (N.of_nat x) (N.of_nat (24 - 8 * q))) ;;
              y <- mix_word (tMixIn t) i j aa ;; set3 MO i (4 * j + q) x y) (tMixOut t) ;;
      Ok (mkaes (tTBoxes t) (tTyiTables t) TY (tMixIn t) MO (tXor t))
    else Ok t) t.

(** Lines 199-264 *)
Definition mix_all (e : endian) (mb32 mb8 : list (list (list mat))) (t : aestab) : res aestab :=
  for_up 0 10 (fun i t =>
    for_up 0 4 (fun j t =>
      MI <- reset_mixBijIn e mb8 i j (tMixIn t) ;;
      mix_tables e mb32 i j (mkaes (tTBoxes t) (tTyiTables t) (tTyiBoxes t) MI (tMixOut t) (tXor t))) t) t.

(** Lines 265-277 *)
Definition gen_xorTable (X : list (list (list (list N)))) : res (list (list (list (list N)))) :=
  for_up 0 9 (fun i X => for_up 0 96 (fun j X => for_up 0 16 (fun x X => for_up 0 16 (fun y X =>
    set4 X i j x y (N.lxor (N.of_nat x) (N.of_nat y))) X) X) X) X.

(** computeTables, lines 131-278: the expanded key and the tables afterwards.  The local arrays
    mb_32x32 and mb_8x8 are uninitialised in C; genMatpair writes them completely. *)
Definition computeTables (strict : bool) (e : endian) (expandedKey : list N) (t : aestab) (s : world)
  : res (list N * aestab * world) :=
  TT <- gen_TyiTables strict (tTyiTables t) ;;
  ' (mb32, mb8, s) <- gen_bijections e (repeat (repeat (repeat (fresh_m W32) 2) 4) 10)
                        (repeat (repeat (repeat (fresh_m W8) 2) 16) 10) s ;;
  ' (ek, t) <- gen_TBoxes e mb8 expandedKey
                 (mkaes (tTBoxes t) TT (tTyiBoxes t) (tMixIn t) (tMixOut t) (tXor t)) ;;
  t <- mix_all e mb32 mb8 t ;;
  X <- gen_xorTable (tXor t) ;;
  Ok (ek, mkaes (tTBoxes t) (tTyiTables t) (tTyiBoxes t) (tMixIn t) (tMixOut t) X, s).
