(** Model of the white-box SM4 example test/WBSM4/WBMatrix (src/sm4.c, src/wbsm4_gen.c,
    test/main.c).  File names below are relative to that directory.

    The example contains an older copy of the library (src/WBMatrix/WBMatrix.c, src/WBMatrix/random.c).
    For the functions it uses the copy differs from the library only in the declarations of
    loop variables, in the position of a call of InitRandom that nothing can observe, and in
    randV32 and MattransM32, which are modelled below; the other functions are those of Model.v. *)
From Coq Require Import Arith NArith ZArith List Bool.
From Verif Require Import Base Tables Model.
Import ListNotations.

(** Accesses t[i][j] and t[i][j][k] to arrays of arrays *)
Definition get2 {A} (t : list (list A)) (i j : nat) : res A := r <- aget t i ;; aget r j.
Definition set2 {A} (t : list (list A)) (i j : nat) (x : A) : res (list (list A)) :=
  r <- aget t i ;; r' <- aset r j x ;; aset t i r'.
Definition get3 {A} (t : list (list (list A))) (i j k : nat) : res A :=
  r <- aget t i ;; get2 r j k.
Definition set3 {A} (t : list (list (list A))) (i j k : nat) (x : A)
  : res (list (list (list A))) :=
  r <- aget t i ;; r' <- set2 r j k x ;; aset t i r'.

(** ** Tables *)

(** SboxTable, src/sm4.c lines 48-66, row after row *)
Definition sm4_SboxTable : list N :=
  [214; 144; 233; 254; 204; 225; 61; 183; 22; 182; 20; 194;
   40; 251; 44; 5; 43; 103; 154; 118; 42; 190; 4; 195;
   170; 68; 19; 38; 73; 134; 6; 153; 156; 66; 80; 244;
   145; 239; 152; 122; 51; 84; 11; 67; 237; 207; 172; 98;
   228; 179; 28; 169; 201; 8; 232; 149; 128; 223; 148; 250;
   117; 143; 63; 166; 71; 7; 167; 252; 243; 115; 23; 186;
   131; 89; 60; 25; 230; 133; 79; 168; 104; 107; 129; 178;
   113; 100; 218; 139; 248; 235; 15; 75; 112; 86; 157; 53;
   30; 36; 14; 94; 99; 88; 209; 162; 37; 34; 124; 59;
   1; 33; 120; 135; 212; 0; 70; 87; 159; 211; 39; 82;
   76; 54; 2; 231; 160; 196; 200; 158; 234; 191; 138; 210;
   64; 199; 56; 181; 163; 247; 242; 206; 249; 97; 21; 161;
   224; 174; 93; 164; 155; 52; 26; 85; 173; 147; 50; 48;
   245; 140; 177; 227; 29; 246; 226; 46; 130; 102; 202; 96;
   192; 41; 35; 171; 13; 83; 78; 111; 213; 219; 55; 69;
   222; 253; 142; 47; 3; 255; 106; 114; 109; 108; 91; 81;
   141; 27; 175; 146; 187; 221; 188; 127; 17; 217; 92; 65;
   31; 16; 90; 216; 10; 193; 49; 136; 165; 205; 123; 189;
   45; 116; 208; 18; 184; 229; 180; 176; 137; 105; 151; 74;
   12; 150; 119; 126; 101; 185; 241; 9; 197; 110; 198; 132;
   24; 240; 125; 236; 58; 220; 77; 32; 121; 238; 95; 62;
   215; 203; 57; 72]%N.

(** FK, src/sm4.c line 69 *)
Definition sm4_FK : list N :=
  [2746333894; 1453994832; 1736282519; 2993693404]%N.

(** CK, src/sm4.c lines 72-82 *)
Definition sm4_CK : list N :=
  [462357; 472066609; 943670861; 1415275113; 1886879365; 2358483617;
   2830087869; 3301692121; 3773296373; 4228057617; 404694573; 876298825;
   1347903077; 1819507329; 2291111581; 2762715833; 3234320085; 3705924337;
   4177462797; 337322537; 808926789; 1280531041; 1752135293; 2223739545;
   2695343797; 3166948049; 3638552301; 4110090761; 269950501; 741554753;
   1213159005; 1684763257]%N.

(** SBOX, include/sbox.h lines 2-34 *)
Definition wb_SBOX : list N :=
  [214; 144; 233; 254; 204; 225; 61; 183; 22; 182; 20; 194;
   40; 251; 44; 5; 43; 103; 154; 118; 42; 190; 4; 195;
   170; 68; 19; 38; 73; 134; 6; 153; 156; 66; 80; 244;
   145; 239; 152; 122; 51; 84; 11; 67; 237; 207; 172; 98;
   228; 179; 28; 169; 201; 8; 232; 149; 128; 223; 148; 250;
   117; 143; 63; 166; 71; 7; 167; 252; 243; 115; 23; 186;
   131; 89; 60; 25; 230; 133; 79; 168; 104; 107; 129; 178;
   113; 100; 218; 139; 248; 235; 15; 75; 112; 86; 157; 53;
   30; 36; 14; 94; 99; 88; 209; 162; 37; 34; 124; 59;
   1; 33; 120; 135; 212; 0; 70; 87; 159; 211; 39; 82;
   76; 54; 2; 231; 160; 196; 200; 158; 234; 191; 138; 210;
   64; 199; 56; 181; 163; 247; 242; 206; 249; 97; 21; 161;
   224; 174; 93; 164; 155; 52; 26; 85; 173; 147; 50; 48;
   245; 140; 177; 227; 29; 246; 226; 46; 130; 102; 202; 96;
   192; 41; 35; 171; 13; 83; 78; 111; 213; 219; 55; 69;
   222; 253; 142; 47; 3; 255; 106; 114; 109; 108; 91; 81;
   141; 27; 175; 146; 187; 221; 188; 127; 17; 217; 92; 65;
   31; 16; 90; 216; 10; 193; 49; 136; 165; 205; 123; 189;
   45; 116; 208; 18; 184; 229; 180; 176; 137; 105; 151; 74;
   12; 150; 119; 126; 101; 185; 241; 9; 197; 110; 198; 132;
   24; 240; 125; 236; 58; 220; 77; 32; 121; 238; 95; 62;
   215; 203; 57; 72]%N.

(** sm4_csl_xor_matrix, src/wbsm4_gen.c line 5 *)
Definition wb_csl : list N :=
  [2686460032; 1343230016; 671615008; 335807504; 167903752; 83951876;
   41975938; 20987969; 2157977632; 1078988816; 539494408; 269747204;
   134873602; 67436801; 2181202048; 1090601024; 545300512; 272650256;
   136325128; 68162564; 34081282; 17040641; 2156003968; 1078001984;
   539000992; 269500496; 134750248; 67375124; 33687562; 16843781;
   2155905538; 1077952769]%N.

(** identM32, src/wbsm4_gen.c line 4 *)
Definition wb_identM32 : list N :=
  [2147483648; 1073741824; 536870912; 268435456; 134217728; 67108864;
   33554432; 16777216; 8388608; 4194304; 2097152; 1048576;
   524288; 262144; 131072; 65536; 32768; 16384;
   8192; 4096; 2048; 1024; 512; 256;
   128; 64; 32; 16; 8; 4;
   2; 1]%N.

(** ** SM4, src/sm4.c *)

(** unsigned long: 32 bits (Windows, 32-bit systems) or 64 bits (64-bit Unix) *)
Inductive ulong := UL32 | UL64.
Definition ulbits (u : ulong) : N := match u with UL32 => 32 | UL64 => 64 end.
Definition ulw (u : ulong) (x : N) : N := (x mod 2 ^ ulbits u)%N.

(** (unsigned char) x *)
Definition uchar (x : N) : N := (x mod 256)%N.

(** GET_ULONG_BE(n, b, i), lines 15-23 *)
Definition GET_ULONG_BE (u : ulong) (b : list N) (i : nat) : res N :=
  b0 <- aget b i ;; b1 <- aget b (i + 1) ;; b2 <- aget b (i + 2) ;; b3 <- aget b (i + 3) ;;
  Ok (N.lor (N.lor (N.lor (ulw u (N.shiftl b0 24)) (ulw u (N.shiftl b1 16)))
                   (ulw u (N.shiftl b2 8))) b3).

(** PUT_ULONG_BE(n, b, i), lines 25-33 *)
Definition PUT_ULONG_BE (n : N) (b : list N) (i : nat) : res (list N) :=
  b <- aset b i (uchar (N.shiftr n 24)) ;;
  b <- aset b (i + 1) (uchar (N.shiftr n 16)) ;;
  b <- aset b (i + 2) (uchar (N.shiftr n 8)) ;;
  aset b (i + 3) (uchar n).

(** SHL(x,n) and ROTL(x,n), lines 39-40: the shift is done in unsigned long, so with 64 bits
    the result of ROTL has bits above position 31 *)
Definition SHL (u : ulong) (x n : N) : N := ulw u (N.shiftl (N.land x 4294967295) n).
Definition ROTL (u : ulong) (x n : N) : N := N.lor (SHL u x n) (N.shiftr x (32 - n)).

(** sm4Sbox, lines 90-95 *)
Definition sm4Sbox (inch : N) : res N := aget sm4_SboxTable (N.to_nat inch).

(** The common part of sm4Lt (lines 105-114) and sm4CalciRK (lines 142-151): the four bytes
    of ka go through the S-box *)
Definition sm4_tau (u : ulong) (ka : N) : res N :=
  a <- PUT_ULONG_BE ka (repeat 0%N 4) 0 ;;
  b <- for_up 0 4 (fun i b => x <- aget a i ;; y <- sm4Sbox x ;; aset b i y) (repeat 0%N 4) ;;
  GET_ULONG_BE u b 0.

(** sm4Lt, lines 103-117 *)
Definition sm4Lt (u : ulong) (ka : N) : res N :=
  bb <- sm4_tau u ka ;;
  Ok (N.lxor (N.lxor (N.lxor (N.lxor bb (ROTL u bb 2)) (ROTL u bb 10)) (ROTL u bb 18))
             (ROTL u bb 24)).

(** sm4F, lines 129-132 *)
Definition sm4F (u : ulong) (x0 x1 x2 x3 rk : N) : res N :=
  t <- sm4Lt u (N.lxor (N.lxor (N.lxor x1 x2) x3) rk) ;; Ok (N.lxor x0 t).

(** sm4CalciRK, lines 140-154 *)
Definition sm4CalciRK (u : ulong) (ka : N) : res N :=
  bb <- sm4_tau u ka ;;
  Ok (N.lxor (N.lxor bb (ROTL u bb 13)) (ROTL u bb 23)).

(** sm4_setkey, lines 156-176.  [SK] is the array that receives the round keys; the local
    arrays MK and k are uninitialised in C and completely written before they are read. *)
Definition sm4_setkey (u : ulong) (SK key : list N) : res (list N) :=
  k <- for_up 0 4 (fun i k =>
         mk <- GET_ULONG_BE u key (4 * i) ;; fk <- aget sm4_FK i ;;
         aset k i (N.lxor mk fk)) (repeat 0%N 36) ;;
  r <- for_up 0 32 (fun i st =>
         let (k, SK) := st : list N * list N in
         k1 <- aget k (i + 1) ;; k2 <- aget k (i + 2) ;; k3 <- aget k (i + 3) ;;
         ck <- aget sm4_CK i ;; k0 <- aget k i ;;
         t <- sm4CalciRK u (N.lxor (N.lxor (N.lxor k1 k2) k3) ck) ;;
         let x := N.lxor k0 t in
         k' <- aset k (i + 4) x ;; SK' <- aset SK i x ;; Ok (k', SK')) (k, SK) ;;
  Ok (snd r).

(** sm4_one_round, lines 182-206; [ip] and [op] are the positions of the pointers input and
    output in the buffers they point into *)
Definition sm4_one_round (u : ulong) (sk input : list N) (ip : nat) (output : list N) (op : nat)
  : res (list N) :=
  b <- for_up 0 4 (fun i b => x <- GET_ULONG_BE u input (ip + 4 * i) ;; aset b i x)
         (repeat 0%N 36) ;;
  b <- for_up 0 32 (fun i b =>
         x0 <- aget b i ;; x1 <- aget b (i + 1) ;; x2 <- aget b (i + 2) ;; x3 <- aget b (i + 3) ;;
         rk <- aget sk i ;; y <- sm4F u x0 x1 x2 x3 rk ;; aset b (i + 4) y) b ;;
  for_up 0 4 (fun i output => x <- aget b (35 - i) ;; PUT_ULONG_BE x output (op + 4 * i)) output.

(** sm4_setkey_enc, lines 211-215 (the field mode is written and never read) *)
Definition sm4_setkey_enc (u : ulong) (SK key : list N) : res (list N) := sm4_setkey u SK key.

(** sm4_setkey_dec, lines 220-229; SWAP is line 42 *)
Definition sm4_setkey_dec (u : ulong) (SK key : list N) : res (list N) :=
  SK <- sm4_setkey u SK key ;;
  for_up 0 16 (fun i SK =>
    a <- aget SK i ;; b <- aget SK (31 - i) ;;
    SK <- aset SK i b ;; aset SK (31 - i) a) SK.

(** sm4_crypt_ecb, lines 236-250: the argument mode is not used.  [fuel] bounds the number of
    iterations of while (length > 0); every iteration takes 16 from length, so
    Z.to_nat length iterations are enough.  The two buffers do not overlap. *)
Fixpoint ecb_loop (fuel : nat) (u : ulong) (sk : list N) (length : Z) (input : list N)
  (p : nat) (output : list N) : res (list N) :=
  match fuel with
  | O => Ok output
  | S fuel' =>
      if (0 <? length)%Z then
        output' <- sm4_one_round u sk input p output p ;;
        ecb_loop fuel' u sk (length - 16) input (p + 16) output'
      else Ok output
  end.
Definition sm4_crypt_ecb (u : ulong) (sk : list N) (length : Z) (input output : list N)
  : res (list N) := ecb_loop (Z.to_nat length) u sk length input 0 output.

(** for (i = 0; i < 16; i++) dst[p + i] = a[q + i] ^ b[i], lines 269-270 and 286-287 *)
Definition xor16 (dst : list N) (p : nat) (a : list N) (q : nat) (b : list N) : res (list N) :=
  for_up 0 16 (fun i d => x <- aget a (q + i) ;; y <- aget b i ;; aset d (p + i) (uchar (N.lxor x y))) dst.
(** memcpy(dst, src + q, 16), lines 273, 283, 289 *)
Definition cpy16 (dst src : list N) (q : nat) : res (list N) :=
  for_up 0 16 (fun i d => x <- aget src (q + i) ;; aset d i x) dst.

(** sm4_crypt_cbc with mode == SM4_ENCRYPT, lines 265-279: the new iv and the output *)
Fixpoint cbc_enc_loop (fuel : nat) (u : ulong) (sk : list N) (length : Z) (iv input : list N)
  (p : nat) (output : list N) : res (list N * list N) :=
  match fuel with
  | O => Ok (iv, output)
  | S fuel' =>
      if (0 <? length)%Z then
        o1 <- xor16 output p input p iv ;;
        o2 <- sm4_one_round u sk o1 p o1 p ;;
        iv' <- cpy16 iv o2 p ;;
        cbc_enc_loop fuel' u sk (length - 16) iv' input (p + 16) o2
      else Ok (iv, output)
  end.
(** sm4_crypt_cbc with another mode, lines 280-296.  temp is a local array of 16 bytes. *)
Fixpoint cbc_dec_loop (fuel : nat) (u : ulong) (sk : list N) (length : Z) (iv input : list N)
  (p : nat) (output : list N) : res (list N * list N) :=
  match fuel with
  | O => Ok (iv, output)
  | S fuel' =>
      if (0 <? length)%Z then
        temp <- cpy16 (repeat 0%N 16) input p ;;
        o1 <- sm4_one_round u sk input p output p ;;
        o2 <- for_up 0 16 (fun i d => x <- aget d (p + i) ;; y <- aget iv i ;;
                aset d (p + i) (uchar (N.lxor x y))) o1 ;;
        iv' <- cpy16 iv temp 0 ;;
        cbc_dec_loop fuel' u sk (length - 16) iv' input (p + 16) o2
      else Ok (iv, output)
  end.
(** sm4_crypt_cbc, lines 255-297; the buffers do not overlap *)
Definition sm4_crypt_cbc (u : ulong) (sk : list N) (enc : bool) (length : Z)
  (iv input output : list N) : res (list N * list N) :=
  (if enc then cbc_enc_loop else cbc_dec_loop) (Z.to_nat length) u sk length iv input 0 output.

(** The same calls with input == output, so that reads and writes go to one buffer:
    sm4_crypt_ecb, lines 236-250 *)
Fixpoint ecb_loop_ip (fuel : nat) (u : ulong) (sk : list N) (length : Z) (p : nat) (buf : list N)
  : res (list N) :=
  match fuel with
  | O => Ok buf
  | S fuel' =>
      if (0 <? length)%Z then
        buf' <- sm4_one_round u sk buf p buf p ;; ecb_loop_ip fuel' u sk (length - 16) (p + 16) buf'
      else Ok buf
  end.
Definition sm4_crypt_ecb_ip (u : ulong) (sk : list N) (length : Z) (buf : list N) : res (list N) :=
  ecb_loop_ip (Z.to_nat length) u sk length 0 buf.
(** for (i = 0; i < 16; i++) d[p + i] = d[p + i] ^ b[i], lines 269-270 (with input == output)
    and 286-287 *)
Definition xor16_self (d : list N) (p : nat) (b : list N) : res (list N) :=
  for_up 0 16 (fun i d => x <- aget d (p + i) ;; y <- aget b i ;;
    aset d (p + i) (uchar (N.lxor x y))) d.
(** sm4_crypt_cbc, lines 265-279 *)
Fixpoint cbc_enc_loop_ip (fuel : nat) (u : ulong) (sk : list N) (length : Z) (iv : list N)
  (p : nat) (buf : list N) : res (list N * list N) :=
  match fuel with
  | O => Ok (iv, buf)
  | S fuel' =>
      if (0 <? length)%Z then
        o1 <- xor16_self buf p iv ;;
        o2 <- sm4_one_round u sk o1 p o1 p ;;
        iv' <- cpy16 iv o2 p ;;
        cbc_enc_loop_ip fuel' u sk (length - 16) iv' (p + 16) o2
      else Ok (iv, buf)
  end.
(** sm4_crypt_cbc, lines 280-296 *)
Fixpoint cbc_dec_loop_ip (fuel : nat) (u : ulong) (sk : list N) (length : Z) (iv : list N)
  (p : nat) (buf : list N) : res (list N * list N) :=
  match fuel with
  | O => Ok (iv, buf)
  | S fuel' =>
      if (0 <? length)%Z then
        temp <- cpy16 (repeat 0%N 16) buf p ;;
        o1 <- sm4_one_round u sk buf p buf p ;;
        o2 <- xor16_self o1 p iv ;;
        iv' <- cpy16 iv temp 0 ;;
        cbc_dec_loop_ip fuel' u sk (length - 16) iv' (p + 16) o2
      else Ok (iv, buf)
  end.
Definition sm4_crypt_cbc_ip (u : ulong) (sk : list N) (enc : bool) (length : Z) (iv buf : list N)
  : res (list N * list N) :=
  (if enc then cbc_enc_loop_ip else cbc_dec_loop_ip) (Z.to_nat length) u sk length iv 0 buf.

(** ** The functions of src/WBMatrix/WBMatrix.c that differ from the library *)

(** randV32, lines 235-241: two 16-bit halves *)
Definition randV32_old (e : endian) (v : vec) (s : world) : res (vec * world) :=
  let s0 := reseed s in
  old <- aget v 0 ;;
  let (a, s1) := cus_random s0 in
  let x1 := put_sub e 32 16 1 a old in
  let (b, s2) := cus_random s1 in
  v' <- aset v 0 (put_sub e 32 16 0 b x1) ;; Ok (v', s2).

(** MattransM32, lines 3246-3256 *)
Definition MattransM32_old (m out : mat) : res mat :=
  out0 <- initM W32 out ;;
  for_up 0 32 (fun i t =>
    for_up 0 32 (fun j t =>
      x <- mget m i 0 ;; d <- aget idM32 j ;;
      if N.eqb (N.land x d) 0 then Ok t
      else y <- mget t j 0 ;; di <- aget idM32 i ;; mset t j 0 (N.lxor y di)) t) out0.

(** MatMulMatM32, lines 3370-3382 *)
Definition MatMulMatM32_old (e : endian) (m1 m2 out : mat) : res mat :=
  m0 <- initM W32 out ;;
  tr <- MattransM32_old m2 (fresh_m W32) ;;
  for_up 0 32 (fun i m =>
    for_up 0 32 (fun j m =>
      r <- mget m1 i 0 ;; c <- mget tr j 0 ;;
      t <- xorU32 e (N.land r c) ;;
      if N.eqb t 0 then Ok m
      else d <- aget idM32 j ;; x <- mget m i 0 ;; mset m i 0 (N.lxor x d)) m) m0.

(** affinemixM32, lines 3436-3441 *)
Definition affinemixM32_old (e : endian) (f pre mix : aff) : res aff :=
  m <- MatMulMatM32_old e (amat f) (amat pre) (amat mix) ;;
  v <- MatMulVec e W32 (amat f) (avec pre) (avec mix) ;;
  x <- aget v 0 ;; y <- aget (avec f) 0 ;; v' <- aset v 0 (N.lxor x y) ;;
  Ok (mkaff m v').

(** genaffinepairM32, lines 2788-2793 *)
Definition genaffinepairM32_old (e : endian) (f fi : aff) (s : world) : res (aff * aff * world) :=
  ' (m, v, s1) <- genMatpair e W32 (amat f) (amat fi) s ;;
  ' (c, s2) <- randV32_old e (avec f) s1 ;;
  d <- MatMulVec e W32 v c (avec fi) ;;
  Ok (mkaff m c, mkaff v d, s2).

(** affineU8 and affineU32 return one element (lines 1306-1312 and 1320-1326) *)
Definition affineU1 (e : endian) (w : width) (f : aff) (x : N) : res N :=
  r <- affineU e w f [x] ;; aget r 0.

(** ** Table generation, src/wbsm4_gen.c *)

(** The global arrays P, E, EC, Q and skbox_enc, include/wbsm4.h lines 5-10 *)
Record wbglob := mkglob
  { gP : list (list aff); gE : list (list (list aff)); gEC : list (list aff);
    gQ : list (list aff); gS : list (list (list N)) }.

(** Sm4Whitebox, include/wbsm4.h lines 12-23 *)
Record wbctx := mkctx
  { cM : list (list aff); cC : list aff; cD : list aff; cSE : list aff; cFE : list aff;
    cT : list (list (list N)) }.

(** initMatrixL, lines 6-12: the entries are below 2^32 *)
Definition initMatrixL (m : mat) : res mat :=
  for_up 0 32 (fun i m => x <- aget wb_csl i ;; mset m i 0 (x mod 2 ^ 32)%N) m.

(** sm4_wb_gen_secrect_sbox, lines 13-31.  sst walks through skbox_enc[32][4][256] as a flat
    array; sst[256*d + j] in round i is skbox_enc[i][d][j]. *)
Definition sm4_wb_gen_secrect_sbox (sk : list N) (S : list (list (list N)))
  : res (list (list (list N))) :=
  key <- for_up 0 32 (fun i key => x <- aget sk i ;; aset key i (u32 x)) (repeat 0%N 32) ;;
  for_up 0 32 (fun i S =>
    for_up 0 256 (fun j S =>
      for_up 0 4 (fun d S =>
        rk <- aget key i ;;
        x <- aget wb_SBOX (N.to_nat (N.lxor (N.of_nat j)
               (N.land (N.shiftr rk (N.of_nat (24 - 8 * d))) 255))) ;;
        set3 S i d j x) S) S) S.

(** sm4_wb_gen_affine, lines 32-53 *)
Definition sm4_wb_gen_affine (e : endian) (g : wbglob) (s : world) : res (wbglob * world) :=
  for_up 0 36 (fun i st =>
    let (g, s) := st : wbglob * world in
    p0 <- get2 (gP g) i 0 ;; p1 <- get2 (gP g) i 1 ;;
    ' (f0, f1, s1) <- genaffinepairM32_old e p0 p1 s ;;
    P1 <- set2 (gP g) i 0 f0 ;; P2 <- set2 P1 i 1 f1 ;;
    ' (E1, s2) <- for_up 0 4 (fun j st =>
        let (E, s) := st : list (list (list aff)) * world in
        e0 <- get3 E i j 0 ;; e1 <- get3 E i j 1 ;;
        ' (f0, f1, s') <- genaffinepair e W8 e0 e1 s ;;
        E' <- set3 E i j 0 f0 ;; E'' <- set3 E' i j 1 f1 ;; Ok (E'', s')) (gE g, s1) ;;
    a0 <- get3 E1 i 0 1 ;; a1 <- get3 E1 i 1 1 ;; a2 <- get3 E1 i 2 1 ;; a3 <- get3 E1 i 3 1 ;;
    ec <- get2 (gEC g) i 1 ;;
    ec' <- affinecom e C8to32 [a0; a1; a2; a3] ec ;;
    EC' <- set2 (gEC g) i 1 ec' ;;
    q0 <- get2 (gQ g) i 0 ;; q1 <- get2 (gQ g) i 1 ;;
    ' (h0, h1, s3) <- genaffinepairM32_old e q0 q1 s2 ;;
    Q1 <- set2 (gQ g) i 0 h0 ;; Q2 <- set2 Q1 i 1 h1 ;;
    Ok (mkglob P2 E1 EC' Q2 (gS g), s3)) (g, s).

(** Lines 72-77: QLi[j].M[ii] = (uint8_t)(QL.M[ii] >> (8 * j)); QLi is uninitialised in C and
    completely written *)
Definition split_QL (QL : mat) : res (list mat) :=
  for_up 0 4 (fun j L =>
    for_up 0 32 (fun ii L =>
      x <- mget QL ii 0 ;; m <- aget L j ;;
      m' <- mset m ii 0 (uchar (N.shiftr x (N.of_nat (8 * j)))) ;; aset L j m') L)
    (repeat (fresh_m W32) 4).

(** Lines 86-96: the table entry for byte d with input k *)
Definition table_entry (e : endian) (g : wbglob) (QLi : list mat) (i k d : nat) : res N :=
  f <- get3 (gE g) i d 0 ;;
  k1 <- affineU1 e W8 f (N.of_nat k) ;;
  kd <- get3 (gS g) i d (N.to_nat k1) ;;
  for_up 0 32 (fun ii temp =>
    m <- aget QLi (3 - d) ;; x <- mget m ii 0 ;;
    t <- xorU8 (N.land (uchar x) kd) ;;
    if N.eqb t 0 then Ok temp else y <- aget wb_identM32 ii ;; Ok (N.lxor temp y)) 0%N.

(** Lines 82-104: Table[i], with r added in the last table *)
Definition gen_table (e : endian) (g : wbglob) (QLi : list mat) (r : N) (i : nat)
  (T : list (list (list N))) : res (list (list (list N))) :=
  for_up 0 256 (fun k T =>
    T1 <- for_up 0 4 (fun d T => x <- table_entry e g QLi i k d ;; set3 T i d k x) T ;;
    x <- get3 T1 i 3 k ;; set3 T1 i 3 k (N.lxor x r)) T.

(** One round of sm4_wb_combine_tables, lines 58-111; the three calls in lines 62-64 are a
    loop here; P[i+4]->Vec in line 111 is P[i+4][0].Vec *)
Definition combine_round (e : endian) (g : wbglob) (csl : mat) (i : nat) (c : wbctx) : res wbctx :=
  ec <- get2 (gEC g) i 1 ;;
  M' <- for_up 0 3 (fun j M =>
          p <- get2 (gP g) (i + 1 + j) 1 ;; m <- get2 M i j ;;
          m' <- affinemixM32_old e ec p m ;; set2 M i j m') (cM c) ;;
  q0 <- get2 (gQ g) i 0 ;;
  QL <- MatMulMatM32_old e (amat q0) csl (fresh_m W32) ;;
  QLi <- split_QL QL ;;
  r <- aget (avec q0) 0 ;;
  T' <- gen_table e g QLi r i (cT c) ;;
  p40 <- get2 (gP g) (i + 4) 0 ;; pi1 <- get2 (gP g) i 1 ;;
  c0 <- aget (cC c) i ;; c1 <- affinemixM32_old e p40 pi1 c0 ;; C' <- aset (cC c) i c1 ;;
  q1 <- get2 (gQ g) i 1 ;;
  d0 <- aget (cD c) i ;; d1 <- affinemixM32_old e p40 q1 d0 ;;
  x <- aget (avec d1) 0 ;; y <- aget (avec p40) 0 ;;
  v <- aset (avec d1) 0 (N.lxor x y) ;;
  D' <- aset (cD c) i (mkaff (amat d1) v) ;;
  Ok (mkctx M' C' D' (cSE c) (cFE c) T').

(** sm4_wb_combine_tables, lines 54-125 *)
Definition sm4_wb_combine_tables (e : endian) (g : wbglob) (csl : mat) (c : wbctx) : res wbctx :=
  c <- for_up 0 32 (combine_round e g csl) c ;;
  for_up 0 4 (fun i c =>
    p <- get2 (gP g) i 0 ;; SE' <- aset (cSE c) i p ;;
    q <- get2 (gP g) (32 + i) 1 ;; FE' <- aset (cFE c) i q ;;
    Ok (mkctx (cM c) (cC c) (cD c) SE' FE' (cT c))) c.

(** sm4_wb_gen_tables, lines 126-135.  The round keys in the local sm4_context and the local
    matrix csl_matrix are uninitialised in C and completely written. *)
Definition sm4_wb_gen_tables (e : endian) (u : ulong) (key : list N) (g : wbglob) (c : wbctx)
  (s : world) : res (wbglob * wbctx * world) :=
  sk <- sm4_setkey_enc u (repeat 0%N 32) key ;;
  S' <- sm4_wb_gen_secrect_sbox sk (gS g) ;;
  ' (g', s') <- sm4_wb_gen_affine e (mkglob (gP g) (gE g) (gEC g) (gQ g) S') s ;;
  csl <- initMatrixL (fresh_m W32) ;;
  c' <- sm4_wb_combine_tables e g' csl c ;;
  Ok (g', c', s').

(** ** Encryption with the tables, test/main.c *)

(** GET32, lines 25-29 *)
Definition GET32 (b : list N) (i : nat) : res N :=
  b0 <- aget b i ;; b1 <- aget b (i + 1) ;; b2 <- aget b (i + 2) ;; b3 <- aget b (i + 3) ;;
  Ok (N.lxor (N.lxor (N.lxor (u32 (N.shiftl b0 24)) (u32 (N.shiftl b1 16)))
                     (u32 (N.shiftl b2 8))) b3).
(** PUT32, lines 31-35 *)
Definition PUT32 (st : N) (b : list N) (i : nat) : res (list N) :=
  b <- aset b i (uchar (N.shiftr st 24)) ;;
  b <- aset b (i + 1) (uchar (N.shiftr st 16)) ;;
  b <- aset b (i + 2) (uchar (N.shiftr st 8)) ;;
  aset b (i + 3) (uchar st).

(** SK32, lines 37-41: skbox points to Table[i][0][0] in round i, and skbox[256*d + a] is
    Table[i][d][a] *)
Definition SK32 (T : list (list (list N))) (i : nat) (a : N) : res N :=
  a0 <- get3 T i 0 (N.to_nat (N.land (N.shiftr a 24) 255)) ;;
  a1 <- get3 T i 1 (N.to_nat (N.land (N.shiftr a 16) 255)) ;;
  a2 <- get3 T i 2 (N.to_nat (N.land (N.shiftr a 8) 255)) ;;
  a3 <- get3 T i 3 (N.to_nat (N.land a 255)) ;;
  Ok (N.lxor (N.lxor (N.lxor a0 a1) a2) a3).

(** sm4round, lines 44-53: the new x4 *)
Definition sm4round (e : endian) (c : wbctx) (i : nat) (x0 x1 x2 x3 : N) : res N :=
  m0 <- get2 (cM c) i 0 ;; xt1 <- affineU1 e W32 m0 x1 ;;
  m1 <- get2 (cM c) i 1 ;; xt2 <- affineU1 e W32 m1 x2 ;;
  m2 <- get2 (cM c) i 2 ;; xt3 <- affineU1 e W32 m2 x3 ;;
  x4 <- SK32 (cT c) i (N.lxor (N.lxor xt1 xt2) xt3) ;;
  cc <- aget (cC c) i ;; xt0 <- affineU1 e W32 cc x0 ;;
  cd <- aget (cD c) i ;; xt4 <- affineU1 e W32 cd x4 ;;
  Ok (N.lxor xt0 xt4).

(** sm4_wb_enc, lines 56-95; the moves in lines 81-84 are done on the tuple *)
Definition sm4_wb_enc (e : endian) (IN OUT : list N) (c : wbctx) : res (list N) :=
  x0 <- GET32 IN 0 ;; x1 <- GET32 IN 4 ;; x2 <- GET32 IN 8 ;; x3 <- GET32 IN 12 ;;
  s0 <- aget (cSE c) 0 ;; x0 <- affineU1 e W32 s0 x0 ;;
  s1 <- aget (cSE c) 1 ;; x1 <- affineU1 e W32 s1 x1 ;;
  s2 <- aget (cSE c) 2 ;; x2 <- affineU1 e W32 s2 x2 ;;
  s3 <- aget (cSE c) 3 ;; x3 <- affineU1 e W32 s3 x3 ;;
  st <- for_up 0 32 (fun i st =>
          let '(x0, x1, x2, x3) := st : N * N * N * N in
          x4 <- sm4round e c i x0 x1 x2 x3 ;; Ok (x1, x2, x3, x4)) (x0, x1, x2, x3) ;;
  let '(x0, x1, x2, x3) := st in
  f3 <- aget (cFE c) 3 ;; y0 <- affineU1 e W32 f3 x3 ;;
  f2 <- aget (cFE c) 2 ;; y1 <- affineU1 e W32 f2 x2 ;;
  f1 <- aget (cFE c) 1 ;; y2 <- affineU1 e W32 f1 x1 ;;
  f0 <- aget (cFE c) 0 ;; y3 <- affineU1 e W32 f0 x0 ;;
  o <- PUT32 y0 OUT 0 ;; o <- PUT32 y1 o 4 ;; o <- PUT32 y2 o 8 ;; PUT32 y3 o 12.
