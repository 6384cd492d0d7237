(** Model of src/WBMatrix/WBMatrix.c and src/WBMatrix/random.c.

    All line numbers are lines of src/WBMatrix/WBMatrix.c unless another file is
    named.  Conventions (see DESIGN.md): words are [N]; a matrix is the list of its
    rows and a row is the list of its machine words; output parameters appear as
    an argument (old content) and as the result (new content); the text which the
    library repeats for each width is modelled once for all [width]s, and every
    place where the copies differ is a [match] on the width. *)
From Coq Require Import Arith NArith ZArith List Bool.
From Verif Require Import Base Tables.
Import ListNotations.

(** ** Types (include/WBMatrix/structure.h:7-135) *)

(** One constructor for each family M4/V4/Aff4 ... M256/V256/Aff256. *)
Inductive width := W4 | W8 | W16 | W32 | W64 | W128 | W256.

(** Significant bits in one array element: M4 uses the low 4 bits of a uint8_t
    (structure.h:7-10), M128/M256 rows consist of uint64_t elements
    (structure.h:103-106, 120-123). *)
Definition wb (w : width) : nat :=
  match w with W4 => 4 | W8 => 8 | W16 => 16 | W32 => 32
             | W64 => 64 | W128 => 64 | W256 => 64 end.

(** Bits of the C element type (structure.h). *)
Definition cb (w : width) : nat :=
  match w with W4 => 8 | W8 => 8 | W16 => 16 | W32 => 32
             | W64 => 64 | W128 => 64 | W256 => 64 end.

(** Elements per row (structure.h: M[n] or M[128][2] or M[256][4]). *)
Definition nw (w : width) : nat :=
  match w with W128 => 2 | W256 => 4 | _ => 1 end.

(** Rows = columns = dimension (structure.h). *)
Definition dim (w : width) : nat :=
  match w with W4 => 4 | W8 => 8 | W16 => 16 | W32 => 32
             | W64 => 64 | W128 => 128 | W256 => 256 end.

(** The identity table indexed by the functions of this width (lines 35-40). *)
Definition idt (w : width) : list N :=
  match w with W4 => idM4 | W8 => idM8 | W16 => idM16 | W32 => idM32
             | W64 => idM64 | W128 => idM64 | W256 => idM64 end.

Notation row := (list N) (only parsing).
Notation mat := (list (list N)) (only parsing).
Notation vec := (list N) (only parsing).
(** struct Aff4 .. Aff128 (structure.h:17-21 etc.) *)
Record aff := mkaff { amat : mat; avec : vec }.

(** [m.M[i][k]] (or [m.M[i]] with k = 0) *)
Definition mget (m : mat) (i k : nat) : res N := r <- aget m i ;; aget r k.
(** [m.M[i][k] = x] *)
Definition mset (m : mat) (i k : nat) (x : N) : res mat :=
  r <- aget m i ;; r' <- aset r k x ;; aset m i r'.

(** Conversion to the element type of the width (unsigned, structure.h). *)
Definition trunc (w : width) (x : N) : N := (x mod 2 ^ N.of_nat (cb w))%N.

(** A local struct before it is written.  C leaves it indeterminate; the model
    starts from zeros.  Each local of the modelled functions is fully overwritten
    before it is read (property C33 shows that old contents are irrelevant). *)
Definition fresh_m (w : width) : mat := repeat (repeat 0%N (nw w)) (dim w).
Definition fresh_v (w : width) : vec := repeat 0%N (nw w).

(** ** Byte order.  Pointers to uint8_t, uint16_t or uint32_t taken from &x look at the
    sub-words of a word in memory order; strict aliasing is not modelled. *)
Inductive endian := LE | BE.
(** Bit offset of sub-word number [q] (memory order) of size [s] in a word of [t] bits. *)
Definition sub_shift (e : endian) (t s q : nat) : N :=
  match e with LE => N.of_nat (s * q) | BE => N.of_nat (t - s * (q + 1)) end.
Definition get_sub (e : endian) (t s q : nat) (x : N) : N :=
  (N.shiftr x (sub_shift e t s q) mod 2 ^ N.of_nat s)%N.
Definition put_sub (e : endian) (t s q : nat) (v x : N) : N :=
  let sh := sub_shift e t s q in
  N.lor (N.ldiff x (N.shiftl (N.ones (N.of_nat s)) sh))
        (N.shiftl (v mod 2 ^ N.of_nat s) sh).

(** ** Random numbers (src/WBMatrix/random.c) *)

(** Global state: [randseed] (line 3), [m_index], [m_intermediateOffset]
    (random.c:3-4) and the clock read by time(NULL).  [clk k] is the value returned
    by the k-th call, an arbitrary function. *)
Record world := mkworld
  { w_seed : N; w_idx : N; w_off : N; w_clk : nat -> N; w_tick : nat }.

Definition u32 (x : N) : N := (x mod 2 ^ 32)%N.

(** random.c:6-13 *)
Definition qpr_prime : N := 4294967291.
Definition permuteQPR (x : N) : N :=
  (if qpr_prime <=? x then x
   else
     let residue := u32 (((x * x) mod 2 ^ 64) mod qpr_prime) in
     if x <=? qpr_prime / 2 then residue else u32 (qpr_prime - residue))%N.

(** random.c:15-20 *)
Definition InitRandom (seedBase : N) (s : world) : world :=
  let seedOffset := u32 (seedBase + 1) in
  mkworld (w_seed s)
          (permuteQPR (u32 (permuteQPR seedBase + 0x682f0161)))
          (permuteQPR (u32 (permuteQPR seedOffset + 0x46790905)))
          (w_clk s) (w_tick s).

(** random.c:22-25 *)
Definition cus_random (s : world) : N * world :=
  (permuteQPR (N.lxor (u32 (permuteQPR (w_idx s) + w_off s)) 0x5bf03635),
   mkworld (w_seed s) (u32 (w_idx s + 1)) (w_off s) (w_clk s) (w_tick s)).

(** lines 42-45 *)
Definition SetRandSeed (seed : N) (s : world) : world :=
  mkworld (u32 seed) (w_idx s) (w_off s) (w_clk s) (w_tick s).

(** (unsigned int)time(NULL), e.g. line 142 *)
Definition time_null (s : world) : N * world :=
  (u32 (w_clk s (w_tick s)),
   mkworld (w_seed s) (w_idx s) (w_off s) (w_clk s) (S (w_tick s))).

(** InitRandom((randseed++) ^ ((unsigned int)time(NULL))), e.g. line 142.
    The order of randseed++ and time(NULL) is unspecified and has no influence. *)
Definition reseed (s : world) : world :=
  let (t, s1) := time_null s in
  let old := w_seed s1 in
  let s2 := mkworld (u32 (old + 1)) (w_idx s1) (w_off s1) (w_clk s1) (w_tick s1) in
  InitRandom (N.lxor old t) s2.

(** unsigned a % b *)
Definition urem (a b : N) : res N := if N.eqb b 0 then UB else Ok (a mod b)%N.

(** ** Constructors *)

(** initM4..initM256, lines 47-106 *)
Definition initM (w : width) (m : mat) : res mat :=
  for_up 0 (dim w) (fun i m => for_up 0 (nw w) (fun k m => mset m i k 0%N) m) m.

(** initV4..initV256, lines 107-138 *)
Definition initV (w : width) (v : vec) : res vec :=
  for_up 0 (nw w) (fun k v => aset v k 0%N) v.

(** *(m + 1) = cus_random(); *m = cus_random(); for a 64-bit element
    (lines 182-184, 331-333) *)
Definition rand64 (e : endian) (old : N) (s : world) : N * world :=
  let (a, s1) := cus_random s in
  let x1 := put_sub e 64 32 1 a old in
  let (b, s2) := cus_random s1 in
  (put_sub e 64 32 0 b x1, s2).

(** One element as drawn by randM/randV: 4 bits "& 0x0f" (line 145), 8/16/32 bits
    truncated on assignment (lines 154, 163, 172), 64 bits in two halves. *)
Definition rand_elem (e : endian) (w : width) (old : N) (s : world) : N * world :=
  match w with
  | W4 => let (a, s1) := cus_random s in (trunc W4 (N.land a 15), s1)
  | W8 | W16 | W32 => let (a, s1) := cus_random s in (trunc w a, s1)
  | W64 | W128 | W256 => rand64 e old s
  end.

(** randM4..randM256, lines 139-222 *)
Definition randM (e : endian) (w : width) (m : mat) (s : world) : res (mat * world) :=
  for_up 0 (dim w) (fun i st =>
    for_up 0 (nw w) (fun k st =>
      let (m, s) := st : mat * world in
      old <- mget m i k ;;
      let (x, s') := rand_elem e w old s in
      m' <- mset m i k x ;; Ok (m', s')) st) (m, reseed s).

(** randV4..randV256, lines 309-360.  randV64 (lines 329-334) does not call
    InitRandom. *)
Definition randV (e : endian) (w : width) (v : vec) (s : world) : res (vec * world) :=
  for_up 0 (nw w) (fun k st =>
    let (v, s) := st : vec * world in
    old <- aget v k ;;
    let (x, s') := rand_elem e w old s in
    v' <- aset v k x ;; Ok (v', s'))
    (v, match w with W64 => s | _ => reseed s end).

(** identityM4..identityM64 lines 223-262; identityM128 lines 263-276 and
    identityM256 lines 277-308: one loop for each block of 64 rows. *)
Definition identityM (w : width) (m : mat) : res mat :=
  for_up 0 (nw w) (fun b m =>
    for_up (wb w * b) (wb w * (b + 1)) (fun i m =>
      for_up 0 (nw w) (fun k m =>
        if Nat.eqb k b
        then t <- aget (idt w) (i - wb w * b) ;; mset m i k t
        else mset m i k 0%N) m) m) m.

(** copyM4..copyM256, lines 453-512 *)
Definition copyM (w : width) (m1 m2 : mat) : res mat :=
  for_up 0 (dim w) (fun i m =>
    for_up 0 (nw w) (fun k m => x <- mget m1 i k ;; mset m i k x) m) m2.

(** ** Comparison *)

(** isequalM4..isequalM256, lines 513-579 *)
Definition isequalM (w : width) (m1 m2 : mat) : res N :=
  r <- for_ret 0 (dim w) (fun i (_ : unit) =>
         for_ret 0 (nw w) (fun k (_ : unit) =>
           x <- mget m1 i k ;; y <- mget m2 i k ;;
           Ok (if N.eqb x y then inl tt else inr 0%N)) tt) tt ;;
  Ok (match r with inl _ => 1%N | inr v => v end).

(** The elements compared by isequalV: lines 580-610; isequalV256 (lines 611-618)
    compares V[0], V[1], V[1], V[1]. *)
Definition isequalV_index (w : width) : list nat :=
  match w with W128 => [0; 1] | W256 => [0; 1; 1; 1] | _ => [0] end.
Fixpoint eq_at (ks : list nat) (v1 v2 : vec) : res N :=
  match ks with
  | [] => Ok 1%N
  | k :: ks' =>
      x <- aget v1 k ;; y <- aget v2 k ;;
      if N.eqb x y then eq_at ks' v1 v2 else Ok 0%N
  end.
Definition isequalV (w : width) (v1 v2 : vec) : res N := eq_at (isequalV_index w) v1 v2.

(** ** Single bits.  Indices are C ints ([Z]); an index outside the array is UB. *)

Definition zaget {A} (l : list A) (i : Z) : res A :=
  if ((0 <=? i) && (i <? Z.of_nat (length l)))%Z then aget l (Z.to_nat i) else UB.
Definition zmget (m : mat) (i : Z) (k : nat) : res N := r <- zaget m i ;; aget r k.
Definition zmset (m : mat) (i : Z) (k : nat) (x : N) : res mat :=
  if ((0 <=? i) && (i <? Z.of_nat (length m)))%Z then mset m (Z.to_nat i) k x else UB.

(** (element, offset subtracted from j) selected by the if-chains of
    readbitM128 lines 646-655, readbitM256 lines 659-678, flipbitM128 lines 702-709,
    flipbitM256 lines 713-728; no chain for the smaller widths. *)
Definition bit_elem (w : width) (j : Z) : nat * Z :=
  (match w with
   | W128 => if j <? 64 then (0%nat, 0) else (1%nat, 64)
   | W256 => if j <? 64 then (0%nat, 0)
             else if j <? 128 then (1%nat, 64)
             else if j <? 192 then (2%nat, 128) else (3%nat, 192)
   | _ => (0%nat, 0)
   end)%Z.

(** readbitM4..readbitM256, lines 619-679 *)
Definition readbit (w : width) (m : mat) (i j : Z) : res N :=
  let (k, o) := bit_elem w j in
  x <- zmget m i k ;; t <- zaget (idt w) (j - o)%Z ;;
  Ok (if N.eqb (N.land x t) t then 1%N else 0%N).

(** flipbitM4..flipbitM256, lines 680-729 *)
Definition flipbit (w : width) (m : mat) (i j : Z) : res mat :=
  let (k, o) := bit_elem w j in
  x <- zmget m i k ;; t <- zaget (idt w) (j - o)%Z ;;
  zmset m i k (N.lxor x t).

(** setbitM4..setbitM256, lines 730-764 *)
Definition setbit (w : width) (m : mat) (i j bit : Z) : res mat :=
  r <- readbit w m i j ;;
  if Z.eqb (Z.of_N r) bit then Ok m else flipbit w m i j.

(** ** Gaussian elimination *)

(** (M[i][b] & id[c]) == id[c] *)
Definition bit_test (w : width) (m : mat) (i b c : nat) : res bool :=
  x <- mget m i b ;; t <- aget (idt w) c ;; Ok (N.eqb (N.land x t) t).

(** M[j][k] ^= M[i][k] for the elements k = lo .. hi-1 (unrolled in C) *)
Definition xor_row (m : mat) (j i lo hi : nat) : res mat :=
  for_up lo hi (fun k m =>
    x <- mget m j k ;; y <- mget m i k ;; mset m j k (N.lxor x y)) m.

(** temp = M[i][k]; M[i][k] = M[j][k]; M[j][k] = temp; for k = lo .. hi-1 *)
Definition swap_row (m : mat) (i j lo hi : nat) : res mat :=
  for_up lo hi (fun k m =>
    temp <- mget m i k ;; y <- mget m j k ;;
    m1 <- mset m i k y ;; mset m1 j k temp) m.

(** for (j = i+1; j < n; j++) if (bit i of row j) row j ^= row i
    (lines 774-780, 797-803 and copies); block b updates elements b.. only
    (e.g. lines 1036-1042). *)
Definition elim_below (w : width) (b i : nat) (m : mat) : res mat :=
  for_up (i + 1) (dim w) (fun j m =>
    t <- bit_test w m j b (i - wb w * b) ;;
    if t then xor_row m j i b (nw w) else Ok m) m.

(** isinvertM4..isinvertM256, lines 765-1262 (template checked by
    tools/check_templates.py) *)
Definition isinvert (w : width) (m : mat) : res N :=
  r <- for_ret 0 (nw w) (fun b m =>
         for_ret (wb w * b) (wb w * (b + 1)) (fun i m =>
           t <- bit_test w m i b (i - wb w * b) ;;
           if t then m' <- elim_below w b i m ;; Ok (inl m')
           else
             f <- find_up (i + 1) (dim w) (fun j => bit_test w m j b (i - wb w * b)) ;;
             match f with
             | None => Ok (inr 0%N)
             | Some j =>
                 m1 <- swap_row m i j b (nw w) ;;
                 m2 <- elim_below w b i m1 ;; Ok (inl m2)
             end) m) m ;;
  match r with
  | inr v => Ok v
  | inl m =>
      x <- mget m (dim w - 1) (nw w - 1) ;; t <- aget (idt w) (wb w - 1) ;;
      Ok (if N.eqb x t then 1%N else 0%N)
  end.

(** elimination below row i on both matrices (lines 1273-1281 and copies) *)
Definition elim_below2 (w : width) (b i : nat) (mv : mat * mat) : res (mat * mat) :=
  for_up (i + 1) (dim w) (fun j mv =>
    let (m, v) := mv : mat * mat in
    t <- bit_test w m j b (i - wb w * b) ;;
    if t then
      m' <- xor_row m j i b (nw w) ;; v' <- xor_row v j i 0 (nw w) ;; Ok (m', v')
    else Ok (m, v)) mv.

(** back substitution on both matrices (lines 1307-1317; blocks in descending
    order and only element b of Mat, lines 1646-1671) *)
Definition back_subst (w : width) (mv : mat * mat) : res (mat * mat) :=
  for_down (nw w) 0 (fun b mv =>
    for_down (wb w * (b + 1)) (wb w * b) (fun i mv =>
      for_down i 0 (fun j mv =>
        let (m, v) := mv : mat * mat in
        t <- bit_test w m j b (i - wb w * b) ;;
        if t then
          m' <- xor_row m j i b (b + 1) ;; v' <- xor_row v j i 0 (nw w) ;; Ok (m', v')
        else Ok (m, v)) mv) mv) mv.

(** invsM4..invsM256, lines 1263-2010 (template checked by
    tools/check_templates.py) *)
Definition invs (w : width) (m v : mat) : res mat :=
  v0 <- identityM w v ;;
  mv <- for_up 0 (nw w) (fun b mv =>
          for_up (wb w * b) (wb w * (b + 1)) (fun i mv =>
            let (m, v) := mv : mat * mat in
            t <- bit_test w m i b (i - wb w * b) ;;
            if t then elim_below2 w b i (m, v)
            else
              f <- find_up (i + 1) (dim w) (fun j => bit_test w m j b (i - wb w * b)) ;;
              mv1 <- match f with
                     | None => Ok (m, v)
                     | Some j =>
                         m1 <- swap_row m i j b (nw w) ;;
                         v1 <- swap_row v i j 0 (nw w) ;; Ok (m1, v1)
                     end ;;
              elim_below2 w b i mv1) mv) (m, v0) ;;
  mv' <- back_subst w mv ;; Ok (snd mv').

(** ** Parity and Hamming weight *)

(** xorU8 lines 2060-2064 (xorU4 lines 2055-2059 is the same code) *)
Definition xorU8 (n : N) : res N :=
  t <- aget tab_xor (N.to_nat n) ;; Ok (if N.eqb t 0 then 0 else 1)%N.
(** lines 2065-2072 *)
Definition xorU16 (e : endian) (n : N) : res N :=
  let temp := N.lxor (get_sub e 16 8 0 n) (get_sub e 16 8 1 n) in
  t <- xorU8 temp ;; Ok (if N.eqb t 0 then 0 else 1)%N.
(** lines 2073-2080 *)
Definition xorU32 (e : endian) (n : N) : res N :=
  let temp := N.lxor (get_sub e 32 16 0 n) (get_sub e 32 16 1 n) in
  t <- xorU16 e temp ;; Ok (if N.eqb t 0 then 0 else 1)%N.
(** lines 2081-2088 *)
Definition xorU64 (e : endian) (n : N) : res N :=
  let temp := N.lxor (get_sub e 64 32 0 n) (get_sub e 64 32 1 n) in
  t <- xorU32 e temp ;; Ok (if N.eqb t 0 then 0 else 1)%N.
(** lines 2089-2095 *)
Definition xorU128 (e : endian) (n : list N) : res N :=
  a <- aget n 0 ;; b <- aget n 1 ;;
  t <- xorU64 e (N.lxor a b) ;; Ok (if N.eqb t 0 then 0 else 1)%N.
(** lines 2096-2102 *)
Definition xorU256 (e : endian) (n : list N) : res N :=
  a <- aget n 0 ;; b <- aget n 1 ;; c <- aget n 2 ;; d <- aget n 3 ;;
  t <- xorU64 e (N.lxor (N.lxor (N.lxor a b) c) d) ;;
  Ok (if N.eqb t 0 then 0 else 1)%N.

(** xorU<width> applied to an argument given as the list of its elements *)
Definition xorU (e : endian) (w : width) (n : list N) : res N :=
  match w with
  | W4 | W8 => x <- aget n 0 ;; xorU8 x
  | W16 => x <- aget n 0 ;; xorU16 e x
  | W32 => x <- aget n 0 ;; xorU32 e x
  | W64 => x <- aget n 0 ;; xorU64 e x
  | W128 => xorU128 e n
  | W256 => xorU256 e n
  end.

(** HWU4/HWU8 lines 2103-2110 *)
Definition HWU8 (n : N) : res N := aget tab_HW (N.to_nat n).
(** lines 2111-2115 *)
Definition HWU16 (e : endian) (n : N) : res N :=
  a <- HWU8 (get_sub e 16 8 0 n) ;; b <- HWU8 (get_sub e 16 8 1 n) ;; Ok (a + b)%N.
(** lines 2116-2120 *)
Definition HWU32 (e : endian) (n : N) : res N :=
  a <- HWU16 e (get_sub e 32 16 0 n) ;; b <- HWU16 e (get_sub e 32 16 1 n) ;; Ok (a + b)%N.
(** lines 2121-2125 *)
Definition HWU64 (e : endian) (n : N) : res N :=
  a <- HWU32 e (get_sub e 64 32 0 n) ;; b <- HWU32 e (get_sub e 64 32 1 n) ;; Ok (a + b)%N.
(** lines 2126-2129 *)
Definition HWU128 (e : endian) (n : list N) : res N :=
  x <- aget n 0 ;; y <- aget n 1 ;;
  a <- HWU64 e x ;; b <- HWU64 e y ;; Ok (a + b)%N.
(** HWU<width>; HWU256 is declared in WBMatrix.h but not defined: no model (UB). *)
Definition HWU (e : endian) (w : width) (n : list N) : res N :=
  match w with
  | W4 | W8 => x <- aget n 0 ;; HWU8 x
  | W16 => x <- aget n 0 ;; HWU16 e x
  | W32 => x <- aget n 0 ;; HWU32 e x
  | W64 => x <- aget n 0 ;; HWU64 e x
  | W128 => HWU128 e n
  | W256 => UB
  end.

(** ** Sums and products *)

(** VecAddVecV4..V256, lines 2267-2298 *)
Definition VecAddVec (w : width) (v1 v2 v : vec) : res vec :=
  for_up 0 (nw w) (fun k v =>
    x <- aget v1 k ;; y <- aget v2 k ;; aset v k (N.lxor x y)) v.

(** MatAddMatM4..M256, lines 4997-5055 *)
Definition MatAddMat (w : width) (m1 m2 m : mat) : res mat :=
  for_up 0 (dim w) (fun i m =>
    for_up 0 (nw w) (fun k m =>
      x <- mget m1 i k ;; y <- mget m2 i k ;; mset m i k (N.lxor x y)) m) m.

(** temp[k] = r[k] & v[k] (lines 2401-2402 etc.); for 4 bits also "& 0x0f"
    (lines 2305, 2355, 5066) *)
Definition and_words (w : width) (r v : list N) : res (list N) :=
  for_up 0 (nw w) (fun k t =>
    x <- aget r k ;; y <- aget v k ;;
    aset t k (match w with W4 => N.land (N.land x y) 15 | _ => N.land x y end))
    (fresh_v w).

(** MatMulNumM4..M64, lines 2299-2348 (one element per row) *)
Definition MatMulNum (e : endian) (w : width) (m : mat) (n : N) : res N :=
  for_up 0 (dim w) (fun i temp =>
    x <- mget m i 0 ;;
    let a := match w with W4 => N.land (N.land x n) 15 | _ => N.land x n end in
    t <- xorU e w [a] ;;
    if N.eqb t 0 then Ok temp
    else d <- aget (idt w) i ;; Ok (N.lxor temp d)) 0%N.

(** MatMulVecM4..M256, lines 2349-2449 *)
Definition MatMulVec (e : endian) (w : width) (m : mat) (v ans : vec) : res vec :=
  ans0 <- initV w ans ;;
  for_up 0 (nw w) (fun b ans =>
    for_up (wb w * b) (wb w * (b + 1)) (fun i ans =>
      r <- aget m i ;;
      a <- and_words w r v ;;
      t <- xorU e w a ;;
      if N.eqb t 0 then Ok ans
      else d <- aget (idt w) (i - wb w * b) ;;
           x <- aget ans b ;; aset ans b (N.lxor x d)) ans) ans0.

(** The masks of Mattrans (lines 4792-4794, 4812-4815, 4833-4837, 4855-4860,
    4878-4884, 4902-4908, 4936-4942) *)
Definition masks (w : width) : list N :=
  (match w with
   | W4 => [0x5; 0x3]
   | W8 => [0x55; 0x33; 0x0f]
   | W16 => [0x5555; 0x3333; 0x0f0f; 0x00ff]
   | W32 => [0x55555555; 0x33333333; 0x0f0f0f0f; 0x00ff00ff; 0x0000ffff]
   | W64 | W128 | W256 =>
       [0x5555555555555555; 0x3333333333333333; 0x0f0f0f0f0f0f0f0f;
        0x00ff00ff00ff00ff; 0x0000ffff0000ffff; 0x00000000ffffffff]
   end)%N.

(** Number of stages (bound of the j loop in Mattrans) *)
Definition stages (w : width) : nat :=
  match w with W4 => 2 | W8 => 3 | W16 => 4 | W32 => 5 | _ => 6 end.

(** result of the assignment in the butterfly: "& 0x0f" for 4 bits
    (lines 4802-4803), conversion to the element type otherwise *)
Definition clip (w : width) (x : N) : N :=
  match w with W4 => N.land x 15 | _ => trunc w x end.

(** temp = (M[l]&~mask) ^ ((M[l+k]&~mask)>>k);
    M[l+k] = (M[l+k]&mask) ^ ((M[l]&mask)<<k); M[l] = temp;
    for every element q of the row (lines 4822-4824 and copies) *)
Definition butterfly (w : width) (l k : nat) (msk : N) (m : mat) : res mat :=
  for_up 0 (nw w) (fun q m =>
    x <- mget m l q ;; y <- mget m (l + k) q ;;
    let temp := clip w (N.lxor (N.ldiff x msk) (N.shiftr (N.ldiff y msk) (N.of_nat k))) in
    m1 <- mset m (l + k) q
            (clip w (N.lxor (N.land y msk) (N.shiftl (N.land x msk) (N.of_nat k)))) ;;
    mset m1 l q temp) m.

(** temp = M[a][p]; M[a][p] = M[b][q]; M[b][q] = temp *)
Definition swap_elem (m : mat) (a p b q : nat) : res mat :=
  temp <- mget m a p ;; y <- mget m b q ;;
  m1 <- mset m a p y ;; mset m1 b q temp.

(** block exchanges at the end of MattransM128 (lines 4925-4930) and
    MattransM256 (lines 4967-4994) *)
Definition trans_tail (w : width) (m : mat) : res mat :=
  match w with
  | W128 =>
      for_up 0 64 (fun i m => swap_elem m (i + 64) 0 i 1) m
  | W256 =>
      m1 <- for_up 0 64 (fun i m =>
              m1 <- swap_elem m (i + 64) 0 i 1 ;;
              m2 <- swap_elem m1 (i + 64) 2 i 3 ;;
              m3 <- swap_elem m2 (i + 192) 0 (i + 128) 1 ;;
              swap_elem m3 (i + 192) 2 (i + 128) 3) m ;;
      for_up 0 128 (fun i m =>
        m1 <- swap_elem m (i + 128) 0 i 2 ;;
        swap_elem m1 (i + 128) 1 i 3) m1
  | _ => Ok m
  end.

(** MattransM4..M256, lines 4789-4996.  k2*i stays below 2^14, so the unsigned
    element types of k, k2, l do not wrap. *)
Definition Mattrans (w : width) (m out : mat) : res mat :=
  m1 <- for_up 0 (stages w) (fun j m =>
          let k := 2 ^ j in
          let k2 := k * 2 in
          msk <- aget (masks w) j ;;
          for_up 0 (Nat.div2 (dim w)) (fun i m =>
            butterfly w ((k2 * i) mod (dim w - 1)) k msk m) m) m ;;
  m2 <- trans_tail w m1 ;;
  copyM w m2 out.

(** MatMulMatM4..M256, lines 5056-5191 *)
Definition MatMulMat (e : endian) (w : width) (m1 m2 out : mat) : res mat :=
  m0 <- initM w out ;;
  tr <- Mattrans w m2 (fresh_m w) ;;
  for_up 0 (dim w) (fun i m =>
    for_up 0 (nw w) (fun b m =>
      for_up (wb w * b) (wb w * (b + 1)) (fun j m =>
        r <- aget m1 i ;; c <- aget tr j ;;
        a <- and_words w r c ;;
        t <- xorU e w a ;;
        if N.eqb t 0 then Ok m
        else d <- aget (idt w) (j - wb w * b) ;;
             x <- mget m i b ;; mset m i b (N.lxor x d)) m) m) m0.

(** ** Affine transformations *)

(** affineU4..affineU128, lines 2011-2054: Mat * arr ^ Vec, word by word.  The
    128-bit version reads arr completely before it writes ans.  No 256-bit instance in C. *)
Definition affineU (e : endian) (w : width) (f : aff) (arr : list N) : res (list N) :=
  mul <- for_up 0 (nw w) (fun k v => x <- aget arr k ;; aset v k x) (fresh_v w) ;;
  ans <- MatMulVec e w (amat f) mul (fresh_v w) ;;
  for_up 0 (nw w) (fun k out =>
    x <- aget ans k ;; y <- aget (avec f) k ;; aset out k (N.lxor x y)) (fresh_v w).

(** affinemixM4..M128, lines 5192-5228 (no 256-bit instance in C) *)
Definition affinemix (e : endian) (w : width) (f pre mix : aff) : res aff :=
  m <- MatMulMat e w (amat f) (amat pre) (amat mix) ;;
  v <- MatMulVec e w (amat f) (avec pre) (avec mix) ;;
  v' <- for_up 0 (nw w) (fun k v =>
          x <- aget v k ;; y <- aget (avec f) k ;; aset v k (N.lxor x y)) v ;;
  Ok (mkaff m v').

(** ** Random invertible pairs *)

(** One trail entry: {1, j, i} = row j ^= row i, {0, j, i} = exchange rows j, i *)
Definition trail_op := (N * N * N)%type.
(** uint8_t trail[n*n][3] (line 2457 etc.) and the counter [times], as the list of
    the entries written so far, newest first. *)
Definition trail := list trail_op.
(** trail[times][0] = op; trail[times][1] = a; trail[times][2] = b; times++;
    (lines 2478-2481): out of bounds if times >= n*n, bytes truncated. *)
Definition push (w : width) (op a b : nat) (tr : trail) : res trail :=
  if (N.of_nat (length tr) <? N.of_nat (dim w) * N.of_nat (dim w))%N
  then Ok ((N.of_nat op mod 256, N.of_nat a mod 256, N.of_nat b mod 256)%N :: tr)
  else UB.

(** Local variables of genMatpair: tempMat, *Mat_inv, trail/times, invertible *)
Record gst := mkgst { g_t : mat; g_v : mat; g_tr : trail; g_inv : bool }.

(** row j ^= row i in both matrices with trail entry (lines 2472-2482) *)
Definition g_add (w : width) (b j i : nat) (g : gst) : res gst :=
  t' <- xor_row (g_t g) j i b (nw w) ;;
  v' <- xor_row (g_v g) j i 0 (nw w) ;;
  tr' <- push w 1 j i (g_tr g) ;;
  Ok (mkgst t' v' tr' (g_inv g)).

(** exchange of rows a and c in both matrices with trail entry {0, j, i}
    (lines 2492-2505 with a = i, c = j; lines 2514-2524 with a = p, c = i) *)
Definition g_swap (w : width) (b a c j i : nat) (g : gst) : res gst :=
  t' <- swap_row (g_t g) a c b (nw w) ;;
  v' <- swap_row (g_v g) a c 0 (nw w) ;;
  tr' <- push w 0 j i (g_tr g) ;;
  Ok (mkgst t' v' tr' (g_inv g)).

(** elimination below the pivot with trail (lines 2466-2484, 2542-2556) *)
Definition g_elim (w : width) (b i : nat) (g : gst) : res gst :=
  for_up (i + 1) (dim w) (fun j g =>
    t <- bit_test w (g_t g) j b (i - wb w * b) ;;
    if t then g_add w b j i g else Ok g) g.

(** repair of a missing pivot: p = i+1+cus_random()%(n-1-i); exchange rows p and i;
    then row t ^= row i for randomly chosen t > i (lines 2512-2538) *)
Definition g_repair (w : width) (b i : nat) (g : gst) (s : world) : res (gst * world) :=
  let (a, s1) := cus_random s in
  r <- urem a (N.of_nat (dim w - 1 - i)) ;;
  let p := (i + 1 + N.to_nat r)%nat in
  g1 <- g_swap w b p i p i g ;;
  for_up (i + 1) (dim w) (fun t gs =>
    let (g, s) := gs : gst * world in
    let (a, s') := cus_random s in
    r <- urem a 2 ;;
    if N.eqb r 0 then Ok (g, s')
    else g' <- g_add w b t i g ;; Ok (g', s')) (g1, s1).

(** The forward elimination of genMatpair (lines 2465-2560 and copies).  The guard
    "if (i < n-1)" around the repair is present in the last block only
    (lines 2511, 3416), not in the earlier blocks of the 128/256-bit versions
    (lines 3306-3307). *)
Definition g_forward (w : width) (gs : gst * world) : res (gst * world) :=
  for_up 0 (nw w) (fun b gs =>
    for_up (wb w * b) (wb w * (b + 1)) (fun i gs =>
      let (g, s) := gs : gst * world in
      t <- bit_test w (g_t g) i b (i - wb w * b) ;;
      if t then g' <- g_elim w b i g ;; Ok (g', s)
      else
        f <- find_up (i + 1) (dim w) (fun j => bit_test w (g_t g) j b (i - wb w * b)) ;;
        match f with
        | Some j =>
            g1 <- g_swap w b i j j i g ;;
            g2 <- g_elim w b i g1 ;; Ok (g2, s)
        | None =>
            let g1 := mkgst (g_t g) (g_v g) (g_tr g) false in
            if (Nat.eqb b (nw w - 1) && negb (Nat.ltb i (dim w - 1)))%bool
            then Ok (g1, s)
            else g_repair w b i g1 s
        end) gs) gs.

(** back substitution with trail (lines 2563-2578, 3472-3503) *)
Definition g_back (w : width) (g : gst) : res gst :=
  for_down (nw w) 0 (fun b g =>
    for_down (wb w * (b + 1)) (wb w * b) (fun t g =>
      for_down t 0 (fun j g =>
        x <- bit_test w (g_t g) j b (t - wb w * b) ;;
        if x then
          t' <- xor_row (g_t g) j t b (b + 1) ;;
          v' <- xor_row (g_v g) j t 0 (nw w) ;;
          tr' <- push w 1 j t (g_tr g) ;;
          Ok (mkgst t' v' tr' (g_inv g))
        else Ok g) g) g) g.

(** for (j = times-1; j >= 0; j--) : replay of the trail on *Mat
    (lines 2580-2592, 3505-3523) *)
Fixpoint replay (w : width) (tr : trail) (m : mat) : res mat :=
  match tr with
  | [] => Ok m
  | (op, a, b) :: tr' =>
      m' <- (if N.eqb op 0
             then swap_row m (N.to_nat a) (N.to_nat b) 0 (nw w)
             else xor_row m (N.to_nat a) (N.to_nat b) 0 (nw w)) ;;
      replay w tr' m'
  end.

(** genMatpairM4..M256, lines 2450-4339 (template checked by
    tools/check_templates.py), together with the contents of the local array
    trail[0..times-1] at the end of the call *)
Definition genMatpair_trail (e : endian) (w : width) (m v : mat) (s : world)
  : res ((mat * mat * world) * trail) :=
  let s0 := reseed s in
  m0 <- identityM w m ;;
  v0 <- identityM w v ;;
  ' (tmp, s1) <- randM e w (fresh_m w) s0 ;;
  result <- copyM w tmp (fresh_m w) ;;
  ' (g, s2) <- g_forward w (mkgst tmp v0 [] true, s1) ;;
  if g_inv g then
    mv <- back_subst w (g_t g, g_v g) ;;
    m1 <- copyM w result m0 ;;
    Ok ((m1, snd mv, s2), g_tr g)
  else
    g' <- g_back w g ;;
    m1 <- replay w (g_tr g') m0 ;;
    Ok ((m1, g_v g', s2), g_tr g').

(** genMatpairM4..M256 as seen by the caller: *Mat, *Mat_inv and the generator *)
Definition genMatpair (e : endian) (w : width) (m v : mat) (s : world)
  : res (mat * mat * world) :=
  r <- genMatpair_trail e w m v s ;; Ok (fst r).

(** genaffinepairM4..M128, lines 4340-4375 (no 256-bit instance in C) *)
Definition genaffinepair (e : endian) (w : width) (f fi : aff) (s : world)
  : res (aff * aff * world) :=
  ' (m, v, s1) <- genMatpair e w (amat f) (amat fi) s ;;
  ' (c, s2) <- randV e w (avec f) s1 ;;
  d <- MatMulVec e w v c (avec fi) ;;
  Ok (mkaff m c, mkaff v d, s2).

(** ** Concatenation *)

(** The six families of Matrixcom/Vectorcom/affinecom (lines 4376-4788) *)
Inductive com := C8to32 | C16to64 | C8to64 | C32to128 | C8to128 | C16to128.
Definition com_src (c : com) : width :=
  match c with C8to32 | C8to64 | C8to128 => W8 | C16to64 | C16to128 => W16
             | C32to128 => W32 end.
Definition com_tgt (c : com) : width :=
  match c with C8to32 => W32 | C16to64 | C8to64 => W64
             | C32to128 | C8to128 | C16to128 => W128 end.
(** For each block in argument order: array element and pointer offset written,
    e.g. (1, 7) is *(m + 7) with m pointing to M[j][1].
    Lines 4385/4391/4397/4403 (8to32, Vectorcom 4411-4414), 4430-4448 (16to64),
    4475-4517 (8to64), 4548-4566 (32to128), 4594-4684 (8to128), 4724-4766 (16to128). *)
Definition com_layout (c : com) : list (nat * nat) :=
  match c with
  | C8to32 | C16to64 => [(0,3); (0,2); (0,1); (0,0)]
  | C8to64 => [(0,7); (0,6); (0,5); (0,4); (0,3); (0,2); (0,1); (0,0)]
  | C32to128 => [(0,1); (0,0); (1,1); (1,0)]
  | C8to128 => [(0,7); (0,6); (0,5); (0,4); (0,3); (0,2); (0,1); (0,0);
                (1,7); (1,6); (1,5); (1,4); (1,3); (1,2); (1,1); (1,0)]
  | C16to128 => [(0,3); (0,2); (0,1); (0,0); (1,3); (1,2); (1,1); (1,0)]
  end.

(** MatrixcomM8to32 etc., lines 4376-4406, 4421-4451, 4466-4520, 4539-4569,
    4585-4687, 4715-4769.  [ms] is the list of the matrix arguments m1, m2, ...;
    j counts rows through all blocks. *)
Definition Matrixcom (e : endian) (c : com) (ms : list mat) (out : mat) : res mat :=
  let ws := com_src c in let wt := com_tgt c in
  m0 <- initM wt out ;;
  for_up 0 (length (com_layout c)) (fun q m =>
    mq <- aget ms q ;;
    ' (k, o) <- aget (com_layout c) q ;;
    for_up 0 (dim ws) (fun i m =>
      x <- mget mq i 0 ;;
      let j := (dim ws * q + i)%nat in
      old <- mget m j k ;;
      mset m j k (put_sub e (wb wt) (dim ws) o x old)) m) m0.

(** VectorcomV8to32 etc., lines 4407-4415, 4452-4460, 4521-4533, 4570-4579,
    4688-4709, 4770-4783 *)
Definition Vectorcom (e : endian) (c : com) (vs : list vec) (out : vec) : res vec :=
  let ws := com_src c in let wt := com_tgt c in
  for_up 0 (length (com_layout c)) (fun q v =>
    vq <- aget vs q ;;
    ' (k, o) <- aget (com_layout c) q ;;
    x <- aget vq 0 ;;
    old <- aget v k ;;
    aset v k (put_sub e (wb wt) (dim ws) o x old)) out.

(** affinecomM8to32 etc., lines 4416-4420, 4461-4465, 4534-4538, 4580-4584,
    4710-4714, 4784-4788 *)
Definition affinecom (e : endian) (c : com) (fs : list aff) (out : aff) : res aff :=
  m <- Matrixcom e c (map amat fs) (amat out) ;;
  v <- Vectorcom e c (map avec fs) (avec out) ;;
  Ok (mkaff m v).
