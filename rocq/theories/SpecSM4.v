(** The block cipher SM4 (GB/T 32907-2016) and the CBC mode, written from the standard and
    independent of the model of the code. *)
From Coq Require Import Arith NArith List Bool.
Import ListNotations.

(** ** Bytes and words *)

Definition bytes (n : nat) (l : list N) : Prop := length l = n /\ Forall (fun x => (x < 256)%N) l.

(** byte k of x, counted from the least significant *)
Definition byte (x : N) (k : N) : N := ((x / 256 ^ k) mod 256)%N.
Definition word_of (b0 b1 b2 b3 : N) : N := (b0 * 2 ^ 24 + b1 * 2 ^ 16 + b2 * 2 ^ 8 + b3)%N.
Definition be_word (l : list N) (i : nat) : N :=
  word_of (nth (4 * i) l 0%N) (nth (4 * i + 1) l 0%N) (nth (4 * i + 2) l 0%N) (nth (4 * i + 3) l 0%N).
Definition be_bytes (x : N) : list N := [byte x 3; byte x 2; byte x 1; byte x 0].

(** rotation of a 32-bit word to the left *)
Definition rotl (x n : N) : N := ((x * 2 ^ n) mod 2 ^ 32 + x / 2 ^ (32 - n))%N.

(** ** The S-box: A I(A x + C) + C with the inversion I in GF(2)[x] modulo
    x^8 + x^7 + x^6 + x^5 + x^4 + x^2 + 1, the circulant matrix A and C = 0xD3 *)

(** product in GF(2)[x] modulo the polynomial p of degree 8 (p includes the bit for x^8); [n] is
    the number of bits of b that are used *)
Fixpoint gfmul (p : N) (n : nat) (a b : N) : N :=
  match n with
  | O => 0%N
  | S n' =>
      let a2 := (2 * a)%N in
      N.lxor (if N.odd b then a else 0%N)
             (gfmul p n' (if N.testbit a2 8 then N.lxor a2 p else a2) (N.div2 b))
  end.
Fixpoint gfpow (p : N) (a : N) (n : nat) : N :=
  match n with O => 1%N | S n' => gfmul p 8 a (gfpow p a n') end.
(** the inverse: a^254 = a^2 a^4 ... a^128 *)
Definition gfinv (p a : N) : N :=
  let sq x := gfmul p 8 x x in
  let a2 := sq a in let a4 := sq a2 in let a8 := sq a4 in let a16 := sq a8 in
  let a32 := sq a16 in let a64 := sq a32 in let a128 := sq a64 in
  fold_right (gfmul p 8) 1%N [a2; a4; a8; a16; a32; a64; a128].

Definition sm4_poly : N := 501. (* 0x1F5 *)
(** row i (from the top) of A is 11010011 rotated to the right by i places *)
Definition ror8 (x : N) (i : N) : N := (x / 2 ^ i + (x * 2 ^ (8 - i)) mod 256)%N.
Fixpoint odd_weight (n : nat) (x : N) : bool :=
  match n with O => false | S n' => xorb (N.odd x) (odd_weight n' (N.div2 x)) end.
Definition circ (row x : N) : N :=
  fold_left (fun acc i => (2 * acc + (if odd_weight 8 (N.land (ror8 row (N.of_nat i)) x) then 1 else 0))%N)
            (seq 0 8) 0%N.
Definition sbox (x : N) : N :=
  N.lxor (circ 211 (gfinv sm4_poly (N.lxor (circ 211 x) 211))) 211.

(** ** Round function and key schedule *)

Definition tau (x : N) : N :=
  word_of (sbox (byte x 3)) (sbox (byte x 2)) (sbox (byte x 1)) (sbox (byte x 0)).
Definition linL (b : N) : N :=
  N.lxor b (N.lxor (rotl b 2) (N.lxor (rotl b 10) (N.lxor (rotl b 18) (rotl b 24)))).
Definition linL' (b : N) : N := N.lxor b (N.lxor (rotl b 13) (rotl b 23)).
Definition xor4 (a b c d : N) : N := N.lxor a (N.lxor b (N.lxor c d)).

Definition FK (i : nat) : N :=
  match i with 0 => 0xa3b1bac6%N | 1 => 0x56aa3350%N | 2 => 0x677d9197%N | _ => 0xb27022dc%N end.
(** byte j (from the left) of CK_i is (4 i + j) * 7 mod 256 *)
Definition CK (i : nat) : N :=
  let b j := ((4 * N.of_nat i + j) * 7 mod 256)%N in word_of (b 0%N) (b 1%N) (b 2%N) (b 3%N).

Definition quad := (N * N * N * N)%type.
(** n rounds: (X_0, X_1, X_2, X_3) becomes (X_n, X_(n+1), X_(n+2), X_(n+3)) where
    X_(i+4) = F i X_i X_(i+1) X_(i+2) X_(i+3) *)
Fixpoint rounds (F : nat -> N -> N -> N -> N -> N) (n : nat) (x : quad) : quad :=
  match n with
  | O => x
  | S n' => let '(a, b, c, d) := rounds F n' x in (b, c, d, F n' a b c d)
  end.
Definition last4 (x : quad) : N := let '(_, _, _, d) := x in d.

Definition quad_of (l : list N) : quad := (be_word l 0, be_word l 1, be_word l 2, be_word l 3).
(** round key number i *)
Definition round_key (key : list N) (i : nat) : N :=
  let '(m0, m1, m2, m3) := quad_of key in
  last4 (rounds (fun i a b c d => N.lxor a (linL' (tau (xor4 b c d (CK i))))) (S i)
           (N.lxor m0 (FK 0), N.lxor m1 (FK 1), N.lxor m2 (FK 2), N.lxor m3 (FK 3))).

(** 32 rounds with the given round keys, then the reverse transformation *)
Definition sm4_block (rk : nat -> N) (x : list N) : list N :=
  let '(a, b, c, d) :=
    rounds (fun i a b c d => N.lxor a (linL (tau (xor4 b c d (rk i))))) 32 (quad_of x) in
  be_bytes d ++ be_bytes c ++ be_bytes b ++ be_bytes a.
Definition SM4_encrypt (key x : list N) : list N := sm4_block (round_key key) x.
Definition SM4_decrypt (key x : list N) : list N := sm4_block (fun i => round_key key (31 - i)) x.

(** ** Modes, on lists of blocks *)

Fixpoint xor_list (a b : list N) : list N :=
  match a, b with x :: a', y :: b' => N.lxor x y :: xor_list a' b' | _, _ => [] end.
Fixpoint CBC_encrypt (E : list N -> list N) (iv : list N) (bs : list (list N)) : list (list N) :=
  match bs with
  | [] => []
  | b :: r => let c := E (xor_list b iv) in c :: CBC_encrypt E c r
  end.
Fixpoint CBC_decrypt (D : list N -> list N) (iv : list N) (bs : list (list N)) : list (list N) :=
  match bs with
  | [] => []
  | b :: r => xor_list (D b) iv :: CBC_decrypt D b r
  end.
