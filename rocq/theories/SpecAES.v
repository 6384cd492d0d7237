(** The block cipher AES-128 (FIPS 197), independent of the model of the code.  The products in
    GF(2^8) and the inversion are those of SpecSM4.v with another polynomial. *)
From Coq Require Import Arith NArith List Bool.
From Verif Require Import SpecSM4.
Import ListNotations.

(** x^8 + x^4 + x^3 + x + 1 *)
Definition aes_poly : N := 283.
Definition gmul (a b : N) : N := gfmul aes_poly 8 a b.

(** SubBytes: inversion and the affine map b'_i = b_i + b_(i+4) + b_(i+5) + b_(i+6) + b_(i+7) + c_i
    with c = 0x63 *)
Definition aes_affine (x : N) : N :=
  let b i := N.testbit x (i mod 8) in
  fold_right (fun i acc =>
    ((if xorb (xorb (xorb (xorb (xorb (b i) (b (i + 4))) (b (i + 5))) (b (i + 6))) (b (i + 7)))
              (N.testbit 0x63 i) then 2 ^ i else 0) + acc)%N) 0%N [0; 1; 2; 3; 4; 5; 6; 7]%N.
Definition aes_sbox (x : N) : N := aes_affine (gfinv aes_poly x).

(** A state is a list of 16 bytes; the byte in row r and column c has index r + 4 c *)
Definition elt (s : list N) (r c : nat) : N := nth (r + 4 * c) s 0%N.
Definition state (f : nat -> nat -> N) : list N := map (fun k => f (k mod 4) (k / 4)) (seq 0 16).

Definition SubBytes (s : list N) : list N := state (fun r c => aes_sbox (elt s r c)).
Definition ShiftRows (s : list N) : list N := state (fun r c => elt s r ((c + r) mod 4)).
Definition MixColumns (s : list N) : list N :=
  state (fun r c => xor4 (gmul 2 (elt s r c)) (gmul 3 (elt s ((r + 1) mod 4) c))
                         (elt s ((r + 2) mod 4) c) (elt s ((r + 3) mod 4) c)).
Definition AddRoundKey (s k : list N) : list N := state (fun r c => N.lxor (elt s r c) (elt k r c)).

(** n rounds after the initial AddRoundKey *)
Fixpoint aes_rounds (rk : nat -> list N) (n : nat) (x : list N) : list N :=
  match n with
  | O => AddRoundKey x (rk 0)
  | S n' => AddRoundKey (MixColumns (ShiftRows (SubBytes (aes_rounds rk n' x)))) (rk n)
  end.
(** ten rounds, the last one without MixColumns *)
Definition aes_cipher (rk : nat -> list N) (x : list N) : list N :=
  AddRoundKey (ShiftRows (SubBytes (aes_rounds rk 9 x))) (rk 10).

(** Key expansion: the list of the first n + 4 words, each a list of four bytes *)
Fixpoint rcon (n : nat) : N := match n with O => 1%N | S n' => gmul 2 (rcon n') end.
Definition RotWord (w : list N) : list N := tl w ++ [hd 0%N w].
Definition SubWord (w : list N) : list N := map aes_sbox w.
Definition key_word (key : list N) (i : nat) : list N := map (fun q => nth (4 * i + q) key 0%N) (seq 0 4).
Fixpoint key_words (key : list N) (n : nat) : list (list N) :=
  match n with
  | O => [key_word key 0; key_word key 1; key_word key 2; key_word key 3]
  | S n' =>
      let w := key_words key n' in
      let i := n' + 4 in
      let t := last w [] in
      let t := if Nat.eqb (i mod 4) 0
               then xor_list (SubWord (RotWord t)) [rcon (i / 4 - 1); 0; 0; 0]%N
               else t in
      w ++ [xor_list (nth (i - 4) w []) t]
  end.
Definition aes_round_key (key : list N) (i : nat) : list N :=
  concat (map (fun q => nth (4 * i + q) (key_words key 40) []) (seq 0 4)).

Definition AES_encrypt (key x : list N) : list N := aes_cipher (aes_round_key key) x.
