(** Generated by tools/gen_props.py from Main8.v: statements of the properties.
    Every theorem is closed by [exact]; its assumptions are printed beneath it. *)
From Coq Require Import Arith NArith ZArith List Bool Lia.
From Verif Require Import Base Tables Model Spec LinAlg Mem Cons Check ModelSM4 SpecSM4 SM4 WBSM4 ModelAES SpecAES AES WBAES Main8.
Import ListNotations.

(** C52: expandKey is the key expansion of FIPS 197, whatever the buffer contained *)
Theorem C52_expandKey : forall key ek, bytes 16 key -> length ek = 176 ->
  expandKey key ek = Ok (concat (map (aes_round_key key) (seq 0 11))).
Proof. exact C52_expandKey_main. Qed.
Print Assumptions C52_expandKey.

Example C52_ex : bytes 16 fips_key /\ aes_round_key fips_key 10 =
  [0xd0; 0x14; 0xf9; 0xa8; 0xc9; 0xee; 0x25; 0x89; 0xe1; 0x3f; 0x0c; 0xc8; 0xb6; 0x63; 0x0c; 0xa6]%N.
Proof. exact C52_ex_main. Qed.

(** C53: aes_128_encrypt computes AES-128 with the all-zero key (there is no other), writes 16
    bytes of the output buffer, and replaces the plaintext in the input buffer by the ciphertext *)
Theorem C53_aes_encrypt : forall x o, bytes 16 x -> 16 <= length o ->
  aes_128_encrypt x o = Ok (AES_encrypt (repeat 0%N 16) x, AES_encrypt (repeat 0%N 16) x ++ skipn 16 o).
Proof. exact C53_aes_encrypt_main. Qed.
Print Assumptions C53_aes_encrypt.

Example C53_ex : AES_encrypt c1_key c1_pt = c1_ct /\ bytes 16 c1_pt /\
  exists c, aes_128_encrypt c1_pt (repeat 0%N 17) = Ok (c, c ++ [0%N]) /\ c <> c1_pt.
Proof. exact C53_ex_main. Qed.

(** C42: generating tables is defined for every content of the 176-byte buffer, of the random
    generator and of the global tables before, and encryption with the tables is the cipher with
    the eleven round keys in the buffer (signed shifts wrapping, see C55) *)
Theorem C42_round_keys : forall e rk t s, (forall i, i < 11 -> bytes 16 (rk i)) -> tab_typed t ->
  exists ek' t' s', computeTables false e (concat (map rk (seq 0 11))) t s = Ok (ek', t', s') /\ tab_typed t' /\
    forall x o, bytes 16 x -> 16 <= length o ->
      aes_128_table_encrypt t' x o = Ok (aes_cipher rk x, aes_cipher rk x ++ skipn 16 o).
Proof. exact C42_round_keys_main. Qed.
Print Assumptions C42_round_keys.

(** ... and so expandKey, computeTables, aes_128_table_encrypt is AES-128 *)
Theorem C42_wbaes : forall e key ek t s, bytes 16 key -> length ek = 176 -> tab_typed t ->
  exists ek1 ek' t' s', expandKey key ek = Ok ek1 /\ computeTables false e ek1 t s = Ok (ek', t', s') /\
    forall x o, bytes 16 x -> 16 <= length o ->
      aes_128_table_encrypt t' x o = Ok (AES_encrypt key x, AES_encrypt key x ++ skipn 16 o).
Proof. exact C42_wbaes_main. Qed.
Print Assumptions C42_wbaes.

(** the global tables before the first call *)
Example C42_ex : bytes 16 c1_key /\ tab_typed tab0.
Proof. exact C42_ex_main. Qed.

(** each call turns the first ten round keys; after a multiple of four calls the buffer is what
    it was *)
Theorem C43_buffer : forall n e rk t s, (forall i, i < 11 -> bytes 16 (rk i)) -> tab_typed t ->
  exists t' s', calls n e (concat (map rk (seq 0 11))) t s =
    Ok (concat (map (fun i => if Nat.ltb i 10 then Nat.iter n ShiftRows (rk i) else rk i) (seq 0 11)), t', s') /\
    ((4 * (n / 4) = n) -> concat (map (fun i => if Nat.ltb i 10 then Nat.iter n ShiftRows (rk i) else rk i) (seq 0 11))
                        = concat (map rk (seq 0 11))).
Proof. exact C43_buffer_main. Qed.
Print Assumptions C43_buffer.

(** the tables of call n + 1 encrypt with the turned round keys *)
Theorem C43_tables : forall n e rk t s, (forall i, i < 11 -> bytes 16 (rk i)) -> tab_typed t ->
  exists ek' t' s', calls (S n) e (concat (map rk (seq 0 11))) t s = Ok (ek', t', s') /\
    forall x o, bytes 16 x -> 16 <= length o ->
      let c := aes_cipher (fun i => if Nat.ltb i 10 then Nat.iter n ShiftRows (rk i) else rk i) x in
      aes_128_table_encrypt t' x o = Ok (c, c ++ skipn 16 o).
Proof. exact C43_tables_main. Qed.
Print Assumptions C43_tables.

(** so the second call on the key buffer of the example (the zero key) generates tables for
    another key schedule: they encrypt the zero block to something else than AES does *)
Theorem C43_second_call_refuted : exists key x, bytes 16 key /\ bytes 16 x /\
  forall e t s ek1, tab_typed t -> expandKey key (repeat 0%N 176) = Ok ek1 ->
    exists ek2 t1 s1 ek3 t2 s2,
      computeTables false e ek1 t s = Ok (ek2, t1, s1) /\ computeTables false e ek2 t1 s1 = Ok (ek3, t2, s2) /\
      (exists o, aes_128_table_encrypt t1 x (repeat 0%N 16) = Ok (AES_encrypt key x, o)) /\
      ~ (exists o, aes_128_table_encrypt t2 x (repeat 0%N 16) = Ok (AES_encrypt key x, o)).
Proof. exact C43_second_call_refuted_main. Qed.
Print Assumptions C43_second_call_refuted.

(** C54: the loop ends after exactly 255 iterations and, whatever the array contained, the array
    is then the S-box: inversion in GF(2^8) followed by the affine map *)
Theorem C54_sbox : forall sbox fuel, length sbox = 256 ->
  initialize_aes_sbox fuel sbox =
    if Nat.leb 255 fuel then Some (Ok (map (fun i => aes_sbox (N.of_nat i)) (seq 0 256))) else None.
Proof. exact C54_sbox_main. Qed.
Print Assumptions C54_sbox.

Example C54_ex : exists s, initialize_aes_sbox 255 (repeat 7%N 256) = Some (Ok s) /\ nth 83 s 0%N = 0xed%N.
Proof. exact C54_ex_main. Qed.

Theorem C55_strict : forall e ek t s, computeTables true e ek t s = UB.
Proof. exact C55_strict_main. Qed.
Print Assumptions C55_strict.

(** C56: the generated T-boxes, which printTables writes to tables.h, contain the key in the clear:
    there is a function that reads the AES key off the T-boxes of the first round, whatever random
    bijections were drawn *)
Theorem C56_key_in_tables : exists extract : list (list N) -> list N,
  forall e key ek ek1 t s, bytes 16 key -> length ek = 176 -> tab_typed t -> expandKey key ek = Ok ek1 ->
    exists ek' t' s', computeTables false e ek1 t s = Ok (ek', t', s') /\ extract (nth 0 (tTBoxes t') []) = key.
Proof. exact C56_key_in_tables_main. Qed.
Print Assumptions C56_key_in_tables.

Example C56_ex : exists ek1, bytes 16 c1_key /\ expandKey c1_key (repeat 0%N 176) = Ok ek1.
Proof. exact C56_ex_main. Qed.

(** The T-boxes of the last round, which wbaes_encrypt cannot do without, suffice: they determine
    the last round key, hence the key *)
Theorem C56_last_round : exists extract : list (list N) -> list N,
  forall e key ek ek1 t s, bytes 16 key -> length ek = 176 -> tab_typed t -> expandKey key ek = Ok ek1 ->
    exists ek' t' s', computeTables false e ek1 t s = Ok (ek', t', s') /\ extract (nth 9 (tTBoxes t') []) = key.
Proof. exact C56_last_round_main. Qed.
Print Assumptions C56_last_round.

Theorem C57_mixColumns : forall e ek t s, bytes 176 ek -> tab_typed t ->
  exists ek' t' s', computeTables false e ek t s = Ok (ek', t', s') /\
  forall x, bytes 16 x -> mixColumns x = Ok (MixColumns x) /\ mixColumns_table (tTyiTables t') x = Ok (MixColumns x).
Proof. exact C57_mixColumns_main. Qed.
Print Assumptions C57_mixColumns.

Example C57_ex : mixColumns c1_pt = Ok (MixColumns c1_pt) /\ MixColumns c1_pt <> c1_pt /\ bytes 176 (repeat 0%N 176).
Proof. exact C57_ex_main. Qed.
