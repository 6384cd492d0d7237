(** Generated by tools/gen_props.py from Main22.v: statements of the properties.
    Every theorem is closed by [exact]; its assumptions are printed beneath it. *)
From Coq Require Import Arith NArith ZArith List Bool Lia.
From Verif Require Import Base Spec ModelM4ri SpecM4ri ModelM4ri2 SpecM4ri2 ModelGf2 SpecGf2 Gf2d ModelSM4 SpecSM4 SM4 WBSM4 ModelAES SpecAES AES WBAES Main8 ModelAESM WBAESM Main22.
Import ListNotations.

(** C100: generating tables is defined for every content of the 176-byte buffer, of the global tables
    before and every random number generator; it ends if enough invertible matrices are drawn; the
    first ten round keys in the buffer are turned; and encryption with the tables is the cipher with
    the eleven round keys that were in the buffer (signed shifts wrapping) *)
Theorem C100_round_keys : forall fuel e rk t s, env_ok e -> (forall i, i < 11 -> bytes 16 (rk i)) -> tab_typed t ->
  exists o, am_computeTables false fuel e (concat (map rk (seq 0 11))) t s = Ok o /\
    (fair fuel 8 (erand e) -> fair fuel 32 (erand e) -> s mod 3 = 0 -> o <> None) /\
    forall ek' t' s', o = Some (ek', t', s') -> tab_typed t' /\ (s mod 3 = 0 -> s' mod 3 = 0) /\
      ek' = concat (map (fun i => if Nat.ltb i 10 then ShiftRows (rk i) else rk i) (seq 0 11)) /\
      forall x out, bytes 16 x -> 16 <= length out ->
        aes_128_table_encrypt t' x out = Ok (aes_cipher rk x, aes_cipher rk x ++ skipn 16 out).
Proof. exact C100_round_keys_main. Qed.
Print Assumptions C100_round_keys.

(** ... and so expandKey, computeTables, aes_128_table_encrypt is AES-128 *)
Theorem C100_wbaes_m4ri : forall fuel e key ek t s, env_ok e -> bytes 16 key -> length ek = 176 -> tab_typed t ->
  exists ek1 o, expandKey key ek = Ok ek1 /\ am_computeTables false fuel e ek1 t s = Ok o /\
    (fair fuel 8 (erand e) -> fair fuel 32 (erand e) -> s mod 3 = 0 -> o <> None) /\
    forall ek' t' s', o = Some (ek', t', s') -> forall x out, bytes 16 x -> 16 <= length out ->
      aes_128_table_encrypt t' x out = Ok (AES_encrypt key x, AES_encrypt key x ++ skipn 16 out).
Proof. exact C100_wbaes_m4ri_main. Qed.
Print Assumptions C100_wbaes_m4ri.

(** the second call on the same buffer generates tables for the turned round keys; for the zero key
    they encrypt the zero block to something else than AES does *)
Theorem C100_second_call_refuted : exists key x, bytes 16 key /\ bytes 16 x /\
  forall fuel e t s ek1 ek2 t1 s1 ek3 t2 s2, env_ok e -> tab_typed t -> expandKey key (repeat 0%N 176) = Ok ek1 ->
    am_computeTables false fuel e ek1 t s = Ok (Some (ek2, t1, s1)) ->
    am_computeTables false fuel e ek2 t1 s1 = Ok (Some (ek3, t2, s2)) ->
    (exists o, aes_128_table_encrypt t1 x (repeat 0%N 16) = Ok (AES_encrypt key x, o)) /\
    ~ (exists o, aes_128_table_encrypt t2 x (repeat 0%N 16) = Ok (AES_encrypt key x, o)).
Proof. exact C100_second_call_refuted_main. Qed.
Print Assumptions C100_second_call_refuted.

(** read as ISO C, the shift gMul(2, 64) << 24 is undefined, so computeTables is undefined for every
    key, state and random number generator *)
Theorem C100_strict : forall fuel e ek t s, am_computeTables true fuel e ek t s = UB.
Proof. exact C100_strict_main. Qed.
Print Assumptions C100_strict.

(** a random number generator with fuel 0, a key and the tables before the first call *)
Example C100_ex : env_ok fair_env /\ fair 0 8 (erand fair_env) /\ fair 0 32 (erand fair_env) /\
  bytes 16 c1_key /\ tab_typed tab0.
Proof. exact C100_ex_main. Qed.

(** C101: the T-boxes contain the key in the clear: there is a function that reads the AES key off the
    T-boxes of the first round, whatever random bijections were drawn *)
Theorem C101_key_in_tables : exists extract : list (list N) -> list N,
  forall fuel e key ek ek1 ek' t t' s s', env_ok e -> bytes 16 key -> length ek = 176 -> tab_typed t ->
    expandKey key ek = Ok ek1 -> am_computeTables false fuel e ek1 t s = Ok (Some (ek', t', s')) ->
    extract (nth 0 (tTBoxes t') []) = key.
Proof. exact C101_key_in_tables_main. Qed.
Print Assumptions C101_key_in_tables.

(** the hypotheses are met for every key: with a fair generator the call returns tables *)
Example C101_ex : forall key t, bytes 16 key -> tab_typed t ->
  exists ek1 ek' t' s', expandKey key (repeat 0%N 176) = Ok ek1 /\
    am_computeTables false 0 fair_env ek1 t 0 = Ok (Some (ek', t', s')).
Proof. exact C101_ex_main. Qed.
